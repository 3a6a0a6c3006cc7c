(** C91: what secret-handling calls leave in the memory they give back. *)
From Coq Require Import ZArith List Bool Lia.
From Coq Require Import Init.Byte.
From Verif Require Import Base Bigint BigintLemmas SpecRFC SpecRng SpecKey SpecDer MHash MMgf MPkcs1 MOaep MRsa MKey MApi MDer MEncoding
  MResidue SpecResidue KeyDefs PApi PEnc PRsa KeyExamples PropEncoding PropLeak PResidue.
Import ListNotations.
Local Open Scope Z_scope.

(** * C91: memory that is given back *)

(** The functions that list what they free compute what the functions of the other
    theorems compute. *)
Theorem C91_results : forall {R} (g : rng_ops R),
  (forall fuel st k msg, outcome_of (z_pkcs1v15_encrypt g fuel st k msg) = pkcs1v15_encrypt g fuel st k msg) /\
  (forall st k msg dg dm label, outcome_of (z_oaep_api_encrypt g st k msg dg dm label) = oaep_api_encrypt g st k msg dg dm label) /\
  (forall hd hm st k msg label,
     outcome_of (z_oaep_api_encrypt_digest g hd hm st k msg label) = oaep_api_encrypt_digest g hd hm st k msg label) /\
  (forall fuel rng k ct, outcome_of (z_pkcs1v15_decrypt g fuel rng k ct) = pkcs1v15_decrypt g fuel rng k ct) /\
  (forall fuel rng k ct dg dm label,
     outcome_of (z_oaep_api_decrypt g fuel rng k ct dg dm label) = oaep_api_decrypt g fuel rng k ct dg dm label) /\
  (forall hd hm fuel rng k ct label,
     outcome_of (z_oaep_api_decrypt_digest g hd hm fuel rng k ct label) = oaep_api_decrypt_digest g hd hm fuel rng k ct label) /\
  (forall fuel rng k prefix hashed,
     outcome_of (z_pkcs1v15_sign g fuel rng k prefix hashed) = pkcs1v15_sign g fuel rng k prefix hashed) /\
  (forall fuel rng k c, outcome_of (z_rsa_decrypt g fuel rng k c) = rsa_decrypt g fuel rng k c) /\
  (forall mx k, outcome_of (z_to_pkcs8_der mx k) = to_pkcs8_der mx k).
Proof.
  intros R g.
  split; [intros; apply zr_pkcs1v15_encrypt|]. split; [intros; apply zr_oaep_api_encrypt|].
  split; [intros; apply zr_oaep_api_encrypt_digest|]. split; [intros; apply zr_pkcs1v15_decrypt|].
  split; [intros; apply zr_oaep_api_decrypt|]. split; [intros; apply zr_oaep_api_decrypt_digest|].
  split; [intros; apply zr_pkcs1v15_sign|]. split; [intros; apply zr_dec|]. intros; apply zr_to_pkcs8.
Qed.

(** ** Decryption *)

(** A decryption that returns a message leaves a buffer that ends with the message. *)
Theorem C91_plaintexts : forall {R} (g : rng_ops R) fuel rng k ct msg,
  (let run := z_pkcs1v15_decrypt g fuel rng k ct in
   outcome_of run = Ok msg -> exists pre, left_behind run (Octets (pre ++ msg))) /\
  (forall dg dm label, let run := z_oaep_api_decrypt g fuel rng k ct dg dm label in
   outcome_of run = Ok msg -> exists pre, left_behind run (Octets (pre ++ msg))) /\
  (forall hd hm label, let run := z_oaep_api_decrypt_digest g hd hm fuel rng k ct label in
   outcome_of run = Ok msg -> exists pre, left_behind run (Octets (pre ++ msg))).
Proof.
  intros R g fuel rng k ct msg. split; [apply pkcs1v15_plaintext|].
  split; [intros; apply oaep_plaintext; auto|intros; apply oaep_plaintext_digest; auto].
Qed.

(** Whatever the padding: the decrypted number is left behind although one copy of it, and
    one copy of its octets, is erased. *)
Theorem C91_decrypted_block : forall {R} (g : rng_ops R) fuel rng k ct,
  (rng <> None -> rng_ok g) -> good_priv k -> usable_key (sk_pub k) ->
  let n := uval (pk_n (sk_pub k)) in let K := key_size (sk_pub k) in
  os2ip ct < n -> blinding_succeeds g n rng fuel ->
  let M := RSADP n (uval (sk_d k)) (os2ip ct) in
  (8 * Z.of_nat (length ct) <= uprec (pk_n (sk_pub k)) ->
   let run := z_pkcs1v15_decrypt g fuel rng k ct in
   left_behind run (Octets (i2osp M K)) /\
   left_integer run M /\ erased_integer run M /\ exists bs, erased run (Octets bs) /\ os2ip bs = M) /\
  (length ct = K ->
   (forall dg dm label, let run := z_oaep_api_decrypt g fuel rng k ct dg dm label in
    left_integer run M /\ erased_integer run M /\ exists bs, erased run (Octets bs) /\ os2ip bs = M) /\
   (forall hd hm label, let run := z_oaep_api_decrypt_digest g hd hm fuel rng k ct label in
    left_integer run M /\ erased_integer run M /\ exists bs, erased run (Octets bs) /\ os2ip bs = M)).
Proof.
  intros R g fuel rng k ct G K U n Kz C B M. split; [|intros L; split]; intros.
  - apply pkcs1v15_block; auto.
  - apply oaep_block; auto.
  - apply oaep_block_digest; auto.
Qed.

(** A blinded private-key operation erases r^e, but leaves r, its inverse, the blinded
    ciphertext and a second copy of r^e in Montgomery form. *)
Theorem C91_blinding : forall {R} (g : rng_ops R) fuel st k c m, rng_ok g -> good_priv k -> wf_uint c ->
  uprec c = uprec (pk_n (sk_pub k)) ->
  let run := z_rsa_decrypt g fuel (Some st) k c in
  outcome_of run = Ok m ->
  let n := uval (pk_n (sk_pub k)) in let e := uval (pk_e (sk_pub k)) in
  exists r ri, 0 <= r < n /\ (r * ri) mod n = 1 /\
    left_integer run r /\ left_integer run ri /\ left_integer run (uval c * r ^ e mod n) /\
    erased_integer run (r ^ e mod n) /\
    exists f, left_behind run (Form f) /\ mf_res f = r ^ e mod n.
Proof. exact @raw_blinding. Qed.

(** ** Encryption *)

(** An encryption erases the octets of the encoded message and leaves its number. *)
Theorem C91_encryption : forall {R} (g : rng_ops R) k, rng_ok g -> wf_pub k -> uprec (pk_n k) < 2 ^ 32 ->
  let n := uval (pk_n k) in let e := uval (pk_e k) in let K := key_size k in
  (forall fuel st msg ct, let run := z_pkcs1v15_encrypt g fuel st k msg in
   outcome_of run = Ok ct ->
   exists em, is_eme_pkcs1 K em msg /\ os2ip ct = RSAEP n e (os2ip em) /\
     erased run (Octets em) /\ left_integer run (os2ip em)) /\
  (forall hd hm st msg label ct, (0 < h_size hm)%nat ->
   let run := z_oaep_api_encrypt g st k msg (digest_new hd) (digest_new hm) label in
   outcome_of run = Ok ct ->
   exists em, is_eme_oaep (h_fun hd) (h_size hd) (h_fun hm) (h_size hm) (label_bytes label) K em msg /\
     os2ip ct = RSAEP n e (os2ip em) /\ erased run (Octets em) /\ left_integer run (os2ip em)) /\
  (forall hd hm st msg label ct, (0 < h_size hm)%nat ->
   let run := z_oaep_api_encrypt_digest g hd hm st k msg label in
   outcome_of run = Ok ct ->
   exists em, is_eme_oaep (h_fun hd) (h_size hd) (h_fun hm) (h_size hm) (label_bytes label) K em msg /\
     os2ip ct = RSAEP n e (os2ip em) /\ erased run (Octets em) /\ left_integer run (os2ip em)).
Proof.
  intros R g k G W L n e K. split; [|split]; intros.
  - eapply pkcs1v15_encrypt_residue; eauto.
  - apply oaep_encrypt_residue; auto.
  - apply oaep_encrypt_digest_residue; auto.
Qed.

(** With PKCS#1 v1.5 and with statically chosen OAEP digests, every octet buffer left behind
    is the label or holds the number of the ciphertext; a call that fails leaves no other
    buffer than the label. *)
Theorem C91_encryption_octets : forall {R} (g : rng_ops R) k bs, rng_ok g -> wf_pub k -> uprec (pk_n k) < 2 ^ 32 ->
  (forall fuel st msg, let run := z_pkcs1v15_encrypt g fuel st k msg in
   left_behind run (Octets bs) -> exists ct, outcome_of run = Ok ct /\ os2ip bs = os2ip ct) /\
  (forall hd hm st msg label, (0 < h_size hm)%nat ->
   let run := z_oaep_api_encrypt_digest g hd hm st k msg label in
   left_behind run (Octets bs) ->
   bs = label_bytes label \/ exists ct, outcome_of run = Ok ct /\ os2ip bs = os2ip ct).
Proof.
  intros R g k bs G W L. split; intros.
  - eapply pkcs1v15_encrypt_octets; eauto.
  - apply oaep_encrypt_octets; auto.
Qed.

(** With digests chosen at run time the inputs of both mask generations stay behind, and
    the message can be computed from them. *)
Theorem C91_dynamic_seed : forall {R} (g : rng_ops R) hd hm st k msg label ct,
  rng_ok g -> (0 < h_size hd)%nat -> (0 < h_size hm)%nat -> wf_pub k -> uprec (pk_n k) < 2 ^ 32 ->
  let run := z_oaep_api_encrypt g st k msg (digest_new hd) (digest_new hm) label in
  outcome_of run = Ok ct ->
  exists seed mdb n, length seed = h_size hd /\
    left_behind run (Octets (seed ++ [x00; x00; x00; x00])) /\
    left_behind run (Octets (mdb ++ [x00; x00; x00; x00])) /\
    xor_octets mdb (mgf1 (h_fun hm) (h_size hm) seed (length mdb))
    = h_fun hd (label_bytes label) ++ repeat x00 n ++ x01 :: msg.
Proof. exact @oaep_encrypt_dynamic. Qed.

(** ** Export *)

(** A PKCS#8 export erases the octets of every private number, but leaves the primes, the
    CRT values and the complete PKCS#1 structure that it puts into the document. *)
Theorem C91_export : forall mx tl k p q doc, tl 0 [] = true -> mx < 2 ^ 32 ->
  wf_pub (sk_pub k) -> wf_uint (sk_d k) -> sk_primes k = [p; q] -> wf_uint p -> wf_uint q ->
  2 <= uval p -> 2 <= uval q -> uprec p <= uprec (sk_d k) -> uprec q <= uprec (sk_d k) ->
  let run := z_to_pkcs8_der mx k in
  let dp := uval (sk_d k) mod (uval p - 1) in
  let dq := uval (sk_d k) mod (uval q - 1) in
  outcome_of run = Ok doc ->
  (exists key, decode_key_info mx tl doc = Ok (mkKI rsa_algorithm_id key) /\ left_behind run (Octets key)) /\
  left_integer run (uval p) /\ left_integer run (uval q) /\ left_integer run dp /\ left_integer run dq /\
  (exists c, left_integer run c /\ (c * uval q) mod uval p = 1 mod uval p) /\
  (forall z, In z [uval (sk_d k); uval p; uval q; dp; dq] -> exists bs, erased run (Octets bs) /\ os2ip bs = z).
Proof. exact export_residue. Qed.

(** * Concrete cases *)

(** A decrypted message is left behind: "decryption leaves no plaintext" is false. *)
Theorem C91_refuted : exists (k : privkey) (ct msg : list byte),
  let run := z_pkcs1v15_decrypt count_rng 5 None k ct in
  good_priv k /\ outcome_of run = Ok msg /\ msg <> [] /\
  exists pre, left_behind run (Octets (pre ++ msg)).
Proof.
  exists key91_plain, (ct91 em91), [x41]. cbv zeta. split; [apply good91_plain|].
  assert (E : outcome_of (z_pkcs1v15_decrypt count_rng 5 None key91_plain (ct91 em91)) = Ok [x41])
    by (vm_compute; reflexivity).
  split; [exact E|]. split; [discriminate|]. exact (proj1 (C91_plaintexts count_rng 5%nat None key91_plain (ct91 em91) [x41]) E).
Qed.

(** The block of a message whose padding is refused is left behind too. *)
Example C91_case_refused :
  pkcs1v15_decrypt count_rng 5 None key91_plain (ct91 (2 ^ 88)) = Err Decryption /\
  left_behind (z_pkcs1v15_decrypt count_rng 5 None key91_plain (ct91 (2 ^ 88))) (Octets (i2osp (2 ^ 88) 12)) /\
  left_integer (z_pkcs1v15_decrypt count_rng 5 None key91_plain (ct91 (2 ^ 88))) (2 ^ 88) /\
  erased_integer (z_pkcs1v15_decrypt count_rng 5 None key91_plain (ct91 (2 ^ 88))) (2 ^ 88).
Proof.
  split; [vm_compute; reflexivity|].
  assert (H : exists h, heap (z_pkcs1v15_decrypt count_rng 5 None key91_plain (ct91 (2 ^ 88))) = h) by eauto.
  destruct H as (h & H). unfold left_integer, erased_integer, left_behind, erased. rewrite H. vm_compute in H. subst h.
  split; [vm_compute; tauto|]. split; exists (mkU (2 ^ 88) (uprec n91)); (split; [vm_compute; tauto|reflexivity]).
Qed.

(** The hypotheses of C91_decrypted_block. *)
Example C91_case_block : (Some 3 <> None -> rng_ok count_rng) /\ good_priv key91_plain /\
  usable_key (sk_pub key91_plain) /\ os2ip (ct91 em91) < uval n91 /\ length (ct91 em91) = 12%nat /\
  8 * Z.of_nat 12 <= uprec n91 /\ blinding_succeeds count_rng (uval n91) (Some 3) 5.
Proof.
  split; [intros _; apply count_rng_ok|]. split; [apply good91_plain|]. split; [apply usable91|].
  split; [vm_compute; reflexivity|]. split; [reflexivity|]. split; [vm_compute; congruence|].
  exists 0%nat. split; [lia|]. eapply usable_now; [reflexivity|]. right. vm_compute. reflexivity.
Qed.

(** A blinded operation that succeeds. *)
Example C91_case_blinding :
  outcome_of (z_rsa_decrypt count_rng 5 (Some 3) key64 (mkU 5 (uprec n64))) = rsa_decrypt count_rng 5 (Some 3) key64 (mkU 5 (uprec n64)) /\
  exists m, rsa_decrypt count_rng 5 (Some 3) key64 (mkU 5 (uprec n64)) = Ok m.
Proof. split; [vm_compute; reflexivity|]. eexists. vm_compute. reflexivity. Qed.

(** Encryptions of one octet and of the empty message. *)
Example C91_case_encrypt :
  (exists ct, outcome_of (z_pkcs1v15_encrypt count_rng 20 3 pub91 [x41]) = Ok ct) /\
  (exists ct, outcome_of (z_oaep_api_encrypt_digest count_rng toy_hash toy_hash 3 pub91 [x41] None) = Ok ct) /\
  (exists ct, outcome_of (z_oaep_api_encrypt count_rng 3 pub91 [x41] (digest_new toy_hash) (digest_new toy_hash) None) = Ok ct) /\
  wf_pub pub91 /\ uprec (pk_n pub91) < 2 ^ 32 /\ rng_ok count_rng /\ (0 < h_size toy_hash)%nat.
Proof.
  split; [eexists; vm_compute; reflexivity|]. split; [eexists; vm_compute; reflexivity|].
  split; [eexists; vm_compute; reflexivity|]. split; [apply wf_pub91|]. split; [vm_compute; reflexivity|].
  split; [apply count_rng_ok|]. vm_compute. lia.
Qed.

(** A failing encryption leaves the label only. *)
Example C91_case_failure :
  heap (z_oaep_api_encrypt_digest dead_rng toy_hash toy_hash tt pub91 [x41] (Some [x61]))
  = [Erased (Octets (repeat x00 12)); Plain (Octets [x61])].
Proof. vm_compute. reflexivity. Qed.

(** The export of [key64]. *)
Example C91_case_export : (exists doc, outcome_of (z_to_pkcs8_der mx28 key64) = Ok doc) /\
  opt28 0 [] = true /\ mx28 < 2 ^ 32 /\ sk_primes key64 = [p64; q64] /\ uprec p64 <= uprec (sk_d key64) /\
  uprec q64 <= uprec (sk_d key64).
Proof.
  split; [eexists; vm_compute; reflexivity|]. split; [reflexivity|]. split; [reflexivity|].
  split; [vm_compute; reflexivity|]. split; vm_compute; congruence.
Qed.

Print Assumptions C91_results.
Print Assumptions C91_plaintexts.
Print Assumptions C91_decrypted_block.
Print Assumptions C91_blinding.
Print Assumptions C91_encryption.
Print Assumptions C91_encryption_octets.
Print Assumptions C91_dynamic_seed.
Print Assumptions C91_export.
Print Assumptions C91_refuted.
