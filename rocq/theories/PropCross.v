(** Property C103: one key used with several schemes. *)
From Coq Require Import ZArith List Bool Lia.
From Coq Require Import Init.Byte.
From Verif Require Import Base Bigint SpecRFC SpecRng SpecKey SpecSig MHash MPkcs1 MOaep MRsa MKey MApi MWrap KeyDefs
  PRsa PHist PApi PSig PSign PEnc PCross KeyExamples.
Import ListNotations.
Local Open Scope Z_scope.

(** A signature accepted by PKCS#1 v1.5 and by PSS verification under one key: what was
    signed the first way ends in the octet BC, the hash value of the PSS encoding stands
    in it, and the mask generated from that value is FF throughout the stretch where both
    encodings are padding. *)
Theorem C103_signatures : forall hd bl sl s pk h1 h2 sig,
  (0 < h_size hd)%nat -> Z.of_nat (h_size hd + sl + 2) < 2 ^ 64 ->
  wf_pub pk -> uprec (pk_n pk) < 2 ^ 32 -> 8 * Z.of_nat (length sig) < 2 ^ 32 ->
  public_verify pk (SigPkcs1v15 s) h1 sig = Ok tt ->
  public_verify pk (SigPss (mkPss bl (digest_new hd) sl)) h2 sig = Ok tt ->
  let T := p1_prefix s ++ h1 in let emLen := pss_em_len (Z.to_nat (ubits (pk_n pk)) - 1) in
  exists salt, length salt = sl /\
  let H' := h_fun hd (repeat x00 8 ++ h2 ++ salt) in
  (exists T', T = T' ++ [xbc]) /\
  ((h_size hd + 1 <= length T)%nat -> exists T', T = T' ++ H' ++ [xbc]) /\
  (forall i, (2 <= i)%nat -> (i + length T + 1 < emLen)%nat -> (i + sl + h_size hd + 2 < emLen)%nat ->
     nth i (mgf1 (h_fun hd) (h_size hd) H' (emLen - h_size hd - 1)) x00 = xff).
Proof. exact both_verify. Qed.

(** So a PKCS#1 v1.5 signature of a digest with another last octet is refused by PSS
    verification for every hash function, salt length and message. *)
Theorem C103_refused : forall hd bl sl s pk h1 h2 sig t b,
  (0 < h_size hd)%nat -> Z.of_nat (h_size hd + sl + 2) < 2 ^ 64 ->
  wf_pub pk -> uprec (pk_n pk) < 2 ^ 32 -> 8 * Z.of_nat (length sig) < 2 ^ 32 ->
  public_verify pk (SigPkcs1v15 s) h1 sig = Ok tt -> h1 = t ++ [b] -> b <> xbc ->
  public_verify pk (SigPss (mkPss bl (digest_new hd) sl)) h2 sig = Err Verification.
Proof.
  intros hd bl sl s pk h1 h2 sig t b Hh Ho W H32 L V -> Nb.
  destruct (c16_scheme hd bl pk h2 sl sig Hh Ho W H32 L) as ([E|E] & _); [exfalso|exact E].
  destruct (both_verify hd bl sl s pk (t ++ [b]) h2 sig Hh Ho W H32 L V E) as (salt & _ & (T' & X) & _).
  rewrite app_assoc in X. apply app_inj_tail in X. destruct X as (_ & X). exact (Nb X).
Qed.

(** Also between verifying key objects. *)
Theorem C103_key_objects : forall hd pk pre sl h1 h2 s t b,
  (0 < h_size hd)%nat -> Z.of_nat (h_size hd + sl + 2) < 2 ^ 64 ->
  wf_pub pk -> uprec (pk_n pk) < 2 ^ 32 -> wf_uint (sg_inner s) -> h1 = t ++ [b] -> b <> xbc ->
  p1vk_verify_prehash (mkP1VK pk pre) h1 s = Ok tt ->
  psvk_verify_prehash hd (psvk_new_with_salt_len pk sl) h2 s <> Ok tt.
Proof.
  intros hd pk pre sl h1 h2 s t b Hh Ho W H32 Ws -> Nb V1 V2.
  destruct (both_verify_keys hd pk pre sl (t ++ [b]) h2 s Hh Ho W H32 Ws V1 V2) as (T' & X).
  rewrite app_assoc in X. apply app_inj_tail in X. destruct X as (_ & X). exact (Nb X).
Qed.

(** Signing and decrypting with one key: the block that PKCS#1 v1.5 signing encodes,
    taken as a ciphertext, decrypts to a message exactly when the signature itself is a
    padding of that message. *)
Theorem C103_signing_decrypts :
  forall {R1 R2} (g1 : rng_ops R1) (g2 : rng_ops R2) f1 f2 r1 r2 k s hashed sig,
  (r1 <> None -> rng_ok g1) -> (r2 <> None -> rng_ok g2) -> good_priv k -> usable_key (sk_pub k) ->
  scheme_sign g1 f1 r1 k (SigPkcs1v15 s) hashed = Ok sig ->
  blinding_succeeds g2 (uval (pk_n (sk_pub k))) r2 f2 ->
  let K := key_size (sk_pub k) in let EM := emsa_pkcs1 (p1_prefix s ++ hashed) K in
  (forall m, scheme_decrypt g2 f2 r2 k PadPkcs1v15 EM = Ok m <-> is_eme_pkcs1 K sig m) /\
  (forall hd hm label m, (0 < h_size hm)%nat -> Z.of_nat (length (label_bytes label)) < 2 ^ 61 ->
     scheme_decrypt g2 f2 r2 k (PadOaep (mkOaep (digest_new hd) (digest_new hm) label)) EM = Ok m <->
     is_eme_oaep (h_fun hd) (h_size hd) (h_fun hm) (h_size hm) (label_bytes label) K sig m).
Proof. exact @signing_decrypts. Qed.

(** Whoever finds r with ct * r^e = EM(T) and obtains a signature of T reads the message
    of the ciphertext ct. *)
Theorem C103_signing_reveals :
  forall {R1 R2} (g1 : rng_ops R1) (g2 : rng_ops R2) f1 f2 st r1 k s hashed sig msg ct r ri,
  (r1 <> None -> rng_ok g1) -> rng_ok g2 -> good_priv k ->
  let n := uval (pk_n (sk_pub k)) in let e := uval (pk_e (sk_pub k)) in let K := key_size (sk_pub k) in
  public_encrypt g2 f2 st (sk_pub k) PadPkcs1v15 msg = Ok ct ->
  0 <= r -> (r * ri) mod n = 1 ->
  (os2ip ct * RSAEP n e r) mod n = os2ip (emsa_pkcs1 (p1_prefix s ++ hashed) K) ->
  scheme_sign g1 f1 r1 k (SigPkcs1v15 s) hashed = Ok sig ->
  is_eme_pkcs1 K (i2osp ((os2ip sig * ri) mod n) K) msg.
Proof. exact @signing_reveals. Qed.

(** ** Cases *)

(** A hash function under which one signature is accepted by both schemes: its value
    depends on the last octet only. *)
Definition last_fun (m : list byte) : list byte :=
  match last m xff with x00 => [x00; x01] | x05 => [x01; xaa] | _ => [xff; xff] end.
Lemma last_len m : length (last_fun m) = 2%nat.
Proof. unfold last_fun. destruct (last m xff); reflexivity. Qed.
Definition last_hash : hashfn := mkHash 2 last_fun last_len.
Definition both_T : list byte := [x01; x02; x03; x04; x05; x06; x07; x08; x09; x0a; x0b; xff; xff; xbc].

Example C103_case_signatures : wf_pub pub199 /\ length both_T = 14%nat /\
  pss_em_len (Z.to_nat (ubits (pk_n pub199)) - 1) = 25%nat /\
  exists sig, private_sign count_rng 5 key199 (SigPkcs1v15 pkcs1_sign_new_unprefixed) both_T = Ok sig /\
    public_verify pub199 (SigPkcs1v15 pkcs1_sign_new_unprefixed) both_T sig = Ok tt /\
    public_verify pub199 (SigPss (mkPss false (digest_new last_hash) 11)) [x41; x42] sig = Ok tt.
Proof.
  split; [exact wf_pub199|]. split; [reflexivity|]. split; [vm_compute; reflexivity|].
  eexists. split; [vm_compute; reflexivity|]. split; vm_compute; reflexivity.
Qed.

(** The same with another last octet. *)
Example C103_case_refused : exists sig,
  private_sign count_rng 5 key199 (SigPkcs1v15 pkcs1_sign_new_unprefixed) (removelast both_T ++ [xbd]) = Ok sig /\
  public_verify pub199 (SigPkcs1v15 pkcs1_sign_new_unprefixed) (removelast both_T ++ [xbd]) sig = Ok tt /\
  public_verify pub199 (SigPss (mkPss false (digest_new last_hash) 11)) [x41; x42] sig = Err Verification.
Proof. eexists. split; [vm_compute; reflexivity|]. split; vm_compute; reflexivity. Qed.

(** Encryption has no such separation: one ciphertext, made by OAEP encryption, is
    decrypted by both schemes, to different messages. *)
Theorem C103_ciphertexts_refuted : exists ct,
  public_encrypt count_rng 5 2 pub199 (PadOaep (oaep_new last_hash)) [xff; x68] = Ok ct /\
  private_decrypt count_rng 5 key199 (PadOaep (oaep_new last_hash)) ct = Ok [xff; x68] /\
  private_decrypt count_rng 5 key199 PadPkcs1v15 ct = Ok [x97].
Proof. eexists. split; [vm_compute; reflexivity|]. split; vm_compute; reflexivity. Qed.

(** The message 41 read from a signature of 42. *)
Example C103_case_reveals : exists ct sig,
  let r := 1303602153769321650083541529 in
  let ri := 1174844497049209282730029130 in let n := uval n91 in
  public_encrypt count_rng 5 255 pub91 PadPkcs1v15 [x41] = Ok ct /\
  (r * ri) mod n = 1 /\
  (os2ip ct * RSAEP n (uval e91) r) mod n
  = os2ip (emsa_pkcs1 (p1_prefix pkcs1_sign_new_unprefixed ++ [x42]) (key_size pub91)) /\
  private_sign count_rng 5 key91 (SigPkcs1v15 pkcs1_sign_new_unprefixed) [x42] = Ok sig /\
  firstn 2 (i2osp ((os2ip sig * ri) mod n) 12) = [x00; x02] /\
  skipn 10 (i2osp ((os2ip sig * ri) mod n) 12) = [x00; x41].
Proof.
  eexists; eexists; cbv zeta. split; [vm_compute; reflexivity|]. split; [vm_compute; reflexivity|].
  split; [vm_compute; reflexivity|]. split; [vm_compute; reflexivity|]. split; vm_compute; reflexivity.
Qed.

Print Assumptions C103_signatures.
Print Assumptions C103_refused.
Print Assumptions C103_key_objects.
Print Assumptions C103_signing_decrypts.
Print Assumptions C103_signing_reveals.
Print Assumptions C103_ciphertexts_refuted.
