(** C91, continued: the complete list of what a call erases.  Everything else it frees it
    leaves behind. *)
From Coq Require Import ZArith Znumtheory List Bool Lia.
From Coq Require Import Init.Byte.
From Verif Require Import Base Bigint BigintLemmas SpecRFC SpecRng SpecKey MHash MMgf MPkcs1 MOaep MPss MRsa MKey MApi
  MEncoding MResidue MResidueSig SpecResidue KeyDefs PApi PRsa PEnc PEncoding POaep PPkcs1 PWrapEnc KeyExamples PropEncoding PHist PCodec PropLeak PResidue PResidueSig PErase PropResidue.
Import ListNotations.
Local Open Scope Z_scope.

(** What private-key calls may erase: r^e of the blinding if there is a generator, and the
    one number [z], as octets and as an integer. *)
Definition erases {R} (rng : option R) (k : privkey) (z : Z) (run : holding (list byte)) : Prop :=
  exists B T, erased_objects run = B ++ T /\
    blinding_erased rng (uval (pk_n (sk_pub k))) (uval (pk_e (sk_pub k))) (uprec (pk_n (sk_pub k))) B /\ twice z T.

(** The raw operation: nothing without blinding, one power with it; no Montgomery form ever. *)
Theorem C91_erased_raw : forall {R} (g : rng_ops R) fuel rng k c m, (rng <> None -> rng_ok g) -> good_priv k ->
  (outcome_of (z_rsa_decrypt g fuel rng k c) = Ok m ->
   blinding_erased rng (uval (pk_n (sk_pub k))) (uval (pk_e (sk_pub k))) (uprec (pk_n (sk_pub k)))
     (erased_objects (z_rsa_decrypt g fuel rng k c))) /\
  (outcome_of (z_rsa_decrypt_and_check g fuel k rng c) = Ok m ->
   blinding_erased rng (uval (pk_n (sk_pub k))) (uval (pk_e (sk_pub k))) (uprec (pk_n (sk_pub k)))
     (erased_objects (z_rsa_decrypt_and_check g fuel k rng c))).
Proof.
  intros R g fuel rng k c m G K. pose proof (good_pub k K) as W. pose proof (good_gt1 k K) as N. split; intros H.
  - rewrite zr_dec in H. exact (eo_dec_ok g fuel rng k c m G W N H).
  - rewrite zr_check in H. rewrite eo_check. exact (eo_dec_ok g fuel rng k c m G W N (check_dec g _ _ _ _ _ H)).
Qed.

(** Decryption, whether the padding turns out right or wrong. *)
Theorem C91_erased_decryption : forall {R} (g : rng_ops R) fuel rng k ct,
  (rng <> None -> rng_ok g) -> good_priv k -> usable_key (sk_pub k) ->
  let n := uval (pk_n (sk_pub k)) in
  os2ip ct < n -> blinding_succeeds g n rng fuel ->
  let M := RSADP n (uval (sk_d k)) (os2ip ct) in
  (8 * Z.of_nat (length ct) <= uprec (pk_n (sk_pub k)) -> erases rng k M (z_pkcs1v15_decrypt g fuel rng k ct)) /\
  (length ct = key_size (sk_pub k) ->
   (forall dg dm label, erases rng k M (z_oaep_api_decrypt g fuel rng k ct dg dm label)) /\
   (forall hd hm label, erases rng k M (z_oaep_api_decrypt_digest g hd hm fuel rng k ct label))).
Proof.
  intros R g fuel rng k ct G K U n C B M. pose proof (good_pub k K) as W.
  assert (CP : check_public (sk_pub k) = Ok tt) by (apply usable_check; auto). split.
  - intros L. unfold erases, z_pkcs1v15_decrypt. rewrite eo_lift_bind, CP. apply decrypt_with_erases; auto.
  - intros L. destruct (key_size_facts _ W) as (_ & L2 & _). rewrite <- L in L2. split; intros.
    + unfold erases, z_oaep_api_decrypt. rewrite L, Nat.eqb_refl. cbn [negb].
      apply decrypt_with_erases; auto. intros em. apply eo_oaep_decrypt.
    + unfold erases, z_oaep_api_decrypt_digest. rewrite eo_lift_bind, CP, L, Nat.eqb_refl. cbn [negb].
      apply decrypt_with_erases; auto. intros em. apply eo_oaep_decrypt_digest.
Qed.

(** Signing: neither the salt nor the encoded message is erased. *)
Theorem C91_erased_signature : forall {R} (g : rng_ops R) fuel k sig, good_priv k ->
  (forall rng prefix hashed, (rng <> None -> rng_ok g) ->
   let run := z_pkcs1v15_sign g fuel rng k prefix hashed in
   outcome_of run = Ok sig -> erases rng k (os2ip sig) run) /\
  (forall hd st (bl : bool) hashed sl, rng_ok g ->
   let rng := if bl then Some (snd (rng_fill g st sl)) else None in
   (let run := z_pss_sign_digest g hd fuel st bl k hashed sl in
    outcome_of run = Ok sig -> erases rng k (os2ip sig) run) /\
   (let run := z_pss_sign g fuel st bl k hashed sl (digest_new hd) in
    outcome_of run = Ok sig -> erases rng k (os2ip sig) run)).
Proof.
  intros R g fuel k sig K. split; [|intros hd st bl hashed sl G; split].
  - intros rng prefix hashed G H. apply pkcs1v15_sign_erases; assumption.
  - intros H. eapply pss_sign_digest_erases; eauto.
  - intros H. eapply pss_sign_erases; eauto.
Qed.

(** Encryption erases the encoded message and nothing else; a failed one at most a buffer of
    zeros. *)
Theorem C91_erased_encryption : forall {R} (g : rng_ops R) k, rng_ok g -> wf_pub k -> uprec (pk_n k) < 2 ^ 32 ->
  let n := uval (pk_n k) in let e := uval (pk_e k) in let K := key_size k in
  let claim run (encoded : list byte -> Prop) :=
    (forall ct, outcome_of run = Ok ct -> exists em, encoded em /\ os2ip ct = RSAEP n e (os2ip em) /\
       erased_objects run = [Octets em]) /\
    ((forall ct, outcome_of run <> Ok ct) -> erased_objects run = [] \/ erased_objects run = [Octets (repeat x00 K)]) in
  (forall fuel st msg, claim (z_pkcs1v15_encrypt g fuel st k msg) (fun em => is_eme_pkcs1 K em msg)) /\
  (forall hd hm st msg label, (0 < h_size hm)%nat ->
   claim (z_oaep_api_encrypt g st k msg (digest_new hd) (digest_new hm) label)
     (fun em => is_eme_oaep (h_fun hd) (h_size hd) (h_fun hm) (h_size hm) (label_bytes label) K em msg) /\
   claim (z_oaep_api_encrypt_digest g hd hm st k msg label)
     (fun em => is_eme_oaep (h_fun hd) (h_size hd) (h_fun hm) (h_size hm) (label_bytes label) K em msg)).
Proof.
  intros R g k G W L n e K claim.
  destruct (C91_encryption g k G W L) as (E1 & E2 & E3). cbv zeta in E1, E2, E3. fold n e K in E1, E2, E3.
  assert (FIN : forall em, length em = K -> exists ct, outcome_of (z_finish_encrypt k em) = Ok ct).
  { intros em Le. rewrite zr_finish_encrypt. eexists. apply (encrypt_core_ok k em W Le). }
  destruct (key_size_facts k W) as (_ & K8 & _). fold K in K8.
  split; [|intros hd hm st msg label Hm; split].
  - intros fuel st msg. set (run := z_pkcs1v15_encrypt g fuel st k msg).
    destruct (encrypt_erases (z_pkcs1v15_encrypt_pad g fuel st msg K) k) as (A & B).
    + intros em H. rewrite zr_pad in H. rewrite eo_pad, H. destruct (_ <? _)%nat; reflexivity.
    + rewrite eo_pad. destruct (_ <? _)%nat; auto. destruct (pkcs1v15_encrypt_pad _ _ _ _ _); auto.
    + intros em H. rewrite zr_pad in H. apply encrypt_pad_ok in H; [|exact G]. apply FIN. apply H.
    + split; [|exact B]. intros ct H. destruct (E1 fuel st msg ct H) as (em & X1 & X2 & X3 & _).
      exists em. split; [exact X1|]. split; [exact X2|]. exact (A ct em H X3).
  - set (run := z_oaep_api_encrypt g st k msg (digest_new hd) (digest_new hm) label).
    destruct (encrypt_erases (z_oaep_encrypt g st msg (digest_new hd) (digest_new hm) label K) k) as (A & B).
    + intros em H. rewrite eo_oaep_encrypt, H. reflexivity.
    + rewrite eo_oaep_encrypt. destruct (outcome_of _); auto. destruct (_ || _)%bool; auto.
    + intros em H. rewrite zr_oaep_encrypt, oaep_encrypt_agree in H. apply FIN.
      apply (oaep_digest_len g hd hm st msg label K em G Hm ltac:(clear - K8 L; lia) H).
    + split; [|exact B]. intros ct H. destruct (E2 hd hm st msg label ct Hm H) as (em & X1 & X2 & X3 & _).
      exists em. split; [exact X1|]. split; [exact X2|]. exact (A ct em H X3).
  - set (run := z_oaep_api_encrypt_digest g hd hm st k msg label).
    destruct (encrypt_erases (z_oaep_encrypt_digest g hd hm st msg label K) k) as (A & B).
    + intros em H. rewrite eo_oaep_encrypt_digest, H. reflexivity.
    + rewrite eo_oaep_encrypt_digest. destruct (outcome_of _); auto. destruct (_ || _)%bool; auto.
    + intros em H. rewrite zr_oaep_encrypt_digest in H. apply FIN.
      apply (oaep_digest_len g hd hm st msg label K em G Hm ltac:(clear - K8 L; lia) H).
    + split; [|exact B]. intros ct H. destruct (E3 hd hm st msg label ct Hm H) as (em & X1 & X2 & X3 & _).
      exists em. split; [exact X1|]. split; [exact X2|]. exact (A ct em H X3).
Qed.

(** Export erases the octets of the six private numbers and nothing else. *)
Theorem C91_erased_export : forall mx k p q doc,
  wf_uint (sk_d k) -> sk_primes k = [p; q] -> wf_uint p -> wf_uint q ->
  2 <= uval p -> 2 <= uval q -> uprec p <= uprec (sk_d k) -> uprec q <= uprec (sk_d k) ->
  outcome_of (z_to_pkcs8_der mx k) = Ok doc ->
  exists buffers c, erased_objects (z_to_pkcs8_der mx k) = map Octets buffers /\
    (c * uval q) mod uval p = 1 mod uval p /\
    map os2ip buffers = [c; uval (sk_d k) mod (uval q - 1); uval (sk_d k) mod (uval p - 1);
                         uval q; uval p; uval (sk_d k)].
Proof.
  intros mx k p q doc Wd EP Wp Wq P2 Q2 PP PQ H.
  destruct (export_erases mx k p q doc Wd EP Wp Wq P2 Q2 PP PQ H) as (c & Wc & E & X).
  eexists (map to_be_bytes _), (uval c). split; [rewrite X, map_map; reflexivity|]. split; [exact E|].
  destruct (crt_exponent_ok (sk_d k) p Wd Wp P2 PP) as (_ & W1).
  destruct (crt_exponent_ok (sk_d k) q Wd Wq Q2 PQ) as (_ & W2).
  cbn [map]. rewrite !be_bytes_uint by assumption. reflexivity.
Qed.

(** * Concrete cases *)

(** A blinded and an unblinded decryption with CRT values, a signature with a salt. *)
Example C91_case_erased :
  erased_objects (z_rsa_decrypt count_rng 5 None key64 (mkU 5 (uprec n64))) = [] /\
  length (erased_objects (z_rsa_decrypt count_rng 5 (Some 3) key64 (mkU 5 (uprec n64)))) = 1%nat /\
  length (heap (z_rsa_decrypt count_rng 5 (Some 3) key64 (mkU 5 (uprec n64)))) = 21%nat /\
  length (erased_objects (z_pss_sign_digest count_rng toy_hash 5 3 false key64 [x0a; x0b] 3)) = 2%nat /\
  length (erased_objects (z_pkcs1v15_encrypt count_rng 20 3 pub91 [x41])) = 1%nat /\
  erased_objects (z_oaep_api_encrypt_digest dead_rng toy_hash toy_hash tt pub91 [x41] None) = [Octets (repeat x00 12)] /\
  length (erased_objects (z_to_pkcs8_der mx28 key64)) = 6%nat.
Proof.
  split; [vm_compute; reflexivity|]. split; [vm_compute; reflexivity|]. split; [vm_compute; reflexivity|].
  split; [vm_compute; reflexivity|]. split; [vm_compute; reflexivity|]. split; vm_compute; reflexivity.
Qed.

Print Assumptions C91_erased_raw.
Print Assumptions C91_erased_decryption.
Print Assumptions C91_erased_signature.
Print Assumptions C91_erased_encryption.
Print Assumptions C91_erased_export.
