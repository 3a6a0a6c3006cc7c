(** C93: what is accepted is exactly what can be produced. *)
From Coq Require Import ZArith Zpow_facts List Bool Lia.
From Coq Require Import Init.Byte.
From Verif Require Import Base Bigint BytesLemmas BigintLemmas SpecRFC SpecRng SpecSig SpecKey SpecBlind MHash MPkcs1 MOaep
  MPss MRsa MKey MApi MWrap KeyDefs.
From Verif Require Import PRsa PApi PEnc PPub PSign PSig PWrap KeyExamples PropEnc PropSig PAccept.
Import ListNotations.
Local Open Scope Z_scope.

(** * C93: accepted and producible inputs

    [tape] is the generator that hands out the octets of its state: "some [t]" ranges over
    everything a random source can deliver. *)

(** PKCS#1 v1.5: a ciphertext decrypts to [msg] exactly if encrypting [msg] can give a
    ciphertext of the same value; leading zero octets are free within the storage of the
    modulus. *)
Theorem C93_pkcs1v15_ciphertexts : forall {R} (g : rng_ops R) fuel rng k ct msg,
  (rng <> None -> rng_ok g) -> good_priv k -> usable_key (sk_pub k) ->
  blinding_succeeds g (uval (pk_n (sk_pub k))) rng fuel ->
  scheme_decrypt g fuel rng k PadPkcs1v15 ct = Ok msg <->
  8 * Z.of_nat (length ct) <= uprec (pk_n (sk_pub k)) /\
  exists f t ct', public_encrypt tape f t (sk_pub k) PadPkcs1v15 msg = Ok ct' /\ os2ip ct' = os2ip ct.
Proof. exact @accept_pkcs1v15. Qed.

(** OAEP: exactly if encrypting [msg] can give that ciphertext. *)
Theorem C93_oaep_ciphertexts : forall {R} (g : rng_ops R) fuel rng k ct msg hd hm label,
  (rng <> None -> rng_ok g) -> good_priv k -> usable_key (sk_pub k) ->
  (0 < h_size hm)%nat -> (11 <= key_size (sk_pub k))%nat -> Z.of_nat (length (label_bytes label)) < 2 ^ 61 ->
  blinding_succeeds g (uval (pk_n (sk_pub k))) rng fuel ->
  let o := PadOaep (mkOaep (digest_new hd) (digest_new hm) label) in
  let produced := exists f t, public_encrypt tape f t (sk_pub k) o msg = Ok ct in
  (scheme_decrypt g fuel rng k o ct = Ok msg <-> produced) /\
  (oaep_api_decrypt_digest g hd hm fuel rng k ct label = Ok msg <-> produced).
Proof.
  intros R g fuel rng k ct msg hd hm label Hr Hk Hu Hm K L B o produced.
  pose proof (accept_oaep g fuel rng k ct msg hd hm label Hr Hk Hu Hm K L B) as A.
  split; [exact A|]. rewrite oaep_api_decrypt_agree; [exact A| |exact L].
  apply check_public_ok; [apply good_pub; exact Hk|exact Hu].
Qed.

(** PKCS#1 v1.5 signatures: a string of the modulus length verifies exactly if signing gives it. *)
Theorem C93_pkcs1v15_signatures : forall {R} (g : rng_ops R) fuel rng k s hashed sig,
  (rng <> None -> rng_ok g) -> good_priv k -> uprec (pk_n (sk_pub k)) < 2 ^ 32 ->
  stored_minimally (pk_n (sk_pub k)) -> length sig = key_size (sk_pub k) ->
  blinding_succeeds g (uval (pk_n (sk_pub k))) rng fuel ->
  public_verify (sk_pub k) (SigPkcs1v15 s) hashed sig = Ok tt <->
  scheme_sign g fuel rng k (SigPkcs1v15 s) hashed = Ok sig.
Proof. exact @accept_pkcs1v15_sig. Qed.

Theorem C93_pkcs1v15_keys : forall {R} (g : rng_ops R) fuel rng k prefix hashed sig s,
  (rng <> None -> rng_ok g) -> good_priv k -> uprec (pk_n (sk_pub k)) < 2 ^ 32 ->
  stored_minimally (pk_n (sk_pub k)) -> length sig = key_size (sk_pub k) -> signature_try_from sig = Ok s ->
  blinding_succeeds g (uval (pk_n (sk_pub k))) rng fuel ->
  let sk := mkP1SK k prefix in
  p1vk_verify_prehash (p1sk_verifying_key sk) hashed s = Ok tt <-> p1sk_sign_prehash g fuel rng sk hashed = Ok s.
Proof. exact @accept_p1_keys. Qed.

(** PSS: a signature can be produced exactly if it verifies, is below n, and opens to a
    number of at most emLen octets.  Key objects check the second, the third holds by
    itself unless the bit length of n is 1 modulo 8. *)
Theorem C93_pss_signatures : forall k hd bl sl hashed sig,
  good_priv k -> uprec (pk_n (sk_pub k)) < 2 ^ 32 -> (0 < h_size hd)%nat ->
  Z.of_nat (h_size hd + sl + 2) < 2 ^ 64 -> 8 * Z.of_nat (length sig) < 2 ^ 32 ->
  let n := uval (pk_n (sk_pub k)) in let bits := Z.to_nat (ubits (pk_n (sk_pub k))) in
  let scheme b := SigPss (mkPss b (digest_new hd) sl) in
  let opened := RSAEP n (uval (pk_e (sk_pub k))) (os2ip sig) in
  ((exists f t, private_sign_with_rng tape f t k (scheme false) hashed = Ok sig) <->
   public_verify (sk_pub k) (scheme bl) hashed sig = Ok tt /\ os2ip sig < n /\
   opened < 256 ^ Z.of_nat (pss_em_len (bits - 1))) /\
  ((bits mod 8 <> 1)%nat -> opened < 256 ^ Z.of_nat (pss_em_len (bits - 1))).
Proof.
  intros k hd bl sl hashed sig Hk H32 Hh Ho L8 n bits scheme opened. split.
  - pose proof (accept_pss k hd bl sl hashed sig Hk H32 Hh Ho L8) as A.
    assert (E : forall f t, private_sign_with_rng tape f t k (scheme false) hashed = pss_sign_digest tape hd f t false k hashed sl).
    { intros f t. unfold scheme. cbn [private_sign_with_rng scheme_sign ps_blinded ps_salt_len ps_digest]. apply pss_sign_agree. }
    split.
    + intros (f & t & H). apply A. exists f, t. rewrite <- E. exact H.
    + intros H. apply A in H. destruct H as (f & t & H). exists f, t. rewrite E. exact H.
  - intros Hm. apply fits_em; auto. apply good_pub; exact Hk.
Qed.

Theorem C93_pss_keys : forall k hd sl hashed sig s,
  good_priv k -> uprec (pk_n (sk_pub k)) < 2 ^ 32 -> (0 < h_size hd)%nat -> Z.of_nat (h_size hd + sl + 2) < 2 ^ 64 ->
  stored_minimally (pk_n (sk_pub k)) -> length sig = key_size (sk_pub k) -> signature_try_from sig = Ok s ->
  let sk := pssk_new_with_salt_len false k sl in let bits := Z.to_nat (ubits (pk_n (sk_pub k))) in
  let produced := exists f t, pssk_sign_prehash tape hd f t sk hashed = Ok s in
  let verifies := psvk_verify_prehash hd (pssk_verifying_key sk) hashed s = Ok tt in
  (produced <-> verifies /\
     RSAEP (uval (pk_n (sk_pub k))) (uval (pk_e (sk_pub k))) (os2ip sig) < 256 ^ Z.of_nat (pss_em_len (bits - 1))) /\
  ((bits mod 8 <> 1)%nat -> (verifies <-> produced)).
Proof.
  intros k hd sl hashed sig s Hk H32 Hh Ho M L T sk bits produced verifies.
  pose proof (accept_pss_keys k hd sl hashed sig s Hk H32 Hh Ho M L T) as A. split; [exact A|].
  intros Hm. pose proof (fits_em (sk_pub k) (os2ip sig) (good_pub k Hk) Hm) as F. split.
  - intros V. apply A. split; [exact V|exact F].
  - intros P. apply A in P. apply P.
Qed.

(** "Only the key owner's signatures verify" in the sense of strings is false for PSS: the
    scheme API accepts a string at least n, and for a 65-bit modulus both APIs accept a
    number that signing never returns. *)
Theorem C93_pss_refuted :
  (exists k s hashed sig, good_priv k /\ public_verify (sk_pub k) s hashed sig = Ok tt /\
     forall f t, private_sign_with_rng tape f t k s hashed <> Ok sig) /\
  (exists k hd sl hashed s, good_priv k /\ let sk := pssk_new_with_salt_len false k sl in
     psvk_verify_prehash hd (pssk_verifying_key sk) hashed s = Ok tt /\
     forall f t, pssk_sign_prehash tape hd f t sk hashed <> Ok s).
Proof.
  split.
  - destruct C17_scheme_range_refuted as (G & V & _ & A & _).
    exists key64. do 3 eexists. split; [exact G|]. split; [exact A|].
    intros f t H.
    pose proof (proj1 (C93_pss_signatures key64 toy_hash false 0 [x01; x00] [xe4; x73; xad; x1e; xc6; xf1; x1c; xd8] G
      ltac:(vm_compute; reflexivity) ltac:(vm_compute; lia) ltac:(vm_compute; reflexivity) ltac:(vm_compute; reflexivity))) as P.
    cbv zeta in P. destruct (proj1 P (ex_intro _ f (ex_intro _ t H))) as (_ & X & _).
    change (pk_n (sk_pub key64)) with n64 in X. lia.
  - destruct C16_extra_octet_refuted as (W & M & L & _ & V & _).
    exists key65, toy_hash, 1%nat, [x01; x02]. apply bind_ok in V. destruct V as (s & T & V).
    exists s. split; [apply good65|]. split; [exact V|]. intros f t H.
    pose proof (proj1 (C93_pss_keys key65 toy_hash 1 [x01; x02] sig65 s good65 ltac:(vm_compute; reflexivity)
      ltac:(vm_compute; lia) ltac:(vm_compute; reflexivity) M L T)) as P. cbv zeta in P.
    destruct (proj1 P (ex_intro _ f (ex_intro _ t H))) as (_ & X).
    change (pk_n (sk_pub key65)) with n65 in X. change (sk_pub key65) with pub65 in X.
    assert (Em : RSAEP (uval n65) (uval (pk_e pub65)) (os2ip sig65)
                 = Zpow_mod (os2ip sig65) (uval (pk_e pub65)) (uval n65)).
    { unfold RSAEP. symmetry. apply Zpow_mod_correct. vm_compute. discriminate. }
    rewrite Em in X. revert X. vm_compute. discriminate.
Qed.

(** ** Concrete cases *)

(** Ciphertexts made from chosen random octets, and the decryptions the theorems speak of;
    an altered ciphertext is refused. *)
Example C93_case_ciphertexts :
  let o := PadOaep (mkOaep (digest_new toy_hash) (digest_new toy_hash) None) in
  good_priv key91 /\ usable_key pub91 /\ (11 <= key_size pub91)%nat /\
  (exists t ct, public_encrypt tape 5 t pub91 PadPkcs1v15 [x41] = Ok ct /\
     scheme_decrypt count_rng 5 None key91 PadPkcs1v15 ct = Ok [x41] /\
     scheme_decrypt count_rng 5 None key91 PadPkcs1v15 (x00 :: ct) = Ok [x41] /\
     8 * Z.of_nat (length (x00 :: ct)) <= uprec n91 /\
     scheme_decrypt count_rng 5 None key91 PadPkcs1v15 (x02 :: tl ct) = Err Decryption) /\
  (exists t ct, public_encrypt tape 5 t pub91 o [x68] = Ok ct /\
     scheme_decrypt count_rng 5 None key91 o ct = Ok [x68] /\
     scheme_decrypt count_rng 5 None key91 o (x00 :: ct) = Err Decryption).
Proof.
  split; [apply good91|]. split; [apply C01_case_key|]. split; [vm_compute; lia|].
  split.
  - exists [x11; x22; x33; x44; x55; x66; x77; x88]. eexists. split; [vm_compute; reflexivity|].
    split; [vm_compute; reflexivity|]. split; [vm_compute; reflexivity|]. split; [vm_compute; discriminate|].
    vm_compute. reflexivity.
  - exists [xaa; xbb]. eexists. split; [vm_compute; reflexivity|]. split; vm_compute; reflexivity.
Qed.

(** Signatures: a key and a signature each, with a modulus whose bit length is not 1 modulo 8. *)
Example C93_case_signatures :
  let sig := [x35; xa5; xf7; x23; xe5; x40; x8a; x81] in
  good_priv key91 /\ stored_minimally n91 /\ length sig91 = key_size pub91 /\
  scheme_sign count_rng 5 None key91 (SigPkcs1v15 raw1) [x41] = Ok sig91 /\
  public_verify pub91 (SigPkcs1v15 raw1) [x41] sig91 = Ok tt /\
  good_priv key64 /\ stored_minimally n64 /\ length sig = key_size pub64 /\ (Z.to_nat (ubits n64) mod 8 <> 1)%nat /\
  (exists s, signature_try_from sig = Ok s) /\
  private_sign_with_rng tape 5 [] key64 (SigPss (mkPss false (digest_new toy_hash) 0)) [x01; x00] = Ok sig /\
  private_sign_with_rng tape 5 [] key64 (SigPss (mkPss false (digest_new toy_hash) 0)) [x01; x01] <> Ok sig.
Proof.
  split; [apply good91|]. split; [vm_compute; discriminate|]. split; [reflexivity|].
  split; [vm_compute; reflexivity|]. split; [vm_compute; reflexivity|].
  split; [apply good64|]. split; [vm_compute; discriminate|]. split; [reflexivity|].
  split; [vm_compute; discriminate|]. split; [eexists; vm_compute; reflexivity|].
  split; [vm_compute; reflexivity|]. vm_compute. discriminate.
Qed.

Print Assumptions C93_pkcs1v15_ciphertexts.
Print Assumptions C93_oaep_ciphertexts.
Print Assumptions C93_pkcs1v15_signatures.
Print Assumptions C93_pkcs1v15_keys.
Print Assumptions C93_pss_signatures.
Print Assumptions C93_pss_keys.
Print Assumptions C93_pss_refuted.
