(** Builds without overflow checks and debug assertions: C88.  [r_f] is the function [f] of
    the checked model in such a build, [uc] what the dependency then does on operands of
    unequal precisions. *)
From Coq Require Import String ZArith List Bool Lia.
From Coq Require Import Init.Byte.
From Verif Require Import Base Bigint MHash MPad MMgf MPkcs1 MOaep MPss MRsa MGenerate MKey MApi MWrap MDer
  MEncoding MMisc SpecSerde MSerde BytesLemmas NumTheory SpecRFC BigintLemmas KeyDefs KeyExamples SpecRng SpecKey
  PKey PBuild PRsa PHist MRelease PRelease PRelVerify PropRsa PropSig PropEncoding.
Import ListNotations.
Local Open Scope list_scope.
Local Open Scope Z_scope.

(** The build without checks does what the checked build does wherever that one does not panic. *)
Definition carries_over {A} (checked release : outcome A) : Prop := checked <> Panic -> release = checked.

Lemma carried {A} (a b : outcome A) : agrees a b -> carries_over a b.
Proof. exact (agrees_np a b). Qed.

(** * Keys on which the checked build does not panic: the same outcome *)

Theorem C88_encrypt : forall uc {R} (g : rng_ops R) fuel st pk p msg,
  rng_ok g -> wf_pub pk -> wf_padding p ->
  r_public_encrypt uc g fuel st pk p msg = public_encrypt g fuel st pk p msg.
Proof.
  intros. apply agrees_np; [apply ag_public_encrypt|]. apply C39_encrypt; auto.
Qed.

Theorem C88_decrypt : forall uc {R} (g : rng_ops R) fuel rng k p ct,
  (rng <> None -> rng_ok g) -> sane_priv k -> uprec (pk_n (sk_pub k)) < 2 ^ 32 -> wf_padding p ->
  r_scheme_decrypt uc g fuel rng k p ct = scheme_decrypt g fuel rng k p ct.
Proof.
  intros. apply agrees_np; [apply ag_scheme_decrypt|]. apply C39_decrypt; auto.
Qed.

Theorem C88_sign : forall uc {R} (g : rng_ops R) fuel rng k s hashed,
  (rng <> None -> rng_ok g) -> sane_priv k -> uprec (pk_n (sk_pub k)) < 2 ^ 32 -> wf_scheme s ->
  r_scheme_sign uc g fuel rng k s hashed = scheme_sign g fuel rng k s hashed.
Proof.
  intros. apply agrees_np; [apply ag_scheme_sign|]. apply C39_sign; auto.
Qed.

Theorem C88_from_components : forall uc n e d primes,
  wf_uint n -> wf_uint e -> wf_uint d -> Forall wf_uint primes ->
  Z.odd (uval n) = true -> (2 <= length primes)%nat ->
  Forall (fun p => uval p <> 1 /\ uprec p <= uprec d) primes ->
  r_from_components uc n e d primes = from_components n e d primes.
Proof.
  intros uc n e d primes W1 W2 W3 W4 O L F. apply agrees_np; [apply ag_from_components|].
  destruct (c27_no_panic n e d primes W1 W2 W3 W4 O L F) as [(k & E)|(k & E)]; rewrite E; discriminate.
Qed.

Theorem C88_from_p_q : forall uc p q e, wf_uint p -> wf_uint q -> wf_uint e ->
  uprec e <= uprec p + uprec q ->
  3 <= uval p -> 3 <= uval q -> Z.odd (uval p) = true -> Z.odd (uval q) = true ->
  r_from_p_q uc p q e = from_p_q p q e.
Proof.
  intros uc p q e W1 W2 W3 L P Q OP OQ. apply agrees_np; [apply ag_from_p_q|].
  destruct (c29_pq_no_panic p q e W1 W2 W3 L P Q OP OQ) as [(k & E)|(k & E)]; rewrite E; discriminate.
Qed.

Theorem C88_from_primes : forall uc ps e,
  Forall wf_uint ps -> wf_uint e -> uprec e <= sum_prec ps ->
  Forall (fun p => 3 <= uval p /\ Z.odd (uval p) = true) ps ->
  r_from_primes uc ps e = from_primes ps e.
Proof.
  intros uc ps e W1 W2 L F. apply agrees_np; [apply ag_from_primes|].
  destruct (c29_primes_no_panic ps e W1 W2 L F) as [(k & E)|(k & E)]; rewrite E; discriminate.
Qed.

(** * Verification: the same signatures are accepted, whatever the signature *)

(** Salt and digest lengths are machine words; no digest is longer than an allocation. *)
Definition usize_scheme (s : sig_scheme) : Prop :=
  match s with
  | SigPkcs1v15 _ => True
  | SigPss p => exists hd, ps_digest p = digest_new hd /\ (0 < h_size hd)%nat /\
                           Z.of_nat (h_size hd) < 2 ^ 63 /\ Z.of_nat (ps_salt_len p) < 2 ^ 64
  end.

Theorem C88_verify : forall uc pk s hashed sig,
  wf_pub pk -> uprec (pk_n pk) < 2 ^ 32 -> usize_scheme s ->
  (r_public_verify uc pk s hashed sig = Ok tt <-> public_verify pk s hashed sig = Ok tt).
Proof.
  intros uc pk s hashed sig W H32 Us. split.
  - destruct (Z.lt_ge_cases (Z.of_nat (length sig)) (2 ^ 29)) as [L|L].
    + destruct s as [s|[bl dg sl]].
      * rewrite r_verify_short; auto; try lia.
      * destruct Us as (hd & E & Hh & Hm & Hs). cbn [ps_digest ps_salt_len] in *. subst dg.
        destruct (Z.lt_ge_cases (Z.of_nat (h_size hd + sl + 2)) (2 ^ 64)) as [B|B].
        -- rewrite r_verify_short; auto; [exists hd; auto|lia].
        -- intros X. exfalso. revert X. apply r_verify_salt; auto. lia.
    + rewrite r_verify_long by auto. destruct s as [s|s]; [|discriminate].
      destruct (check_hash_len s hashed); discriminate.
  - intros E. rewrite (agrees_np _ _ (ag_public_verify uc pk s hashed sig)); [exact E|]. rewrite E. discriminate.
Qed.

Theorem C88_verify_outcome : forall uc pk s hashed sig,
  wf_pub pk -> uprec (pk_n pk) < 2 ^ 32 -> wf_scheme s -> 8 * Z.of_nat (length sig) < 2 ^ 32 ->
  r_public_verify uc pk s hashed sig = public_verify pk s hashed sig.
Proof. exact r_verify_short. Qed.

(** Signatures of half a gigabyte and more, on which the checked build panics below 4 GiB, are
    refused: verification always returns. *)
Theorem C88_verify_returns : forall uc pk s hashed sig,
  wf_pub pk -> uprec (pk_n pk) < 2 ^ 32 -> wf_scheme s ->
  r_public_verify uc pk s hashed sig = Ok tt \/
  exists err, r_public_verify uc pk s hashed sig = Err err.
Proof.
  intros uc pk s hashed sig W H32 Ws.
  destruct (Z.lt_ge_cases (Z.of_nat (length sig)) (2 ^ 29)) as [L|L].
  - rewrite r_verify_short by (auto; lia).
    assert (Hl : 8 * Z.of_nat (length sig) < 2 ^ 32) by lia.
    destruct s as [s|[bl dg sl]].
    + unfold public_verify. unfold check_hash_len, guard.
      assert (V : forall su, wf_uint su -> pkcs1v15_verify pk (p1_prefix s) hashed su = Ok tt \/
                             exists err, pkcs1v15_verify pk (p1_prefix s) hashed su = Err err).
      { intros su Wsu. destruct (PSig.pkcs1v15_verify_exact pk (p1_prefix s) hashed su W Wsu) as [[E _]|[E _]]; eauto. }
      rewrite PSig.sig_from_bytes_ok by auto.
      destruct (p1_hash_len s) as [h|]; [destruct (_ =? _)%nat|]; cbn [bind]; eauto using PSig.sig_uint_wf.
    + destruct Ws as (hd & E & Hh & Hov). cbn [ps_digest ps_salt_len] in *. subst dg.
      destruct (PSig.public_verify_pss_total hd bl pk hashed sl sig Hh Hov W H32 Hl) as [[E _]|[E _]]; eauto.
  - rewrite r_verify_long by auto. destruct s as [s|s]; [|eauto].
    unfold check_hash_len, guard. destruct (p1_hash_len s) as [h|]; [destruct (_ =? _)%nat|]; cbn [bind]; eauto.
Qed.

Theorem C88_long_signature_refuted : exists pk s hashed sig, wf_pub pk /\ wf_scheme s /\
  public_verify pk s hashed sig = Panic /\
  forall uc, r_public_verify uc pk s hashed sig = Err (Decode DecodeInputSize).
Proof.
  exists pub91, (SigPss (pss_new toy_hash)), [], (repeat x00 (Z.to_nat (2 ^ 29))).
  assert (L : Z.of_nat (length (repeat x00 (Z.to_nat (2 ^ 29)))) = 2 ^ 29) by (rewrite repeat_length; lia).
  split; [exact wf_pub91|]. split.
  { exists toy_hash. split; [reflexivity|]. split; [vm_compute; lia|]. vm_compute. reflexivity. }
  split; [apply C39_verify_long_signature_panics; [rewrite L; lia|exact I]|].
  intros uc. rewrite r_verify_long by (rewrite L; lia). reflexivity.
Qed.

(** * Everything else: wherever the checked build does not panic *)

Theorem C88_key_types : forall uc {R} (g : rng_ops R) (gp : prime_gen R) hd hm oid fuel (st : R) rng,
  (forall k, carries_over (p1sk_new hd oid k) (r_p1sk_new hd oid k)) /\
  (forall k, carries_over (p1vk_new hd oid k) (r_p1vk_new hd oid k)) /\
  (forall k m, carries_over (p1sk_sign g hd fuel rng k m) (r_p1sk_sign uc g hd fuel rng k m)) /\
  (forall k m, carries_over (p1sk_sign_prehash g fuel rng k m) (r_p1sk_sign_prehash uc g fuel rng k m)) /\
  (forall k d, carries_over (p1sk_sign_digest g fuel rng k d) (r_p1sk_sign_digest uc g fuel rng k d)) /\
  (forall k m s, carries_over (p1vk_verify hd k m s) (r_p1vk_verify uc hd k m s)) /\
  (forall k m s, carries_over (p1vk_verify_prehash k m s) (r_p1vk_verify_prehash uc k m s)) /\
  (forall k d s, carries_over (p1vk_verify_digest k d s) (r_p1vk_verify_digest uc k d s)) /\
  (forall k m, carries_over (pssk_sign g hd fuel st k m) (r_pssk_sign uc g hd fuel st k m)) /\
  (forall k m, carries_over (pssk_sign_prehash g hd fuel st k m) (r_pssk_sign_prehash uc g hd fuel st k m)) /\
  (forall k d, carries_over (pssk_sign_digest g hd fuel st k d) (r_pssk_sign_digest uc g hd fuel st k d)) /\
  (forall k m s, carries_over (psvk_verify hd k m s) (r_psvk_verify uc hd k m s)) /\
  (forall k m s, carries_over (psvk_verify_prehash hd k m s) (r_psvk_verify_prehash uc hd k m s)) /\
  (forall k d s, carries_over (psvk_verify_digest hd k d s) (r_psvk_verify_digest uc hd k d s)) /\
  (forall k m, carries_over (p1ek_encrypt g fuel st k m) (r_p1ek_encrypt uc g fuel st k m)) /\
  (forall k c, carries_over (p1dk_decrypt g fuel rng k c) (r_p1dk_decrypt uc g fuel rng k c)) /\
  (forall k m, carries_over (oek_encrypt g hd hm st k m) (r_oek_encrypt uc g hd hm st k m)) /\
  (forall k c, carries_over (odk_decrypt g hd hm fuel rng k c) (r_odk_decrypt uc g hd hm fuel rng k c)) /\
  (forall b, carries_over (signature_try_from b) (r_signature_try_from b)) /\
  (forall bits, carries_over (p1sk_random gp hd oid fuel st bits) (r_p1sk_random uc gp hd oid fuel st bits)) /\
  (forall bl bits, carries_over (pssk_random gp hd bl fuel st bits) (r_pssk_random uc gp hd bl fuel st bits)).
Proof.
  intros. repeat match goal with |- _ /\ _ => apply conj end; intros; apply carried;
    [apply ag_p1sk_new|apply ag_p1vk_new|apply ag_p1sk_sign|apply ag_p1sk_sign_prehash|apply ag_p1sk_sign_digest
    |apply ag_p1vk_verify|apply ag_p1vk_verify_prehash|apply ag_p1vk_verify_digest
    |apply ag_pssk_sign|apply ag_pssk_sign_prehash|apply ag_pssk_sign_digest
    |apply ag_psvk_verify|apply ag_psvk_verify_prehash|apply ag_psvk_verify_digest
    |apply ag_p1ek_encrypt|apply ag_p1dk_decrypt|apply ag_oek_encrypt|apply ag_odk_decrypt
    |apply ag_signature_try_from|apply ag_p1sk_random|apply ag_pssk_random].
Qed.

Theorem C88_keys : forall uc {R} (gp : prime_gen R) fuel (st : R),
  (forall n e d ps, carries_over (from_components n e d ps) (r_from_components uc n e d ps)) /\
  (forall p q e, carries_over (from_p_q p q e) (r_from_p_q uc p q e)) /\
  (forall ps e, carries_over (from_primes ps e) (r_from_primes uc ps e)) /\
  (forall bits, carries_over (private_new gp fuel st bits) (r_private_new uc gp fuel st bits)) /\
  (forall bits e, carries_over (private_new_with_exp gp fuel st bits e) (r_private_new_with_exp uc gp fuel st bits e)) /\
  (forall n bits e, carries_over (generate_multi_prime_key_with_exp gp fuel st n bits e)
                                 (r_generate_multi_prime_key_with_exp uc gp fuel st n bits e)) /\
  (forall k, carries_over (precompute k) (r_precompute uc k)) /\
  (forall k, carries_over (crt_coefficient k) (r_crt_coefficient uc k)).
Proof.
  intros. repeat match goal with |- _ /\ _ => apply conj end; intros; apply carried;
    [apply ag_from_components|apply ag_from_p_q|apply ag_from_primes|apply ag_private_new
    |apply ag_private_new_with_exp|apply ag_generate_multi_prime_key_with_exp|apply ag_precompute|apply ag_crt_coefficient].
Qed.

Theorem C88_documents : forall uc mx tail hd oid human,
  (forall l, carries_over (from_pkcs8_der mx tail l) (r_from_pkcs8_der uc mx tail l)) /\
  (forall l, carries_over (from_pkcs1_der mx l) (r_from_pkcs1_der uc mx l)) /\
  (forall l, carries_over (from_public_key_der mx l) (r_from_public_key_der mx l)) /\
  (forall l, carries_over (from_pkcs1_public_der mx l) (r_from_pkcs1_public_der mx l)) /\
  (forall k, carries_over (to_pkcs8_der mx k) (r_to_pkcs8_der uc mx k)) /\
  (forall k, carries_over (to_pkcs1_der mx tail k) (r_to_pkcs1_der uc mx tail k)) /\
  (forall l, carries_over (p1sk_from_pkcs8_der mx tail hd oid l) (r_p1sk_from_pkcs8_der uc mx tail hd oid l)) /\
  (forall l, carries_over (p1vk_from_public_key_der mx hd oid l) (r_p1vk_from_public_key_der mx hd oid l)) /\
  (forall bl l, carries_over (pssk_from_pkcs8_der mx tail hd bl l) (r_pssk_from_pkcs8_der uc mx tail hd bl l)) /\
  (forall l, carries_over (psvk_from_public_key_der mx hd l) (r_psvk_from_public_key_der mx hd l)) /\
  (forall k, carries_over (ser_private mx human k) (r_ser_private uc mx human k)) /\
  (forall v, carries_over (de_private mx tail human v) (r_de_private uc mx tail human v)) /\
  (forall v, carries_over (de_public mx human v) (r_de_public mx human v)) /\
  (forall v, carries_over (de_p1sk mx tail human hd oid v) (r_de_p1sk uc mx tail human hd oid v)) /\
  (forall v, carries_over (de_p1vk mx human hd oid v) (r_de_p1vk mx human hd oid v)) /\
  (forall bl v, carries_over (de_pssk mx tail human hd bl v) (r_de_pssk uc mx tail human hd bl v)) /\
  (forall v, carries_over (de_psvk mx human hd v) (r_de_psvk mx human hd v)) /\
  (forall v, carries_over (de_p1ek mx human v) (r_de_p1ek mx human v)) /\
  (forall v, carries_over (de_p1dk mx tail human v) (r_de_p1dk uc mx tail human v)) /\
  (forall v, carries_over (de_oek mx human v) (r_de_oek mx human v)) /\
  (forall v, carries_over (de_odk mx tail human v) (r_de_odk uc mx tail human v)) /\
  (forall v, carries_over (de_signature human v) (r_de_signature human v)).
Proof.
  intros. repeat match goal with |- _ /\ _ => apply conj end; intros; apply carried;
    [apply ag_from_pkcs8_der|apply ag_from_pkcs1_der|apply ag_from_public_key_der|apply ag_from_pkcs1_public_der
    |apply ag_to_pkcs8_der|apply ag_to_pkcs1_der|apply ag_p1sk_from_pkcs8_der|apply ag_p1vk_from_public_key_der
    |apply ag_pssk_from_pkcs8_der|apply ag_psvk_from_public_key_der|apply ag_ser_private|apply ag_de_private
    |apply ag_de_public|apply ag_de_p1sk|apply ag_de_p1vk|apply ag_de_pssk|apply ag_de_psvk|apply ag_de_p1ek
    |apply ag_de_p1dk|apply ag_de_oek|apply ag_de_odk|apply ag_de_signature].
Qed.

(** The remaining public entry points. *)
Theorem C88_entry_points : forall uc {R} (g : rng_ops R) (gp : prime_gen R) mx hd oid human fuel (st : R),
  (forall k p ct, carries_over (private_decrypt g fuel k p ct) (r_private_decrypt uc g fuel k p ct)) /\
  (forall k p ct, carries_over (private_decrypt_blinded g fuel st k p ct) (r_private_decrypt_blinded uc g fuel st k p ct)) /\
  (forall k s h, carries_over (private_sign g fuel k s h) (r_private_sign uc g fuel k s h)) /\
  (forall k s h, carries_over (private_sign_with_rng g fuel st k s h) (r_private_sign_with_rng uc g fuel st k s h)) /\
  carries_over (pkcs1_sign_new oid hd) (r_pkcs1_sign_new oid hd) /\
  (forall k, carries_over (p1sk_from hd oid k) (r_p1sk_from hd oid k)) /\
  (forall k, carries_over (p1vk_from hd oid k) (r_p1vk_from hd oid k)) /\
  (forall k, carries_over (p1sk_new_with_prefix hd oid k) (r_p1sk_new_with_prefix hd oid k)) /\
  (forall k, carries_over (p1vk_new_with_prefix hd oid k) (r_p1vk_new_with_prefix hd oid k)) /\
  (forall bits, carries_over (p1sk_random_unprefixed gp fuel st bits) (r_p1sk_random_unprefixed uc gp fuel st bits)) /\
  (forall bits, carries_over (p1sk_random_with_prefix gp hd oid fuel st bits) (r_p1sk_random_with_prefix uc gp hd oid fuel st bits)) /\
  (forall k, carries_over (p1sk_to_pkcs8_der mx k) (r_p1sk_to_pkcs8_der uc mx k)) /\
  (forall k, carries_over (pssk_to_pkcs8_der mx k) (r_pssk_to_pkcs8_der uc mx k)) /\
  (forall k, carries_over (ser_p1sk mx human k) (r_ser_p1sk uc mx human k)) /\
  (forall k, carries_over (ser_pssk mx human k) (r_ser_pssk uc mx human k)) /\
  (forall k, carries_over (ser_p1dk mx human k) (r_ser_p1dk uc mx human k)) /\
  (forall k, carries_over (ser_odk mx human k) (r_ser_odk uc mx human k)).
Proof.
  intros. repeat match goal with |- _ /\ _ => apply conj end; intros; apply carried;
    [apply ag_private_decrypt|apply ag_private_decrypt_blinded|apply ag_private_sign|apply ag_private_sign_with_rng
    |apply ag_pkcs1_sign_new|apply ag_p1sk_from|apply ag_p1vk_from|apply ag_p1sk_new_with_prefix|apply ag_p1vk_new_with_prefix
    |apply ag_p1sk_random_unprefixed|apply ag_p1sk_random_with_prefix|apply ag_p1sk_to_pkcs8_der|apply ag_pssk_to_pkcs8_der
    |apply ag_ser_p1sk|apply ag_ser_pssk|apply ag_ser_p1dk|apply ag_ser_odk].
Qed.

(** Where the checked build panics the other one may go on: a digest too long for the one-octet
    lengths of DigestInfo yields a prefix whose outer length has wrapped around. *)
Theorem C88_prefix_refuted : exists oid size pre,
  pkcs1v15_generate_prefix oid size = Panic /\ r_pkcs1v15_generate_prefix oid size = Ok pre /\
  nth 1 pre x00 = x01.
Proof.
  exists oid_sha256, 240%nat. eexists. split; [reflexivity|]. split; vm_compute; reflexivity.
Qed.

(** * Cases *)

(** Decryption of a key with composite "primes", and a three-prime key, whatever the dependency does. *)
Example C88_case_decrypt : forall uc,
  r_private_decrypt uc count_rng 5 odd_key PadPkcs1v15 [x05] = Err Internal.
Proof. intros uc. vm_compute. reflexivity. Qed.
Example C88_case_verify : forall uc,
  r_public_verify uc pub91 (SigPkcs1v15 raw1) [x41] sig91 = Ok tt /\
  r_public_verify uc pub91 (SigPkcs1v15 raw1) [x42] sig91 = Err Verification.
Proof.
  intros uc. split; rewrite C88_verify_outcome; try exact wf_pub91; try exact I; vm_compute; reflexivity.
Qed.
Example C88_case_sign : forall uc,
  sane_priv key91 /\ r_private_sign uc count_rng 5 key91 (SigPkcs1v15 raw1) [x41] = Ok sig91.
Proof.
  assert (S : sane_priv key91) by (apply good_sane; exact good91).
  intros uc. split; [exact S|]. change (r_scheme_sign uc count_rng 5 None key91 (SigPkcs1v15 raw1) [x41] = Ok sig91).
  rewrite C88_sign; [|intros X; contradiction|exact S|vm_compute; reflexivity|exact I].
  vm_compute. reflexivity.
Qed.
Example C88_case_key : forall uc, r_from_p_q uc (mkU 11 64) (mkU 13 64) (mkU 7 64) = from_p_q (mkU 11 64) (mkU 13 64) (mkU 7 64).
Proof. intros uc. vm_compute. reflexivity. Qed.

Print Assumptions C88_encrypt.
Print Assumptions C88_decrypt.
Print Assumptions C88_sign.
Print Assumptions C88_from_components.
Print Assumptions C88_from_p_q.
Print Assumptions C88_from_primes.
Print Assumptions C88_verify.
Print Assumptions C88_verify_outcome.
Print Assumptions C88_verify_returns.
Print Assumptions C88_long_signature_refuted.
Print Assumptions C88_key_types.
Print Assumptions C88_keys.
Print Assumptions C88_documents.
Print Assumptions C88_entry_points.
Print Assumptions C88_prefix_refuted.
