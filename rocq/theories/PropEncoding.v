(** Properties of key encoding: C24, C33, C34, C43, C44, C50, C51, C52.  [mx] is the
    largest length the DER library handles (2^28 - 1 in the pinned version); the
    theorems hold for every value in the stated range.  [tl] is the DER library's test
    of the optional fields after the key in a PKCS#8 document, given the version; the
    theorems hold for every test, or every one accepting version 0 without any. *)
From Coq Require Import ZArith List Bool Lia Znumtheory.
From Coq Require Import Init.Byte.
From Verif Require Import Base Bigint SpecRFC SpecKey SpecDer MHash MPkcs1 MRsa MGenerate MKey MApi MWrap
  MDer MEncoding KeyDefs BigintLemmas SpecGen PSign PKey PPub PEncoding PCodec PWrapEnc KeyExamples.
Import ListNotations.
Local Open Scope Z_scope.

Notation fits mx v := (Z.of_nat (length (der v)) <= mx).

(** * C24: DigestInfo prefixes *)

Theorem C24_prefix_is_der : forall oid size, (length oid + size + 8 <= 127)%nat ->
  exists pre, pkcs1v15_generate_prefix oid size = Ok pre /\
    forall digest, length digest = size -> pre ++ digest = der (DigestInfo oid digest).
Proof. exact prefix_ok. Qed.

Theorem C24_bound_is_exact : forall oid size pre digest,
  pkcs1v15_generate_prefix oid size = Ok pre -> length digest = size ->
  (pre ++ digest = der (DigestInfo oid digest) <-> (length oid + size + 8 <= 127)%nat).
Proof. exact prefix_exact. Qed.

Theorem C24_panics : forall oid size,
  pkcs1v15_generate_prefix oid size = Panic <->
  256 <= Z.of_nat (length oid) mod 256 + 8 + Z.of_nat size mod 256.
Proof. exact prefix_panic. Qed.

Theorem C24_injective : forall o1 d1 o2 d2,
  (length o1 + length d1 + 8 <= 127)%nat -> (length o2 + length d2 + 8 <= 127)%nat ->
  der (DigestInfo o1 d1) = der (DigestInfo o2 d2) -> o1 = o2 /\ d1 = d2.
Proof. exact digest_info_inj. Qed.

(** SHA-256 (2.16.840.1.101.3.4.2.1): the prefix of RFC 8017 section 9.2, note 1. *)
Definition oid_sha256 : list byte := [x60; x86; x48; x01; x65; x03; x04; x02; x01].
Example C24_sha256 : pkcs1v15_generate_prefix oid_sha256 32 =
  Ok [x30; x31; x30; x0d; x06; x09; x60; x86; x48; x01; x65; x03; x04; x02; x01; x05; x00; x04; x20].
Proof. reflexivity. Qed.
Example C24_wide : exists pre, pkcs1v15_generate_prefix oid_sha256 128 = Ok pre.
Proof. eexists. reflexivity. Qed.
Example C24_wider : pkcs1v15_generate_prefix oid_sha256 240 = Panic.
Proof. reflexivity. Qed.

(** * C33: round trips *)

Theorem C33_private_round_trip : forall mx tl k p q, tl 0 [] = true ->
  2 ^ 21 <= mx < 2 ^ 32 -> wf_pub (sk_pub k) -> wf_uint (sk_d k) -> uprec (sk_d k) <= 2 ^ 20 ->
  sk_primes k = [p; q] -> wf_uint p -> wf_uint q ->
  validate k = Ok tt -> uprec p <= uprec (sk_d k) -> uprec q = uprec p ->
  Z.gcd (uval p) (uval q) = 1 ->
  let n := uval (pk_n (sk_pub k)) in let e := uval (pk_e (sk_pub k)) in let d := uval (sk_d k) in
  exists qi, 0 <= qi < uval p /\ (uval q * qi) mod uval p = 1 /\
  let doc := der (PrivateKeyInfo rsa_AlgorithmIdentifier (der (RSAPrivateKey n e d (uval p) (uval q)
                   (d mod (uval p - 1)) (d mod (uval q - 1)) qi))) in
  to_pkcs8_der mx k = Ok doc /\
  (d < 256 ^ octet_size n /\ uval p < 256 ^ octet_size n /\ uval q < 256 ^ octet_size n ->
   exists k', from_pkcs8_der mx tl doc = Ok k' /\ priv_eqb k' k = true /\ priv_eqb k k' = true /\
     validate k' = Ok tt /\ sane_priv k' /\ stored_minimally (pk_n (sk_pub k')) /\ sk_pre k' <> None) /\
  (~ (d < 256 ^ octet_size n /\ uval p < 256 ^ octet_size n /\ uval q < 256 ^ octet_size n) ->
   from_pkcs8_der mx tl doc = Err ErrKeyMalformed).
Proof. exact export_round_trip. Qed.

Theorem C33_public_round_trip : forall mx k, 2 ^ 21 <= mx < 2 ^ 32 -> wf_pub k ->
  uprec (pk_n k) <= 2 ^ 20 -> uprec (pk_e k) <= 2 ^ 20 ->
  let n := uval (pk_n k) in let e := uval (pk_e k) in
  let doc := der (SubjectPublicKeyInfo rsa_AlgorithmIdentifier (der (RSAPublicKey n e))) in
  to_public_key_der mx k = Ok doc /\
  (public_usable n e (limb_bits n) ->
   exists k', from_public_key_der mx doc = Ok k' /\ pub_eqb k' k = true /\ wf_pub k' /\
              stored_minimally (pk_n k')) /\
  (~ public_usable n e (limb_bits n) -> from_public_key_der mx doc = Err ErrKeyMalformed).
Proof. exact public_round_trip. Qed.

Theorem C33_multi_prime_refused : forall mx k, (2 < length (sk_primes k))%nat ->
  to_pkcs8_der mx k = Err ErrPkcs1Version.
Proof. exact export_multi_prime. Qed.

Theorem C33_equal_primes_refused : forall mx k p q,
  wf_pub (sk_pub k) -> wf_uint (sk_d k) -> sk_primes k = [p; q] -> wf_uint p -> wf_uint q ->
  2 <= uval p -> 2 <= uval q -> uprec p <= uprec (sk_d k) -> uprec q = uprec p ->
  Z.gcd (uval p) (uval q) <> 1 -> to_pkcs8_der mx k = Err ErrPkcs1Crypto.
Proof. exact export_not_coprime. Qed.

Definition mx28 : Z := 2 ^ 28 - 1.
(** A test of the optional fields: none in version 0, a public key ([1] IMPLICIT BIT
    STRING) in version 1. *)
Definition opt28 (version : Z) (l : list byte) : bool :=
  if version =? 0 then bytes_eqb l [] else match l with x81 :: _ => true | _ => false end.

Lemma gcd64 : Z.gcd (uval p64) (uval q64) = 1.
Proof. vm_compute. reflexivity. Qed.
Lemma validate64 : validate key64 = Ok tt.
Proof. vm_compute. reflexivity. Qed.

(** A concrete key meeting the hypotheses: exported, imported, equal. *)
Example C33_key64 : exists doc k', to_pkcs8_der mx28 key64 = Ok doc /\ from_pkcs8_der mx28 opt28 doc = Ok k' /\
  priv_eqb k' key64 = true /\ priv_eqb key64 k' = true.
Proof.
  destruct good64 as (Wp & Wd & Wpr & _).
  assert (E : sk_primes key64 = [p64; q64]) by (vm_compute; reflexivity).
  rewrite E, !Forall_cons_iff in Wpr. destruct Wpr as (W1 & W2 & _).
  assert (Ed : sk_d key64 = d64) by (vm_compute; reflexivity).
  assert (En : pk_n (sk_pub key64) = n64) by (vm_compute; reflexivity).
  destruct (C33_private_round_trip mx28 opt28 key64 p64 q64 eq_refl ltac:(unfold mx28; lia) Wp Wd
    ltac:(rewrite Ed; vm_compute; congruence) E W1 W2 validate64 ltac:(rewrite Ed; vm_compute; congruence) eq_refl gcd64)
    as (qi & _ & _ & A & B & _).
  rewrite Ed, En in B.
  destruct (B ltac:(repeat split; vm_compute; reflexivity)) as (k' & B1 & B2 & B3 & _).
  rewrite <- Ed, <- En in B1. eauto 10.
Qed.

(** The same key with a larger (equivalent) private exponent is valid and can be
    exported, but its document is refused. *)
Definition d64_big : uint := mkU (uval d64 + 2 ^ 20 * ((uval p64 - 1) * (uval q64 - 1))) 128.
Definition key64_big : privkey := mkPriv pub64 d64_big [p64; q64] None.
Theorem C33_every_valid_key_refuted : exists k doc, validate k = Ok tt /\
  to_pkcs8_der mx28 k = Ok doc /\ from_pkcs8_der mx28 opt28 doc = Err ErrKeyMalformed.
Proof.
  destruct good64_plain as (Wp & _ & Wpr & _).
  cbn [key64_plain sk_primes] in Wpr. rewrite !Forall_cons_iff in Wpr. destruct Wpr as (W1 & W2 & _).
  assert (V : validate key64_big = Ok tt) by (vm_compute; reflexivity).
  assert (Wd : wf_uint d64_big) by (vm_compute; repeat split; congruence).
  destruct (C33_private_round_trip mx28 opt28 key64_big p64 q64 eq_refl ltac:(unfold mx28; lia) Wp Wd
    ltac:(vm_compute; congruence) eq_refl W1 W2 V ltac:(vm_compute; congruence) eq_refl gcd64)
    as (qi & _ & _ & A & _ & B).
  exists key64_big. eexists. split; [exact V|]. split; [exact A|]. apply B.
  intros (X & _). vm_compute in X. discriminate.
Qed.

Example C33_pub64 : exists doc k', to_public_key_der mx28 pub64 = Ok doc /\
  from_public_key_der mx28 doc = Ok k' /\ pub_eqb k' pub64 = true.
Proof.
  pose proof wf_pub64 as Wp.
  destruct (C33_public_round_trip mx28 pub64 ltac:(unfold mx28; lia) Wp ltac:(vm_compute; congruence) ltac:(vm_compute; congruence))
    as (A & B & _).
  destruct (B ltac:(vm_compute; repeat split; congruence)) as (k' & B1 & B2 & _). eauto 10.
Qed.

Example C33_key91 : to_pkcs8_der mx28 key91 = Err ErrPkcs1Version.
Proof. apply C33_multi_prime_refused. vm_compute. lia. Qed.

(** * C34: algorithm identifiers *)

Theorem C34_exact : forall a, verify_algorithm_id a = Ok tt <->
  (alg_oid a = rsaEncryption /\ alg_params a = Some (mkAny x05 [])) \/
  (alg_oid a = id_RSASSA_PSS /\ alg_params a = None).
Proof. exact c34_exact. Qed.

Theorem C34_errors : forall a, verify_algorithm_id a = Ok tt \/
  verify_algorithm_id a = Err ErrKeyMalformed \/ verify_algorithm_id a = Err ErrParametersMalformed \/
  (verify_algorithm_id a = Err ErrOidUnknown /\
   alg_oid a <> rsaEncryption /\ alg_oid a <> id_RSASSA_PSS).
Proof. exact c34_error. Qed.

(** PSS signing and verifying keys take the documents RSA keys take. *)
Theorem C34_pss_signing_keys : forall mx tl hd blinded l, pssk_from_pkcs8_der mx tl hd blinded l =
  bind (from_pkcs8_der mx tl l) (fun k => Ok (pssk_new hd blinded k)).
Proof. exact wrap_pss. Qed.

Theorem C34_pss_verifying_keys : forall mx hd l, psvk_from_public_key_der mx hd l =
  bind (from_public_key_der mx l) (fun k => Ok (psvk_new hd k)).
Proof. exact wrap_pss_public. Qed.

(** PKCS#1 v1.5 keys take exactly those with rsaEncryption. *)
Theorem C34_pkcs1v15_signing_keys : forall mx, mx < 2 ^ 32 -> forall tl hd oid l s,
  p1sk_from_pkcs8_der mx tl hd oid l = Ok s <->
  exists k, from_pkcs8_der mx tl l = Ok k /\ p1sk_new hd oid k = Ok s /\
    exists version optional n e d p q dp dq qi,
      (version = 0 \/ version = 1) /\ tl version optional = true /\
      l = der (OneAsymmetricKey version rsa_AlgorithmIdentifier (der (RSAPrivateKey n e d p q dp dq qi)) optional).
Proof. exact wrap_p1_ok. Qed.

Theorem C34_pkcs1v15_verifying_keys : forall mx, mx < 2 ^ 32 -> forall hd oid l s,
  p1vk_from_public_key_der mx hd oid l = Ok s <->
  exists k, from_public_key_der mx l = Ok k /\ p1vk_new hd oid k = Ok s /\
    exists n e, l = der (SubjectPublicKeyInfo rsa_AlgorithmIdentifier (der (RSAPublicKey n e))).
Proof. exact wrap_p1_public_ok. Qed.

Theorem C34_pkcs1v15_refuses_pss : forall mx, mx < 2 ^ 32 -> forall hd oid l k n e,
  from_public_key_der mx l = Ok k ->
  l = der (SubjectPublicKeyInfo pss_AlgorithmIdentifier (der (RSAPublicKey n e))) ->
  p1vk_from_public_key_der mx hd oid l = Err ErrOidUnknown.
Proof.
  intros mx Hm hd oid l k n e H El. destruct (wrap_p1_public mx Hm hd oid l k H) as [((n' & e' & El') & _)|(_ & E)].
  - exfalso. rewrite El in El'. symmetry in El'. exact (alg_spki_inj _ _ _ _ El').
  - exact E.
Qed.

Lemma pub64_usable : public_usable (uval n64) (uval e64) (limb_bits (uval n64)).
Proof. vm_compute. repeat split; congruence. Qed.
Example C34_pss_spki : exists k,
  from_public_key_der mx28 (der (public_doc pss_AlgorithmIdentifier (uval n64) (uval e64))) = Ok k.
Proof.
  destruct (import_public_document mx28 ltac:(unfold mx28; lia) pss_AlgorithmIdentifier (uval n64) (uval e64)) as (A & _).
  - right. reflexivity.
  - vm_compute. congruence.
  - vm_compute. congruence.
  - vm_compute. congruence.
  - destruct (A pub64_usable) as (k & E & _). eauto.
Qed.

(** * C43: serialised signing keys *)

Theorem C43_pss_signing_key : forall mx tl hd blinded s doc k,
  pssk_to_pkcs8_der mx s = Ok doc -> from_pkcs8_der mx tl doc = Ok k -> priv_eqb k (pssk_inner s) = true ->
  exists s', pssk_from_pkcs8_der mx tl hd blinded doc = Ok s' /\ pssk_salt_len s' = h_size hd /\
    (pssk_eqb s' s = true <-> pssk_salt_len s = h_size hd).
Proof. intros mx tl hd. apply wrap_round_pss. Qed.

Theorem C43_pss_verifying_key : forall mx hd s doc k,
  psvk_to_public_key_der mx s = Ok doc -> from_public_key_der mx doc = Ok k ->
  pub_eqb k (psvk_inner s) = true ->
  exists s', psvk_from_public_key_der mx hd doc = Ok s' /\ psvk_salt_len s' = h_size hd /\
    (psvk_eqb s' s = true <-> psvk_salt_len s = h_size hd).
Proof. exact wrap_round_pss_public. Qed.

Theorem C43_pkcs1v15_signing_key : forall mx tl hd oid pre s doc k, tl 0 [] = true -> mx < 2 ^ 32 ->
  pkcs1v15_generate_prefix oid (h_size hd) = Ok pre ->
  p1sk_to_pkcs8_der mx s = Ok doc -> from_pkcs8_der mx tl doc = Ok k -> priv_eqb k (p1sk_inner s) = true ->
  exists s', p1sk_from_pkcs8_der mx tl hd oid doc = Ok s' /\ p1sk_prefix s' = pre /\
    (p1sk_eqb s' s = true <-> p1sk_prefix s = pre).
Proof. intros mx tl hd. apply wrap_round_p1. Qed.

Theorem C43_pkcs1v15_verifying_key : forall mx hd oid pre s doc k, mx < 2 ^ 32 ->
  pkcs1v15_generate_prefix oid (h_size hd) = Ok pre ->
  p1vk_to_public_key_der mx s = Ok doc -> from_public_key_der mx doc = Ok k ->
  pub_eqb k (p1vk_inner s) = true ->
  exists s', p1vk_from_public_key_der mx hd oid doc = Ok s' /\ p1vk_prefix s' = pre /\
    (p1vk_eqb s' s = true <-> p1vk_prefix s = pre).
Proof. exact wrap_round_p1_public. Qed.

(** A signing key with an unusual salt length, and one without prefix, come back
    different. *)
Example C43_changed : exists doc s1 s2,
  pssk_to_pkcs8_der mx28 (pssk_new_with_salt_len false key64 1) = Ok doc /\
  pssk_from_pkcs8_der mx28 opt28 toy_hash false doc = Ok s1 /\
  pssk_eqb s1 (pssk_new_with_salt_len false key64 1) = false /\
  p1sk_to_pkcs8_der mx28 (p1sk_new_unprefixed key64) = Ok doc /\
  p1sk_from_pkcs8_der mx28 opt28 toy_hash oid_sha256 doc = Ok s2 /\
  p1sk_eqb s2 (p1sk_new_unprefixed key64) = false.
Proof.
  destruct C33_key64 as (doc & k' & A & B & C & _).
  destruct (C43_pss_signing_key mx28 opt28 toy_hash false (pssk_new_with_salt_len false key64 1) doc k' A B C) as (s1 & S1 & S2 & S3).
  destruct (C43_pkcs1v15_signing_key mx28 opt28 toy_hash oid_sha256 _ (p1sk_new_unprefixed key64) doc k' eq_refl
    ltac:(unfold mx28; lia) eq_refl A B C) as (s2 & T1 & T2 & T3).
  exists doc, s1, s2. repeat (split; [assumption|]).
  assert (N1 : pssk_eqb s1 (pssk_new_with_salt_len false key64 1) <> true) by (intros X; apply S3 in X; discriminate X).
  assert (N2 : p1sk_eqb s2 (p1sk_new_unprefixed key64) <> true) by (intros X; apply T3 in X; discriminate X).
  repeat split; auto; apply not_true_is_false; assumption.
Qed.

(** * C44: PSS algorithm identifiers *)

Theorem C44_identifier : forall oid k,
  psa_oid (pssk_algorithm_id oid k) = id_RSASSA_PSS /\
  psp_hash (psa_params (pssk_algorithm_id oid k)) = oid /\
  psp_mgf_hash (psa_params (pssk_algorithm_id oid k)) = oid /\
  psp_salt_len (psa_params (pssk_algorithm_id oid k)) = Z.of_nat (pssk_salt_len k) mod 256 /\
  (psp_salt_len (psa_params (pssk_algorithm_id oid k)) = Z.of_nat (pssk_salt_len k) <->
   (pssk_salt_len k < 256)%nat).
Proof. exact c44_identifier. Qed.

(** A signature verifies under at most one salt length. *)
Theorem C44_salt_length_is_unique : forall hd pk sl1 sl2 hashed s,
  (0 < h_size hd)%nat -> wf_pub pk -> uprec (pk_n pk) < 2 ^ 32 -> wf_uint (sg_inner s) ->
  Z.of_nat (h_size hd + sl1 + 2) < 2 ^ 64 -> Z.of_nat (h_size hd + sl2 + 2) < 2 ^ 64 ->
  psvk_verify_prehash hd (psvk_new_with_salt_len pk sl1) hashed s = Ok tt ->
  psvk_verify_prehash hd (psvk_new_with_salt_len pk sl2) hashed s = Ok tt -> sl1 = sl2.
Proof. exact c44_verify_salt. Qed.

(** So a verifier configured from the identifier accepts the key's signatures exactly
    when the salt length is below 256. *)
Theorem C44_identifier_verifies : forall hd oid k hashed s,
  let pk := to_public_key (pssk_inner k) in
  (0 < h_size hd)%nat -> wf_pub pk -> uprec (pk_n pk) < 2 ^ 32 -> wf_uint (sg_inner s) ->
  Z.of_nat (h_size hd + pssk_salt_len k + 2) < 2 ^ 64 ->
  psvk_verify_prehash hd (pssk_verifying_key k) hashed s = Ok tt ->
  (psvk_verify_prehash hd (psvk_new_with_salt_len pk
     (Z.to_nat (psp_salt_len (psa_params (pssk_algorithm_id oid k))))) hashed s = Ok tt <->
   (pssk_salt_len k < 256)%nat).
Proof. exact c44_verifies. Qed.

Example C44_case : psp_salt_len (psa_params (pssk_algorithm_id oid_sha256 (pssk_new_with_salt_len false key64 300))) = 44.
Proof. reflexivity. Qed.

(** * C50: exactly which documents are imported, and as what *)

Theorem C50_private : forall mx, mx < 2 ^ 29 -> forall tl version optional v n e d p q dp dq qi,
  v = rsa_AlgorithmIdentifier \/ v = pss_AlgorithmIdentifier ->
  version = 0 \/ version = 1 -> tl version optional = true ->
  Forall (fun z => 0 <= z) [n; e; d; p; q; dp; dq; qi] ->
  let doc := OneAsymmetricKey version v (der (RSAPrivateKey n e d p q dp dq qi)) optional in
  fits mx doc ->
  let r := from_pkcs8_der mx tl (der doc) in
  (importable n e d p q -> exists k, r = Ok k /\ stored_as k n e d p q /\ validate k = Ok tt /\ sane_priv k /\
     (prime p -> prime q -> p <> q -> p * q = n -> good_priv k) /\
     (sk_pre k <> None <-> Z.gcd p q = 1)) /\
  (~ importable n e d p q -> p <> 1 -> q <> 1 -> r = Err ErrKeyMalformed) /\
  (forall k, r = Ok k -> importable n e d p q).
Proof. exact import_document. Qed.

(** In particular the documents of RFC 5208. *)
Example C50_plain : forall v key, der (OneAsymmetricKey 0 v key []) = der (PrivateKeyInfo v key).
Proof. exact plain_key. Qed.

(** The CRT fields, the version, the optional fields and which of the two identifiers
    is given do not matter. *)
Theorem C50_crt_fields_ignored : forall mx, mx < 2 ^ 29 ->
  forall tl ver1 opt1 ver2 opt2 v1 v2 n e d p q dp dq qi dp' dq' qi',
  v1 = rsa_AlgorithmIdentifier \/ v1 = pss_AlgorithmIdentifier ->
  v2 = rsa_AlgorithmIdentifier \/ v2 = pss_AlgorithmIdentifier ->
  ver1 = 0 \/ ver1 = 1 -> tl ver1 opt1 = true -> ver2 = 0 \/ ver2 = 1 -> tl ver2 opt2 = true ->
  Forall (fun z => 0 <= z) [n; e; d; p; q; dp; dq; qi; dp'; dq'; qi'] ->
  let doc1 := OneAsymmetricKey ver1 v1 (der (RSAPrivateKey n e d p q dp dq qi)) opt1 in
  let doc2 := OneAsymmetricKey ver2 v2 (der (RSAPrivateKey n e d p q dp' dq' qi')) opt2 in
  fits mx doc1 -> fits mx doc2 ->
  from_pkcs8_der mx tl (der doc1) = from_pkcs8_der mx tl (der doc2).
Proof. exact import_ignores_rest. Qed.

Theorem C50_public : forall mx, mx < 2 ^ 29 -> forall v n e,
  v = rsa_AlgorithmIdentifier \/ v = pss_AlgorithmIdentifier -> 0 <= n -> 0 <= e ->
  fits mx (SubjectPublicKeyInfo v (der (RSAPublicKey n e))) ->
  let r := from_public_key_der mx (der (SubjectPublicKeyInfo v (der (RSAPublicKey n e)))) in
  (public_usable n e (limb_bits n) -> exists k, r = Ok k /\ wf_pub k /\
     pk_n k = mkU n (limb_bits n) /\ pk_e k = mkU e (limb_bits e)) /\
  (~ public_usable n e (limb_bits n) -> r = Err ErrKeyMalformed).
Proof. exact import_public_document. Qed.

Example C50_importable : importable (uval n64) (uval e64) (uval d64) (uval p64) (uval q64).
Proof. unfold importable. vm_compute. repeat split; congruence. Qed.
Example C50_optional : exists k,
  let inner := der (RSAPrivateKey (uval n64) (uval e64) (uval d64) (uval p64) (uval q64) 0 0 0) in
  from_pkcs8_der mx28 opt28 (der (OneAsymmetricKey 0 rsa_AlgorithmIdentifier inner [])) = Ok k /\
  from_pkcs8_der mx28 opt28 (der (OneAsymmetricKey 1 pss_AlgorithmIdentifier inner [x81; x02; x00; xff])) = Ok k.
Proof.
  destruct (C50_private mx28 eq_refl opt28 0 [] rsa_AlgorithmIdentifier (uval n64) (uval e64) (uval d64) (uval p64) (uval q64) 0 0 0
    (or_introl eq_refl) (or_introl eq_refl) eq_refl) as (A & _).
  - repeat constructor; vm_compute; congruence.
  - vm_compute. congruence.
  - destruct (A C50_importable) as (k & E & _). exists k. cbv zeta. split; [exact E|].
    rewrite <- E. apply C50_crt_fields_ignored; auto.
    + reflexivity.
    + repeat constructor; vm_compute; congruence.
    + vm_compute. congruence.
    + vm_compute. congruence.
Qed.
Example C50_not_importable : ~ importable (uval n64) (uval e64) (uval d64 + 2) (uval p64) (uval q64).
Proof. intros (_ & _ & _ & _ & _ & _ & _ & X & _). vm_compute in X. discriminate. Qed.

(** * C51: only canonical DER is accepted *)

Theorem C51_public : forall mx, mx < 2 ^ 29 -> forall l k, from_public_key_der mx l = Ok k ->
  let n := uval (pk_n k) in let e := uval (pk_e k) in
  (l = der (SubjectPublicKeyInfo rsa_AlgorithmIdentifier (der (RSAPublicKey n e))) \/
   l = der (SubjectPublicKeyInfo pss_AlgorithmIdentifier (der (RSAPublicKey n e)))) /\
  public_usable n e (limb_bits n) /\ wf_pub k /\
  uprec (pk_n k) = limb_bits n /\ uprec (pk_e k) = limb_bits e.
Proof. exact public_document. Qed.

Theorem C51_private : forall mx, mx < 2 ^ 29 -> forall tl l k, from_pkcs8_der mx tl l = Ok k ->
  exists version optional v d p q dp dq qi, (v = rsa_AlgorithmIdentifier \/ v = pss_AlgorithmIdentifier) /\
  (version = 0 \/ version = 1) /\ tl version optional = true /\
  let n := uval (pk_n (sk_pub k)) in let e := uval (pk_e (sk_pub k)) in
  l = der (OneAsymmetricKey version v (der (RSAPrivateKey n e d p q dp dq qi)) optional) /\
  stored_as k n e d p q /\ importable n e d p q /\ validate k = Ok tt /\ sane_priv k.
Proof. exact private_document. Qed.

(** Writing an imported key gives the standard document again. *)
Theorem C51_public_reencode : forall mx, mx < 2 ^ 29 -> forall l k, 2 ^ 21 <= mx ->
  from_public_key_der mx l = Ok k ->
  to_public_key_der mx k =
  Ok (der (SubjectPublicKeyInfo rsa_AlgorithmIdentifier (der (RSAPublicKey (uval (pk_n k)) (uval (pk_e k)))))).
Proof. exact public_reencode. Qed.

Theorem C51_private_reencode : forall mx, mx < 2 ^ 29 -> forall tl l k p q, tl 0 [] = true -> 2 ^ 21 <= mx ->
  from_pkcs8_der mx tl l = Ok k -> map uval (sk_primes k) = [p; q] -> Z.gcd p q = 1 ->
  let n := uval (pk_n (sk_pub k)) in let e := uval (pk_e (sk_pub k)) in let d := uval (sk_d k) in
  exists qi k', 0 <= qi < p /\ (q * qi) mod p = 1 /\
  let doc := der (PrivateKeyInfo rsa_AlgorithmIdentifier
                    (der (RSAPrivateKey n e d p q (d mod (p - 1)) (d mod (q - 1)) qi))) in
  to_pkcs8_der mx k = Ok doc /\ from_pkcs8_der mx tl doc = Ok k' /\ priv_eqb k' k = true.
Proof. exact private_reencode. Qed.

(** Trailing data, a non-minimal length and a non-minimal integer are refused. *)
Example C51_refused :
  let doc := der (SubjectPublicKeyInfo rsa_AlgorithmIdentifier (der (RSAPublicKey 35 3))) in
  from_public_key_der mx28 doc <> Err ErrAsn1 /\
  from_public_key_der mx28 (doc ++ [x00]) = Err ErrAsn1 /\
  from_public_key_der mx28 (x30 :: x81 :: skipn 1 doc) = Err ErrAsn1.
Proof. vm_compute. repeat split; congruence. Qed.

(** * C52: decoding arbitrary bytes *)

Theorem C52_public : forall mx, mx < 2 ^ 29 -> forall l,
  (exists k, from_public_key_der mx l = Ok k) \/ (exists e, from_public_key_der mx l = Err e).
Proof. exact public_total. Qed.

Theorem C52_private : forall mx, mx < 2 ^ 29 -> forall tl l,
  ((exists k, from_pkcs8_der mx tl l = Ok k) \/ (exists e, from_pkcs8_der mx tl l = Err e)) \/
  (exists version optional v n e d p q dp dq qi,
     (v = rsa_AlgorithmIdentifier \/ v = pss_AlgorithmIdentifier) /\ (p = 1 \/ q = 1) /\
     (version = 0 \/ version = 1) /\ tl version optional = true /\
     l = der (OneAsymmetricKey version v (der (RSAPrivateKey n e d p q dp dq qi)) optional)).
Proof. exact private_total. Qed.

(** The exception is real: a document of some 50 octets with a prime of 1 makes the decoder
    panic (division by zero in the validity check). *)
Theorem C52_never_panics_refuted : exists l, from_pkcs8_der mx28 opt28 l = Panic.
Proof.
  exists (der (private_doc rsa_AlgorithmIdentifier 15 3 3 1 15 0 0 0)). vm_compute. reflexivity.
Qed.

Example C52_case : exists k, mx28 < 2 ^ 29 /\
  from_pkcs8_der mx28 opt28 (der (OneAsymmetricKey 0 rsa_AlgorithmIdentifier
    (der (RSAPrivateKey (uval n64) (uval e64) (uval d64) (uval p64) (uval q64) 0 0 0)) [])) = Ok k /\
  from_pkcs8_der mx28 opt28 [x30; x00] = Err ErrAsn1 /\ from_public_key_der mx28 [] = Err ErrAsn1.
Proof. destruct C50_optional as (k & E & _). exists k. split; [vm_compute; reflexivity|].
  split; [exact E|]. split; vm_compute; reflexivity. Qed.

Print Assumptions C24_prefix_is_der.
Print Assumptions C24_bound_is_exact.
Print Assumptions C24_panics.
Print Assumptions C24_injective.
Print Assumptions C33_private_round_trip.
Print Assumptions C33_public_round_trip.
Print Assumptions C33_multi_prime_refused.
Print Assumptions C33_equal_primes_refused.
Print Assumptions C33_every_valid_key_refuted.
Print Assumptions C34_exact.
Print Assumptions C34_errors.
Print Assumptions C34_pss_signing_keys.
Print Assumptions C34_pss_verifying_keys.
Print Assumptions C34_pkcs1v15_signing_keys.
Print Assumptions C34_pkcs1v15_verifying_keys.
Print Assumptions C34_pkcs1v15_refuses_pss.
Print Assumptions C43_pss_signing_key.
Print Assumptions C43_pss_verifying_key.
Print Assumptions C43_pkcs1v15_signing_key.
Print Assumptions C43_pkcs1v15_verifying_key.
Print Assumptions C44_identifier.
Print Assumptions C44_salt_length_is_unique.
Print Assumptions C44_identifier_verifies.
Print Assumptions C50_private.
Print Assumptions C50_crt_fields_ignored.
Print Assumptions C50_public.
Print Assumptions C51_public.
Print Assumptions C51_private.
Print Assumptions C51_public_reencode.
Print Assumptions C51_private_reencode.
Print Assumptions C52_public.
Print Assumptions C52_private.
Print Assumptions C52_never_panics_refuted.
