(** Properties of the refusal of encoded keys: C105.  [mx], [tl], [human]: see PropEncoding.v
    and PropSerde.v. *)
From Coq Require Import String ZArith List Bool Lia.
From Coq Require Import Init.Byte.
From Verif Require Import Base Bigint SpecRFC SpecKey SpecDer SpecOid SpecSerde SpecRefusal MHash MPkcs1 MRsa MGenerate MKey MApi MWrap
  MDer MEncoding MSerde KeyDefs PEncoding PCodec PSerde PRefusal KeyExamples PropEncoding.
Import ListNotations.
Local Open Scope string_scope.
Local Open Scope list_scope.
Local Open Scope Z_scope.

(** * C105: what the refusal of an encoded key says about it *)

(** Four errors for public keys, each with its cause: not an RSA public key document at all;
    another algorithm; rsaEncryption without its NULL; and wrong parameters, unused bits or
    numbers that are no usable key. *)
Theorem C105_public : forall mx, mx < 2 ^ 29 -> forall l err, from_public_key_der mx l = Err err ->
  (err = ErrAsn1 /\ forall v n e, v = rsa_AlgorithmIdentifier \/ v = pss_AlgorithmIdentifier -> 0 <= n -> 0 <= e ->
     let doc := SubjectPublicKeyInfo v (der (RSAPublicKey n e)) in fits mx doc -> l <> der doc) \/
  (exists oid params unused key, l = der (PublicKeyDocument (AlgorithmIdentifier oid params) unused key) /\
    ((err = ErrOidUnknown /\ ~ rsa_oid oid) \/
     (err = ErrParametersMalformed /\ oid = rsaEncryption /\ params = None) \/
     (err = ErrKeyMalformed /\
      (wrong_params oid params \/
       (rsa_oid oid /\ unused <> x00) \/
       (rsa_oid oid /\ unused = x00 /\ exists n e, 0 <= n /\ 0 <= e /\ key = der (RSAPublicKey n e) /\
          ~ public_usable n e (limb_bits n)))))).
Proof. exact public_refusal. Qed.

(** Five for private keys: also keys of more than two primes. *)
Theorem C105_private : forall mx, mx < 2 ^ 29 -> forall tl l err, from_pkcs8_der mx tl l = Err err ->
  (err = ErrAsn1 /\ forall version optional v n e d p q dp dq qi,
     v = rsa_AlgorithmIdentifier \/ v = pss_AlgorithmIdentifier ->
     version = 0 \/ version = 1 -> tl version optional = true ->
     Forall (fun z => 0 <= z) [n; e; d; p; q; dp; dq; qi] ->
     let doc := OneAsymmetricKey version v (der (RSAPrivateKey n e d p q dp dq qi)) optional in
     fits mx doc -> l <> der doc) \/
  (exists version optional oid params key, (version = 0 \/ version = 1) /\ tl version optional = true /\
    l = der (OneAsymmetricKey version (AlgorithmIdentifier oid params) key optional) /\
    ((err = ErrOidUnknown /\ ~ rsa_oid oid) \/
     (err = ErrParametersMalformed /\ oid = rsaEncryption /\ params = None) \/
     (err = ErrPkcs1Version /\ rsa_oid oid /\ exists n e d p q dp dq qi others,
        key = der (RSAPrivateKey_multi n e d p q dp dq qi others)) \/
     (err = ErrKeyMalformed /\
      (wrong_params oid params \/
       (rsa_oid oid /\ exists n e d p q dp dq qi, Forall (fun z => 0 <= z) [n; e; d; p; q; dp; dq; qi] /\
          key = der (RSAPrivateKey n e d p q dp dq qi) /\ ~ importable n e d p q))))).
Proof. exact private_refusal. Qed.

(** PKCS#1 documents carry no identifier; their refusals are the remaining ones. *)
Theorem C105_pkcs1_public : forall mx, mx < 2 ^ 29 -> forall l err, from_pkcs1_public_der mx l = Err err ->
  (err = ErrAsn1 /\ forall n e, 0 <= n -> 0 <= e -> Z.of_nat (length l) <= mx -> l <> der (RSAPublicKey n e)) \/
  (err = ErrKeyMalformed /\ exists n e, 0 <= n /\ 0 <= e /\ l = der (RSAPublicKey n e) /\
     ~ public_usable n e (limb_bits n)).
Proof. exact pkcs1_public_refusal. Qed.

Theorem C105_pkcs1_private : forall mx, mx < 2 ^ 29 -> forall l err, from_pkcs1_der mx l = Err err ->
  (err = ErrAsn1 /\ forall n e d p q dp dq qi, Forall (fun z => 0 <= z) [n; e; d; p; q; dp; dq; qi] ->
     Z.of_nat (length l) <= mx -> l <> der (RSAPrivateKey n e d p q dp dq qi)) \/
  (err = ErrPkcs1Version /\ exists n e d p q dp dq qi others, l = der (RSAPrivateKey_multi n e d p q dp dq qi others)) \/
  (err = ErrKeyMalformed /\ exists n e d p q dp dq qi, Forall (fun z => 0 <= z) [n; e; d; p; q; dp; dq; qi] /\
     l = der (RSAPrivateKey n e d p q dp dq qi) /\ ~ importable n e d p q).
Proof. exact pkcs1_private_refusal. Qed.

(** Conversely, documents with a readable identifier are refused with the error of their
    cause, whatever the key in them.  (Numbers that are no usable key: C50.) *)
Theorem C105_public_reported : forall mx, mx < 2 ^ 29 -> forall oid params unused key,
  readable_identifier oid params -> octet_val unused <= 7 -> (unused <> x00 -> key <> []) ->
  let doc := PublicKeyDocument (AlgorithmIdentifier oid params) unused key in fits mx doc ->
  let r := from_public_key_der mx (der doc) in
  (~ rsa_oid oid -> r = Err ErrOidUnknown) /\
  (oid = rsaEncryption -> params = None -> r = Err ErrParametersMalformed) /\
  (wrong_params oid params -> r = Err ErrKeyMalformed) /\
  (rsa_oid oid -> unused <> x00 -> ~ (oid = rsaEncryption /\ params = None) -> r = Err ErrKeyMalformed).
Proof. intros mx H oid params u key _. exact (public_report mx H oid params u key). Qed.

Theorem C105_private_reported : forall mx, mx < 2 ^ 29 -> forall tl version optional oid params key,
  readable_identifier oid params -> version = 0 \/ version = 1 -> tl version optional = true ->
  let doc := OneAsymmetricKey version (AlgorithmIdentifier oid params) key optional in fits mx doc ->
  let r := from_pkcs8_der mx tl (der doc) in
  (~ rsa_oid oid -> r = Err ErrOidUnknown) /\
  (oid = rsaEncryption -> params = None -> r = Err ErrParametersMalformed) /\
  (wrong_params oid params -> r = Err ErrKeyMalformed).
Proof. intros mx H tl ver opt oid params key _. exact (private_report mx H tl ver opt oid params key). Qed.

(** Keys of three primes or more are refused as such in both kinds of document. *)
Theorem C105_multi_prime_reported : forall mx, mx < 2 ^ 29 ->
  forall tl version optional v n e d p q dp dq qi others,
  v = rsa_AlgorithmIdentifier \/ v = pss_AlgorithmIdentifier -> version = 0 \/ version = 1 -> tl version optional = true ->
  Forall (fun z => 0 <= z) [n; e; d; p; q; dp; dq; qi] -> others <> [] ->
  let key := der (RSAPrivateKey_multi n e d p q dp dq qi (der (OtherPrimeInfos others))) in
  fits mx (OneAsymmetricKey version v key optional) ->
  from_pkcs8_der mx tl (der (OneAsymmetricKey version v key optional)) = Err ErrPkcs1Version /\
  from_pkcs1_der mx key = Err ErrPkcs1Version.
Proof. intros mx H tl ver opt v n e d p q dp dq qi others V Hv T F _. exact (multi_report mx H tl ver opt v n e d p q dp dq qi others V Hv T F). Qed.

(** Serialised keys: an error of the format when the value carries no octets, else the
    error of the document. *)
Theorem C105_serialised : forall mx tl human v err,
  (de_public mx human v = Err err <->
   (err = ErrSerde /\ forall doc, ~ carries human v doc) \/
   (exists doc, carries human v doc /\ from_public_key_der mx doc = Err err)) /\
  (de_private mx tl human v = Err err <->
   (err = ErrSerde /\ forall doc, ~ carries human v doc) \/
   (exists doc, carries human v doc /\ from_pkcs8_der mx tl doc = Err err)).
Proof. intros mx tl human v err. split; apply de_refusal. Qed.

(** Encryption and decryption keys: an error of the format, or the error of what they give
    for the key. *)
Theorem C105_serialised_structs : forall mx tl human v err,
  (de_p1ek mx human v = Err err \/ de_oek mx human v = Err err ->
   err = ErrSerde \/ exists w, inner_value v w /\ de_public mx human w = Err err) /\
  (de_p1dk mx tl human v = Err err \/ de_odk mx tl human v = Err err ->
   err = ErrSerde \/ exists w, inner_value v w /\ de_private mx tl human w = Err err).
Proof.
  intros mx tl human v err. split; intros [H|H].
  - exact (struct_one_err _ mkP1EK v err H).
  - exact (struct_four_err _ mkOEK v err H).
  - exact (struct_one_err _ mkP1DK v err H).
  - exact (struct_four_err _ mkODK v err H).
Qed.

(** PSS signing and verifying keys are refused as the keys inside them would be. *)
Theorem C105_pss_keys : forall mx tl human hd bl l v err,
  (pssk_from_pkcs8_der mx tl hd bl l = Err err <-> from_pkcs8_der mx tl l = Err err) /\
  (psvk_from_public_key_der mx hd l = Err err <-> from_public_key_der mx l = Err err) /\
  (de_pssk mx tl human hd bl v = Err err <-> de_private mx tl human v = Err err) /\
  (de_psvk mx human hd v = Err err <-> de_public mx human v = Err err).
Proof.
  intros mx tl human hd bl l v err.
  assert (A : forall l0, pssk_from_pkcs8_der mx tl hd bl l0 = Err err <-> from_pkcs8_der mx tl l0 = Err err).
  { intros l0. rewrite C34_pss_signing_keys. destruct (from_pkcs8_der mx tl l0); cbn [bind]; split; intros H; congruence. }
  assert (B : forall l0, psvk_from_public_key_der mx hd l0 = Err err <-> from_public_key_der mx l0 = Err err).
  { intros l0. rewrite C34_pss_verifying_keys. destruct (from_public_key_der mx l0); cbn [bind]; split; intros H; congruence. }
  split; [apply A|]. split; [apply B|].
  split; (etransitivity; [apply de_refusal|]; etransitivity; [|symmetry; apply de_refusal]).
  - split; (intros [H|(b & C & H)]; [left; exact H|right; exists b; split; [exact C|apply A; exact H]]).
  - split; (intros [H|(b & C & H)]; [left; exact H|right; exists b; split; [exact C|apply B; exact H]]).
Qed.

(** So are PKCS#1 v1.5 ones, except that a document marked RSASSA-PSS is refused as another
    algorithm, before anything else in it is looked at. *)
Theorem C105_pkcs1v15_keys : forall mx, mx < 2 ^ 29 -> forall tl hd oid l err,
  let pss_public := exists params unused key,
    l = der (PublicKeyDocument (AlgorithmIdentifier id_RSASSA_PSS params) unused key) in
  let pss_private := exists version optional params key,
    l = der (OneAsymmetricKey version (AlgorithmIdentifier id_RSASSA_PSS params) key optional) in
  (p1vk_from_public_key_der mx hd oid l = Err err ->
   from_public_key_der mx l = Err err \/ (err = ErrOidUnknown /\ pss_public)) /\
  (from_public_key_der mx l = Err err ->
   p1vk_from_public_key_der mx hd oid l = Err err \/
   (p1vk_from_public_key_der mx hd oid l = Err ErrOidUnknown /\ pss_public)) /\
  (p1sk_from_pkcs8_der mx tl hd oid l = Err err ->
   from_pkcs8_der mx tl l = Err err \/ (err = ErrOidUnknown /\ pss_private)) /\
  (from_pkcs8_der mx tl l = Err err ->
   p1sk_from_pkcs8_der mx tl hd oid l = Err err \/
   (p1sk_from_pkcs8_der mx tl hd oid l = Err ErrOidUnknown /\ pss_private)).
Proof. exact pkcs1v15_refusal. Qed.

(** ** Each error occurs *)

(** id-ecPublicKey with a curve; rsaEncryption without NULL; RSASSA-PSS with parameters;
    a bit string of odd length; an even modulus; not DER. *)
Definition ec_oid : list byte := [x2a; x86; x48; xce; x3d; x02; x01].
Definition n64_key : list byte := der (RSAPublicKey (uval n64) (uval e64)).
Example C105_public_case :
  let read oid params unused key := from_public_key_der mx28 (der (PublicKeyDocument (AlgorithmIdentifier oid params) unused key)) in
  read ec_oid (Some (x06, [x2b; x81; x04; x00; x0a])) x00 [x04; x01] = Err ErrOidUnknown /\
  read rsaEncryption None x00 n64_key = Err ErrParametersMalformed /\
  read id_RSASSA_PSS (Some (x30, [])) x00 n64_key = Err ErrKeyMalformed /\
  read rsaEncryption (Some (x05, [])) x01 n64_key = Err ErrKeyMalformed /\
  read rsaEncryption (Some (x05, [])) x00 (der (RSAPublicKey 4 3)) = Err ErrKeyMalformed /\
  read rsaEncryption (Some (x05, [])) x00 [x30; x80] = Err ErrAsn1 /\
  (exists k, read rsaEncryption (Some (x05, [])) x00 n64_key = Ok k).
Proof.
  cbv zeta. do 6 (split; [vm_compute; reflexivity|]). eexists. vm_compute. reflexivity.
Qed.
Example C105_readable : readable_identifier ec_oid (Some (x06, [x2b; x81; x04; x00; x0a])) /\ ~ rsa_oid ec_oid.
Proof.
  split; [|intros [X|X]; discriminate X]. split; [|split; [cbn; lia|right; cbn; auto 8]].
  exists [1; 2; 840; 10045; 2; 1]. split; [|repeat constructor].
  constructor; try lia.
  apply (subs_cons 42 _ [x2a]); [apply (sub_octets [] x2a); [constructor|reflexivity|discriminate]|].
  apply (subs_cons 840 _ [x86; x48]); [apply (sub_octets [x86] x48); [repeat constructor; discriminate|reflexivity|discriminate]|].
  apply (subs_cons 10045 _ [xce; x3d]); [apply (sub_octets [xce] x3d); [repeat constructor; discriminate|reflexivity|discriminate]|].
  apply (subs_cons 2 _ [x02]); [apply (sub_octets [] x02); [constructor|reflexivity|discriminate]|].
  apply (subs_cons 1 [] [x01] []); [apply (sub_octets [] x01); [constructor|reflexivity|discriminate]|constructor].
Qed.
Example C105_private_case :
  let read oid params key := from_pkcs8_der mx28 opt28 (der (OneAsymmetricKey 0 (AlgorithmIdentifier oid params) key [])) in
  read ec_oid None [] = Err ErrOidUnknown /\
  read rsaEncryption None [] = Err ErrParametersMalformed /\
  read rsaEncryption (Some (x30, [])) [] = Err ErrKeyMalformed /\
  read id_RSASSA_PSS None (der (RSAPrivateKey_multi 105 5 5 3 5 1 1 2 (der (OtherPrimeInfos [(7, 5, 1)])))) = Err ErrPkcs1Version /\
  read id_RSASSA_PSS None (der (RSAPrivateKey 15 3 2 3 5 0 0 0)) = Err ErrKeyMalformed /\
  read id_RSASSA_PSS None [x04; x00] = Err ErrAsn1.
Proof. cbv zeta. do 5 (split; [vm_compute; reflexivity|]). vm_compute. reflexivity. Qed.
Example C105_pkcs1_case :
  from_pkcs1_public_der mx28 (der (RSAPublicKey 4 3)) = Err ErrKeyMalformed /\
  from_pkcs1_public_der mx28 [x30] = Err ErrAsn1 /\
  from_pkcs1_der mx28 (der (RSAPrivateKey 15 3 2 3 5 0 0 0)) = Err ErrKeyMalformed /\
  from_pkcs1_der mx28 (der (RSAPrivateKey_multi 105 5 5 3 5 1 1 2 (der (OtherPrimeInfos [(7, 5, 1)])))) = Err ErrPkcs1Version /\
  from_pkcs1_der mx28 [x30] = Err ErrAsn1.
Proof. do 4 (split; [vm_compute; reflexivity|]). vm_compute. reflexivity. Qed.
Example C105_serialised_case :
  de_public mx28 true (SStr [x30]) = Err ErrSerde /\ de_public mx28 true (SStr [x33; x30]) = Err ErrAsn1 /\
  de_public mx28 false (SStr [x33; x30]) = Err ErrSerde /\
  de_p1dk mx28 opt28 false (SBytes [x30]) = Err ErrSerde /\
  de_p1dk mx28 opt28 false (SStruct "DecryptingKey" [("inner", SBytes [x30])]) = Err ErrAsn1 /\
  de_odk mx28 opt28 false (STuple [SBytes [x30]]) = Err ErrAsn1 /\
  de_p1ek mx28 true (SStruct "EncryptingKey" []) = Err ErrSerde.
Proof. do 6 (split; [vm_compute; reflexivity|]). vm_compute. reflexivity. Qed.

Example C105_wrappers_case :
  let pub oid params key := der (PublicKeyDocument (AlgorithmIdentifier oid params) x00 key) in
  p1vk_from_public_key_der mx28 toy_hash oid_sha256 (pub id_RSASSA_PSS (Some (x30, [])) [x30]) = Err ErrOidUnknown /\
  from_public_key_der mx28 (pub id_RSASSA_PSS (Some (x30, [])) [x30]) = Err ErrKeyMalformed /\
  p1vk_from_public_key_der mx28 toy_hash oid_sha256 (pub rsaEncryption None [x30]) = Err ErrParametersMalformed /\
  psvk_from_public_key_der mx28 toy_hash (pub ec_oid None [x30]) = Err ErrOidUnknown /\
  psvk_from_public_key_der mx28 toy_hash (pub id_RSASSA_PSS None [x30]) = Err ErrAsn1.
Proof. cbv zeta. do 4 (split; [vm_compute; reflexivity|]). vm_compute. reflexivity. Qed.

Print Assumptions C105_public.
Print Assumptions C105_private.
Print Assumptions C105_pkcs1_public.
Print Assumptions C105_pkcs1_private.
Print Assumptions C105_public_reported.
Print Assumptions C105_private_reported.
Print Assumptions C105_multi_prime_reported.
Print Assumptions C105_serialised.
Print Assumptions C105_serialised_structs.
Print Assumptions C105_pss_keys.
Print Assumptions C105_pkcs1v15_keys.
