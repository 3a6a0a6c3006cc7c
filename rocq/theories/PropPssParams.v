(** Properties of RSASSA-PSS algorithm identifiers as octets: C89.  [mx] is the largest
    length the DER library handles and [b] whether its default digest identifier has
    NULL parameters; the theorems hold for every value. *)
From Coq Require Import ZArith List Bool Lia.
From Coq Require Import Init.Byte.
From Verif Require Import Base Bigint SpecRFC SpecKey SpecDer SpecPssParams MHash MRsa MKey MApi MWrap MDer MEncoding
  MPssParams KeyDefs PPub PEncoding PWrapEnc PPssParams KeyExamples PropEncoding.
Import ListNotations.
Local Open Scope Z_scope.

(** The identifier of a signing key names its digest, for the hash and for the mask,
    and its salt length modulo 256. *)
Theorem C89_identifier : forall mx b oid k doc, mx < 2 ^ 32 ->
  pssk_identifier_der mx b oid k = Ok doc ->
  pss_identifier doc oid oid (Z.of_nat (pssk_salt_len k) mod 256).
Proof.
  intros mx b oid k doc Hmx H. apply identifier_inv in H; auto. destruct H as (-> & _).
  eexists. split; [apply (value_params b)|]. reflexivity.
Qed.

(** It is DER: fields with default values are absent. *)
Theorem C89_canonical : forall mx b oid k doc, mx < 2 ^ 32 -> b = true \/ oid <> id_sha1 ->
  pssk_identifier_der mx b oid k = Ok doc ->
  exists v, RSASSA_PSS_params_DER oid oid (Z.of_nat (pssk_salt_len k) mod 256) v /\
    doc = der (ASequence [AOid id_RSASSA_PSS; v]).
Proof.
  intros mx b oid k doc Hmx D H. apply identifier_inv in H; auto. destruct H as (-> & _).
  eexists. split; [apply (value_params_DER b); tauto|]. reflexivity.
Qed.

(** It is produced whenever the OID leaves room, and nothing but an encoding error can
    happen otherwise. *)
Theorem C89_produced : forall mx b oid k, mx < 2 ^ 32 ->
  2 * Z.of_nat (length oid) + 100 <= mx ->
  exists doc, pssk_identifier_der mx b oid k = Ok doc.
Proof.
  intros mx b oid k Hmx R. eexists. apply identifier_ok; auto. apply identifier_room; auto. apply salt_range.
Qed.
Theorem C89_errors : forall mx b oid k, mx < 2 ^ 32 ->
  (exists doc, pssk_identifier_der mx b oid k = Ok doc) \/ pssk_identifier_der mx b oid k = Err ErrAsn1.
Proof. intros. apply identifier_settled; auto. Qed.

(** No octets are the identifier of two different parameters. *)
Theorem C89_unambiguous : forall doc h mh s h' mh' s',
  pss_identifier doc h mh s -> pss_identifier doc h' mh' s' -> 0 <= s -> 0 <= s' ->
  Z.of_nat (length doc) < 2 ^ 32 -> h = h' /\ mh = mh' /\ s = s'.
Proof. exact identifier_unambiguous. Qed.

(** Two keys have the same identifier exactly when they have the same digest and salt
    lengths congruent modulo 256. *)
Theorem C89_same_identifier : forall mx b oid k oid' k' doc doc', mx < 2 ^ 32 ->
  pssk_identifier_der mx b oid k = Ok doc -> pssk_identifier_der mx b oid' k' = Ok doc' ->
  (doc = doc' <-> oid = oid' /\
     Z.of_nat (pssk_salt_len k) mod 256 = Z.of_nat (pssk_salt_len k') mod 256).
Proof.
  intros mx b oid k oid' k' doc doc' Hmx H H'.
  pose proof (C89_identifier _ _ _ _ _ Hmx H) as P. pose proof (C89_identifier _ _ _ _ _ Hmx H') as P'.
  pose proof (identifier_inv mx Hmx b _ _ _ H) as (E & F). pose proof (identifier_inv mx Hmx b _ _ _ H') as (E' & _).
  split.
  - intros <-. destruct (C89_unambiguous _ _ _ _ _ _ _ P P') as (A & _ & B); auto; try apply salt_range; lia.
  - intros (<- & S). rewrite E, E', S. reflexivity.
Qed.

(** A verifier that reads the identifier, whatever its reader, and takes the salt length
    from it accepts the key's signatures exactly when that length is below 256. *)
Theorem C89_verifies : forall mx b hd oid k doc h mh s hashed sg,
  let pk := to_public_key (pssk_inner k) in
  mx < 2 ^ 32 -> pssk_identifier_der mx b oid k = Ok doc -> pss_identifier doc h mh s -> 0 <= s ->
  (0 < h_size hd)%nat -> wf_pub pk -> uprec (pk_n pk) < 2 ^ 32 -> wf_uint (sg_inner sg) ->
  Z.of_nat (h_size hd + pssk_salt_len k + 2) < 2 ^ 64 ->
  psvk_verify_prehash hd (pssk_verifying_key k) hashed sg = Ok tt ->
  h = oid /\ mh = oid /\
  (psvk_verify_prehash hd (psvk_new_with_salt_len pk (Z.to_nat s)) hashed sg = Ok tt <->
   (pssk_salt_len k < 256)%nat).
Proof.
  intros mx b hd oid k doc h mh s hashed sg pk Hmx H R S Hh Hk H32 Hw Hs V.
  pose proof (C89_identifier _ _ _ _ _ Hmx H) as P. pose proof (identifier_inv mx Hmx b _ _ _ H) as (_ & F).
  destruct (C89_unambiguous _ _ _ _ _ _ _ R P) as (-> & -> & ->); auto; [apply salt_range|lia|].
  split; [reflexivity|]. split; [reflexivity|]. exact (c44_verifies hd oid k hashed sg Hh Hk H32 Hw Hs V).
Qed.

(** The default identifier for a digest names the digest and its output size modulo 256. *)
Theorem C89_default : forall mx b hd oid a doc, mx < 2 ^ 32 ->
  default_pss_identifier mx b hd oid = Ok a -> encode_alg_id mx a = Ok doc ->
  pss_identifier doc oid oid (Z.of_nat (h_size hd) mod 256).
Proof.
  intros mx b hd oid a doc Hmx H E.
  apply (C89_identifier mx b oid (pssk_new hd false key64) doc Hmx).
  unfold pssk_identifier_der. change (pssk_identifier mx b oid (pssk_new hd false key64)) with (default_pss_identifier mx b hd oid).
  rewrite H. exact E.
Qed.

(** The identifier of signatures is not one for keys: a public key document that carries
    it is refused, as the parameters must then be absent. *)
Theorem C89_not_for_keys : forall mx b oid k doc key, mx < 2 ^ 32 ->
  pssk_identifier_der mx b oid k = Ok doc ->
  fits mx (SubjectPublicKeyInfo (ARaw doc) key) ->
  from_public_key_der mx (der (SubjectPublicKeyInfo (ARaw doc) key)) = Err ErrKeyMalformed.
Proof. intros mx b oid k doc key Hmx. apply identifier_not_for_keys; auto. Qed.

(** SHA-256 with 32 octets of salt *)
Example C89_case_sha256 : forall b,
  pssk_identifier_der mx28 b oid_sha256 (pssk_new_with_salt_len false key64 32) = Ok
    [x30; x41; x06; x09; x2a; x86; x48; x86; xf7; x0d; x01; x01; x0a;
     x30; x34; xa0; x0f; x30; x0d; x06; x09; x60; x86; x48; x01; x65; x03; x04; x02; x01; x05; x00;
     xa1; x1c; x30; x1a; x06; x09; x2a; x86; x48; x86; xf7; x0d; x01; x01; x08;
     x30; x0d; x06; x09; x60; x86; x48; x01; x65; x03; x04; x02; x01; x05; x00;
     xa2; x03; x02; x01; x20].
Proof. intros []; vm_compute; reflexivity. Qed.
(** A salt length octet with the top bit set takes two octets *)
Example C89_case_200 : forall b,
  (let* l := pssk_identifier_der mx28 b oid_sha256 (pssk_new_with_salt_len false key64 200) in Ok (skipn 62 l)) =
  Ok [xa2; x04; x02; x02; x00; xc8].
Proof. intros []; vm_compute; reflexivity. Qed.
(** SHA-1 with 20 octets: all defaults *)
Example C89_case_sha1 :
  pssk_identifier_der mx28 true id_sha1 (pssk_new_with_salt_len false key64 20) = Ok
    [x30; x0d; x06; x09; x2a; x86; x48; x86; xf7; x0d; x01; x01; x0a; x30; x00].
Proof. vm_compute. reflexivity. Qed.
(** 276 octets of salt are described like 20 *)
Example C89_case_276 : forall b,
  pssk_identifier_der mx28 b oid_sha256 (pssk_new_with_salt_len false key64 276) =
  pssk_identifier_der mx28 b oid_sha256 (pssk_new_with_salt_len true key64 20).
Proof. intros []; vm_compute; reflexivity. Qed.

(** A signature with two octets of salt, the key's identifier, and the verifier made
    from it *)
Example C89_case_verifies : exists doc sg,
  let k := pssk_new_with_salt_len false key199 2 in
  pssk_identifier_der mx28 true oid_sha256 k = Ok doc /\
  pssk_sign_prehash count_rng toy_hash 5 5 k [x0a; x0b] = Ok sg /\
  forall h mh s, pss_identifier doc h mh s -> 0 <= s ->
  h = oid_sha256 /\ mh = oid_sha256 /\
  psvk_verify_prehash toy_hash (psvk_new_with_salt_len pub199 (Z.to_nat s)) [x0a; x0b] sg = Ok tt.
Proof.
  destruct (C89_produced mx28 true oid_sha256 (pssk_new_with_salt_len false key199 2) eq_refl ltac:(vm_compute; discriminate))
    as (doc & D).
  exists doc. eexists. cbv zeta. split; [exact D|]. split; [vm_compute; reflexivity|].
  intros h mh s R S.
  edestruct (C89_verifies mx28 true toy_hash oid_sha256 (pssk_new_with_salt_len false key199 2) doc h mh s [x0a; x0b])
    as (A & B & C); [reflexivity|exact D|exact R|exact S|vm_compute; lia|exact wf_pub199|reflexivity| |reflexivity|
    |split; [exact A|split; [exact B|apply C]]].
  - unfold wf_uint. repeat split; vm_compute; congruence.
  - vm_compute; reflexivity.
  - cbn. lia.
Qed.

Print Assumptions C89_identifier.
Print Assumptions C89_canonical.
Print Assumptions C89_produced.
Print Assumptions C89_errors.
Print Assumptions C89_unambiguous.
Print Assumptions C89_same_identifier.
Print Assumptions C89_verifies.
Print Assumptions C89_default.
Print Assumptions C89_not_for_keys.
