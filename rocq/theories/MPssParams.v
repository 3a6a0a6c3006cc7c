(** Model of the octets behind src/pss.rs:233-251: [RsaPssParams::new], its encoding
    and [Any::encode_from] (crates [pkcs1] and [der]: dependencies, modelled from their
    documented behaviour). *)
From Coq Require Import ZArith List Bool.
From Coq Require Import Init.Byte.
From Verif Require Import Base Bigint MHash MDer MWrap MEncoding.
Import ListNotations.
Local Open Scope Z_scope.

(** [OID_SHA_1] and [OID_MGF_1] of the dependency (src/pss.rs:245 [RsaPssParams::new]) *)
Definition oid_sha_1 : list byte := [x2b; x0e; x03; x02; x1a].
Definition oid_mgf_1 : list byte := [x2a; x86; x48; x86; xf7; x0d; x01; x01; x08].

Section PssParams.
  (** [Length::MAX] of the dependency; and whether its default digest identifier carries
      NULL parameters, as those built at src/pss.rs:245 do.  If not, SHA-1 is written
      out like any other digest. *)
  Context (der_max : Z) (sha1_null : bool).

  (** src/pss.rs:245: the identifier of a digest, with NULL parameters *)
  Definition digest_alg_id (oid : list byte) : alg_id := mkAlg oid (Some any_null).
  (** Whether the identifier of src/pss.rs:245 equals the default one (pkcs1 dependency). *)
  Definition is_default_digest (oid : list byte) : bool := sha1_null && bytes_eqb oid oid_sha_1.

  (** Explicit context-specific tag [n] (der dependency) *)
  Definition encode_context (n : Z) (l : list byte) : outcome (list byte) :=
    encode_tlv der_max (z2b (160 + n)) l.

  (** [RsaPssParams::encode] (called from src/pss.rs:249): fields equal to their default
      are left out; the trailer always is. *)
  Definition encode_pss_params (p : pss_alg_params) : outcome (list byte) :=
    let* hash :=
      if is_default_digest (psp_hash p) then Ok []
      else (let* a := encode_alg_id der_max (digest_alg_id (psp_hash p)) in encode_context 0 a) in
    let* mask :=
      if is_default_digest (psp_mgf_hash p) then Ok []
      else
        (let* o := encode_tlv der_max tag_oid oid_mgf_1 in
         let* a := encode_alg_id der_max (digest_alg_id (psp_mgf_hash p)) in
         let* m := encode_tlv der_max tag_sequence (o ++ a) in
         encode_context 1 m) in
    let* salt :=
      if psp_salt_len p =? 20 then Ok []
      else (let* s := encode_uint der_max [z2b (psp_salt_len p)] in encode_context 2 s) in
    encode_tlv der_max tag_sequence (hash ++ mask ++ salt).

  (** [Any::encode_from] (src/pss.rs:249): encoded, then read back as tag and value *)
  Definition any_encode_from (p : pss_alg_params) : outcome any :=
    let* doc := encode_pss_params p in
    let* (tag, value, rest) := decode_tlv der_max doc in
    let* _ := finish rest in
    Ok (mkAny tag value).

  (** src/pss.rs:247-250: the [AlgorithmIdentifierOwned] returned *)
  Definition pss_alg_id_owned (a : pss_alg_id) : outcome alg_id :=
    let* params := any_encode_from (psa_params a) in
    Ok (mkAlg (psa_oid a) (Some params)).

  (** src/pss.rs:233-239 and the signing keys' [signature_algorithm_identifier]
      (src/pss/signing_key.rs:178-185, src/pss/blinded_signing_key.rs:154-161) *)
  Definition default_pss_identifier (hd : hashfn) (oid : list byte) : outcome alg_id :=
    pss_alg_id_owned (get_default_pss_signature_algo_id hd oid).
  Definition pssk_identifier (oid : list byte) (k : pss_signing_key) : outcome alg_id :=
    pss_alg_id_owned (pssk_algorithm_id oid k).

  (** What a caller writes into a certificate or CMS structure (src/pss.rs:241-251): the identifier's DER *)
  Definition pssk_identifier_der (oid : list byte) (k : pss_signing_key) : outcome (list byte) :=
    let* a := pssk_identifier oid k in
    encode_alg_id der_max a.
End PssParams.
