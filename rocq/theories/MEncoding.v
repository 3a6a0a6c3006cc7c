(** Model of src/encoding.rs, of the key (de)serialisation of src/key.rs:614-657 and of
    the wrapper types' conversions. *)
From Coq Require Import ZArith List Bool.
From Coq Require Import Init.Byte.
From Verif Require Import Base Bigint MHash MPkcs1 MRsa MGenerate MKey MApi MWrap MDer.
Import ListNotations.
Local Open Scope Z_scope.

(** [pkcs1::ALGORITHM_OID], 1.2.840.113549.1.1.1 (used at src/encoding.rs:27) *)
Definition oid_rsa_encryption : list byte := [x2a; x86; x48; x86; xf7; x0d; x01; x01; x01].
(** src/encoding.rs:19-20 [ID_RSASSA_PSS], 1.2.840.113549.1.1.10 *)
Definition oid_rsassa_pss : list byte := [x2a; x86; x48; x86; xf7; x0d; x01; x01; x0a].
(** [AnyRef] of [Null], src/encoding.rs:26 *)
Definition any_null : any := mkAny tag_null [].
(** [pkcs1::ALGORITHM_ID] (used at src/encoding.rs:144, 165) *)
Definition rsa_algorithm_id : alg_id := mkAlg oid_rsa_encryption (Some any_null).

(** [AnyRef] equality (derived in the dependency; used at src/encoding.rs:28) *)
Definition any_eqb (a b : any) : bool :=
  byte_eqb (any_tag a) (any_tag b) && bytes_eqb (any_value a) (any_value b).

(** src/encoding.rs:22-40 [verify_algorithm_id]; [parameters_any] fails when the
    parameters are absent. *)
Definition verify_algorithm_id (a : alg_id) : outcome unit :=
  if bytes_eqb (alg_oid a) oid_rsa_encryption then
    match alg_params a with
    | None => Err ErrParametersMalformed
    | Some p => if negb (any_eqb p any_null) then Err ErrKeyMalformed else Ok tt
    end
  else if bytes_eqb (alg_oid a) oid_rsassa_pss then
    match alg_params a with
    | Some _ => Err ErrKeyMalformed
    | None => Ok tt
    end
  else Err ErrOidUnknown.

(** src/encoding.rs:42-44 [uint_from_slice] *)
Definition uint_from_slice (data : list byte) (bits : Z) : outcome uint :=
  map_err (fun _ => ErrKeyMalformed) (from_be_slice data bits).

(** [u32::try_from(len).map_err(..)? * 8] (src/encoding.rs:60, 65-67, 91, 94-96); the
    multiplication overflows (panic in debug builds) for lengths of 2^29 and more. *)
Definition octets_bits (l : list byte) : outcome Z :=
  let n := Z.of_nat (length l) in
  let* _ := guard (n <? 2 ^ 32) ErrKeyMalformed in
  let* _ := assert_ (8 * n <? 2 ^ 32) in
  Ok (8 * n).

Section Encoding.
  (** [tail_ok]: see [decode_key_info] *)
  Context (der_max : Z) (tail_ok : Z -> list byte -> bool).

  (** src/encoding.rs:46-78 [TryFrom<PrivateKeyInfoRef> for RsaPrivateKey], after the
      DER of the inner structure is parsed (line 53) *)
  Definition private_from_pkcs1 (k : p1_private) : outcome privkey :=
    if pp_multi k then Err ErrPkcs1Version
    else
      let* bits := octets_bits (pp_modulus k) in
      let* n := uint_from_slice (pp_modulus k) bits in
      let* _ := guard (uis_odd n) ErrKeyMalformed in
      let* bits_e := octets_bits (pp_public_exponent k) in
      let* e := uint_from_slice (pp_public_exponent k) bits_e in
      let* d := uint_from_slice (pp_private_exponent k) bits in
      let* prime1 := uint_from_slice (pp_prime1 k) bits in
      let* prime2 := uint_from_slice (pp_prime2 k) bits in
      map_err (fun _ => ErrKeyMalformed) (from_components n e d [prime1; prime2]).
  Definition private_try_from (info : key_info) : outcome privkey :=
    let* _ := verify_algorithm_id (ki_alg info) in
    let* k := decode_p1_private der_max (ki_key info) in
    private_from_pkcs1 k.
  (** [DecodePrivateKey::from_pkcs8_der] (pkcs8 dependency), used at src/key.rs:654 *)
  Definition from_pkcs8_der (der : list byte) : outcome privkey :=
    let* info := decode_key_info der_max tail_ok der in
    private_try_from info.

  (** src/encoding.rs:80-101 [TryFrom<SubjectPublicKeyInfoRef> for RsaPublicKey] *)
  Definition public_from_pkcs1 (k : p1_public) : outcome pubkey :=
    let* bits := octets_bits (p1_modulus k) in
    let* n := uint_from_slice (p1_modulus k) bits in
    let* bits_e := octets_bits (p1_public_exponent k) in
    let* e := uint_from_slice (p1_public_exponent k) bits_e in
    map_err (fun _ => ErrKeyMalformed) (public_new n e).
  Definition public_try_from (spki : spki_info) : outcome pubkey :=
    let* _ := verify_algorithm_id (si_alg spki) in
    let* _ := guard (si_unused spki =? 0) ErrKeyMalformed in
    let* k := decode_p1_public der_max (si_key spki) in
    public_from_pkcs1 k.
  (** [DecodePublicKey::from_public_key_der] (spki dependency), used at src/key.rs:632 *)
  Definition from_public_key_der (der : list byte) : outcome pubkey :=
    let* spki := decode_spki der_max der in
    public_try_from spki.

  (** src/encoding.rs:118-125: d mod (prime - 1) *)
  Definition crt_exponent (d prime : uint) : outcome uint :=
    let* p := widen prime (uprec d) in
    let* x := usub_big p (u_of_u64 1) in
    let* _ := assert_ (negb (uis_zero x)) in
    urem d x.

  (** src/encoding.rs:104-141: the PKCS#1 structure *)
  Definition private_to_pkcs1 (k : privkey) : outcome p1_private :=
    if (2 <? length (sk_primes k))%nat then Err ErrPkcs1Version
    else
      let modulus := to_be_bytes (pk_n (sk_pub k)) in
      let public_exponent := to_be_bytes (pk_e (sk_pub k)) in
      let private_exponent := to_be_bytes (sk_d k) in
      let* p := get_idx (sk_primes k) 0 in
      let* q := get_idx (sk_primes k) 1 in
      let prime1 := to_be_bytes p in
      let prime2 := to_be_bytes q in
      let* dp := crt_exponent (sk_d k) p in
      let* dq := crt_exponent (sk_d k) q in
      let* coefficient := crt_coefficient k in
      match coefficient with
      | None => Err ErrPkcs1Crypto
      | Some coefficient =>
          let* modulus := uint_ref_new der_max modulus in
          let* public_exponent := uint_ref_new der_max public_exponent in
          let* private_exponent := uint_ref_new der_max private_exponent in
          let* prime1 := uint_ref_new der_max prime1 in
          let* prime2 := uint_ref_new der_max prime2 in
          let* exponent1 := uint_ref_new der_max (to_be_bytes dp) in
          let* exponent2 := uint_ref_new der_max (to_be_bytes dq) in
          let* coefficient := uint_ref_new der_max (to_be_bytes coefficient) in
          Ok (mkP1Priv false modulus public_exponent private_exponent prime1 prime2
                       exponent1 exponent2 coefficient)
      end.
  (** src/encoding.rs:103-151 [to_pkcs8_der]; also [Serialize] (src/key.rs:636-645) *)
  Definition to_pkcs8_der (k : privkey) : outcome (list byte) :=
    let* s := private_to_pkcs1 k in
    let* private_key := encode_p1_private der_max s in
    let* _ := guard (Z.of_nat (length private_key) <=? der_max) ErrAsn1 in
    encode_key_info der_max (mkKI rsa_algorithm_id private_key).

  (** src/encoding.rs:153-172 [to_public_key_der]; also [Serialize] (src/key.rs:614-623) *)
  Definition to_public_key_der (k : pubkey) : outcome (list byte) :=
    let* modulus := uint_ref_new der_max (to_be_bytes (pk_n k)) in
    let* public_exponent := uint_ref_new der_max (to_be_bytes (pk_e k)) in
    let* subject_public_key := encode_p1_public der_max (mkP1Pub modulus public_exponent) in
    let* _ := guard (Z.of_nat (length subject_public_key) <=? der_max) ErrAsn1 in
    encode_spki der_max (mkSpki rsa_algorithm_id 0 subject_public_key).

  (** * Wrapper types *)

  (** [AlgorithmIdentifierRef::assert_algorithm_oid] (dependency) *)
  Definition assert_algorithm_oid (a : alg_id) (oid : list byte) : outcome unit :=
    guard (bytes_eqb (alg_oid a) oid) ErrOidUnknown.

  (** src/pkcs1v15/signing_key.rs:244-256 *)
  Definition p1sk_try_from (hd : hashfn) (oid : list byte) (info : key_info) : outcome p1_signing_key :=
    let* _ := assert_algorithm_oid (ki_alg info) oid_rsa_encryption in
    let* k := private_try_from info in
    p1sk_new hd oid k.
  (** src/pkcs1v15/verifying_key.rs:193-204 *)
  Definition p1vk_try_from (hd : hashfn) (oid : list byte) (spki : spki_info) : outcome p1_verifying_key :=
    let* _ := assert_algorithm_oid (si_alg spki) oid_rsa_encryption in
    let* k := public_try_from spki in
    p1vk_new hd oid k.
  (** src/pss/signing_key.rs:228-238 *)
  Definition pssk_try_from (hd : hashfn) (info : key_info) : outcome pss_signing_key :=
    let* _ := verify_algorithm_id (ki_alg info) in
    let* k := private_try_from info in
    Ok (pssk_new hd false k).
  (** src/pss/blinded_signing_key.rs:204-213 (the result is the same structure) *)
  Definition psbsk_try_from (hd : hashfn) (info : key_info) : outcome pss_signing_key :=
    let* k := private_try_from info in
    Ok (pssk_new hd true k).
  (** src/pss/verifying_key.rs:163-182 *)
  Definition psvk_try_from (hd : hashfn) (spki : spki_info) : outcome pss_verifying_key :=
    let* _ := guard (bytes_eqb (alg_oid (si_alg spki)) oid_rsassa_pss
                     || bytes_eqb (alg_oid (si_alg spki)) oid_rsa_encryption) ErrOidUnknown in
    let* k := public_try_from spki in
    Ok (psvk_new hd k).

  (** [to_pkcs8_der], [from_pkcs8_der] and (de)serialisation of the wrapper types:
      src/pkcs1v15/signing_key.rs:189-196, 269-295 *)
  Definition p1sk_to_pkcs8_der (k : p1_signing_key) : outcome (list byte) :=
    to_pkcs8_der (p1sk_inner k).
  Definition p1sk_from_pkcs8_der (hd : hashfn) (oid l : list byte) : outcome p1_signing_key :=
    let* info := decode_key_info der_max tail_ok l in
    p1sk_try_from hd oid info.
  (** src/pkcs1v15/verifying_key.rs:153-160, 215-244 *)
  Definition p1vk_to_public_key_der (k : p1_verifying_key) : outcome (list byte) :=
    to_public_key_der (p1vk_inner k).
  Definition p1vk_from_public_key_der (hd : hashfn) (oid l : list byte) : outcome p1_verifying_key :=
    let* spki := decode_spki der_max l in
    p1vk_try_from hd oid spki.
  (** src/pss/signing_key.rs:187-194, 251-277; src/pss/blinded_signing_key.rs:163-170, 226-252 *)
  Definition pssk_to_pkcs8_der (k : pss_signing_key) : outcome (list byte) :=
    to_pkcs8_der (pssk_inner k).
  Definition pssk_from_pkcs8_der (hd : hashfn) (blinded : bool) (l : list byte)
    : outcome pss_signing_key :=
    let* info := decode_key_info der_max tail_ok l in
    if blinded then psbsk_try_from hd info else pssk_try_from hd info.
  (** src/pss/verifying_key.rs:136-143, 192-221 *)
  Definition psvk_to_public_key_der (k : pss_verifying_key) : outcome (list byte) :=
    to_public_key_der (psvk_inner k).
  Definition psvk_from_public_key_der (hd : hashfn) (l : list byte) : outcome pss_verifying_key :=
    let* spki := decode_spki der_max l in
    psvk_try_from hd spki.
End Encoding.

(** [pkcs1::RsaPssParams::new::<D>(salt_len)] (dependency): the digest's OID for the hash
    and for MGF1, the salt length octet; the trailer is fixed.  Its DER
    encoding ([Any::encode_from], src/pss.rs:249) is in MPssParams.v. *)
Record pss_alg_params := mkPssParams { psp_hash : list byte; psp_mgf_hash : list byte; psp_salt_len : Z }.
Record pss_alg_id := mkPssAlg { psa_oid : list byte; psa_params : pss_alg_params }.

(** src/pss.rs:241-251 [get_pss_signature_algo_id]; [salt_len] is a u8 *)
Definition get_pss_signature_algo_id (oid : list byte) (salt_len : Z) : pss_alg_id :=
  mkPssAlg oid_rsassa_pss (mkPssParams oid oid salt_len).
(** src/pss.rs:233-239 [get_default_pss_signature_algo_id]; [as u8] truncates *)
Definition get_default_pss_signature_algo_id (hd : hashfn) (oid : list byte) : pss_alg_id :=
  get_pss_signature_algo_id oid (Z.of_nat (h_size hd) mod 256).
(** src/pss/signing_key.rs:178-185, src/pss/blinded_signing_key.rs:155-161
    [signature_algorithm_identifier] *)
Definition pssk_algorithm_id (oid : list byte) (k : pss_signing_key) : pss_alg_id :=
  get_pss_signature_algo_id oid (Z.of_nat (pssk_salt_len k) mod 256).
