(** Model of the [Serialize]/[Deserialize] implementations (feature "serde"), of the
    PKCS#1 document traits, of signature bit strings, and of the PKCS#1 v1.5 signature
    algorithm identifiers.

    A serializer is modelled by the value of serde's data model it is given, a
    deserializer by the value it offers; [human] says whether the format is
    human-readable.  Formats themselves (JSON, ...) are not modelled. *)
From Coq Require Import String ZArith List Bool.
From Coq Require Import Init.Byte.
From Verif Require Import Base Bigint MHash MPkcs1 MRsa MGenerate MKey MApi MWrap MDer MEncoding SpecSerde.
Import ListNotations.
Local Open Scope string_scope.
Local Open Scope list_scope.
Local Open Scope Z_scope.

(** [base16ct::mixed::decode_vec] (dependency): digits of either case, even length. *)
Definition hex_value (c : byte) : option Z :=
  let v := b2z c in
  if (48 <=? v) && (v <=? 57) then Some (v - 48)
  else if (97 <=? v) && (v <=? 102) then Some (v - 87)
  else if (65 <=? v) && (v <=? 70) then Some (v - 55)
  else None.
Fixpoint hex_decode (s : list byte) : outcome (list byte) :=
  match s with
  | [] => Ok []
  | [_] => Err ErrSerde
  | hi :: lo :: rest =>
      match hex_value hi, hex_value lo with
      | Some a, Some b => let* l := hex_decode rest in Ok (z2b (16 * a + b) :: l)
      | _, _ => Err ErrSerde
      end
  end.

(** [serdect::slice::serialize_hex_lower_or_bin] and [deserialize_hex_or_bin_vec]
    (dependency), as used at src/key.rs:622, 632, 644, 655, src/pkcs1v15/signature.rs:86, 96,
    src/pss/signature.rs:81, 91 and in the signing and verifying keys. *)
Definition ser_bytes (human : bool) (b : list byte) : sval :=
  if human then SStr (flat_map (hex_byte false) b) else SBytes b.
Definition de_bytes (human : bool) (v : sval) : outcome (list byte) :=
  match human, v with
  | true, SStr s => hex_decode s
  | false, SBytes b => Ok b
  | _, _ => Err ErrSerde
  end.

Section Serde.
  Context (der_max : Z) (tail_ok : Z -> list byte -> bool) (human : bool).

  (** src/key.rs:614-634 *)
  Definition ser_public (k : pubkey) : outcome sval :=
    let* der := to_public_key_der der_max k in Ok (ser_bytes human der).
  Definition de_public (v : sval) : outcome pubkey :=
    let* der := de_bytes human v in from_public_key_der der_max der.
  (** src/key.rs:636-657 *)
  Definition ser_private (k : privkey) : outcome sval :=
    let* der := to_pkcs8_der der_max k in Ok (ser_bytes human der).
  Definition de_private (v : sval) : outcome privkey :=
    let* der := de_bytes human v in from_pkcs8_der der_max tail_ok der.

  (** src/pkcs1v15/signing_key.rs:269-295, verifying_key.rs:215-243 *)
  Definition ser_p1sk (k : p1_signing_key) : outcome sval :=
    let* der := p1sk_to_pkcs8_der der_max k in Ok (ser_bytes human der).
  Definition de_p1sk (hd : hashfn) (oid : list byte) (v : sval) : outcome p1_signing_key :=
    let* der := de_bytes human v in p1sk_from_pkcs8_der der_max tail_ok hd oid der.
  Definition ser_p1vk (k : p1_verifying_key) : outcome sval :=
    let* der := p1vk_to_public_key_der der_max k in Ok (ser_bytes human der).
  Definition de_p1vk (hd : hashfn) (oid : list byte) (v : sval) : outcome p1_verifying_key :=
    let* der := de_bytes human v in p1vk_from_public_key_der der_max hd oid der.
  (** src/pss/signing_key.rs:251-277, blinded_signing_key.rs:226-252, verifying_key.rs:192-220 *)
  Definition ser_pssk (k : pss_signing_key) : outcome sval :=
    let* der := pssk_to_pkcs8_der der_max k in Ok (ser_bytes human der).
  Definition de_pssk (hd : hashfn) (blinded : bool) (v : sval) : outcome pss_signing_key :=
    let* der := de_bytes human v in pssk_from_pkcs8_der der_max tail_ok hd blinded der.
  Definition ser_psvk (k : pss_verifying_key) : outcome sval :=
    let* der := psvk_to_public_key_der der_max k in Ok (ser_bytes human der).
  Definition de_psvk (hd : hashfn) (v : sval) : outcome pss_verifying_key :=
    let* der := de_bytes human v in psvk_from_public_key_der der_max hd der.

  (** src/pkcs1v15/signature.rs:79-101, src/pss/signature.rs:74-96 *)
  Definition ser_signature (s : signature) : sval := ser_bytes human (signature_to_bytes s).
  Definition de_signature (v : sval) : outcome signature :=
    let* b := de_bytes human v in signature_try_from b.

  (** serde's [derive] (src/oaep/decrypting_key.rs:19, encrypting_key.rs:14) for
    [Option<Box<[u8]>>] and [PhantomData] *)
  Definition ser_label (l : option (list byte)) : sval :=
    match l with None => SNone | Some b => SSome (SSeq b) end.
  Definition de_label (v : sval) : outcome (option (list byte)) :=
    match v with
    | SNone => Ok None
    | SSome (SSeq b) => Ok (Some b)
    | _ => Err ErrSerde
    end.
  Definition de_phantom (v : sval) : outcome unit :=
    match v with SUnitStruct _ => Ok tt | _ => Err ErrSerde end.

  (** What [derive(Deserialize)] generates for structs ([visit_map], by name): the
      fields in any order, none twice, unknown ones skipped.  Here for the four fields
      of the OAEP keys (src/oaep/decrypting_key.rs:19-29, encrypting_key.rs:14-24); the
      PKCS#1 v1.5 ones (src/pkcs1v15/decrypting_key.rs:17-20, encrypting_key.rs:12-15) have
      only the first. *)
  Record seen (A : Type) := mkSeen {
    seen_inner : option A; seen_label : option (option (list byte));
    seen_phantom : option unit; seen_mg : option unit }.
  Definition once {A} (old : option A) (v : outcome A) : outcome (option A) :=
    match old with
    | Some _ => Err ErrSerde
    | None => let* x := v in Ok (Some x)
    end.
  Definition required {A} (o : option A) : outcome A :=
    match o with Some x => Ok x | None => Err ErrSerde end.

  Section Struct.
    Context {A : Type} (de : sval -> outcome A).
    Fixpoint visit_one (fields : list (string * sval)) (acc : option A) : outcome A :=
      match fields with
      | [] => required acc
      | (name, v) :: rest =>
          if string_dec name "inner" then
            let* acc := once acc (de v) in visit_one rest acc
          else visit_one rest acc
      end.
    Fixpoint visit_four (fields : list (string * sval)) (acc : seen A)
      : outcome (A * option (list byte)) :=
      let '(mkSeen _ i l p m) := acc in
      match fields with
      | [] =>
          let* i := required i in
          (* a missing [Option] field is [None] *)
          let l := match l with Some l => l | None => None end in
          let* _ := required p in
          let* _ := required m in
          Ok (i, l)
      | (name, v) :: rest =>
          if string_dec name "inner" then
            let* i := once i (de v) in visit_four rest (mkSeen _ i l p m)
          else if string_dec name "label" then
            let* l := once l (de_label v) in visit_four rest (mkSeen _ i l p m)
          else if string_dec name "phantom" then
            let* p := once p (de_phantom v) in visit_four rest (mkSeen _ i l p m)
          else if string_dec name "mg_phantom" then
            let* m := once m (de_phantom v) in visit_four rest (mkSeen _ i l p m)
          else visit_four rest (mkSeen _ i l p m)
      end.
    (** [visit_seq] of the same derived implementations: formats that give fields by position; every field must be there, and
        further elements are not asked for. *)
    Definition visit_seq_one (vs : list sval) : outcome A :=
      match vs with i :: _ => de i | [] => Err ErrSerde end.
    Definition visit_seq_four (vs : list sval) : outcome (A * option (list byte)) :=
      match vs with
      | [] => Err ErrSerde
      | i :: vs =>
          let* i := de i in
          match vs with
          | l :: p :: m :: _ =>
              let* l := de_label l in
              let* _ := de_phantom p in
              let* _ := de_phantom m in
              Ok (i, l)
          | _ => Err ErrSerde
          end
      end.
  End Struct.

  (** [derive(Serialize, Deserialize)]: src/pkcs1v15/encrypting_key.rs:11-15,
      decrypting_key.rs:16-20 *)
  Definition ser_p1ek (k : p1_encrypting_key) : outcome sval :=
    let* i := ser_public (p1ek_inner k) in Ok (SStruct "EncryptingKey" [("inner", i)]).
  Definition de_p1ek (v : sval) : outcome p1_encrypting_key :=
    match v with
    | SStruct _ fields => let* i := visit_one de_public fields None in Ok (mkP1EK i)
    | STuple fields => let* i := visit_seq_one de_public fields in Ok (mkP1EK i)
    | _ => Err ErrSerde
    end.
  Definition ser_p1dk (k : p1_decrypting_key) : outcome sval :=
    let* i := ser_private (p1dk_inner k) in Ok (SStruct "DecryptingKey" [("inner", i)]).
  Definition de_p1dk (v : sval) : outcome p1_decrypting_key :=
    match v with
    | SStruct _ fields => let* i := visit_one de_private fields None in Ok (mkP1DK i)
    | STuple fields => let* i := visit_seq_one de_private fields in Ok (mkP1DK i)
    | _ => Err ErrSerde
    end.

  (** [derive(Serialize, Deserialize)]: src/oaep/encrypting_key.rs:13-24,
      decrypting_key.rs:18-29 *)
  Definition oaep_fields (inner : sval) (label : option (list byte)) : list (string * sval) :=
    [("inner", inner); ("label", ser_label label);
     ("phantom", SUnitStruct "PhantomData"); ("mg_phantom", SUnitStruct "PhantomData")].
  Definition ser_oek (k : oaep_encrypting_key) : outcome sval :=
    let* i := ser_public (oek_inner k) in
    Ok (SStruct "EncryptingKey" (oaep_fields i (oek_label k))).
  Definition de_oek (v : sval) : outcome oaep_encrypting_key :=
    match v with
    | SStruct _ fields =>
        let* (i, l) := visit_four de_public fields (mkSeen _ None None None None) in Ok (mkOEK i l)
    | STuple fields => let* (i, l) := visit_seq_four de_public fields in Ok (mkOEK i l)
    | _ => Err ErrSerde
    end.
  Definition ser_odk (k : oaep_decrypting_key) : outcome sval :=
    let* i := ser_private (odk_inner k) in
    Ok (SStruct "DecryptingKey" (oaep_fields i (odk_label k))).
  Definition de_odk (v : sval) : outcome oaep_decrypting_key :=
    match v with
    | SStruct _ fields =>
        let* (i, l) := visit_four de_private fields (mkSeen _ None None None None) in Ok (mkODK i l)
    | STuple fields => let* (i, l) := visit_seq_four de_private fields in Ok (mkODK i l)
    | _ => Err ErrSerde
    end.
End Serde.

(** * PKCS#1 documents *)

Section Pkcs1Docs.
  Context (der_max : Z) (tail_ok : Z -> list byte -> bool).

  (** [pkcs1::DecodeRsaPrivateKey]/[EncodeRsaPrivateKey] (re-exported at src/lib.rs:240,
      used by tests/pkcs1.rs:51-270): the dependency wraps the PKCS#1 document in a
      PKCS#8 structure with the rsaEncryption identifier and goes through the
      conversions of src/encoding.rs. *)
  Definition from_pkcs1_der (l : list byte) : outcome privkey :=
    let* _ := guard (Z.of_nat (length l) <=? der_max) ErrAsn1 in
    private_try_from der_max (mkKI rsa_algorithm_id l).
  Definition to_pkcs1_der (k : privkey) : outcome (list byte) :=
    let* doc := to_pkcs8_der der_max k in
    let* info := decode_key_info der_max tail_ok doc in
    let* s := decode_p1_private der_max (ki_key info) in
    encode_p1_private der_max s.
  (** The same for public keys ([from_pkcs1_pem] at src/lib.rs:161). *)
  Definition from_pkcs1_public_der (l : list byte) : outcome pubkey :=
    let* _ := guard (Z.of_nat (length l) <=? der_max) ErrAsn1 in
    public_try_from der_max (mkSpki rsa_algorithm_id 0 l).
  Definition to_pkcs1_public_der (k : pubkey) : outcome (list byte) :=
    let* doc := to_public_key_der der_max k in
    let* spki := decode_spki der_max doc in
    let* s := decode_p1_public der_max (si_key spki) in
    encode_p1_public der_max s.

  (** [SignatureBitStringEncoding]: src/pkcs1v15/signature.rs:27-31,
      src/pss/signature.rs:27-31: unused bits and octets *)
  Definition signature_to_bitstring (s : signature) : outcome (Z * list byte) :=
    let b := signature_to_bytes s in
    let* _ := guard (Z.of_nat (length b) <=? der_max) ErrAsn1 in
    Ok (0, b).
End Pkcs1Docs.

(** * Signature algorithm identifiers of PKCS#1 v1.5 keys *)

(** The digests with an RSA signature identifier: src/pkcs1v15.rs:213-253 *)
Inductive rsa_digest := Sha1 | Sha224 | Sha256 | Sha384 | Sha512.
(** Arcs of the identifiers, as written in src/pkcs1v15.rs:225-249. *)
Definition rsa_signature_arcs (d : rsa_digest) : list Z :=
  match d with
  | Sha1 => [1; 2; 840; 113549; 1; 1; 5]
  | Sha224 => [1; 2; 840; 113549; 1; 1; 14]
  | Sha256 => [1; 2; 840; 113549; 1; 1; 11]
  | Sha384 => [1; 2; 840; 113549; 1; 1; 12]
  | Sha512 => [1; 2; 840; 113549; 1; 1; 13]
  end.
(** [const_oid::ObjectIdentifier::new_unwrap] (dependency): X.690 8.19.  Base 128 with
    continuation bits; five octets are enough for 32-bit arcs. *)
Fixpoint base128_more (fuel : nat) (v : Z) : list byte :=
  match fuel with
  | O => []
  | S fuel => if v =? 0 then [] else base128_more fuel (v / 128) ++ [z2b (128 + v mod 128)]
  end.
Definition base128 (v : Z) : list byte := base128_more 4 (v / 128) ++ [z2b (v mod 128)].
Definition oid_octets (arcs : list Z) : list byte :=
  match arcs with
  | a :: b :: rest => z2b (40 * a + b) :: flat_map base128 rest
  | _ => []
  end.
(** [SIGNATURE_ALGORITHM_IDENTIFIER]: src/pkcs1v15/signing_key.rs:231-242,
    verifying_key.rs:180-191 *)
Definition p1_signature_algorithm_id (d : rsa_digest) : alg_id :=
  mkAlg (oid_octets (rsa_signature_arcs d)) (Some any_null).
