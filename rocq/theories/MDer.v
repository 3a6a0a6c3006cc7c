(** Model of the DER layer that src/encoding.rs, src/pss.rs:233-251 and the wrapper
    types call into (crates [der], [spki], [pkcs1], [pkcs8]: dependencies, modelled
    from their documented behaviour; see DESIGN.md for what is left out). *)
From Coq Require Import ZArith List Bool.
From Coq Require Import Init.Byte.
From Verif Require Import Base Bigint.
Import ListNotations.
Local Open Scope Z_scope.

(** [der::Tag] octets used by the structures of src/encoding.rs:46-172. *)
Definition tag_integer : byte := x02.
Definition tag_bit_string : byte := x03.
Definition tag_octet_string : byte := x04.
Definition tag_null : byte := x05.
Definition tag_oid : byte := x06.
Definition tag_sequence : byte := x30.

(** [der::Length::encode]: short form, or one to four length octets
    (used by every [to_der] at src/encoding.rs:141, 162 and the conversions to
    documents at 143-147, 164-171). *)
Definition length_octets (n : Z) : list byte :=
  if n <? 128 then [z2b n]
  else if n <? 256 then [x81; z2b n]
  else if n <? 65536 then [x82; z2b (n / 256); z2b n]
  else if n <? 16777216 then [x83; z2b (n / 65536); z2b (n / 256); z2b n]
  else [x84; z2b (n / 16777216); z2b (n / 65536); z2b (n / 256); z2b n].

(** Everything below is relative to [der::Length::MAX], a constant of the dependency. *)
Section Der.
  Context (der_max : Z).

  (** Header and value (der dependency, under src/encoding.rs:132-149, 158-171), refusing lengths
      above [Length::MAX]. *)
  Definition encode_tlv (tag : byte) (content : list byte) : outcome (list byte) :=
    let out := tag :: length_octets (Z.of_nat (length content)) ++ content in
    if der_max <? Z.of_nat (length out) then Err ErrAsn1 else Ok out.

  (** [der::asn1::UintRef::new] (src/encoding.rs:131-138, 159-160): leading zero
      octets are stripped, at least one octet stays. *)
  Fixpoint strip_zeros (l : list byte) : list byte :=
    match l with
    | b :: ((_ :: _) as rest) => if byte_eqb b x00 then strip_zeros rest else l
    | _ => l
    end.
  Definition uint_ref_new (bytes : list byte) : outcome (list byte) :=
    let l := strip_zeros bytes in
    if der_max <? Z.of_nat (length l) then Err ErrAsn1 else Ok l.

  (** [UintRef::encode_value] (der dependency, for src/encoding.rs:133-140, 159-160): a zero octet in front of a set top bit. *)
  Definition uint_content (l : list byte) : list byte :=
    match l with
    | b :: _ => if b2z b <? 128 then l else x00 :: l
    | [] => l
    end.
  Definition encode_uint (l : list byte) : outcome (list byte) :=
    encode_tlv tag_integer (uint_content l).

  (** [der::Length::decode] (dependency, under src/encoding.rs:52, 89): minimal definite form only. *)
  Definition long_length (nbytes : nat) (l : list byte) : outcome (Z * list byte) :=
    if (length l <? nbytes)%nat then Err ErrAsn1
    else
      let n := be_value (firstn nbytes l) in
      let* _ := guard (n <=? der_max) ErrAsn1 in
      (* X.690 section 10.1: the number of length octets must be minimal *)
      let* _ := guard ((Z.of_nat (length (length_octets n)) =? Z.of_nat nbytes + 1)
                       && negb (n <? 128)) ErrAsn1 in
      Ok (n, skipn nbytes l).
  Definition decode_length (l : list byte) : outcome (Z * list byte) :=
    match l with
    | [] => Err ErrAsn1
    | b :: rest =>
        let v := b2z b in
        if v <? 128 then (let* _ := guard (v <=? der_max) ErrAsn1 in Ok (v, rest))
        else if v =? 129 then long_length 1 rest
        else if v =? 130 then long_length 2 rest
        else if v =? 131 then long_length 3 rest
        else if v =? 132 then long_length 4 rest
        else Err ErrAsn1
    end.

  (** One header and value (der dependency, under src/encoding.rs:52, 89): tag, value, remaining input. *)
  Definition decode_tlv (l : list byte) : outcome (byte * list byte * list byte) :=
    match l with
    | [] => Err ErrAsn1
    | tag :: rest =>
        let* (n, rest) := decode_length rest in
        if Z.of_nat (length rest) <? n then Err ErrAsn1
        else Ok (tag, firstn (Z.to_nat n) rest, skipn (Z.to_nat n) rest)
    end.
  (** The same (der dependency) with the tag required by the type being decoded. *)
  Definition decode_tagged (tag : byte) (l : list byte) : outcome (list byte * list byte) :=
    let* (t, content, rest) := decode_tlv l in
    if byte_eqb t tag then Ok (content, rest) else Err ErrAsn1.

  (** [UintRef::decode_value] (der dependency, for src/encoding.rs:53, 89): canonical non-negative integers only. *)
  Definition uint_value (content : list byte) : outcome (list byte) :=
    match content with
    | [] => Err ErrAsn1
    | [b] => if b2z b <? 128 then Ok [b] else Err ErrAsn1
    | b :: ((c :: _) as rest) =>
        if byte_eqb b x00 then (if b2z c <? 128 then Err ErrAsn1 else Ok rest)
        else if b2z b <? 128 then Ok content else Err ErrAsn1
    end.
  Definition decode_uint (l : list byte) : outcome (list byte * list byte) :=
    let* (content, rest) := decode_tagged tag_integer l in
    let* v := uint_value content in
    Ok (v, rest).

  (** End of a SEQUENCE or document (der dependency): no trailing data. *)
  Definition finish (l : list byte) : outcome unit :=
    match l with [] => Ok tt | _ => Err ErrAsn1 end.

  (** * [spki::AlgorithmIdentifierRef] *)

  (** An [AnyRef] (der dependency, compared in src/encoding.rs:26): tag and value. *)
  Record any := mkAny { any_tag : byte; any_value : list byte }.
  (** [AlgorithmIdentifierRef] (spki dependency, src/encoding.rs:22-40): OID octets and
    optional parameters. *)
  Record alg_id := mkAlg { alg_oid : list byte; alg_params : option any }.

  Definition encode_alg_id (a : alg_id) : outcome (list byte) :=
    let* oid := encode_tlv tag_oid (alg_oid a) in
    let* params := match alg_params a with
                   | None => Ok []
                   | Some p => encode_tlv (any_tag p) (any_value p)
                   end in
    encode_tlv tag_sequence (oid ++ params).
  (** Simplification of the spki dependency: OID octets are not checked to be well-formed arcs and unknown
      parameter tags are not refused; such identifiers are refused by
      [verify_algorithm_id] in either case. *)
  Definition decode_alg_id (l : list byte) : outcome (alg_id * list byte) :=
    let* (body, rest) := decode_tagged tag_sequence l in
    let* (oid, body) := decode_tagged tag_oid body in
    match body with
    | [] => Ok (mkAlg oid None, rest)
    | _ =>
        let* (t, v, body) := decode_tlv body in
        let* _ := finish body in
        Ok (mkAlg oid (Some (mkAny t v)), rest)
    end.

  (** * [pkcs1::RsaPublicKey] (dependency; src/encoding.rs:88-97, 158-162) *)

  Record p1_public := mkP1Pub { p1_modulus : list byte; p1_public_exponent : list byte }.

  (** [to_der] as used at src/encoding.rs:158-162 *)
  Definition encode_p1_public (k : p1_public) : outcome (list byte) :=
    let* n := encode_uint (p1_modulus k) in
    let* e := encode_uint (p1_public_exponent k) in
    encode_tlv tag_sequence (n ++ e).
  (** [TryFrom<&[u8]>] as used at src/encoding.rs:88-89 *)
  Definition decode_p1_public (l : list byte) : outcome p1_public :=
    let* (body, rest) := decode_tagged tag_sequence l in
    let* (n, body) := decode_uint body in
    let* (e, body) := decode_uint body in
    let* _ := finish body in
    let* _ := finish rest in
    Ok (mkP1Pub n e).

  (** * [pkcs1::RsaPrivateKey] *)

  (** [pkcs1::RsaPrivateKey] (dependency; src/encoding.rs:53-75, 132-143).  [pp_multi]: the structure carries other prime infos (version 1). *)
  Record p1_private := mkP1Priv {
    pp_multi : bool;
    pp_modulus : list byte; pp_public_exponent : list byte; pp_private_exponent : list byte;
    pp_prime1 : list byte; pp_prime2 : list byte;
    pp_exponent1 : list byte; pp_exponent2 : list byte; pp_coefficient : list byte }.

  (** [to_der] as used at src/encoding.rs:130-141, where [other_prime_infos] is None. *)
  Definition encode_p1_private (k : p1_private) : outcome (list byte) :=
    let* v := encode_uint [x00] in
    let* n := encode_uint (pp_modulus k) in
    let* e := encode_uint (pp_public_exponent k) in
    let* d := encode_uint (pp_private_exponent k) in
    let* p := encode_uint (pp_prime1 k) in
    let* q := encode_uint (pp_prime2 k) in
    let* dp := encode_uint (pp_exponent1 k) in
    let* dq := encode_uint (pp_exponent2 k) in
    let* qi := encode_uint (pp_coefficient k) in
    encode_tlv tag_sequence (v ++ n ++ e ++ d ++ p ++ q ++ dp ++ dq ++ qi).

  (** [TryFrom<&[u8]>] as used at src/encoding.rs:53.  Simplification: the other prime
      infos of a version 1 structure are not parsed (src/encoding.rs:56-58 refuses
      such keys in any case); other versions are refused. *)
  Definition decode_p1_private (l : list byte) : outcome p1_private :=
    let* (body, rest) := decode_tagged tag_sequence l in
    let* (v, body) := decode_uint body in
    let* (n, body) := decode_uint body in
    let* (e, body) := decode_uint body in
    let* (d, body) := decode_uint body in
    let* (p, body) := decode_uint body in
    let* (q, body) := decode_uint body in
    let* (dp, body) := decode_uint body in
    let* (dq, body) := decode_uint body in
    let* (qi, body) := decode_uint body in
    let* multi :=
      match v with
      | [b] => if byte_eqb b x00 then (let* _ := finish body in Ok false)
               else if byte_eqb b x01 then Ok true
               else Err ErrAsn1
      | _ => Err ErrAsn1
      end in
    let* _ := finish rest in
    Ok (mkP1Priv multi n e d p q dp dq qi).

  (** * [pkcs8::PrivateKeyInfoRef] (dependency; src/encoding.rs:46-53, 145-149) *)

  Record key_info := mkKI { ki_alg : alg_id; ki_key : list byte }.

  (** [PrivateKeyInfoRef::new(..).try_into()] at src/encoding.rs:143-147: version 0,
      no attributes, no public key. *)
  Definition encode_key_info (k : key_info) : outcome (list byte) :=
    let* v := encode_uint [x00] in
    let* alg := encode_alg_id (ki_alg k) in
    let* key := encode_tlv tag_octet_string (ki_key k) in
    encode_tlv tag_sequence (v ++ alg ++ key).

  (** [from_pkcs8_der] up to the conversion of src/encoding.rs:46-78.  Versions 0 and 1
      (RFC 5958).  Which optional fields (attributes, public key, extensions) may follow
      the key is up to the dependency, whose test is the parameter [tail_ok]; they are
      not looked at by src/encoding.rs. *)
  Definition decode_key_info (tail_ok : Z -> list byte -> bool) (l : list byte) : outcome key_info :=
    let* (body, rest) := decode_tagged tag_sequence l in
    let* (v, body) := decode_uint body in
    let* version :=
      match v with
      | [b] => if byte_eqb b x00 then Ok 0 else if byte_eqb b x01 then Ok 1 else Err ErrAsn1
      | _ => Err ErrAsn1
      end in
    let* (alg, body) := decode_alg_id body in
    let* (key, body) := decode_tagged tag_octet_string body in
    let* _ := guard (tail_ok version body) ErrAsn1 in
    let* _ := finish rest in
    Ok (mkKI alg key).

  (** * [spki::SubjectPublicKeyInfoRef] *)

  (** [SubjectPublicKeyInfoRef] (spki dependency; src/encoding.rs:80-89, 164-171).  The key is
    a BIT STRING: number of unused bits and octets. *)
  Record spki_info := mkSpki { si_alg : alg_id; si_unused : Z; si_key : list byte }.

  Definition encode_spki (s : spki_info) : outcome (list byte) :=
    let* alg := encode_alg_id (si_alg s) in
    let* key := encode_tlv tag_bit_string (z2b (si_unused s) :: si_key s) in
    encode_tlv tag_sequence (alg ++ key).

  Definition decode_spki (l : list byte) : outcome spki_info :=
    let* (body, rest) := decode_tagged tag_sequence l in
    let* (alg, body) := decode_alg_id body in
    let* (content, body) := decode_tagged tag_bit_string body in
    let* _ := finish body in
    let* _ := finish rest in
    match content with
    | [] => Err ErrAsn1
    | u :: key =>
        if (7 <? b2z u) || ((0 <? b2z u) && match key with [] => true | _ => false end)
        then Err ErrAsn1
        else Ok (mkSpki alg (b2z u) key)
    end.
End Der.
