(** Importing a private key document once more, with traces (notation and events: MLeak.v). *)
From Coq Require Import ZArith List Bool.
From Coq Require Import Init.Byte.
From Verif Require Import Base Bigint MHash MRsa MKey MApi MDer MEncoding MLeak MLeakKey.
Import ListNotations.
Local Open Scope Z_scope.

(** A check whose failure is an error (e.g. src/encoding.rs:56, and the checks of the der dependency
    under src/encoding.rs:52-53): a jump. *)
Definition l_guard (b : bool) (e : error) : leaky unit :=
  let! c := l_if b in if c then lret tt else lerr e.

Section Import.
  Context (der_max : Z) (tail_ok : Z -> list byte -> bool).

  (** [der::Length::decode] (dependency, under src/encoding.rs:52-53): jumps on the first octet, then
      checks the number the others stand for. *)
  Definition l_long_length (nbytes : nat) (l : list byte) : leaky (Z * list byte) :=
    let! c := l_if (length l <? nbytes)%nat in
    if c then lerr ErrAsn1
    else
      let n := be_value (firstn nbytes l) in
      let! _ := l_guard (n <=? der_max) ErrAsn1 in
      let! _ := l_guard ((Z.of_nat (length (length_octets n)) =? Z.of_nat nbytes + 1)
                         && negb (n <? 128)) ErrAsn1 in
      lret (n, skipn nbytes l).
  Definition l_decode_length (l : list byte) : leaky (Z * list byte) :=
    match l with
    | [] => lerr ErrAsn1
    | b :: rest =>
        let v := b2z b in
        let! c := l_if (v <? 128) in
        if c then (let! _ := l_guard (v <=? der_max) ErrAsn1 in lret (v, rest))
        else let! c := l_if (v =? 129) in
        if c then l_long_length 1 rest
        else let! c := l_if (v =? 130) in
        if c then l_long_length 2 rest
        else let! c := l_if (v =? 131) in
        if c then l_long_length 3 rest
        else let! c := l_if (v =? 132) in
        if c then l_long_length 4 rest
        else lerr ErrAsn1
    end.

  (** One header and value (der dependency, under src/encoding.rs:52-53): the value is a slice of the
      input, so where it ends shows. *)
  Definition l_decode_tlv (l : list byte) : leaky (byte * list byte * list byte) :=
    match l with
    | [] => lerr ErrAsn1
    | tag :: rest =>
        let! (n, rest) := l_decode_length rest in
        let! c := l_if (Z.of_nat (length rest) <? n) in
        if c then lerr ErrAsn1
        else emit (ERange 0 (Z.to_nat n) (length rest))
                  (Ok (tag, firstn (Z.to_nat n) rest, skipn (Z.to_nat n) rest))
    end.
  Definition l_decode_tagged (tag : byte) (l : list byte) : leaky (list byte * list byte) :=
    let! (t, content, rest) := l_decode_tlv l in
    let! c := l_if (byte_eqb t tag) in
    if c then lret (content, rest) else lerr ErrAsn1.

  (** [UintRef::decode_value] (der dependency, under src/encoding.rs:53): looks at the first two octets
      and returns a slice of the value. *)
  Definition l_uint_value (content : list byte) : leaky (list byte) :=
    match content with
    | [] => lerr ErrAsn1
    | [b] =>
        let! c := l_if (b2z b <? 128) in
        if c then emit (ERange 0 (length content) (length content)) (Ok content) else lerr ErrAsn1
    | b :: ((c :: _) as rest) =>
        let! z := l_if (byte_eqb b x00) in
        if z then
          (let! s := l_if (b2z c <? 128) in
           if s then lerr ErrAsn1 else emit (ERange 1 (length content) (length content)) (Ok rest))
        else
          let! s := l_if (b2z b <? 128) in
          if s then emit (ERange 0 (length content) (length content)) (Ok content) else lerr ErrAsn1
    end.
  Definition l_decode_uint (l : list byte) : leaky (list byte * list byte) :=
    let! (content, rest) := l_decode_tagged tag_integer l in
    let! v := l_uint_value content in
    lret (v, rest).

  (** End of a SEQUENCE or document (der dependency, under src/encoding.rs:52-53) *)
  Definition l_finish (l : list byte) : leaky unit :=
    let! c := l_if (length l =? 0)%nat in if c then lret tt else lerr ErrAsn1.

  (** [AlgorithmIdentifierRef] (spki dependency, src/encoding.rs:22-40, 51) *)
  Definition l_decode_alg_id (l : list byte) : leaky (alg_id * list byte) :=
    let! (body, rest) := l_decode_tagged tag_sequence l in
    let! (oid, body) := l_decode_tagged tag_oid body in
    let! c := l_if (length body =? 0)%nat in
    if c then lret (mkAlg oid None, rest)
    else
      let! (t, v, body) := l_decode_tlv body in
      let! _ := l_finish body in
      lret (mkAlg oid (Some (mkAny t v)), rest).

  (** [pkcs1::RsaPrivateKey::try_from], src/encoding.rs:53 *)
  Definition l_decode_p1_private (l : list byte) : leaky p1_private :=
    let! (body, rest) := l_decode_tagged tag_sequence l in
    let! (v, body) := l_decode_uint body in
    let! (n, body) := l_decode_uint body in
    let! (e, body) := l_decode_uint body in
    let! (d, body) := l_decode_uint body in
    let! (p, body) := l_decode_uint body in
    let! (q, body) := l_decode_uint body in
    let! (dp, body) := l_decode_uint body in
    let! (dq, body) := l_decode_uint body in
    let! (qi, body) := l_decode_uint body in
    let! multi :=
      match v with
      | [b] =>
          let! c := l_if (byte_eqb b x00) in
          if c then (let! _ := l_finish body in lret false)
          else let! c := l_if (byte_eqb b x01) in
          if c then lret true else lerr ErrAsn1
      | _ => lerr ErrAsn1
      end in
    let! _ := l_finish rest in
    lret (mkP1Priv multi n e d p q dp dq qi).

  (** [PrivateKeyInfoRef::try_from] (pkcs8 dependency), before src/encoding.rs:46.  What follows the key
      (attributes, public key) is public. *)
  Definition l_decode_key_info (l : list byte) : leaky key_info :=
    let! (body, rest) := l_decode_tagged tag_sequence l in
    let! (v, body) := l_decode_uint body in
    let! version :=
      match v with
      | [b] =>
          let! c := l_if (byte_eqb b x00) in
          if c then lret 0
          else let! c := l_if (byte_eqb b x01) in
          if c then lret 1 else lerr ErrAsn1
      | _ => lerr ErrAsn1
      end in
    let! (alg, body) := l_decode_alg_id body in
    let! (key, body) := l_decode_tagged tag_octet_string body in
    let! _ := l_public (guard (tail_ok version body) ErrAsn1) in
    let! _ := l_finish rest in
    lret (mkKI alg key).

  (** src/encoding.rs:42-44 [uint_from_slice] *)
  Definition l_uint_from_slice (data : list byte) (bits : Z) : leaky uint :=
    let (t, o) := l_from_be_slice data bits in (t, map_err (fun _ => ErrKeyMalformed) o).
  (** [u32::try_from(len)? * 8], src/encoding.rs:60, 65-67 *)
  Definition l_octets_bits (l : list byte) : leaky Z :=
    let n := Z.of_nat (length l) in
    let! _ := l_guard (n <? 2 ^ 32) ErrKeyMalformed in
    let! _ := l_assert (8 * n <? 2 ^ 32) in
    lret (8 * n).

  (** src/encoding.rs:55-77, after the DER is parsed *)
  Definition l_private_from_pkcs1 (k : p1_private) : leaky privkey :=
    let! c := l_if (pp_multi k) in
    if c then lerr ErrPkcs1Version
    else
      let! bits := l_octets_bits (pp_modulus k) in
      let! n := l_uint_from_slice (pp_modulus k) bits in
      let! _ := l_guard (uis_odd n) ErrKeyMalformed in
      let! bits_e := l_octets_bits (pp_public_exponent k) in
      let! e := l_uint_from_slice (pp_public_exponent k) bits_e in
      let! d := l_uint_from_slice (pp_private_exponent k) bits in
      let! prime1 := l_uint_from_slice (pp_prime1 k) bits in
      let! prime2 := l_uint_from_slice (pp_prime2 k) bits in
      let (t, o) := l_from_components n e d [prime1; prime2] in
      (t, map_err (fun _ => ErrKeyMalformed) o).
  (** src/encoding.rs:46-78; the identifier is public *)
  Definition l_private_try_from (info : key_info) : leaky privkey :=
    let! _ := l_public (verify_algorithm_id (ki_alg info)) in
    let! k := l_decode_p1_private (ki_key info) in
    l_private_from_pkcs1 k.
  (** [DecodePrivateKey::from_pkcs8_der] (pkcs8 dependency), used at src/key.rs:654 *)
  Definition l_from_pkcs8_der (der : list byte) : leaky privkey :=
    let! info := l_decode_key_info der in
    l_private_try_from info.
End Import.
