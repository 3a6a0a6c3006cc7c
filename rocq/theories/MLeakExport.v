(** Exporting and comparing private keys once more, with traces (notation and events: MLeak.v). *)
From Coq Require Import ZArith List Bool.
From Coq Require Import Init.Byte.
From Verif Require Import Base Bigint MHash MRsa MKey MApi MDer MEncoding MLeak MLeakKey.
Import ListNotations.
Local Open Scope Z_scope.

(** * src/encoding.rs *)

(** [BoxedUint::to_be_bytes], src/encoding.rs:110-129 *)
Definition l_to_be_bytes (u : uint) : leaky (list byte) :=
  l_op OpToBytes [uprec u] (Ok (to_be_bytes u)).

Section Export.
  Context (der_max : Z).

  (** [der::asn1::UintRef::new] (dependency, src/encoding.rs:132-139): looks at one octet after
      the other until it finds one that is not zero, then checks the length. *)
  Fixpoint l_strip_zeros (l : list byte) : leaky (list byte) :=
    match l with
    | b :: ((_ :: _) as rest) =>
        let! c := l_if (byte_eqb b x00) in if c then l_strip_zeros rest else lret l
    | _ => lret l
    end.
  Definition l_uint_ref_new (bytes : list byte) : leaky (list byte) :=
    let! l := l_strip_zeros bytes in
    let! c := l_if (der_max <? Z.of_nat (length l)) in
    if c then lerr ErrAsn1 else lret l.

  (** Writing a header and a value (der dependency, src/encoding.rs:132-149): shows how many octets are
      written. *)
  Definition l_encode_tlv (tag : byte) (content : list byte) : leaky (list byte) :=
    let out := tag :: length_octets (Z.of_nat (length content)) ++ content in
    let! c := l_if (der_max <? Z.of_nat (length out)) in
    if c then lerr ErrAsn1 else emit (ECopy (length out)) (Ok out).
  (** [UintRef::encode_value] (der dependency, src/encoding.rs:132-139): jumps on the top bit, then copies
      the octets. *)
  Definition l_encode_uint (l : list byte) : leaky (list byte) :=
    let! c := l_if (match l with b :: _ => b2z b <? 128 | [] => true end) in
    let! l := emit (ECopy (length l)) (Ok l) in
    l_encode_tlv tag_integer (if c then l else x00 :: l).

  (** src/encoding.rs:118-125: [d % (p - 1)] *)
  Definition l_crt_exponent (d prime : uint) : leaky uint :=
    let! p := l_widen prime (uprec d) in
    let! x := l_usub p (u_of_u64 1) in
    let! _ := l_op OpIsZero [uprec x] (Ok tt) in
    let! _ := l_assert (negb (uis_zero x)) in
    l_urem d x.

  (** src/encoding.rs:104-141: the PKCS#1 structure *)
  Definition l_private_to_pkcs1 (k : privkey) : leaky p1_private :=
    let! c := l_if (2 <? length (sk_primes k))%nat in
    if c then lerr ErrPkcs1Version
    else
      let! modulus := l_to_be_bytes (pk_n (sk_pub k)) in
      let! public_exponent := l_to_be_bytes (pk_e (sk_pub k)) in
      let! private_exponent := l_to_be_bytes (sk_d k) in
      let! p := l_get (sk_primes k) 0 in
      let! prime1 := l_to_be_bytes p in
      let! q := l_get (sk_primes k) 1 in
      let! prime2 := l_to_be_bytes q in
      let! dp := l_crt_exponent (sk_d k) p in
      let! exponent1 := l_to_be_bytes dp in
      let! dq := l_crt_exponent (sk_d k) q in
      let! exponent2 := l_to_be_bytes dq in
      let! coefficient := l_crt_coefficient k in
      match coefficient with
      | None => lerr ErrPkcs1Crypto
      | Some coefficient =>
          let! coefficient := l_to_be_bytes coefficient in
          let! modulus := l_uint_ref_new modulus in
          let! public_exponent := l_uint_ref_new public_exponent in
          let! private_exponent := l_uint_ref_new private_exponent in
          let! prime1 := l_uint_ref_new prime1 in
          let! prime2 := l_uint_ref_new prime2 in
          let! exponent1 := l_uint_ref_new exponent1 in
          let! exponent2 := l_uint_ref_new exponent2 in
          let! coefficient := l_uint_ref_new coefficient in
          lret (mkP1Priv false modulus public_exponent private_exponent prime1 prime2
                         exponent1 exponent2 coefficient)
      end.

  (** src/encoding.rs:131-142: [to_der] of the structure (the dependency's first pass, which computes
      the lengths, makes the same jumps and is left out) *)
  Definition l_encode_p1_private (k : p1_private) : leaky (list byte) :=
    let! v := l_encode_uint [x00] in
    let! n := l_encode_uint (pp_modulus k) in
    let! e := l_encode_uint (pp_public_exponent k) in
    let! d := l_encode_uint (pp_private_exponent k) in
    let! p := l_encode_uint (pp_prime1 k) in
    let! q := l_encode_uint (pp_prime2 k) in
    let! dp := l_encode_uint (pp_exponent1 k) in
    let! dq := l_encode_uint (pp_exponent2 k) in
    let! qi := l_encode_uint (pp_coefficient k) in
    l_encode_tlv tag_sequence (v ++ n ++ e ++ d ++ p ++ q ++ dp ++ dq ++ qi).

  (** src/encoding.rs:144-149: the algorithm identifier is a constant and its encoding shows nothing *)
  Definition l_encode_key_info (k : key_info) : leaky (list byte) :=
    let! v := l_encode_uint [x00] in
    let! alg := l_public (encode_alg_id der_max (ki_alg k)) in
    let! key := l_encode_tlv tag_octet_string (ki_key k) in
    l_encode_tlv tag_sequence (v ++ alg ++ key).

  (** src/encoding.rs:103-151 [to_pkcs8_der] *)
  Definition l_to_pkcs8_der (k : privkey) : leaky (list byte) :=
    let! s := l_private_to_pkcs1 k in
    let! private_key := l_encode_p1_private s in
    let! c := l_if (der_max <? Z.of_nat (length private_key)) in
    if c then lerr ErrAsn1
    else l_encode_key_info (mkKI rsa_algorithm_id private_key).
End Export.

(** * src/key.rs *)

(** [==] of big integers (dependency; constant-time for given precisions) and the jump of [&&] on its
    outcome, src/key.rs:92-94 *)
Definition l_ueq (a b : uint) : leaky bool :=
  let! c := l_cmp a b (ueqb a b) in l_if c.

(** [Vec == Vec], src/key.rs:94: the lengths, then one element after the other *)
Fixpoint l_uints_loop (a b : list uint) : leaky bool :=
  match a, b with
  | x :: a', y :: b' =>
      let! c := l_ueq x y in if c then l_uints_loop a' b' else lret false
  | _, _ => lret true
  end.
Definition l_uints_eq (a b : list uint) : leaky bool :=
  let! c := l_if (length a =? length b)%nat in
  if c then l_uints_loop a b else lret false.

(** src/key.rs:89-96 [PartialEq for RsaPrivateKey], the public parts by src/key.rs:42-47 *)
Definition l_priv_eq (a b : privkey) : leaky bool :=
  let! c := l_ueq (pk_n (sk_pub a)) (pk_n (sk_pub b)) in
  if c then
    let! c := l_ueq (pk_e (sk_pub a)) (pk_e (sk_pub b)) in
    if c then
      let! c := l_ueq (sk_d a) (sk_d b) in
      if c then l_uints_eq (sk_primes a) (sk_primes b) else lret false
    else lret false
  else lret false.
