(** Independent specification: the part of ASN.1 DER (ITU-T X.690) needed for RSA keys
    and DigestInfo, and the structures of RFC 8017 appendices A.1 and B.1, RFC 5208 and
    RFC 5280, written directly from the standards. *)
From Coq Require Import ZArith List.
From Coq Require Import Init.Byte.
From Verif Require Import SpecRFC SpecKey.
Import ListNotations.
Local Open Scope Z_scope.

(** Size in octets (one for 0). *)
Definition octet_size (z : Z) : Z := Z.log2 z / 8 + 1.

(** Shortest octet string of a non-negative integer (one zero octet for 0). *)
Definition min_octets (z : Z) : list byte := i2osp z (Z.to_nat (octet_size z)).

(** X.690 8.1.3.3-8.1.3.5 and 10.1: definite form, least number of octets. *)
Definition der_length (n : nat) : list byte :=
  if (n <? 128)%nat then [octet (Z.of_nat n)]
  else let l := min_octets (Z.of_nat n) in octet (128 + Z.of_nat (length l)) :: l.

(** X.690 8.1: identifier octet, length, contents. *)
Definition der_tlv (tag : byte) (contents : list byte) : list byte :=
  tag :: der_length (length contents) ++ contents.

(** X.690 8.3: two's complement, fewest octets, of a non-negative integer: one octet
    per 8 bits with room for the sign bit. *)
Definition int_octets (z : Z) : list byte := i2osp z (Z.to_nat ((Z.log2 z + 1) / 8 + 1)).

(** ASN.1 values and their DER encoding. *)
Inductive asn1 :=
| AInteger (z : Z) | ANull | AOid (arcs : list byte)
| AOctets (l : list byte) | ABits (l : list byte) | ASequence (l : list asn1)
| ARaw (l : list byte) (* further fields, given by their octets *).

Fixpoint der (v : asn1) : list byte :=
  match v with
  | AInteger z => der_tlv x02 (int_octets z)
  | ANull => der_tlv x05 []
  | AOid arcs => der_tlv x06 arcs
  | AOctets l => der_tlv x04 l
  | ABits l => der_tlv x03 (x00 :: l)
  | ASequence l => der_tlv x30 (concat (map der l))
  | ARaw l => l
  end.

(** RFC 8017 A.1: 1.2.840.113549.1.1.1 and 1.2.840.113549.1.1.10. *)
Definition rsaEncryption : list byte := [x2a; x86; x48; x86; xf7; x0d; x01; x01; x01].
Definition id_RSASSA_PSS : list byte := [x2a; x86; x48; x86; xf7; x0d; x01; x01; x0a].

(** RFC 8017 A.1.1 *)
Definition RSAPublicKey (n e : Z) : asn1 := ASequence [AInteger n; AInteger e].
(** RFC 8017 A.1.2, version 0 *)
Definition RSAPrivateKey (n e d p q dp dq qinv : Z) : asn1 :=
  ASequence [AInteger 0; AInteger n; AInteger e; AInteger d; AInteger p; AInteger q;
             AInteger dp; AInteger dq; AInteger qinv].
(** RFC 5280 4.1.1.2 with the parameters of RFC 8017 A.1 *)
Definition rsa_AlgorithmIdentifier : asn1 := ASequence [AOid rsaEncryption; ANull].
(** RFC 4055 3.1, parameters absent *)
Definition pss_AlgorithmIdentifier : asn1 := ASequence [AOid id_RSASSA_PSS].
(** RFC 5208 5 *)
Definition PrivateKeyInfo (alg : asn1) (key : list byte) : asn1 :=
  ASequence [AInteger 0; alg; AOctets key].
(** RFC 5958 2, with the octets of the optional fields (attributes, public key and
    extensions) *)
Definition OneAsymmetricKey (version : Z) (alg : asn1) (key optional : list byte) : asn1 :=
  ASequence [AInteger version; alg; AOctets key; ARaw optional].
(** RFC 5280 4.1.2.7 *)
Definition SubjectPublicKeyInfo (alg : asn1) (key : list byte) : asn1 :=
  ASequence [alg; ABits key].
(** RFC 8017 9.2, note 1 and A.2.4 *)
Definition DigestInfo (oid digest : list byte) : asn1 :=
  ASequence [ASequence [AOid oid; ANull]; AOctets digest].

(** Which private key structures a decoder should take: a usable public key stored in
    whole limbs of 64 bits, every secret integer at most as long as the modulus, the
    prime product and the exponent congruences.  (The product is compared modulo the
    storage size of the modulus; see C27.) *)
Definition limb_bits (z : Z) : Z := Z.max 64 (64 * ((8 * octet_size z + 63) / 64)).
Definition importable (n e d p q : Z) : Prop :=
  public_usable n e (limb_bits n) /\
  d < 256 ^ octet_size n /\ p < 256 ^ octet_size n /\ q < 256 ^ octet_size n /\
  (p * q) mod 2 ^ limb_bits n = n /\
  3 <= p /\ 3 <= q /\ (e * d) mod (p - 1) = 1 /\ (e * d) mod (q - 1) = 1.
