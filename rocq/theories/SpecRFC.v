(** Independent specification: the relevant parts of RFC 8017 (PKCS #1 v2.2),
    written directly from the standard.  Nothing here refers to the model of the
    code. *)
From Coq Require Import ZArith List Znumtheory.
From Coq Require Import Init.Byte.
Import ListNotations.
Local Open Scope Z_scope.

(** * Section 4: data conversion *)

Definition octet_val (b : byte) : Z := Z.of_N (Byte.to_N b).
Definition octet (z : Z) : byte :=
  match Byte.of_N (Z.to_N (z mod 256)) with Some b => b | None => x00 end.

(** 4.2 OS2IP *)
Fixpoint os2ip (X : list byte) : Z :=
  match X with
  | [] => 0
  | x :: r => octet_val x * 256 ^ Z.of_nat (length r) + os2ip r
  end.

(** 4.1 I2OSP, as a relation and as a function (the function reduces modulo
    256^len instead of failing; the relation is the reference). *)
Definition I2OSP (x : Z) (len : nat) (X : list byte) : Prop :=
  length X = len /\ os2ip X = x.
Definition i2osp (x : Z) (len : nat) : list byte :=
  map (fun i => octet (x / 256 ^ Z.of_nat (len - 1 - i))) (seq 0 len).

Definition octet_xor (a b : byte) : byte := octet (Z.lxor (octet_val a) (octet_val b)).
Fixpoint xor_octets (a b : list byte) : list byte :=
  match a, b with
  | x :: a', y :: b' => octet_xor x y :: xor_octets a' b'
  | _, _ => []
  end.

(** * Section 5: primitives *)
Definition RSAEP (n e m : Z) : Z := m ^ e mod n.
Definition RSADP (n d c : Z) : Z := c ^ d mod n.

(** Section 3: valid RSA key. [ps] are the prime factors. *)
Definition product (ps : list Z) : Z := fold_right Z.mul 1 ps.
Definition valid_rsa_key (n e d : Z) (ps : list Z) : Prop :=
  (2 <= length ps)%nat /\ Forall prime ps /\ NoDup ps /\ n = product ps /\
  0 < e /\ 0 < d /\ forall p, In p ps -> (e * d) mod (p - 1) = 1 mod (p - 1).

(** Octet length and bit length of a positive modulus. *)
Definition is_octet_len (n : Z) (k : nat) : Prop :=
  256 ^ (Z.of_nat k - 1) <= n < 256 ^ Z.of_nat k.
Definition is_bit_len (n : Z) (b : nat) : Prop :=
  2 ^ (Z.of_nat b - 1) <= n < 2 ^ Z.of_nat b.

(** * Appendix B.2.1: MGF1 *)
Definition mgf1 (H : list byte -> list byte) (hLen : nat) (seed : list byte) (len : nat)
  : list byte :=
  firstn len (concat (map (fun i => H (seed ++ i2osp (Z.of_nat i) 4))
                          (seq 0 ((len + hLen - 1) / hLen)))).

(** * Section 7.2: RSAES-PKCS1-v1_5 encoding: EM = 00 02 PS 00 M *)
Definition eme_pkcs1 (PS M : list byte) : list byte := x00 :: x02 :: PS ++ x00 :: M.
Definition is_eme_pkcs1 (k : nat) (EM M : list byte) : Prop :=
  length EM = k /\
  exists PS, EM = eme_pkcs1 PS M /\ (8 <= length PS)%nat /\ Forall (fun b => b <> x00) PS.

(** * Section 7.1: EME-OAEP *)
Definition oaep_encode (Hd : list byte -> list byte) (hLen : nat)
           (Hm : list byte -> list byte) (hmLen : nat)
           (L seed M : list byte) (k : nat) : list byte :=
  let PS := repeat x00 (k - length M - 2 * hLen - 2) in
  let DB := Hd L ++ PS ++ x01 :: M in
  let dbMask := mgf1 Hm hmLen seed (k - hLen - 1) in
  let maskedDB := xor_octets DB dbMask in
  let seedMask := mgf1 Hm hmLen maskedDB hLen in
  let maskedSeed := xor_octets seed seedMask in
  x00 :: maskedSeed ++ maskedDB.
Definition is_eme_oaep Hd hLen Hm hmLen (L : list byte) (k : nat) (EM M : list byte) : Prop :=
  exists seed, length seed = hLen /\ (length M + 2 * hLen + 2 <= k)%nat /\
               EM = oaep_encode Hd hLen Hm hmLen L seed M k.

(** * Section 9.2: EMSA-PKCS1-v1_5: EM = 00 01 FF..FF 00 T *)
Definition emsa_pkcs1 (T : list byte) (k : nat) : list byte :=
  x00 :: x01 :: repeat xff (k - length T - 3) ++ x00 :: T.
Definition is_emsa_pkcs1 (k : nat) (EM T : list byte) : Prop :=
  (length T + 11 <= k)%nat /\ EM = emsa_pkcs1 T k.

(** * Section 9.1: EMSA-PSS *)

(** Set the leftmost [z] bits of the leftmost octet to zero. *)
Definition clear_top (z : nat) (l : list byte) : list byte :=
  match l with
  | [] => []
  | x :: r => octet (octet_val x mod 2 ^ (8 - Z.of_nat z)) :: r
  end.
Definition pss_em_len (emBits : nat) : nat := ((emBits + 7) / 8)%nat.
Definition pss_encode (H : list byte -> list byte) (hLen : nat) (mHash salt : list byte)
           (emBits : nat) : list byte :=
  let emLen := pss_em_len emBits in
  let M' := repeat x00 8 ++ mHash ++ salt in
  let Hv := H M' in
  let PS := repeat x00 (emLen - length salt - hLen - 2) in
  let DB := PS ++ x01 :: salt in
  let dbMask := mgf1 H hLen Hv (emLen - hLen - 1) in
  let maskedDB := clear_top (8 * emLen - emBits) (xor_octets DB dbMask) in
  maskedDB ++ Hv ++ [xbc].

(** 9.1.2: "consistent" means: EM is the encoding of mHash for some salt of the
    given length. *)
Definition pss_consistent (H : list byte -> list byte) (hLen sLen emBits : nat)
           (mHash EM : list byte) : Prop :=
  length mHash = hLen /\ (hLen + sLen + 2 <= pss_em_len emBits)%nat /\
  exists salt, length salt = sLen /\ EM = pss_encode H hLen mHash salt emBits.
