(** SHA-1 and SHA-256 (FIPS 180-4) as hash functions of the model.  The crate takes
    hash functions as type parameters; these two concrete ones let the model be run on
    the test vectors of /repo (Vectors.v), which use [sha1::Sha1] and [sha2::Sha256]. *)
From Coq Require Import ZArith List.
From Coq Require Import Init.Byte.
From Verif Require Import Base Bigint MHash.
Import ListNotations.
Local Open Scope Z_scope.

Definition w32 (x : Z) : Z := Z.land x 4294967295.
Definition add32 (x y : Z) : Z := w32 (x + y).
Definition rotl (n x : Z) : Z := Z.lor (w32 (Z.shiftl x n)) (Z.shiftr x (32 - n)).
Definition rotr (n x : Z) : Z := rotl (32 - n) x.
Definition not32 (x : Z) : Z := Z.lxor x 4294967295.

(** Padding: 80, zeros, the length in bits as eight octets (FIPS 180-4, 5.1.1). *)
Definition sha_pad (m : list byte) : list byte :=
  let l := Z.of_nat (length m) in
  let zeros := Z.to_nat ((55 - l) mod 64) in
  m ++ [x80] ++ repeat x00 zeros ++
  map (fun i => z2b (Z.shiftr (8 * l) (8 * i))) [7; 6; 5; 4; 3; 2; 1; 0].

Fixpoint words (m : list byte) : list Z :=
  match m with
  | a :: b :: c :: d :: r =>
      (Z.lor (Z.shiftl (b2z a) 24) (Z.lor (Z.shiftl (b2z b) 16)
        (Z.lor (Z.shiftl (b2z c) 8) (b2z d)))) :: words r
  | _ => []
  end.
Definition unword (x : Z) : list byte :=
  [z2b (Z.shiftr x 24); z2b (Z.shiftr x 16); z2b (Z.shiftr x 8); z2b x].

(** The last sixteen words of the schedule, newest first, drive both expansions. *)
Definition pick (l : list Z) (i : nat) : Z := nth (i - 1) l 0.

(** * SHA-1 *)
Definition sha1_next (w : list Z) : Z :=
  rotl 1 (Z.lxor (Z.lxor (pick w 3) (pick w 8)) (Z.lxor (pick w 14) (pick w 16))).
Fixpoint expand (next : list Z -> Z) (n : nat) (w : list Z) : list Z :=
  match n with O => w | S n => expand next n (next w :: w) end.

Definition sha1_fk (t : nat) (b c d : Z) : Z :=
  if (t <? 20)%nat then add32 (Z.lxor (Z.land b c) (Z.land (not32 b) d)) 0x5a827999
  else if (t <? 40)%nat then add32 (Z.lxor b (Z.lxor c d)) 0x6ed9eba1
  else if (t <? 60)%nat then add32 (Z.lxor (Z.land b c) (Z.lxor (Z.land b d) (Z.land c d))) 0x8f1bbcdc
  else add32 (Z.lxor b (Z.lxor c d)) 0xca62c1d6.

Definition sha1_state : Type := Z * Z * Z * Z * Z.
Fixpoint sha1_rounds (t : nat) (w : list Z) (s : sha1_state) : sha1_state :=
  match w with
  | [] => s
  | x :: r =>
      let '(a, b, c, d, e) := s in
      let T := add32 (add32 (rotl 5 a) (sha1_fk t b c d)) (add32 e x) in
      sha1_rounds (S t) r (T, a, rotl 30 b, c, d)
  end.
Definition sha1_block (s : sha1_state) (block : list Z) : sha1_state :=
  let '(a, b, c, d, e) := s in
  let '(a', b', c', d', e') := sha1_rounds 0 (rev (expand sha1_next 64 (rev block))) s in
  (add32 a a', add32 b b', add32 c c', add32 d d', add32 e e').
Fixpoint blocks {S} (step : S -> list Z -> S) (n : nat) (w : list Z) (s : S) : S :=
  match n with
  | O => s
  | S n => blocks step n (skipn 16 w) (step s (firstn 16 w))
  end.
Definition sha1_fun (m : list byte) : list byte :=
  let w := words (sha_pad m) in
  let '(a, b, c, d, e) := blocks sha1_block (length w / 16) w
    (0x67452301, 0xefcdab89, 0x98badcfe, 0x10325476, 0xc3d2e1f0) in
  unword a ++ unword b ++ unword c ++ unword d ++ unword e.

Lemma sha1_length m : length (sha1_fun m) = 20%nat.
Proof. unfold sha1_fun. destruct (blocks _ _ _ _) as [[[[a b] c] d] e]. reflexivity. Qed.
Definition sha1 : hashfn := mkHash 20 sha1_fun sha1_length.

(** * SHA-256 *)
Definition sha256_k : list Z :=
  [0x428a2f98;0x71374491;0xb5c0fbcf;0xe9b5dba5;0x3956c25b;0x59f111f1;0x923f82a4;0xab1c5ed5;
   0xd807aa98;0x12835b01;0x243185be;0x550c7dc3;0x72be5d74;0x80deb1fe;0x9bdc06a7;0xc19bf174;
   0xe49b69c1;0xefbe4786;0x0fc19dc6;0x240ca1cc;0x2de92c6f;0x4a7484aa;0x5cb0a9dc;0x76f988da;
   0x983e5152;0xa831c66d;0xb00327c8;0xbf597fc7;0xc6e00bf3;0xd5a79147;0x06ca6351;0x14292967;
   0x27b70a85;0x2e1b2138;0x4d2c6dfc;0x53380d13;0x650a7354;0x766a0abb;0x81c2c92e;0x92722c85;
   0xa2bfe8a1;0xa81a664b;0xc24b8b70;0xc76c51a3;0xd192e819;0xd6990624;0xf40e3585;0x106aa070;
   0x19a4c116;0x1e376c08;0x2748774c;0x34b0bcb5;0x391c0cb3;0x4ed8aa4a;0x5b9cca4f;0x682e6ff3;
   0x748f82ee;0x78a5636f;0x84c87814;0x8cc70208;0x90befffa;0xa4506ceb;0xbef9a3f7;0xc67178f2].
Definition sha256_next (w : list Z) : Z :=
  let s0 x := Z.lxor (rotr 7 x) (Z.lxor (rotr 18 x) (Z.shiftr x 3)) in
  let s1 x := Z.lxor (rotr 17 x) (Z.lxor (rotr 19 x) (Z.shiftr x 10)) in
  add32 (add32 (s1 (pick w 2)) (pick w 7)) (add32 (s0 (pick w 15)) (pick w 16)).
Definition sha256_state : Type := Z * Z * Z * Z * Z * Z * Z * Z.
Fixpoint sha256_rounds (kw : list (Z * Z)) (s : sha256_state) : sha256_state :=
  match kw with
  | [] => s
  | (k, x) :: r =>
      let '(a, b, c, d, e, f, g, h) := s in
      let S1 := Z.lxor (rotr 6 e) (Z.lxor (rotr 11 e) (rotr 25 e)) in
      let ch := Z.lxor (Z.land e f) (Z.land (not32 e) g) in
      let T1 := add32 (add32 h S1) (add32 ch (add32 k x)) in
      let S0 := Z.lxor (rotr 2 a) (Z.lxor (rotr 13 a) (rotr 22 a)) in
      let maj := Z.lxor (Z.land a b) (Z.lxor (Z.land a c) (Z.land b c)) in
      sha256_rounds r (add32 T1 (add32 S0 maj), a, b, c, add32 d T1, e, f, g)
  end.
Definition sha256_block (s : sha256_state) (block : list Z) : sha256_state :=
  let '(a, b, c, d, e, f, g, h) := s in
  let '(a', b', c', d', e', f', g', h') :=
    sha256_rounds (combine sha256_k (rev (expand sha256_next 48 (rev block)))) s in
  (add32 a a', add32 b b', add32 c c', add32 d d', add32 e e', add32 f f', add32 g g', add32 h h').
Definition sha256_fun (m : list byte) : list byte :=
  let w := words (sha_pad m) in
  let '(a, b, c, d, e, f, g, h) := blocks sha256_block (length w / 16) w
    (0x6a09e667, 0xbb67ae85, 0x3c6ef372, 0xa54ff53a, 0x510e527f, 0x9b05688c, 0x1f83d9ab, 0x5be0cd19) in
  unword a ++ unword b ++ unword c ++ unword d ++ unword e ++ unword f ++ unword g ++ unword h.

Lemma sha256_length m : length (sha256_fun m) = 32%nat.
Proof. unfold sha256_fun. destruct (blocks _ _ _ _) as [[[[[[[a b] c] d] e] f] g] h]. reflexivity. Qed.
Definition sha256 : hashfn := mkHash 32 sha256_fun sha256_length.
