(** Contract of the dependency [crypto-bigint] (0.7.0-pre) as used by the crate.
    A [BoxedUint] is a boxed slice of 64-bit limbs; it is modelled by its integer
    value and its precision in bits.  These definitions are part of the trusted
    base (DESIGN.md section 2): the dependency's source is not in /repo. *)
From Coq Require Import ZArith List Bool Zpow_facts.
From Coq Require Import Init.Byte.
From Verif Require Import Base.
Import ListNotations.
Local Open Scope Z_scope.

(** [BoxedUint] (dependency), e.g. the fields in src/key.rs:30-76. *)
Record uint := mkU { uval : Z; uprec : Z }.

(** Every real [BoxedUint] (dependency): at least one 64-bit limb, value within the limbs. *)
Definition wf_uint (u : uint) : Prop :=
  0 <= uval u < 2 ^ uprec u /\ 64 <= uprec u /\ uprec u mod 64 = 0.

(** Round a bit count up to whole limbs (dependency). *)
Definition ceil64 (b : Z) : Z := 64 * ((b + 63) / 64).

(** Precision of [zero_with_precision(b)] (dependency): whole limbs, at least one. *)
Definition prec_for (b : Z) : Z := Z.max 64 (ceil64 b).

(** [BoxedUint::bits], e.g. src/pss.rs:141: position of the highest set bit. *)
Definition zbits (v : Z) : Z := if v <=? 0 then 0 else Z.log2 v + 1.
Definition ubits (u : uint) : Z := zbits (uval u).

(** [BoxedUint::leading_zeros], src/algorithms/pad.rs:26, 35. *)
Definition uleading_zeros (u : uint) : Z := uprec u - ubits u.

(** [From<u64>], [one], [zero], e.g. src/key.rs:276, 424, 474: one limb; then
    [one_with_precision], src/key.rs:473, src/algorithms/rsa.rs:158, 323. *)
Definition u_of_u64 (v : Z) : uint := mkU v 64.
Definition u_one_with (p : Z) : uint := mkU 1 (prec_for p).

(** Value of a big-endian byte string (inside [from_be_slice], dependency). *)
Definition be_value (l : list byte) : Z :=
  fold_left (fun acc b => 256 * acc + b2z b) l 0.

(** Big-endian bytes of [v], exactly [n] of them (inside [to_be_bytes], dependency). *)
Fixpoint be_bytes (n : nat) (v : Z) : list byte :=
  match n with
  | O => []
  | S n' => be_bytes n' (v / 256) ++ [z2b v]
  end.

(** [BoxedUint::from_be_slice(bytes, bits_precision)], e.g. src/encoding.rs:43. *)
Definition from_be_slice (bytes : list byte) (bits : Z) : outcome uint :=
  if (Z.of_nat (length bytes) =? 0) && (bits =? 0) then Ok (mkU 0 64)
  else if (bits + 7) / 8 <? Z.of_nat (length bytes) then Err (Decode DecodeInputSize)
  else
    let v := be_value bytes in
    if bits <? zbits v then Err (Decode DecodePrecision)
    else Ok (mkU v (prec_for bits)).

(** [BoxedUint::to_be_bytes], src/algorithms/pad.rs:27, 38, src/encoding.rs:110-114: all limbs. *)
Definition to_be_bytes (u : uint) : list byte :=
  be_bytes (Z.to_nat (uprec u / 8)) (uval u).

(** [widen], e.g. src/key.rs:412-413, src/algorithms/rsa.rs:54: asserts the new precision is not smaller. *)
Definition widen (u : uint) (p : Z) : outcome uint :=
  if uprec u <=? p then Ok (mkU (uval u) (prec_for p)) else Panic.

(** [shorten], src/algorithms/rsa.rs:105, 218: asserts the new precision is not larger; drops high limbs. *)
Definition shorten (u : uint) (p : Z) : outcome uint :=
  if p <=? uprec u then Ok (mkU (uval u mod 2 ^ prec_for p) (prec_for p)) else Panic.

(** [*] and [*=], [square], e.g. src/algorithms/rsa.rs:275, 286: widening multiplication. *)
Definition umul (a b : uint) : uint := mkU (uval a * uval b) (uprec a + uprec b).
Definition usquare (a : uint) : uint := umul a a.

(** [wrapping_mul], src/key.rs:480, 492: keeps the precision of [self]. *)
Definition uwrapping_mul (a b : uint) : uint :=
  mkU ((uval a * uval b) mod 2 ^ uprec a) (uprec a).

(** [Wrapping] addition, src/algorithms/rsa.rs:95 (precision of the wider operand). *)
Definition uwrapping_add (a b : uint) : uint :=
  let p := Z.max (uprec a) (uprec b) in mkU ((uval a + uval b) mod 2 ^ p) p.

(** [wrapping_sub], src/key.rs:424, 429, 496. *)
Definition uwrapping_sub (a b : uint) : uint :=
  let p := Z.max (uprec a) (uprec b) in mkU ((uval a - uval b) mod 2 ^ p) p.

(** [-], e.g. src/algorithms/rsa.rs:257, src/encoding.rs:119: panics on underflow. *)
Definition usub_big (a b : uint) : outcome uint :=
  if uval b <=? uval a then Ok (mkU (uval a - uval b) (Z.max (uprec a) (uprec b))) else Panic.

(** [+], e.g. src/algorithms/rsa.rs:267-293: panics on overflow. *)
Definition uadd_big (a b : uint) : outcome uint :=
  let p := Z.max (uprec a) (uprec b) in
  if uval a + uval b <? 2 ^ p then Ok (mkU (uval a + uval b) p) else Panic.

(** [/ NonZero], src/algorithms/rsa.rs:262, 358: [NonZero::new(b).expect(..)] is the zero test. *)
Definition udiv (a b : uint) : outcome uint :=
  if uval b =? 0 then Panic else Ok (mkU (uval a / uval b) (uprec a)).

(** [% NonZero] and [rem_vartime], src/key.rs:427, 432, 497, src/encoding.rs:119 (equal precisions in all uses). *)
Definition urem (a b : uint) : outcome uint :=
  if uval b =? 0 then Panic else Ok (mkU (uval a mod uval b) (uprec b)).

(** [Gcd::gcd], src/algorithms/rsa.rs:257, 357. *)
Definition ugcd (a b : uint) : uint :=
  mkU (Z.gcd (uval a) (uval b)) (Z.max (uprec a) (uprec b)).

(** [BoxedUint::sqrt], src/algorithms/rsa.rs:284: floor square root. *)
Definition usqrt (a : uint) : uint := mkU (Z.sqrt (uval a)) (uprec a).

(** Comparisons and equality, e.g. src/key.rs:498, 591-609: by value, across precisions. *)
Definition ueqb (a b : uint) : bool := uval a =? uval b.
Definition ultb (a b : uint) : bool := uval a <? uval b.
Definition uleb (a b : uint) : bool := uval a <=? uval b.
Definition uis_even (a : uint) : bool := Z.even (uval a).
Definition uis_odd (a : uint) : bool := Z.odd (uval a).
Definition uis_zero (a : uint) : bool := uval a =? 0.
Definition uis_one (a : uint) : bool := uval a =? 1.

(** * Modular inverse *)

(** Extended Euclid (inside [inv_mod] and [invert], dependency): returns (g, x) with a*x = g modulo the other argument.
    Fuel bounds the number of division steps; [egcd_fuel] always suffices
    (lemma [zinv_spec] in NumTheory.v). *)
Fixpoint egcd (fuel : nat) (a b x0 x1 : Z) : option (Z * Z) :=
  match fuel with
  | O => None
  | S f => if b =? 0 then Some (a, x0)
           else egcd f b (a mod b) x1 (x0 - (a / b) * x1)
  end.

(** Enough steps for a modulus [m] (no counterpart in the code). *)
Definition egcd_fuel (m : Z) : nat := (4 + 2 * Z.to_nat (Z.log2 m))%nat.

(** Inverse of [a] modulo [m] in [0,m), if any (inside [inv_mod], dependency). *)
Definition zinv (a m : Z) : option Z :=
  if m <=? 0 then None
  else match egcd (egcd_fuel m) (a mod m) m 1 0 with
       | Some (g, x) => if g =? 1 then Some (x mod m) else None
       | None => None
       end.

(** [BoxedUint::inv_mod], src/key.rs:464, src/algorithms/rsa.rs:167, 332, 360: asserts equal precisions (debug assertion in the
    dependency); [None] exactly when no inverse exists. *)
Definition uinv_mod (a m : uint) : outcome (option uint) :=
  if uprec a =? uprec m then
    Ok (match zinv (uval a) (uval m) with
        | Some x => Some (mkU x (uprec m))
        | None => None
        end)
  else Panic.

(** * Montgomery forms *)

(** [BoxedMontyParams::new(Odd)], src/key.rs:235, 249, 311, 418, 422: only the modulus is observable. *)
Record mparams := mkMP { mp_modulus : uint }.

(** [BoxedMontyForm], e.g. the CRT value in src/key.rs:129: represented residue and parameters. *)
Record mform := mkMF { mf_res : Z; mf_params : mparams }.

(** [BoxedMontyParams::bits_precision] and [modulus], src/algorithms/rsa.rs:105, 216-221. *)
Definition mp_prec (p : mparams) : Z := uprec (mp_modulus p).
Definition mp_val (p : mparams) : Z := uval (mp_modulus p).

(** [BoxedMontyForm::new], src/key.rs:434, src/algorithms/rsa.rs:78, 81, 85, 222: asserts equal precision; reduces its argument. *)
Definition mf_new (x : uint) (p : mparams) : outcome mform :=
  if uprec x =? mp_prec p then Ok (mkMF (uval x mod mp_val p) p) else Panic.

(** Modular exponentiation by squaring (inside [pow], dependency; stdlib [Zpow_mod]). *)
Definition powm (a e m : Z) : Z := Zpow_mod a e m.

(** [BoxedMontyForm::pow], src/algorithms/rsa.rs:79, 82, 208. *)
Definition mf_pow (f : mform) (e : uint) : mform :=
  mkMF (powm (mf_res f) (uval e) (mp_val (mf_params f))) (mf_params f).

(** [BoxedMontyForm::retrieve], src/algorithms/rsa.rs:82, 91, 208, 230. *)
Definition mf_retrieve (f : mform) : uint := mkU (mf_res f) (mp_prec (mf_params f)).

(** [*], [-=] on Montgomery forms, src/algorithms/rsa.rs:86, 91, 230 (same parameters; those of the left operand). *)
Definition mf_mul (a b : mform) : mform :=
  mkMF ((mf_res a * mf_res b) mod mp_val (mf_params a)) (mf_params a).
Definition mf_sub (a b : mform) : mform :=
  mkMF ((mf_res a - mf_res b) mod mp_val (mf_params a)) (mf_params a).

(** [BoxedMontyForm::invert], src/key.rs:435. *)
Definition mf_invert (f : mform) : option mform :=
  match zinv (mf_res f) (mp_val (mf_params f)) with
  | Some x => Some (mkMF x (mf_params f))
  | None => None
  end.
