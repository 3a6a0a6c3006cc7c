(** Base vocabulary of the model: results of Rust code, bytes, and checked
    slice operations.  Nothing here is specific to RSA. *)
From Coq Require Import ZArith List Bool Lia.
From Coq Require Import Init.Byte.
Import ListNotations.
Local Open Scope Z_scope.

(** crypto_bigint::DecodeError (dependency), carried by [Error::Decode]. *)
Inductive decode_error := DecodeInputSize | DecodePrecision.

(** The crate's error type, src/errors.rs:9-75.  [Pkcs1(..)]/[Pkcs8(..)] carry
    foreign errors; the ones the crate itself produces in src/encoding.rs are
    listed as separate constructors (simplification: other payloads of those two
    variants are collapsed into [ErrAsn1]).  [ErrSerde] stands for an error of the
    (de)serializer (feature "serde"), which is not part of this type. *)
Inductive error :=
| InvalidPaddingScheme | Decryption | Verification | MessageTooLong
| InputNotHashed | NprimesTooSmall | TooFewPrimes | InvalidPrime
| InvalidModulus | InvalidExponent | InvalidCoefficient | ModulusTooLarge
| PublicExponentTooSmall | PublicExponentTooLarge
| Internal | LabelTooLong | InvalidPadLen | InvalidArguments
| Decode (d : decode_error) | Rng
| ErrKeyMalformed | ErrParametersMalformed | ErrOidUnknown
| ErrPkcs1Version | ErrPkcs1Crypto | ErrAsn1
| ErrSerde.

(** Outcome of running Rust code: a [Result] value, a panic, or (for loops whose
    length is decided by the environment) exhaustion of the fuel that bounds the
    number of iterations looked at. *)
Inductive outcome (A : Type) : Type :=
| Ok (a : A)
| Err (e : error)
| Panic
| OutOfFuel.
Arguments Ok {A} a.
Arguments Err {A} e.
Arguments Panic {A}.
Arguments OutOfFuel {A}.

(** Sequencing with early return: Rust's [?] operator and ordinary statement order. *)
Definition bind {A B} (m : outcome A) (k : A -> outcome B) : outcome B :=
  match m with
  | Ok a => k a
  | Err e => Err e
  | Panic => Panic
  | OutOfFuel => OutOfFuel
  end.

Notation "'let*' x ':=' m 'in' k" := (bind m (fun x => k))
  (at level 200, x pattern, m at level 100, k at level 200, right associativity).

(** [Result::map_err], e.g. src/encoding.rs:43, src/pss.rs:177. *)
Definition map_err {A} (f : error -> error) (m : outcome A) : outcome A :=
  match m with Err e => Err (f e) | _ => m end.

(** [Result::is_ok] (dependency: core; only used in statements). *)
Definition is_ok {A} (m : outcome A) : bool :=
  match m with Ok _ => true | _ => false end.

(** Early return of an error when a condition holds ([if c { return Err(e) }]), e.g.
    src/key.rs:591-609, src/algorithms/pkcs1v15.rs:49-51. *)
Definition guard (ok : bool) (e : error) : outcome unit :=
  if ok then Ok tt else Err e.

(** [assert!] / [expect] / [unwrap] on a condition, e.g. src/key.rs:236, 496. *)
Definition assert_ (ok : bool) : outcome unit :=
  if ok then Ok tt else Panic.

(** * Bytes *)

(** [u8] and its values; [as u8] truncates. *)
Definition b2z (b : byte) : Z := Z.of_N (Byte.to_N b).

Definition z2b (z : Z) : byte :=
  match Byte.of_N (Z.to_N (z mod 256)) with Some b => b | None => x00 end.

(** [==], [^] and [&] on [u8], e.g. src/algorithms/mgf.rs:28, src/algorithms/pss.rs:161. *)
Definition byte_eqb (a b : byte) : bool := b2z a =? b2z b.
Definition bxor (a b : byte) : byte := z2b (Z.lxor (b2z a) (b2z b)).
Definition band (a b : byte) : byte := z2b (Z.land (b2z a) (b2z b)).
(** [u8::wrapping_add(1)], src/algorithms/mgf.rs:69. *)
Definition byte_succ (a : byte) : byte := z2b (b2z a + 1).

(** [subtle::ConstantTimeEq] on byte slices, e.g. src/algorithms/oaep.rs:224: false when
    the lengths differ. *)
Fixpoint bytes_eqb (a b : list byte) : bool :=
  match a, b with
  | [], [] => true
  | x :: a', y :: b' => byte_eqb x y && bytes_eqb a' b'
  | _, _ => false
  end.

(** * Checked [usize] and slice operations (panic = out of range) *)

(** [a - b] on usize, e.g. src/algorithms/pad.rs:17, src/pss.rs:207. *)
Definition usub (a b : nat) : outcome nat :=
  if (b <=? a)%nat then Ok (a - b)%nat else Panic.

(** [l[i]], e.g. src/algorithms/pkcs1v15.rs:90. *)
Definition get_idx {A} (l : list A) (i : nat) : outcome A :=
  match nth_error l i with Some x => Ok x | None => Panic end.

(** [l[i] = v], e.g. src/algorithms/mgf.rs:69. *)
Definition set_idx {A} (l : list A) (i : nat) (v : A) : outcome (list A) :=
  if (i <? length l)%nat then Ok (firstn i l ++ v :: skipn (S i) l) else Panic.

(** [&l[a..b]], e.g. src/algorithms/oaep.rs:224. *)
Definition slice {A} (l : list A) (a b : nat) : outcome (list A) :=
  if ((a <=? b) && (b <=? length l))%nat%bool
  then Ok (firstn (b - a) (skipn a l)) else Panic.

(** [&l[a..]], e.g. src/algorithms/pad.rs:27. *)
Definition slice_from {A} (l : list A) (a : nat) : outcome (list A) :=
  if (a <=? length l)%nat then Ok (skipn a l) else Panic.

(** [l[a..b].copy_from_slice(src)], e.g. src/algorithms/oaep.rs:43-45. *)
Definition copy_into {A} (l : list A) (a b : nat) (src : list A) : outcome (list A) :=
  if ((a <=? b) && (b <=? length l) && (b - a =? length src))%nat%bool
  then Ok (firstn a l ++ src ++ skipn b l) else Panic.

(** [l.split_at(i)], e.g. src/algorithms/oaep.rs:219-220. *)
Definition split_at {A} (l : list A) (i : nat) : outcome (list A * list A) :=
  if (i <=? length l)%nat then Ok (firstn i l, skipn i l) else Panic.

(** [usize::div_ceil(8)], e.g. src/algorithms/pss.rs:28. *)
Definition div_ceil8 (n : nat) : nat := ((n + 7) / 8)%nat.

(** [vec![b; n]], e.g. src/algorithms/mgf.rs:16. *)
Definition vec (b : byte) (n : nat) : list byte := repeat b n.
