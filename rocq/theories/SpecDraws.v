(** Sequences of numbers a source may draw, tapes of octets it may hand out, and how many of
    them leave a computation waiting for more: over the generator interface only. *)
From Coq Require Import ZArith List Bool.
From Coq Require Import Init.Byte.
From Verif Require Import Base MHash SpecBlind.
Import ListNotations.
Local Open Scope Z_scope.

(** A source that draws the numbers of a list one after the other, and fails when the list
    is used up. *)
Definition listed : rng_ops (list Z) :=
  mkRng (list Z) (fun s n => (None, s))
    (fun s m => match s with [] => (None, []) | v :: s' => (Some (v mod m), s') end).

(** All sequences of [f] numbers below [n]: taking each once is the uniform distribution. *)
Fixpoint all_sequences (n : Z) (f : nat) : list (list Z) :=
  match f with
  | O => [[]]
  | S f => flat_map (fun v => map (cons v) (all_sequences n f)) (all_draws n)
  end.

(** How many of the [l] leave the computation [run] asking for more. *)
Definition unfinished {S A} (run : S -> outcome A) (l : list S) : nat :=
  length (filter (fun s => match run s with OutOfFuel => true | _ => false end) l).

(** How many of the [l] let the computation [run] succeed. *)
Definition succeeding {S A} (run : S -> outcome A) (l : list S) : nat :=
  length (filter (fun s => match run s with Ok _ => true | _ => false end) l).

(** The numbers from 1 to [n] - 1 that share a factor with [n]. *)
Definition sharing (n : Z) : list Z :=
  filter (fun v => negb (v =? 0) && negb (Z.gcd v n =? 1)) (all_draws n).

Definition total (l : list Z) : Z := fold_right Z.add 0 l.

(** The octets of a tape that are not zero. *)
Definition nonzeros (t : list byte) : nat := length (filter (fun b => negb (byte_eqb b x00)) t).

(** Binomial coefficients. *)
Fixpoint choose (n k : nat) : Z :=
  match n, k with
  | _, O => 1
  | O, S _ => 0
  | S n', S k' => choose n' k' + choose n' k
  end.
