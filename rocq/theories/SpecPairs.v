(** Key generation from a source that is equally likely to draw any prime of a given set:
    the source, all its sequences of draws, and which of them end with which key.  Stated over
    the generator interface only. *)
From Coq Require Import ZArith List Bool Znumtheory.
From Verif Require Import Base Bigint MRsa MGenerate SpecGen.
Import ListNotations.
Local Open Scope Z_scope.

(** The primes of each bit length that the source may draw: each meets the contract of
    [prime_source] and none is listed twice. *)
Definition prime_lists (primes : Z -> list uint) (b : Z) : Prop :=
  forall bits, bits = b / 2 \/ bits = b - b / 2 ->
    primes bits <> [] /\ NoDup (map uval (primes bits)) /\
    Forall (fun p => prime (uval p) /\ 3 * 2 ^ (bits - 2) <= uval p < 2 ^ bits /\
                     uprec p = 64 * ((bits + 63) / 64)) (primes bits).

(** A source that draws the primes at the listed positions, one after the other (and the
    first prime ever after). *)
Definition chosen (primes : Z -> list uint) : prime_gen (list nat) := fun s bits =>
  match s with
  | [] => (nth 0 (primes bits) (mkU 3 64), [])
  | i :: s' => (nth (i mod length (primes bits)) (primes bits) (mkU 3 64), s')
  end.

(** All sequences of [f] pairs of positions: taking each once is the uniform distribution. *)
Fixpoint all_choices (a c f : nat) : list (list nat) :=
  match f with
  | O => [[]]
  | S f => flat_map (fun ij => map (fun s => fst ij :: snd ij :: s) (all_choices a c f))
             (list_prod (seq 0 a) (seq 0 c))
  end.

(** All pairs of primes, and those unfit for the public exponent [e]. *)
Definition prime_pairs (primes : Z -> list uint) (b : Z) : list (Z * Z) :=
  list_prod (map uval (primes (b / 2))) (map uval (primes (b - b / 2))).

Definition unfit (e : Z) (pq : Z * Z) : bool :=
  (fst pq =? snd pq) || negb (Z.gcd e ((fst pq - 1) * (snd pq - 1)) =? 1).

Definition unfit_pairs (primes : Z -> list uint) (b e : Z) : list (Z * Z) :=
  filter (unfit e) (prime_pairs primes b).

(** How many of the [l] make [run] return a key with primes [x] and [y], in this order. *)
Definition yielding {S} (run : S -> outcome privkey) (x y : Z) (l : list S) : nat :=
  length (filter (fun s =>
    match run s with
    | Ok k => if list_eq_dec Z.eq_dec (map uval (sk_primes k)) [x; y] then true else false
    | _ => false
    end) l).
