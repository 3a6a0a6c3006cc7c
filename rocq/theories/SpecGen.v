(** What key generation relies on: the contract of the dependency's prime generator,
    and the sequence of candidate pairs it produces.  Stated over the generator
    interface only. *)
From Coq Require Import ZArith List Znumtheory.
From Verif Require Import Base Bigint SpecRFC.
Import ListNotations.
Local Open Scope Z_scope.

(** Products of (prime - 1). *)
Definition totient (ps : list Z) : Z := product (map (fun p => p - 1) ps).

(** Stored width of the modulus of a generated key of [b] bits. *)
Definition key_prec (b : Z) : Z := prec_for (b / 2) + prec_for (b - b / 2).

(** Smallest bit size accepted for [k] primes, when one below 64 is accepted. *)
Definition min_bits (k : Z) : Z :=
  if k =? 2 then 12 else if k =? 3 then 21 else if k =? 4 then 28
  else if k =? 5 then 40 else if k =? 6 then 48 else if k =? 7 then 56 else 64.

Section Source.
  Context {R : Type} (gp : R -> Z -> uint * R).

  (** Contract of [crypto_primes] as called at src/algorithms/generate.rs:123-132
      (dependency, trusted), for the two bit lengths that generating a modulus of
      [b] bits asks for: a prime of the requested bit length with its two top bits
      set, stored in just enough 64-bit limbs. *)
  Definition prime_source (b : Z) : Prop :=
    forall st bits, bits = b / 2 \/ bits = b - b / 2 -> 2 <= bits ->
      let p := fst (gp st bits) in
      prime (uval p) /\ 3 * 2 ^ (bits - 2) <= uval p < 2 ^ bits /\
      uprec p = 64 * ((bits + 63) / 64).

  (** The part of the contract that suffices for any number of primes. *)
  Definition returns_primes : Prop :=
    forall st bits, 2 <= bits ->
      let p := fst (gp st bits) in wf_uint p /\ prime (uval p) /\ 3 <= uval p.

  (** The pair drawn from state [st] for a modulus of [b] bits. *)
  Definition pair_p (st : R) (b : Z) : uint := fst (gp st (b / 2)).
  Definition pair_q (st : R) (b : Z) : uint := fst (gp (snd (gp st (b / 2))) (b - b / 2)).
  Definition pair_next (st : R) (b : Z) : R := snd (gp (snd (gp st (b / 2))) (b - b / 2)).

  (** A pair fit for public exponent [e]. *)
  Definition pair_fit (st : R) (b e : Z) : Prop :=
    uval (pair_p st b) <> uval (pair_q st b) /\
    Z.gcd e ((uval (pair_p st b) - 1) * (uval (pair_q st b) - 1)) = 1.

  (** [fit_at st b e j p q]: pairs 0..j-1 drawn from [st] are unfit, pair [j] is fit
      and is [(p, q)]. *)
  Inductive fit_at (b e : Z) : R -> nat -> uint -> uint -> Prop :=
  | fit_now st : pair_fit st b e -> fit_at b e st 0 (pair_p st b) (pair_q st b)
  | fit_later st j p q : ~ pair_fit st b e -> fit_at b e (pair_next st b) j p q ->
      fit_at b e st (S j) p q.

  (** The first [f] pairs are all unfit. *)
  Inductive unfit_for (b e : Z) : R -> nat -> Prop :=
  | unfit_0 st : unfit_for b e st 0
  | unfit_S st f : ~ pair_fit st b e -> unfit_for b e (pair_next st b) f ->
      unfit_for b e st (S f).
End Source.
