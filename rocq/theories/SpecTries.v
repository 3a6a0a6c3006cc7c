(** The tries of a key generation: which pairs of primes are drawn and what becomes of them, stated
    over the generator interface only. *)
From Coq Require Import ZArith List.
From Verif Require Import Base Bigint SpecGen.
Import ListNotations.
Local Open Scope Z_scope.

(** A pair is dropped because its primes are equal, or because the public exponent has no inverse;
    or it is kept. *)
Inductive verdict := Equal | NoInverse | Kept.

Section Tries.
  Context {R : Type} (gp : R -> Z -> uint * R) (b e : Z).

  Definition verdict_on (st : R) : verdict :=
    let p := uval (pair_p gp st b) in let q := uval (pair_q gp st b) in
    if p =? q then Equal
    else if Z.gcd e ((p - 1) * (q - 1)) =? 1 then Kept else NoInverse.

  (** The verdicts on the pairs drawn from [st], up to the first that is kept, at most [tries]. *)
  Fixpoint verdicts (tries : nat) (st : R) : list verdict :=
    match tries with
    | O => []
    | S tries =>
        match verdict_on st with
        | Kept => [Kept]
        | v => v :: verdicts tries (pair_next gp st b)
        end
    end.
End Tries.
