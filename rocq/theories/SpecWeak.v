(** Two classical ways to break an RSA key from its public numbers alone, and two that
    need an exponent besides.  Plain arithmetic; nothing of the library is used. *)
From Coq Require Import ZArith List Zpow_facts.
Import ListNotations.
Local Open Scope Z_scope.

(** M. Wiener, Cryptanalysis of Short RSA Secret Exponents (1990): continued fractions
    find d if 3d is below the fourth root of n. *)
Definition short_exponent (n d : Z) : Prop := (3 * d) ^ 4 < n.

(** Fermat's method: look for [a] from the square root of [n] upwards such that
    [a^2 - n] is a square [b^2]; then [n = (a - b) (a + b)]. *)
Fixpoint fermat_from (steps : nat) (a n : Z) : option (Z * Z) :=
  match steps with
  | O => None
  | S steps' =>
      let b := Z.sqrt (a * a - n) in
      if b * b =? a * a - n then Some (a - b, a + b) else fermat_from steps' (a + 1) n
  end.
Definition fermat (steps : nat) (n : Z) : option (Z * Z) := fermat_from steps (Z.sqrt_up n) n.

(** With an exponent [x] inverse to [e] modulo (p - 1) for a factor p of n, and less than
    p: [e x - 1 = k (p - 1)] for some k less than e.  Try them all. *)
Definition proper_factor (n f : Z) : bool := (1 <? f) && (f <? n) && (n mod f =? 0).
Definition factor_with (n e x : Z) : option Z :=
  find (proper_factor n)
       (map (fun i => (e * x - 1) / Z.of_nat i + 1) (seq 1 (Z.to_nat e))).

(** With a multiple [m] of (p - 1) for every prime factor p of n: from a base [x], look at
    [x^m], [x^(m/2)], [x^(m/4)], ... less one. *)
Definition split_with (n m x : Z) : option Z :=
  find (proper_factor n)
       (Z.gcd x n ::
        map (fun i => Z.gcd (Zpow_mod x (m / 2 ^ Z.of_nat i) n - 1) n) (seq 0 (S (Z.to_nat (Z.log2 m))))).
(** All bases, and those of them that give a factor. *)
Definition bases (n : Z) : list Z := map Z.of_nat (seq 1 (Z.to_nat n - 1)).
Definition splitting (n m : Z) : list Z :=
  filter (fun x => match split_with n m x with Some _ => true | None => false end) (bases n).
