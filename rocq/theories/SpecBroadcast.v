(** Reading messages encrypted with a low public exponent without the private key:
    integer roots, and Hastad's broadcast attack (1985).  Plain arithmetic, nothing of the
    library but the modular inverse [zinv] on integers. *)
From Coq Require Import ZArith List.
From Verif Require Import Base Bigint.
Import ListNotations.
Local Open Scope Z_scope.

(** The integer [e]-th root of [x], bit by bit from the top. *)
Fixpoint root_from (bits : nat) (e x acc : Z) : Z :=
  match bits with
  | O => acc
  | S b => let t := acc + 2 ^ Z.of_nat b in root_from b e x (if t ^ e <=? x then t else acc)
  end.
Definition iroot (e x : Z) : Z := root_from (S (Z.to_nat (Z.log2 x))) e x 0.

(** The number below the product of all moduli that leaves residue c modulo n for every
    pair (c, n), by the Chinese remainder theorem; and that product. *)
Fixpoint join (l : list (Z * Z)) : Z * Z :=
  match l with
  | [] => (0, 1)
  | (c, n) :: l' =>
      let (x, m) := join l' in
      let i := match zinv m n with Some i => i | None => 0 end in
      (x + m * (((c - x) * i) mod n), m * n)
  end.

(** The attack, from ciphertexts and moduli. *)
Definition broadcast (e : Z) (l : list (Z * Z)) : Z := iroot e (fst (join l)).

(** Moduli without common factors. *)
Fixpoint coprime (ns : list Z) : Prop :=
  match ns with
  | [] => True
  | n :: ns' => Forall (fun m => Z.gcd n m = 1) ns' /\ coprime ns'
  end.
