(** How many values satisfy a condition. *)
From Coq Require Import ZArith List.
Import ListNotations.
Local Open Scope Z_scope.

(** Exactly [N] values satisfy [P]: some list without repetition holds them all and is that long. *)
Definition counted {A} (P : A -> Prop) (N : Z) : Prop :=
  exists l : list A, NoDup l /\ (forall x, In x l <-> P x) /\ Z.of_nat (length l) = N.
