(** What it means for memory to be given back with or without its content. *)
From Coq Require Import ZArith List.
From Coq Require Import Init.Byte.
From Verif Require Import Base Bigint SpecRFC MResidue.
Import ListNotations.
Local Open Scope Z_scope.

(** The run frees the object with its content in place. *)
Definition left_behind {A} (run : holding A) (o : object) : Prop := In (Plain o) (heap run).
(** The run erases the object before freeing it. *)
Definition erased {A} (run : holding A) (o : object) : Prop := In (Erased o) (heap run).

(** The number an integer holds is [z]. *)
Definition left_integer {A} (run : holding A) (z : Z) : Prop :=
  exists u, left_behind run (Int u) /\ uval u = z.
Definition erased_integer {A} (run : holding A) (z : Z) : Prop :=
  exists u, erased run (Int u) /\ uval u = z.

(** All objects the run erases, in the order in which they are freed. *)
Fixpoint erasures (h : list freed) : list object :=
  match h with
  | [] => []
  | Plain _ :: r => erasures r
  | Erased o :: r => o :: erasures r
  end.
Definition erased_objects {A} (run : holding A) : list object := erasures (heap run).

(** What blinding with exponent [e] modulo [n] erases: nothing without a generator, else the
    power of one unit, at the precision [prec]. *)
Definition blinding_erased {R} (rng : option R) (n e prec : Z) (l : list object) : Prop :=
  match rng with
  | None => l = []
  | Some _ => exists r ri, 0 <= r < n /\ (r * ri) mod n = 1 /\ l = [Int (mkU (r ^ e mod n) prec)]
  end.
(** One number, once as octets and once as an integer. *)
Definition twice (z : Z) (l : list object) : Prop :=
  exists bs u, l = [Octets bs; Int u] /\ os2ip bs = z /\ uval u = z.
