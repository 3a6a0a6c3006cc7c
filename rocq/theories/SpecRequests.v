(** What may be asked of a random source, as predicates on the list of requests. *)
From Coq Require Import ZArith List.
From Coq Require Import Init.Byte.
From Verif Require Import Base MHash SpecRng MLeak.
Import ListNotations.
Local Open Scope Z_scope.

(** The requests among the events of an execution: [EFill n] asks for n octets,
    [ERandMod n] for a number below n. *)
Definition is_request (e : event) : bool :=
  match e with EFill _ | ERandMod _ => true | _ => false end.
Definition requests (t : list event) : list event := filter is_request t.
Definition reqs {A} (m : leaky A) : list event := requests (trace m).

(** [P] holds of the requests however the run ends, [Q] if it succeeds. *)
Definition asks {A} (P Q : list event -> Prop) (m : leaky A) : Prop :=
  P (reqs m) /\ (forall a, result m = Ok a -> Q (reqs m)).

Section Requests.
  Context {R : Type} (g : rng_ops R).

  (** Blinding, however it ends: nothing but draws below n, at most one per unit of fuel,
      and none without a source. *)
  Definition blinding_shape (fuel : nat) (rng : option R) (n : Z) (l : list event) : Prop :=
    match rng with
    | None => l = []
    | Some st => exists j, (j <= fuel)%nat /\ l = repeat (ERandMod n) j
    end.
  (** If it succeeds: as many draws as it takes to find an invertible number (or 0). *)
  Definition blinding_exact (fuel : nat) (rng : option R) (n : Z) (l : list event) : Prop :=
    match rng with
    | None => l = []
    | Some st => exists j, (j < fuel)%nat /\ usable_at g n st j /\ l = repeat (ERandMod n) (S j)
    end.

  (** One request for a seed of h octets. *)
  Definition seed_shape (h : nat) (l : list event) : Prop := l = [] \/ l = [EFill h].
  Definition seed_exact (h : nat) (l : list event) : Prop := l = [EFill h].

  (** One request for a salt of sl octets, then what [blinding] says about the state
      reached (no source if blinding is off). *)
  Definition salt_asked (blinding : option R -> list event -> Prop) (blind : bool) (st : R) (sl : nat)
    (l : list event) : Prop :=
    exists salt st' l', rng_fill g st sl = (Some salt, st') /\ l = EFill sl :: l' /\
      blinding (if blind then Some st' else None) l'.

  (** One request for w octets, then single octets: at least one per zero octet in the
      first answer, none if there is no zero octet in it. *)
  Definition zeros (l : list byte) : nat := count_occ Byte.byte_eq_dec l x00.
  Definition padding_shape (w : nat) (l : list event) : Prop :=
    l = [] \/ exists j, l = EFill w :: repeat (EFill 1) j.
  Definition padding_exact (st : R) (w : nat) (l : list event) : Prop :=
    exists drawn st' j, rng_fill g st w = (Some drawn, st') /\ l = EFill w :: repeat (EFill 1) j /\
      (zeros drawn <= j)%nat /\ (zeros drawn = 0%nat -> j = 0%nat).
End Requests.
