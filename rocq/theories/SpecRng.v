(** What a caller-supplied random generator may do during blinding, stated over the
    generator interface only (no reference to the algorithms that use it).

    Blinding modulo [n] needs an invertible number.  [usable_at g n st j]: starting
    in state [st], draws 0..j-1 modulo [n] succeed but are not invertible and draw
    [j] is usable (invertible, or zero, which is replaced by one).
    [fails_at g n st j]: draws 0..j-1 succeed but are not invertible and draw [j] is
    a generator error. *)
From Coq Require Import ZArith List.
From Coq Require Import Init.Byte.
From Verif Require Import Base MHash.
Import ListNotations.
Local Open Scope Z_scope.

Section Draws.
  Context {R : Type} (g : rng_ops R) (n : Z).

  Inductive usable_at : R -> nat -> Prop :=
  | usable_now st st' v :
      rng_mod g st n = (Some v, st') -> v = 0 \/ Z.gcd v n = 1 -> usable_at st 0
  | usable_later st st' v j :
      rng_mod g st n = (Some v, st') -> v <> 0 -> Z.gcd v n <> 1 ->
      usable_at st' j -> usable_at st (S j).

  Inductive fails_at : R -> nat -> Prop :=
  | fails_now st st' : rng_mod g st n = (None, st') -> fails_at st 0
  | fails_later st st' v j :
      rng_mod g st n = (Some v, st') -> v <> 0 -> Z.gcd v n <> 1 ->
      fails_at st' j -> fails_at st (S j).

  (** The first [f] draws all succeed and none is invertible. *)
  Inductive unusable_for : R -> nat -> Prop :=
  | unusable_0 st : unusable_for st 0
  | unusable_S st st' v f :
      rng_mod g st n = (Some v, st') -> v <> 0 -> Z.gcd v n <> 1 ->
      unusable_for st' f -> unusable_for st (S f).

  (** No generator, or one that delivers a usable number within [f] draws. *)
  Definition blinding_succeeds (rng : option R) (f : nat) : Prop :=
    match rng with
    | None => True
    | Some st => exists j, (j < f)%nat /\ usable_at st j
    end.

  (** A generator that fails within [f] draws before delivering a usable number. *)
  Definition blinding_fails (rng : option R) (f : nat) : Prop :=
    match rng with
    | None => False
    | Some st => exists j, (j < f)%nat /\ fails_at st j
    end.

  Definition blinding_undecided (rng : option R) (f : nat) : Prop :=
    match rng with
    | None => False
    | Some st => unusable_for st f
    end.

  (** Whatever the generator does, exactly one of the three holds. *)
  Lemma blinding_trichotomy rng f :
    blinding_succeeds rng f \/ blinding_fails rng f \/ blinding_undecided rng f.
  Proof.
    destruct rng as [st|]; simpl; auto.
    revert st. induction f as [|f IH]; intros st; [right; right; constructor|].
    destruct (rng_mod g st n) as [[v|] st'] eqn:E.
    - destruct (Z.eq_dec v 0) as [->|Hv].
      { left. exists 0%nat. split; [apply Nat.lt_0_succ|]. econstructor; eauto. }
      destruct (Z.eq_dec (Z.gcd v n) 1) as [Hg|Hg].
      { left. exists 0%nat. split; [apply Nat.lt_0_succ|]. econstructor; eauto. }
      destruct (IH st') as [(j & Hj & H)|[(j & Hj & H)|H]].
      + left. exists (S j). split; [apply -> Nat.succ_lt_mono; auto|]. eapply usable_later; eauto.
      + right; left. exists (S j). split; [apply -> Nat.succ_lt_mono; auto|].
        eapply fails_later; eauto.
      + right; right. eapply unusable_S; eauto.
    - right; left. exists 0%nat. split; [apply Nat.lt_0_succ|]. econstructor; eauto.
  Qed.
End Draws.

(** * Non-zero random bytes

    PKCS#1 v1.5 encryption fills a buffer and replaces every zero byte by single
    bytes drawn until one is non-zero.  What the generator may do is described here
    over the generator interface only; [f] bounds the number of single-byte draws
    looked at for one position. *)
Section Bytes.
  Context {R : Type} (g : rng_ops R).

  (** [j] zero bytes are drawn, then the non-zero byte [b]. *)
  Inductive redraw_gives : R -> nat -> byte -> R -> Prop :=
  | redraw_now st b st' :
      rng_fill g st 1 = (Some [b], st') -> b <> x00 -> redraw_gives st 0 b st'
  | redraw_later st st' j b st'' :
      rng_fill g st 1 = (Some [x00], st') -> redraw_gives st' j b st'' ->
      redraw_gives st (S j) b st''.

  (** [j] zero bytes are drawn, then the generator fails. *)
  Inductive redraw_fails : R -> nat -> Prop :=
  | redraw_fails_now st st' : rng_fill g st 1 = (None, st') -> redraw_fails st 0
  | redraw_fails_later st st' j :
      rng_fill g st 1 = (Some [x00], st') -> redraw_fails st' j -> redraw_fails st (S j).

  (** The next [f] single-byte draws are all zero. *)
  Inductive redraw_zeros : R -> nat -> Prop :=
  | redraw_zeros_0 st : redraw_zeros st 0
  | redraw_zeros_S st st' f :
      rng_fill g st 1 = (Some [x00], st') -> redraw_zeros st' f -> redraw_zeros st (S f).

  Section Fuel.
    Variable f : nat.

    (** All zero bytes of [data] get replaced; the result is [out]. *)
    Inductive patched : R -> list byte -> list byte -> R -> Prop :=
    | patched_nil st : patched st [] [] st
    | patched_keep st b data out st' :
        b <> x00 -> patched st data out st' -> patched st (b :: data) (b :: out) st'
    | patched_replace st j b st' data out st'' :
        (j < f)%nat -> redraw_gives st j b st' -> patched st' data out st'' ->
        patched st (x00 :: data) (b :: out) st''.

    (** The generator fails while some zero byte is being replaced. *)
    Inductive patch_fails : R -> list byte -> Prop :=
    | patch_fails_here st j data :
        (j < f)%nat -> redraw_fails st j -> patch_fails st (x00 :: data)
    | patch_fails_keep st b data : b <> x00 -> patch_fails st data -> patch_fails st (b :: data)
    | patch_fails_replace st j b st' data :
        (j < f)%nat -> redraw_gives st j b st' -> patch_fails st' data ->
        patch_fails st (x00 :: data).

    (** Some zero byte is met for which [f] draws in a row are zero. *)
    Inductive patch_stuck : R -> list byte -> Prop :=
    | patch_stuck_here st data : redraw_zeros st f -> patch_stuck st (x00 :: data)
    | patch_stuck_keep st b data : b <> x00 -> patch_stuck st data -> patch_stuck st (b :: data)
    | patch_stuck_replace st j b st' data :
        (j < f)%nat -> redraw_gives st j b st' -> patch_stuck st' data ->
        patch_stuck st (x00 :: data).

    Definition padding_gives (st : R) (n : nat) (PS : list byte) : Prop :=
      exists drawn st' st'', rng_fill g st n = (Some drawn, st') /\ patched st' drawn PS st''.
    Definition padding_fails (st : R) (n : nat) : Prop :=
      (exists st', rng_fill g st n = (None, st')) \/
      (exists drawn st', rng_fill g st n = (Some drawn, st') /\ patch_fails st' drawn).
    Definition padding_stuck (st : R) (n : nat) : Prop :=
      exists drawn st', rng_fill g st n = (Some drawn, st') /\ patch_stuck st' drawn.
  End Fuel.

  Hypothesis Hok : rng_ok g.

  Lemma redraw_trichotomy f : forall st,
    (exists j b st', (j < f)%nat /\ redraw_gives st j b st') \/
    (exists j, (j < f)%nat /\ redraw_fails st j) \/ redraw_zeros st f.
  Proof.
    induction f as [|f IH]; intros st; [right; right; constructor|].
    destruct (rng_fill g st 1) as [[bs|] st'] eqn:E.
    - assert (length bs = 1%nat) as L by (eapply (proj1 Hok); eauto).
      destruct bs as [|b [|]]; try discriminate.
      destruct (Byte.byte_eq_dec b x00) as [->|Hb].
      + destruct (IH st') as [(j & b & st2 & Hj & H)|[(j & Hj & H)|H]].
        * left. exists (S j), b, st2. split; [apply -> Nat.succ_lt_mono; auto|]. econstructor; eauto.
        * right; left. exists (S j). split; [apply -> Nat.succ_lt_mono; auto|]. econstructor; eauto.
        * right; right. econstructor; eauto.
      + left. exists 0%nat, b, st'. split; [apply Nat.lt_0_succ|]. econstructor; eauto.
    - right; left. exists 0%nat. split; [apply Nat.lt_0_succ|]. econstructor; eauto.
  Qed.

  Lemma patch_trichotomy f : forall data st,
    (exists out st', patched f st data out st') \/ patch_fails f st data \/ patch_stuck f st data.
  Proof.
    induction data as [|b data IH]; intros st; [left; eexists; eexists; constructor|].
    destruct (Byte.byte_eq_dec b x00) as [->|Hb].
    - destruct (redraw_trichotomy f st) as [(j & b & st2 & Hj & H)|[(j & Hj & H)|H]].
      + destruct (IH st2) as [(out & st3 & H2)|[H2|H2]].
        * left. exists (b :: out), st3. econstructor; eauto.
        * right; left. eapply patch_fails_replace; eauto.
        * right; right. eapply patch_stuck_replace; eauto.
      + right; left. eapply patch_fails_here; eauto.
      + right; right. constructor; auto.
    - destruct (IH st) as [(out & st3 & H2)|[H2|H2]].
      + left. exists (b :: out), st3. constructor; auto.
      + right; left. apply patch_fails_keep; auto.
      + right; right. apply patch_stuck_keep; auto.
  Qed.

  (** Whatever the generator does, one of the three happens. *)
  Lemma padding_trichotomy f st n :
    (exists PS, padding_gives f st n PS) \/ padding_fails f st n \/ padding_stuck f st n.
  Proof.
    destruct (rng_fill g st n) as [[drawn|] st'] eqn:E.
    - destruct (patch_trichotomy f drawn st') as [(out & st2 & H)|[H|H]].
      + left. exists out, drawn, st', st2. auto.
      + right; left. right. exists drawn, st'. auto.
      + right; right. exists drawn, st'. auto.
    - right; left. left. eauto.
  Qed.
End Bytes.
