(** The floating-point size check of key generation for any number of primes. *)
From Coq Require Import ZArith List Lia Bool SpecFloat.
From Verif Require Import Base Bigint SpecGen MGenerate.
Import ListNotations.
Local Open Scope Z_scope.

(** Not a NaN and not negative. *)
Definition nonneg_float (f : f64) : Prop :=
  match f with
  | S754_zero _ => True
  | S754_infinity s | S754_finite s _ _ => s = false
  | S754_nan => False
  end.

Lemma shr_1_nonneg m : 0 <= shr_m m -> 0 <= shr_m (shr_1 m).
Proof.
  destruct m as [m r s]; cbn [shr_m]. intros H. unfold shr_1.
  destruct m as [|[p|p|]|p]; cbn [shr_m]; lia.
Qed.

Lemma iter_shr_nonneg p : forall m, 0 <= shr_m m -> 0 <= shr_m (iter_pos shr_1 p m).
Proof. induction p; intros m H; cbn [iter_pos]; auto using shr_1_nonneg. Qed.

Lemma shr_fexp_nonneg pr em m e l : 0 <= m -> 0 <= shr_m (fst (shr_fexp pr em m e l)).
Proof.
  intros H. unfold shr_fexp, shr.
  assert (H1 : 0 <= shr_m (shr_record_of_loc m l)) by (destruct l as [|[]]; exact H).
  destruct (_ - e); cbn [fst]; auto using iter_shr_nonneg.
Qed.

Lemma round_nonneg m l : 0 <= m -> 0 <= round_nearest_even m l.
Proof. intros H. destruct l as [|[]]; cbn [round_nearest_even]; try destruct (Z.even m); lia. Qed.

Lemma round_aux_nonneg pr em m e l : 0 <= m -> nonneg_float (binary_round_aux pr em false m e l).
Proof.
  intros H. unfold binary_round_aux.
  pose proof (shr_fexp_nonneg pr em m e l H) as A. destruct (shr_fexp pr em m e l) as [m1 e1].
  cbn [fst] in A.
  pose proof (round_nonneg _ (loc_of_shr_record m1) A) as B.
  pose proof (shr_fexp_nonneg pr em _ e1 loc_Exact B) as C.
  destruct (shr_fexp pr em _ e1 loc_Exact) as [m2 e2]. cbn [fst] in C.
  destruct (shr_m m2); cbn [nonneg_float]; [auto| |lia].
  destruct (e2 <=? em - pr); reflexivity.
Qed.

Lemma f64_of_Z_nonneg z : 0 <= z -> nonneg_float (f64_of_Z z).
Proof.
  intros H. unfold f64_of_Z, binary_normalize. destruct z as [|p|p]; [exact I| |lia].
  unfold binary_round. destruct (shl_align _ _ _) as [m e].
  apply round_aux_nonneg. lia.
Qed.

Lemma neg_lt_nonneg m e f : nonneg_float f -> f64_lt (S754_finite true m e) f = true.
Proof. destruct f as [s|s| |s m' e']; cbn [nonneg_float]; intros H; try subst s; try easy. Qed.

Lemma few_table : forallb (fun k => forallb (fun b =>
    Bool.eqb (too_few_primes (Z.of_nat b) (Z.of_nat k)) (Z.of_nat b <? min_bits (Z.of_nat k)))
  (seq 0 64)) (seq 2 62) = true.
Proof. vm_compute. reflexivity. Qed.

Lemma few_many k : 64 <= k -> too_few_primes 0 k = true.
Proof.
  intros H. unfold too_few_primes. rewrite Z.div_0_l by lia. cbv zeta.
  match goal with |- f64_lt ?a _ = true => let v := eval vm_compute in a in change a with v end.
  apply neg_lt_nonneg, f64_of_Z_nonneg. lia.
Qed.

Lemma too_few_exact b k : 0 <= b < 64 -> 2 <= k -> (too_few_primes b k = true <-> b < min_bits k).
Proof.
  intros Hb Hk. destruct (Z_lt_ge_dec k 64) as [L|L].
  - pose proof few_table as T. rewrite forallb_forall in T.
    specialize (T (Z.to_nat k) ltac:(apply in_seq; lia)). rewrite forallb_forall in T.
    specialize (T (Z.to_nat b) ltac:(apply in_seq; lia)).
    rewrite !Z2Nat.id in T by lia. apply eqb_prop in T. rewrite T. apply Z.ltb_lt.
  - assert (E : too_few_primes b k = too_few_primes 0 k).
    { unfold too_few_primes. rewrite Z.div_small, Z.div_0_l by lia. reflexivity. }
    rewrite E, few_many by lia. unfold min_bits.
    repeat match goal with |- context [k =? ?x] => destruct (Z.eqb_spec k x); [lia|] end. split; auto; lia.
Qed.
