(** Proofs about src/algorithms/pad.rs. *)
From Coq Require Import ZArith List Bool Lia.
From Coq Require Import Init.Byte.
From Verif Require Import Base Bigint BytesLemmas NumTheory SpecRFC BigintLemmas MPad.
Import ListNotations.
Local Open Scope Z_scope.

Lemma left_pad_ok input len :
  (length input <= len)%nat ->
  left_pad input len = Ok (vec x00 (len - length input) ++ input).
Proof.
  intros H. unfold left_pad.
  destruct (Nat.ltb_spec len (length input)); [lia|].
  rewrite usub_ok by lia. simpl bind.
  replace (vec x00 len)
    with (vec x00 (len - length input) ++ vec x00 (length input) ++ [])
    by (rewrite app_nil_r, <- vec_app; f_equal; lia).
  rewrite copy_into_app; rewrite ?vec_length, ?app_nil_r; auto; lia.
Qed.

Lemma left_pad_err input len :
  (len < length input)%nat -> left_pad input len = Err InvalidPadLen.
Proof. intros H. unfold left_pad. destruct (Nat.ltb_spec len (length input)); [auto|lia]. Qed.

Lemma left_pad_cases input len :
  left_pad input len = Ok (vec x00 (len - length input) ++ input) /\ (length input <= len)%nat
  \/ left_pad input len = Err InvalidPadLen /\ (len < length input)%nat.
Proof.
  destruct (Nat.le_gt_cases (length input) len).
  - left; auto using left_pad_ok.
  - right; auto using left_pad_err.
Qed.

(** Bytes needed for the bits of a wf integer. *)
Lemma significant_bytes u :
  wf_uint u ->
  slice_from (to_be_bytes u) (Z.to_nat (uleading_zeros u / 8))
  = Ok (be_bytes (Z.to_nat ((ubits u + 7) / 8)) (uval u)).
Proof.
  intros Hw. pose proof (ubits_le_prec u Hw) as Hb.
  destruct (wf_prec u Hw) as (k & Hk & Hk1).
  unfold to_be_bytes, uleading_zeros.
  set (m := Z.to_nat ((ubits u + 7) / 8)).
  set (j := Z.to_nat ((uprec u - ubits u) / 8)).
  assert (Z.to_nat (uprec u / 8) = j + m)%nat as E.
  { unfold j, m. rewrite Hk.
    replace (64 * k / 8) with (8 * k).
    2:{ replace (64 * k) with (8 * (8 * k)) by ring. rewrite mul8_div8; auto. }
    rewrite Hk in Hb.
    Z.div_mod_to_equations. lia. }
  rewrite E, be_bytes_app. apply slice_from_app. apply be_bytes_length.
Qed.

Lemma uint_to_be_pad_ok u len :
  wf_uint u -> uval u < 256 ^ Z.of_nat len ->
  uint_to_be_pad u len = Ok (be_bytes len (uval u)).
Proof.
  intros Hw Hv. unfold uint_to_be_pad. rewrite significant_bytes by auto. simpl bind.
  pose proof (ubits_le_prec u Hw) as Hb. destruct Hw as (H0 & _).
  rewrite pow256_2 in Hv by lia.
  apply zbits_le in Hv; [|lia|lia]. fold (ubits u) in Hv.
  set (m := Z.to_nat ((ubits u + 7) / 8)).
  assert (m <= len)%nat by (unfold m; Z.div_mod_to_equations; lia).
  rewrite left_pad_ok; rewrite be_bytes_length; auto.
  replace len with ((len - m) + m)%nat at 2 by lia.
  rewrite be_bytes_app. f_equal. f_equal.
  assert (uval u < 256 ^ Z.of_nat m).
  { rewrite pow256_2 by lia. apply zbits_le; try lia. fold (ubits u).
    unfold m; Z.div_mod_to_equations; lia. }
  rewrite Z.div_small by lia. symmetry; apply be_bytes_0.
Qed.

Lemma uint_to_be_pad_err u len :
  wf_uint u -> 256 ^ Z.of_nat len <= uval u ->
  uint_to_be_pad u len = Err InvalidPadLen.
Proof.
  intros Hw Hv. unfold uint_to_be_pad. rewrite significant_bytes by auto. simpl bind.
  pose proof (ubits_le_prec u Hw) as Hb. destruct Hw as (H0 & _).
  apply left_pad_err. rewrite be_bytes_length.
  rewrite pow256_2 in Hv by lia.
  assert (8 * Z.of_nat len < ubits u).
  { destruct (Z_lt_ge_dec (8 * Z.of_nat len) (ubits u)); auto.
    assert (uval u < 2 ^ (8 * Z.of_nat len)) by (apply zbits_le; unfold ubits in *; lia). lia. }
  Z.div_mod_to_equations; lia.
Qed.

Lemma uint_to_zeroizing_be_pad_eq u len :
  uint_to_zeroizing_be_pad u len = uint_to_be_pad u len.
Proof. reflexivity. Qed.

Lemma uint_to_be_pad_ok_inv u len X :
  wf_uint u -> uint_to_be_pad u len = Ok X -> I2OSP (uval u) len X /\ uval u < 256 ^ Z.of_nat len.
Proof.
  intros Hw H. destruct (Z_lt_ge_dec (uval u) (256 ^ Z.of_nat len)) as [Hlt|Hge].
  - rewrite uint_to_be_pad_ok in H by auto. injection H as <-. split; auto.
    apply be_bytes_I2OSP. destruct Hw as (H0 & _); lia.
  - rewrite uint_to_be_pad_err in H by (auto; lia). discriminate.
Qed.

Lemma C21_lemma u len :
  wf_uint u ->
  (uval u < 256 ^ Z.of_nat len ->
     exists X, uint_to_be_pad u len = Ok X /\ uint_to_zeroizing_be_pad u len = Ok X
               /\ I2OSP (uval u) len X) /\
  (256 ^ Z.of_nat len <= uval u ->
     uint_to_be_pad u len = Err InvalidPadLen /\
     uint_to_zeroizing_be_pad u len = Err InvalidPadLen).
Proof.
  intros Hw. change (uint_to_zeroizing_be_pad u len) with (uint_to_be_pad u len).
  split; intros H.
  - exists (be_bytes len (uval u)). rewrite uint_to_be_pad_ok by auto.
    split; auto. split; auto. apply be_bytes_I2OSP. destruct Hw; lia.
  - rewrite uint_to_be_pad_err by auto. auto.
Qed.

Lemma left_pad_full input len :
  left_pad input len =
  if (length input <=? len)%nat
  then Ok (repeat x00 (len - length input) ++ input) else Err InvalidPadLen.
Proof.
  destruct (Nat.leb_spec (length input) len).
  - apply left_pad_ok; auto.
  - apply left_pad_err; auto.
Qed.
