(** Lemmas about the big-integer contract of Bigint.v and its link with the
    specification's OS2IP / I2OSP. *)
From Coq Require Import ZArith List Bool Lia Znumtheory.
From Coq Require Import ZifyBool ZifyNat.
From Coq Require Import Init.Byte.
From Verif Require Import Base Bigint BytesLemmas NumTheory SpecRFC.
Import ListNotations.
Local Open Scope Z_scope.

Lemma pow256_pos n : 0 < 256 ^ Z.of_nat n.
Proof. apply Z.pow_pos_nonneg; lia. Qed.

Lemma pow256_S n : 256 ^ Z.of_nat (S n) = 256 * 256 ^ Z.of_nat n.
Proof. rewrite Nat2Z.inj_succ, Z.pow_succ_r by lia. reflexivity. Qed.

Lemma pow256_2 n : 0 <= n -> 256 ^ n = 2 ^ (8 * n).
Proof. intros. change 256 with (2 ^ 8). rewrite <- Z.pow_mul_r by lia. reflexivity. Qed.

(** * be_value is OS2IP *)

Lemma octet_val_b2z b : octet_val b = b2z b.
Proof. reflexivity. Qed.
Lemma octet_z2b z : octet z = z2b z.
Proof. reflexivity. Qed.
Lemma octet_xor_bxor a b : octet_xor a b = bxor a b.
Proof. reflexivity. Qed.

Lemma be_value_acc l : forall acc,
  fold_left (fun acc b => 256 * acc + b2z b) l acc
  = acc * 256 ^ Z.of_nat (length l) + os2ip l.
Proof.
  induction l; intros acc; [simpl; lia|].
  cbn [fold_left length os2ip]. rewrite IHl.
  rewrite pow256_S. change octet_val with b2z. ring.
Qed.

Lemma be_value_os2ip l : be_value l = os2ip l.
Proof. unfold be_value. rewrite be_value_acc. ring. Qed.

Lemma os2ip_range l : 0 <= os2ip l < 256 ^ Z.of_nat (length l).
Proof.
  induction l; cbn [length os2ip]; [simpl; lia|].
  rewrite pow256_S. change octet_val with b2z. pose proof (b2z_range a).
  pose proof (pow256_pos (length l)). nia.
Qed.

Lemma os2ip_app a : forall b, os2ip (a ++ b) = os2ip a * 256 ^ Z.of_nat (length b) + os2ip b.
Proof.
  induction a; intros b; cbn [app os2ip]; [ring|].
  rewrite IHa, app_length, Nat2Z.inj_add, Z.pow_add_r by lia. ring.
Qed.

Lemma os2ip_inj a : forall b, length a = length b -> os2ip a = os2ip b -> a = b.
Proof.
  induction a; destruct b as [|y b]; simpl length; intros L E; try discriminate; auto.
  injection L as L. cbn [os2ip] in E. rewrite L in E.
  pose proof (os2ip_range a0) as Ha. pose proof (os2ip_range b) as Hb. rewrite L in Ha.
  change octet_val with b2z in E.
  assert (b2z a = b2z y) by nia.
  f_equal; [apply b2z_inj; auto|]. apply IHa; auto. nia.
Qed.

Lemma os2ip_vec0 n : os2ip (vec x00 n) = 0.
Proof. induction n; simpl; auto. Qed.

Lemma os2ip_zeros n l : os2ip (vec x00 n ++ l) = os2ip l.
Proof. rewrite os2ip_app, os2ip_vec0. ring. Qed.

Lemma os2ip_cons x l : os2ip (x :: l) = b2z x * 256 ^ Z.of_nat (length l) + os2ip l.
Proof. reflexivity. Qed.

(** * be_bytes is I2OSP *)

Lemma be_bytes_length n : forall v, length (be_bytes n v) = n.
Proof. induction n; simpl; intros; auto. rewrite app_length, IHn. simpl; lia. Qed.

Lemma os2ip_be_bytes n : forall v, os2ip (be_bytes n v) = v mod 256 ^ Z.of_nat n.
Proof.
  induction n; intros v.
  - simpl. rewrite Z.mod_1_r. reflexivity.
  - cbn [be_bytes]. rewrite os2ip_app, IHn. cbn [os2ip length].
    change (Z.of_nat 1) with 1. change (Z.of_nat 0) with 0.
    change octet_val with b2z. rewrite b2z_z2b, pow256_S.
    rewrite (Z.rem_mul_r v 256) by (pose proof (pow256_pos n); lia). ring.
Qed.

Lemma be_bytes_os2ip l : be_bytes (length l) (os2ip l) = l.
Proof.
  apply os2ip_inj; [apply be_bytes_length|].
  rewrite os2ip_be_bytes. apply Z.mod_small, os2ip_range.
Qed.

Lemma be_bytes_I2OSP n v : 0 <= v < 256 ^ Z.of_nat n -> I2OSP v n (be_bytes n v).
Proof.
  intros. split; [apply be_bytes_length|]. rewrite os2ip_be_bytes. apply Z.mod_small; auto.
Qed.

Lemma I2OSP_unique v n X : I2OSP v n X -> X = be_bytes n v.
Proof. intros [<- <-]. symmetry; apply be_bytes_os2ip. Qed.

Lemma be_bytes_app n m v : be_bytes (n + m) v = be_bytes n (v / 256 ^ Z.of_nat m) ++ be_bytes m v.
Proof.
  revert v. induction m; intros v.
  - simpl. rewrite Nat.add_0_r, Z.div_1_r, app_nil_r. reflexivity.
  - rewrite Nat.add_succ_r. cbn [be_bytes]. rewrite IHm, app_assoc.
    f_equal. f_equal. f_equal.
    rewrite pow256_S, Z.div_div; auto; [lia|]. apply pow256_pos.
Qed.

Lemma be_bytes_0 n : be_bytes n 0 = vec x00 n.
Proof.
  apply os2ip_inj; [rewrite be_bytes_length, vec_length; auto|].
  rewrite os2ip_be_bytes, os2ip_vec0. apply Zmod_0_l.
Qed.

Lemma i2osp_be_bytes v n : i2osp v n = be_bytes n v.
Proof.
  unfold i2osp. induction n; auto.
  replace (S n) with (1 + n)%nat by lia.
  rewrite be_bytes_app. rewrite <- IHn. simpl. f_equal.
  - change octet with z2b. rewrite !Nat.sub_0_r. reflexivity.
  - rewrite <- seq_shift, map_map. apply map_ext_in. intros i Hi. apply in_seq in Hi.
    do 4 f_equal. lia.
Qed.

(** * Bit lengths *)

Lemma zbits_nonneg v : 0 <= zbits v.
Proof. unfold zbits. destruct (Z.leb_spec v 0); [lia|]. pose proof (Z.log2_nonneg v); lia. Qed.

Lemma zbits_bound v : 0 <= v -> v < 2 ^ zbits v.
Proof.
  intros. unfold zbits. destruct (Z.leb_spec v 0).
  - replace v with 0 by lia. simpl; lia.
  - apply Z.log2_spec; lia.
Qed.

Lemma zbits_le v b : 0 <= b -> 0 <= v -> (v < 2 ^ b <-> zbits v <= b).
Proof.
  intros Hb Hv. unfold zbits. destruct (Z.leb_spec v 0).
  - pose proof (Z.pow_pos_nonneg 2 b). lia.
  - rewrite Z.log2_lt_pow2 by lia. lia.
Qed.

Lemma zbits_pow v : 0 < v -> 2 ^ (zbits v - 1) <= v < 2 ^ zbits v.
Proof.
  intros. unfold zbits. destruct (Z.leb_spec v 0); [lia|].
  replace (Z.log2 v + 1 - 1) with (Z.log2 v) by lia.
  rewrite Z.add_1_r. apply Z.log2_spec; lia.
Qed.

Lemma zbits_pos v : 0 < v -> 0 < zbits v.
Proof. intros. unfold zbits. destruct (Z.leb_spec v 0); [lia|]. pose proof (Z.log2_nonneg v); lia. Qed.

Lemma zbits_unique v b : 0 < b -> 2 ^ (b - 1) <= v < 2 ^ b -> zbits v = b.
Proof.
  intros Hb H.
  assert (0 < v) by (pose proof (Z.pow_pos_nonneg 2 (b - 1)); lia).
  apply Z.le_antisymm.
  - apply zbits_le; lia.
  - destruct (Z_lt_ge_dec (zbits v) b); [|lia].
    assert (v < 2 ^ (b - 1)) by (apply zbits_le; lia). lia.
Qed.

Lemma wf_prec u : wf_uint u -> exists k, uprec u = 64 * k /\ 1 <= k.
Proof.
  intros (_ & H1 & H2). exists (uprec u / 64). 
  pose proof (Z_div_mod_eq_full (uprec u) 64). lia.
Qed.

Lemma prec_for_id p : 64 <= p -> p mod 64 = 0 -> prec_for p = p.
Proof.
  intros H1 H2. unfold prec_for, ceil64.
  pose proof (Z_div_mod_eq_full p 64).
  replace ((p + 63) / 64) with (p / 64); [lia|].
  apply (Z.div_unique _ _ _ 63); lia.
Qed.

Lemma prec_for_wf b : 64 <= prec_for b /\ prec_for b mod 64 = 0.
Proof.
  unfold prec_for, ceil64. split; [lia|].
  destruct (Z.max_spec 64 (64 * ((b + 63) / 64))) as [[_ ->]|[_ ->]]; [|reflexivity].
  rewrite Z.mul_comm. apply Z_mod_mult.
Qed.

Lemma prec_for_ge b : b <= prec_for b.
Proof.
  unfold prec_for, ceil64. pose proof (Z.div_mod (b + 63) 64 ltac:(lia)).
  pose proof (Z.mod_pos_bound (b + 63) 64 ltac:(lia)). lia.
Qed.

Lemma ubits_le_prec u : wf_uint u -> 0 <= ubits u <= uprec u.
Proof.
  intros (H & H1 & _). split; [apply zbits_nonneg|]. apply zbits_le; lia.
Qed.

(** * Conversions *)

Lemma from_be_slice_spec l bits :
  0 <= bits ->
  from_be_slice l bits =
    if (Z.of_nat (length l) =? 0) && (bits =? 0) then Ok (mkU 0 64)
    else if (bits + 7) / 8 <? Z.of_nat (length l) then Err (Decode DecodeInputSize)
    else if 2 ^ bits <=? os2ip l then Err (Decode DecodePrecision)
    else Ok (mkU (os2ip l) (prec_for bits)).
Proof.
  intros Hb. unfold from_be_slice. rewrite be_value_os2ip.
  pose proof (os2ip_range l).
  destruct (_ && _); auto. destruct (_ <? _); auto.
  pose proof (zbits_le (os2ip l) bits Hb ltac:(lia)).
  destruct (Z.ltb_spec bits (zbits (os2ip l))), (Z.leb_spec (2 ^ bits) (os2ip l)); auto; lia.
Qed.

(** With a whole-limb precision that is large enough, conversion succeeds. *)
Lemma from_be_slice_fits l p :
  64 <= p -> p mod 64 = 0 -> 8 * Z.of_nat (length l) <= p ->
  from_be_slice l p = Ok (mkU (os2ip l) p).
Proof.
  intros H1 H2 H3. rewrite from_be_slice_spec by lia.
  destruct (Z.eqb_spec p 0); [lia|]. rewrite andb_false_r.
  pose proof (os2ip_range l) as Hr.
  assert (Z.of_nat (length l) <= (p + 7) / 8) by (apply Z.div_le_lower_bound; lia).
  destruct (Z.ltb_spec ((p + 7) / 8) (Z.of_nat (length l))); [lia|].
  rewrite pow256_2 in Hr by lia.
  assert (2 ^ (8 * Z.of_nat (length l)) <= 2 ^ p) by (apply Z.pow_le_mono_r; lia).
  destruct (Z.leb_spec (2 ^ p) (os2ip l)); [lia|].
  rewrite prec_for_id by auto. reflexivity.
Qed.

Lemma from_be_slice_ok_inv l p u :
  64 <= p -> p mod 64 = 0 -> from_be_slice l p = Ok u ->
  u = mkU (os2ip l) p /\ 8 * Z.of_nat (length l) <= p.
Proof.
  intros H1 H2. rewrite from_be_slice_spec by lia.
  destruct (Z.eqb_spec p 0); [lia|]. rewrite andb_false_r.
  destruct (Z.ltb_spec ((p + 7) / 8) (Z.of_nat (length l))) as [|Hl]; [discriminate|].
  destruct (Z.leb_spec (2 ^ p) (os2ip l)); [discriminate|].
  rewrite prec_for_id by auto. intros [= <-]. split; auto.
  pose proof (Z_div_mod_eq_full p 64).
  assert (8 * ((p + 7) / 8) <= p + 7) by (apply Z.mul_div_le; lia).
  lia.
Qed.

Lemma mul8_div8 k : 8 * k / 8 = k.
Proof. rewrite Z.mul_comm. apply Z.div_mul; lia. Qed.

