(** Lemmas about the vocabulary of Base.v: bytes, lists, checked slices. *)
From Coq Require Import ZArith List Bool Lia.
From Coq Require Import Init.Byte.
From Verif Require Import Base.
Import ListNotations.
Local Open Scope Z_scope.

#[global] Arguments b2z : simpl never.
#[global] Arguments Z.add : simpl never.
#[global] Arguments Z.sub : simpl never.
#[global] Arguments Z.mul : simpl never.
#[global] Arguments Z.pow : simpl never.
#[global] Arguments Z.div : simpl never.
#[global] Arguments Z.modulo : simpl never.
#[global] Arguments Z.of_nat : simpl never.
#[global] Arguments Z.to_nat : simpl never.
#[global] Arguments Z.opp : simpl never.
#[global] Arguments z2b : simpl never.
#[global] Arguments byte_eqb : simpl never.
#[global] Arguments bxor : simpl never.
#[global] Arguments band : simpl never.

(** * Outcomes *)

Lemma bind_ok {A B} (m : outcome A) (k : A -> outcome B) x :
  bind m k = Ok x -> exists a, m = Ok a /\ k a = Ok x.
Proof. destruct m; simpl; intros; try discriminate; eauto. Qed.

Lemma guard_ok b e x : guard b e = Ok x -> b = true.
Proof. unfold guard; destruct b; congruence. Qed.

Lemma assert_ok b x : assert_ b = Ok x -> b = true.
Proof. unfold assert_; destruct b; congruence. Qed.

(** * Bytes as numbers *)

Lemma b2z_range b : 0 <= b2z b < 256.
Proof. unfold b2z. pose proof (Byte.to_N_bounded b). lia. Qed.

Lemma z2b_b2z b : z2b (b2z b) = b.
Proof.
  unfold z2b. rewrite Z.mod_small by apply b2z_range.
  unfold b2z. rewrite N2Z.id, Byte.of_to_N. reflexivity.
Qed.

Lemma b2z_z2b z : b2z (z2b z) = z mod 256.
Proof.
  pose proof (Z.mod_pos_bound z 256 ltac:(lia)) as H.
  unfold z2b, b2z.
  destruct (Byte.of_N (Z.to_N (z mod 256))) as [b|] eqn:E.
  - apply Byte.to_of_N in E. rewrite E. apply Z2N.id. lia.
  - apply Byte.of_N_None_iff in E. lia.
Qed.

Lemma b2z_inj a b : b2z a = b2z b -> a = b.
Proof. intros H. rewrite <- (z2b_b2z a), <- (z2b_b2z b), H. reflexivity. Qed.

Lemma z2b_mod z : z2b (z mod 256) = z2b z.
Proof. apply b2z_inj. rewrite !b2z_z2b. apply Zmod_mod. Qed.

Lemma b2z_z2b_small z : 0 <= z < 256 -> b2z (z2b z) = z.
Proof. intros. rewrite b2z_z2b. apply Z.mod_small; lia. Qed.

Lemma byte_eqb_spec a b : reflect (a = b) (byte_eqb a b).
Proof.
  unfold byte_eqb. destruct (Z.eqb_spec (b2z a) (b2z b)); constructor.
  - apply b2z_inj; auto.
  - congruence.
Qed.

Lemma byte_eqb_refl a : byte_eqb a a = true.
Proof. unfold byte_eqb. apply Z.eqb_refl. Qed.

Lemma byte_eqb_eq a b : byte_eqb a b = true <-> a = b.
Proof. destruct (byte_eqb_spec a b); intuition congruence. Qed.

Lemma byte_eqb_neq a b : byte_eqb a b = false <-> a <> b.
Proof. destruct (byte_eqb_spec a b); intuition congruence. Qed.

Lemma bytes_eqb_eq a : forall b, bytes_eqb a b = true <-> a = b.
Proof.
  induction a as [|x a IH]; destruct b as [|y b]; simpl; try intuition congruence.
  rewrite andb_true_iff, byte_eqb_eq, IH. intuition congruence.
Qed.

Lemma bytes_eqb_refl a : bytes_eqb a a = true.
Proof. apply bytes_eqb_eq; auto. Qed.

Lemma bytes_eqb_neq a b : bytes_eqb a b = false <-> a <> b.
Proof.
  destruct (bytes_eqb a b) eqn:E.
  - apply bytes_eqb_eq in E. intuition congruence.
  - split; auto. intros _ H. apply bytes_eqb_eq in H. congruence.
Qed.

(** * Bit operations *)

Lemma bits_lt n a : 0 <= n -> 0 <= a -> (forall i, n <= i -> Z.testbit a i = false) -> a < 2 ^ n.
Proof.
  intros Hn Ha H. destruct (Z_lt_ge_dec a (2 ^ n)); auto. exfalso.
  assert (0 < a) by (pose proof (Z.pow_pos_nonneg 2 n); lia).
  assert (n <= Z.log2 a).
  { rewrite <- (Z.log2_pow2 n) by lia. apply Z.log2_le_mono. lia. }
  pose proof (Z.bit_log2 a ltac:(lia)) as B. rewrite H in B; auto. discriminate.
Qed.

Lemma testbit_high n a i : 0 <= a < 2 ^ n -> n <= i -> 0 <= n -> Z.testbit a i = false.
Proof.
  intros Ha Hi Hn. destruct (Z.eq_dec a 0); [subst; apply Z.bits_0|].
  apply Z.bits_above_log2; [lia|]. 
  assert (Z.log2 a < n) by (apply Z.log2_lt_pow2; lia). lia.
Qed.

Lemma lxor_range n a b : 0 <= n -> 0 <= a < 2 ^ n -> 0 <= b < 2 ^ n -> 0 <= Z.lxor a b < 2 ^ n.
Proof.
  intros Hn Ha Hb.
  assert (0 <= Z.lxor a b) by (apply Z.lxor_nonneg; lia).
  split; auto. apply bits_lt; auto. intros i Hi.
  rewrite Z.lxor_spec, !(testbit_high n); auto.
Qed.

Lemma land_range n a b : 0 <= n -> 0 <= a < 2 ^ n -> 0 <= b < 2 ^ n -> 0 <= Z.land a b < 2 ^ n.
Proof.
  intros Hn Ha Hb.
  assert (0 <= Z.land a b) by (apply Z.land_nonneg; lia).
  split; auto. apply bits_lt; auto. intros i Hi.
  rewrite Z.land_spec, (testbit_high n a i); auto.
Qed.

Lemma b2z_bxor a b : b2z (bxor a b) = Z.lxor (b2z a) (b2z b).
Proof.
  unfold bxor. apply b2z_z2b_small.
  apply (lxor_range 8); try lia; apply b2z_range.
Qed.

Lemma b2z_band a b : b2z (band a b) = Z.land (b2z a) (b2z b).
Proof.
  unfold band. apply b2z_z2b_small.
  apply (land_range 8); try lia; apply b2z_range.
Qed.

Lemma bxor_comm a b : bxor a b = bxor b a.
Proof. apply b2z_inj. rewrite !b2z_bxor. apply Z.lxor_comm. Qed.

Lemma bxor_assoc a b c : bxor (bxor a b) c = bxor a (bxor b c).
Proof. apply b2z_inj. rewrite !b2z_bxor. apply Z.lxor_assoc. Qed.

Lemma bxor_0_l a : bxor x00 a = a.
Proof. apply b2z_inj. rewrite b2z_bxor. apply Z.lxor_0_l. Qed.

Lemma bxor_0_r a : bxor a x00 = a.
Proof. rewrite bxor_comm. apply bxor_0_l. Qed.

Lemma bxor_nilpotent a : bxor a a = x00.
Proof. apply b2z_inj. rewrite b2z_bxor. apply Z.lxor_nilpotent. Qed.

Lemma bxor_invol a b : bxor (bxor a b) b = a.
Proof. rewrite bxor_assoc, bxor_nilpotent. apply bxor_0_r. Qed.

Lemma band_comm a b : band a b = band b a.
Proof. apply b2z_inj. rewrite !b2z_band. apply Z.land_comm. Qed.

Lemma band_assoc a b c : band (band a b) c = band a (band b c).
Proof. apply b2z_inj. rewrite !b2z_band. symmetry; apply Z.land_assoc. Qed.

Lemma band_diag a : band a a = a.
Proof. apply b2z_inj. rewrite b2z_band. apply Z.land_diag. Qed.

Lemma band_xor_distr a b m : band (bxor a b) m = bxor (band a m) (band b m).
Proof.
  apply b2z_inj. rewrite b2z_band, !b2z_bxor, !b2z_band.
  apply Z.bits_inj'. intros i _. 
  rewrite Z.land_spec, !Z.lxor_spec, !Z.land_spec.
  destruct (Z.testbit (b2z a) i), (Z.testbit (b2z b) i), (Z.testbit (b2z m) i); reflexivity.
Qed.

(** * Lists *)

Lemma vec_length b n : length (vec b n) = n.
Proof. apply repeat_length. Qed.

Lemma vec_app b n m : vec b (n + m) = vec b n ++ vec b m.
Proof. apply repeat_app. Qed.

Lemma firstn_app_exact {A} (a b : list A) n : length a = n -> firstn n (a ++ b) = a.
Proof. intros <-. rewrite firstn_app, Nat.sub_diag, firstn_all. simpl. apply app_nil_r. Qed.

Lemma skipn_app_exact {A} (a b : list A) n : length a = n -> skipn n (a ++ b) = b.
Proof. intros <-. rewrite skipn_app, Nat.sub_diag, skipn_all. reflexivity. Qed.

Lemma app_inj_len {A} (a b c d : list A) :
  length a = length c -> a ++ b = c ++ d -> a = c /\ b = d.
Proof.
  revert c. induction a; destruct c; simpl; try discriminate; intros H1 H2; auto.
  injection H2 as -> H2. destruct (IHa c) as [-> ->]; auto.
Qed.

Lemma app_inj_len_r {A} (a b c d : list A) :
  length b = length d -> a ++ b = c ++ d -> a = c /\ b = d.
Proof.
  intros H1 H2. apply app_inj_len; auto.
  apply (f_equal (@length A)) in H2. rewrite !app_length in H2. lia.
Qed.

Lemma split_len {A} (l : list A) n m :
  length l = (n + m)%nat -> exists a b, l = a ++ b /\ length a = n /\ length b = m.
Proof.
  intros H. exists (firstn n l), (skipn n l).
  rewrite firstn_skipn, firstn_length, skipn_length. repeat split; lia.
Qed.

Lemma len_1 {A} (l : list A) : length l = 1%nat -> exists x, l = [x].
Proof. destruct l as [|x [|]]; simpl; intros; try discriminate; eauto. Qed.

(** * Checked operations *)

Lemma usub_ok a b : (b <= a)%nat -> usub a b = Ok (a - b)%nat.
Proof. intros. unfold usub. destruct (Nat.leb_spec b a); auto; lia. Qed.

Lemma usub_panic a b : (a < b)%nat -> usub a b = Panic.
Proof. intros. unfold usub. destruct (Nat.leb_spec b a); auto; lia. Qed.

Lemma get_idx_app {A} (a : list A) x b i : length a = i -> get_idx (a ++ x :: b) i = Ok x.
Proof.
  intros <-. unfold get_idx. rewrite nth_error_app2, Nat.sub_diag by lia. reflexivity.
Qed.

Lemma get_idx_ok {A} (l : list A) i : (i < length l)%nat -> exists x, get_idx l i = Ok x /\ nth_error l i = Some x.
Proof.
  intros H. unfold get_idx. destruct (nth_error l i) eqn:E; eauto.
  apply nth_error_None in E. lia.
Qed.

Lemma set_idx_app {A} (a : list A) x b i v :
  length a = i -> set_idx (a ++ x :: b) i v = Ok (a ++ v :: b).
Proof.
  intros <-. unfold set_idx.
  destruct (Nat.ltb_spec (length a) (length (a ++ x :: b))) as [|H];
    [|rewrite app_length in H; simpl in H; lia].
  rewrite firstn_app_exact by auto.
  change (x :: b) with ([x] ++ b). rewrite app_assoc.
  rewrite skipn_app_exact; [reflexivity|]. rewrite app_length; simpl; lia.
Qed.

Lemma copy_into_app {A} (a old c src : list A) i j :
  length a = i -> length old = length src -> j = (i + length src)%nat ->
  copy_into (a ++ old ++ c) i j src = Ok (a ++ src ++ c).
Proof.
  intros <- Ho ->. unfold copy_into.
  rewrite !app_length, Ho.
  replace (length a + length src - length a)%nat with (length src) by lia.
  destruct (Nat.leb_spec (length a) (length a + length src)); [|lia].
  destruct (Nat.leb_spec (length a + length src) (length a + (length src + length c))); [|lia].
  rewrite Nat.eqb_refl. simpl.
  rewrite firstn_app_exact by auto.
  rewrite (app_assoc a old c), skipn_app_exact; auto. rewrite app_length; lia.
Qed.

Lemma split_at_app {A} (a b : list A) i : length a = i -> split_at (a ++ b) i = Ok (a, b).
Proof.
  intros H. unfold split_at. rewrite app_length.
  destruct (Nat.leb_spec i (length a + length b)); [|lia].
  rewrite firstn_app_exact, skipn_app_exact by auto. reflexivity.
Qed.

Lemma slice_from_app {A} (a b : list A) i : length a = i -> slice_from (a ++ b) i = Ok b.
Proof.
  intros H. unfold slice_from. rewrite app_length.
  destruct (Nat.leb_spec i (length a + length b)); [|lia].
  rewrite skipn_app_exact; auto.
Qed.

Lemma slice_app {A} (a b c : list A) i j :
  length a = i -> j = (i + length b)%nat -> slice (a ++ b ++ c) i j = Ok b.
Proof.
  intros H ->. unfold slice. rewrite !app_length.
  destruct (Nat.leb_spec i (i + length b)); [|lia].
  destruct (Nat.leb_spec (i + length b) (length a + (length b + length c))); [|lia].
  simpl. rewrite skipn_app_exact by auto.
  rewrite firstn_app_exact; auto. lia.
Qed.

Lemma slice_from_0 {A} (l : list A) : slice_from l 0 = Ok l.
Proof. reflexivity. Qed.

Lemma copy_into_full {A} (l src : list A) n :
  length l = n -> length src = n -> copy_into l 0 n src = Ok src.
Proof.
  intros H1 H2. rewrite <- (app_nil_r l). change (l ++ []) with ([] ++ l ++ []).
  rewrite copy_into_app; simpl; try rewrite app_nil_r; auto; congruence.
Qed.

Lemma fold_andb {A} (f : A -> bool) l : forall b,
  fold_left (fun ok el => ok && f el) l b = b && forallb f l.
Proof.
  induction l; simpl; intros b; [rewrite andb_true_r; auto|].
  rewrite IHl. rewrite andb_assoc; auto.
Qed.

Lemma forallb_vec b l : forallb (fun e => byte_eqb e b) l = true <-> l = vec b (length l).
Proof.
  induction l; simpl; [intuition|].
  rewrite andb_true_iff, byte_eqb_eq, IHl. split.
  - intros [-> ?]. f_equal; auto.
  - intros [= -> ?]. auto.
Qed.
