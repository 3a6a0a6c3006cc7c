(** Lemmas for C97: what yes/no answers about mauled ciphertexts determine. *)
From Coq Require Import ZArith Zpow_facts Znumtheory List Bool Lia.
From Coq Require Import Init.Byte.
From Verif Require Import Base Bigint BytesLemmas BigintLemmas SpecRFC SpecOracle PApi.
Import ListNotations.
Local Open Scope Z_scope.

(** * Numbers *)

Definition in_range (B x : Z) : Prop := 2 * B <= x < 3 * B.

(** Two members of the range whose distance the factor stretches too far. *)
Lemma stretch_ n B d x0 x1 y0 y1 q0 q1 : 0 < B -> 256 * B <= n -> 2 * B <= x0 < 3 * B -> 2 * B <= x1 < 3 * B ->
  2 * B <= y0 < 3 * B -> 2 * B <= y1 < 3 * B -> (1 + d) * x0 = n * q0 + y0 -> (1 + d) * x1 = n * q1 + y1 ->
  2 * B <= Z.abs (d * (x1 - x0)) <= n - 2 * B -> False.
Proof.
  intros HB Hn H0 H1 A0 A1 Q0 Q1 Hd.
  replace (d * (x1 - x0)) with (n * (q1 - q0) + ((y1 - x1) - (y0 - x0))) in Hd by lia.
  assert (H : - 2 * B < (y1 - x1) - (y0 - x0) < 2 * B) by lia.
  generalize dependent (y1 - x1 - (y0 - x0)). intros w Hd H. clear - H HB Hn Hd.
  generalize dependent (q1 - q0). intros q Hd.
  assert (C : q = 0 \/ 1 <= q \/ q <= -1) by lia. destruct C as [-> | [C | C]].
  - lia.
  - assert (n <= n * q) by nia. lia.
  - assert (n * q <= - n) by nia. lia.
Qed.

Lemma stretch n B t d x0 x1 : 0 < B -> 256 * B <= n -> in_range B x0 -> in_range B x1 ->
  (t mod n = (1 + d) mod n) -> 2 * B <= Z.abs (d * (x1 - x0)) <= n - 2 * B ->
  ~ (in_range B (t * x0 mod n) /\ in_range B (t * x1 mod n)).
Proof.
  unfold in_range. intros HB Hn H0 H1 Ht Hd (A0 & A1). assert (Nn : n <> 0) by (clear - HB Hn; lia).
  assert (E : forall x, (t * x mod n) = ((1 + d) * x) mod n).
  { intros x. rewrite Zmult_mod, Ht, <- Zmult_mod. reflexivity. }
  rewrite E in A0. rewrite E in A1.
  exact (stretch_ n B d x0 x1 _ _ _ _ HB Hn H0 H1 A0 A1 (Z.div_mod _ n Nn) (Z.div_mod _ n Nn) Hd).
Qed.

(** A multiple, by at most 254, inside the gap. *)
Lemma multiple n B D : 0 < B -> 256 * B <= n -> B <= 127 * D -> D <= n - 2 * B ->
  exists j, 1 <= j <= 254 /\ 2 * B <= j * D <= n - 2 * B.
Proof.
  intros HB Hn H1 H2. destruct (Z.le_gt_cases (2 * B) D) as [C|C].
  - exists 1. lia.
  - assert (P : 0 < D) by lia. assert (N : D <> 0) by lia. exists ((2 * B + D - 1) / D).
    generalize (Z.div_mod (2 * B + D - 1) D N) (Z.mod_pos_bound (2 * B + D - 1) D P).
    generalize ((2 * B + D - 1) / D) ((2 * B + D - 1) mod D). intros j r E F.
    assert (Q : 2 * B <= j * D < 2 * B + D) by lia. split; [|lia]. clear E F. split; nia.
Qed.

(** * Blocks *)

Definition block1 (a b : nat) (j : Z) : list byte :=
  x00 :: x02 :: (repeat x01 a ++ [octet (1 + j)] ++ repeat x01 b) ++ [x00].
Definition block2 (a : nat) (j : Z) : list byte := x00 :: x02 :: repeat x01 a ++ [x00; octet j].

Lemma octet_val_octet z : 0 <= z < 256 -> octet_val (octet z) = z.
Proof. intros H. rewrite octet_z2b. change octet_val with b2z. rewrite b2z_z2b. apply Z.mod_small; lia. Qed.

Lemma octet_nz z : 0 < z < 256 -> octet z <> x00.
Proof. intros H E. pose proof (octet_val_octet z ltac:(lia)) as F. rewrite E in F. cbn in F. lia. Qed.

Lemma change_octet h u v t : 0 <= u < 256 -> 0 <= v < 256 ->
  os2ip (h ++ octet u :: t) - os2ip (h ++ octet v :: t) = (u - v) * 256 ^ Z.of_nat (length t).
Proof.
  intros Hu Hv. rewrite !os2ip_app. cbn [os2ip length]. rewrite !octet_val_octet by assumption. ring.
Qed.

Lemma block1_value a b j : 0 <= j <= 254 -> os2ip (block1 a b j) - os2ip (block1 a b 0) = j * 256 ^ (Z.of_nat b + 1).
Proof.
  intros H. assert (E : forall i, block1 a b i = (x00 :: x02 :: repeat x01 a) ++ octet (1 + i) :: (repeat x01 b ++ [x00])).
  { intros i. unfold block1. cbn [app]. rewrite <- app_assoc. reflexivity. }
  rewrite !E, change_octet by lia. rewrite app_length, repeat_length. cbn [length].
  f_equal; [lia|]. f_equal. lia.
Qed.

Lemma block2_value a j : 0 <= j <= 254 -> os2ip (block2 a j) - os2ip (block2 a 0) = j.
Proof.
  intros H. assert (E : forall i, block2 a i = (x00 :: x02 :: repeat x01 a ++ [x00]) ++ octet i :: []).
  { intros i. unfold block2. cbn [app]. rewrite <- app_assoc. reflexivity. }
  rewrite !E, change_octet by lia. cbn [length]. change (256 ^ Z.of_nat 0) with 1. lia.
Qed.

Lemma repeat_nz a : Forall (fun b => b <> x00) (repeat x01 a).
Proof. induction a; constructor; [discriminate|auto]. Qed.

Lemma block1_ok a b j K : 0 <= j <= 254 -> (a + b + 4 = K)%nat -> (11 <= K)%nat -> is_eme_pkcs1 K (block1 a b j) [].
Proof.
  intros H E L. unfold block1. split; [cbn [length]; rewrite !app_length, !repeat_length; cbn [length]; lia|].
  exists (repeat x01 a ++ [octet (1 + j)] ++ repeat x01 b). split; [reflexivity|].
  split; [rewrite !app_length, !repeat_length; cbn [length]; lia|].
  apply Forall_app; split; [apply repeat_nz|]. cbn [app]. constructor; [apply octet_nz; lia|apply repeat_nz].
Qed.

Lemma block2_ok a j K : (a + 4 = K)%nat -> (12 <= K)%nat -> is_eme_pkcs1 K (block2 a j) [octet j].
Proof.
  intros E L. unfold block2. split; [cbn [length]; rewrite !app_length, !repeat_length; cbn [length]; lia|].
  exists (repeat x01 a). split; [reflexivity|]. split; [rewrite repeat_length; lia|apply repeat_nz].
Qed.

Lemma eme_range K em M : is_eme_pkcs1 K em M -> in_range (256 ^ (Z.of_nat K - 2)) (os2ip em).
Proof.
  intros (L & PS & -> & _). unfold eme_pkcs1 in *. cbn [length os2ip] in *.
  pose proof (os2ip_range (PS ++ x00 :: M)) as R.
  replace (Z.of_nat K - 2) with (Z.of_nat (length (PS ++ x00 :: M))) by lia.
  change (octet_val x00) with 0. change (octet_val x02) with 2. unfold in_range. lia.
Qed.

(** * Deciding conformity *)

Lemma before_zero_some l i : before_zero l = Some i ->
  exists PS M, l = PS ++ x00 :: M /\ length PS = i /\ Forall (fun b => b <> x00) PS.
Proof.
  revert i. induction l as [|b r IH]; intros i H; [discriminate|]. cbn [before_zero] in H.
  destruct (Byte.eqb b x00) eqn:E.
  - injection H as <-. apply Byte.byte_dec_bl in E. subst b. exists [], r. auto.
  - destruct (before_zero r) as [i'|]; [|discriminate]. injection H as <-.
    destruct (IH i' eq_refl) as (PS & M & -> & L & F). exists (b :: PS), M.
    split; [reflexivity|]. split; [cbn; lia|]. constructor; [|exact F].
    intros ->. rewrite Byte.byte_dec_lb in E by reflexivity. discriminate.
Qed.

Lemma before_zero_app PS M : Forall (fun b => b <> x00) PS -> before_zero (PS ++ x00 :: M) = Some (length PS).
Proof.
  induction 1 as [|b r Hb _ IH]; [reflexivity|]. cbn [app before_zero length].
  destruct (Byte.eqb b x00) eqn:E; [apply Byte.byte_dec_bl in E; contradiction|]. rewrite IH. reflexivity.
Qed.

Lemma conforms_exact K x : conforms K x = true <-> exists M, is_eme_pkcs1 K (i2osp x K) M.
Proof.
  unfold conforms, is_eme_pkcs1, eme_pkcs1. pose proof (i2osp_length x K) as L. split.
  - destruct (i2osp x K) as [|b0 [|b1 rest]]; try discriminate. intros H.
    apply andb_prop in H. destruct H as (H & H3). apply andb_prop in H. destruct H as (H1 & H2).
    apply Byte.byte_dec_bl in H1. apply Byte.byte_dec_bl in H2. subst b0 b1.
    destruct (before_zero rest) as [i|] eqn:E; [|discriminate]. apply Nat.leb_le in H3.
    destruct (before_zero_some _ _ E) as (PS & M & -> & L' & F). exists M. split; [exact L|].
    exists PS. split; [reflexivity|]. split; [lia|exact F].
  - intros (M & _ & PS & -> & L8 & F). rewrite before_zero_app by exact F.
    rewrite (Byte.byte_dec_lb eq_refl), (Byte.byte_dec_lb eq_refl). cbn [andb]. apply Nat.leb_le. exact L8.
Qed.

(** * The answers tell two numbers apart *)

(** The octet to change. *)
Lemma which_octet K D : 3 <= D -> 127 * D < 256 ^ (Z.of_nat K - 2) -> (12 <= K)%nat ->
  exists i, (1 <= i <= K - 3)%nat /\ 256 ^ Z.of_nat i <= 127 * D /\ D <= 254 * 256 ^ Z.of_nat i.
Proof.
  intros H3 HB HK.
  assert (G : forall i, (1 <= i)%nat -> D <= 254 * 256 ^ Z.of_nat i ->
     exists i', (1 <= i' <= i)%nat /\ 256 ^ Z.of_nat i' <= 127 * D /\ D <= 254 * 256 ^ Z.of_nat i').
  { induction i as [|i IH]; intros Hi Hd; [lia|].
    destruct (Nat.eq_dec i 0) as [->|Hz]; [exists 1%nat; split; [lia|]; split; [cbn; lia|exact Hd]|].
    destruct (Z.le_gt_cases D (254 * 256 ^ Z.of_nat i)) as [C|C].
    - destruct (IH ltac:(lia) C) as (i' & A & B). exists i'. split; [lia|exact B].
    - exists (S i). split; [lia|]. split; [|exact Hd]. rewrite pow256_S. clear - C. lia. }
  destruct (G (K - 3)%nat ltac:(lia)) as (i & A & B & C).
  - replace (Z.of_nat K - 2) with (Z.succ (Z.of_nat (K - 3))) in HB by lia. rewrite Z.pow_succ_r in HB by lia. lia.
  - exists i. auto.
Qed.

Lemma separate n K t : (12 <= K)%nat -> 256 ^ (Z.of_nat K - 1) <= n -> t mod n <> 1 ->
  exists em M, is_eme_pkcs1 K em M /\ ~ in_range (256 ^ (Z.of_nat K - 2)) (t * os2ip em mod n).
Proof.
  intros HK Hn Ht. set (B := 256 ^ (Z.of_nat K - 2)).
  assert (HB : 0 < B) by (apply Z.pow_pos_nonneg; lia).
  assert (Hn2 : 256 * B <= n).
  { unfold B. replace (Z.of_nat K - 1) with (Z.succ (Z.of_nat K - 2)) in Hn by lia. rewrite Z.pow_succ_r in Hn by lia. exact Hn. }
  clear Hn. pose proof (Z.mod_pos_bound t n ltac:(lia)) as Hr.
  (* the signed distance of [t] from 1 *)
  assert (S : exists d, t mod n = (1 + d) mod n /\ d <> 0 /\ - n <= 2 * d <= n).
  { destruct (Z.le_gt_cases (2 * (t mod n - 1)) n) as [C|C].
    - exists (t mod n - 1). replace (1 + (t mod n - 1)) with (t mod n) by lia. rewrite Z.mod_mod by lia. lia.
    - exists (t mod n - 1 - n). replace (1 + (t mod n - 1 - n)) with (t mod n + (-1) * n) by lia.
      rewrite Z_mod_plus_full, Z.mod_mod by lia. lia. }
  destruct S as (d & Ed & Nd & Bd).
  assert (two : forall em0 M0 em1 M1, is_eme_pkcs1 K em0 M0 -> is_eme_pkcs1 K em1 M1 ->
     2 * B <= Z.abs (d * (os2ip em1 - os2ip em0)) <= n - 2 * B ->
     exists em M, is_eme_pkcs1 K em M /\ ~ in_range B (t * os2ip em mod n)).
  { intros em0 M0 em1 M1 E0 E1 D. pose proof (eme_range _ _ _ E0) as R0. pose proof (eme_range _ _ _ E1) as R1. fold B in R0, R1.
    pose proof (stretch n B t d _ _ HB Hn2 R0 R1 Ed D) as NO.
    destruct (Z.le_gt_cases (2 * B) (t * os2ip em0 mod n)) as [C1|C1]; [|exists em0, M0; split; [exact E0|unfold in_range; lia]].
    destruct (Z.le_gt_cases (3 * B) (t * os2ip em0 mod n)) as [C2|C2]; [exists em0, M0; split; [exact E0|unfold in_range; lia]|].
    exists em1, M1. split; [exact E1|]. intros C. apply NO. unfold in_range. split; [lia|exact C]. }
  destruct (Z.le_gt_cases B (127 * Z.abs d)) as [C|C].
  - (* the last octet *)
    destruct (multiple n B (Z.abs d) HB Hn2 C ltac:(clear - Bd Hn2 HB; lia)) as (j & J1 & J2).
    apply (two (block2 (K - 4) 0) [octet 0] (block2 (K - 4) j) [octet j]);
      [apply block2_ok; lia|apply block2_ok; lia|]. rewrite block2_value by lia. rewrite Z.abs_mul, (Z.abs_eq j) by lia.
    rewrite (Z.mul_comm (Z.abs d) j). exact J2.
  - destruct (Z.le_gt_cases 3 (Z.abs d)) as [D|D].
    + destruct (which_octet K (Z.abs d) D C HK) as (i & I1 & I2 & I3).
      set (w := 256 ^ Z.of_nat (K - 2 - i)).
      assert (HW : 256 ^ Z.of_nat i * w = B).
      { unfold w, B. rewrite <- Z.pow_add_r by lia. f_equal. lia. }
      assert (Hw : 0 < w) by (apply Z.pow_pos_nonneg; lia).
      destruct (multiple n B (Z.abs d * w) HB Hn2) as (j & J1 & J2).
      { rewrite <- HW. rewrite Z.mul_assoc. apply Z.mul_le_mono_nonneg_r; lia. }
      { apply Z.le_trans with (254 * B); [|lia]. rewrite <- HW. rewrite Z.mul_assoc. apply Z.mul_le_mono_nonneg_r; lia. }
      apply (two (block1 (i - 1) (K - 3 - i) 0) [] (block1 (i - 1) (K - 3 - i) j) []);
        [apply block1_ok; clear - I1 HK J1; lia|apply block1_ok; clear - I1 HK J1; lia|]. rewrite block1_value by (clear - J1; lia).
      replace (Z.of_nat (K - 3 - i) + 1) with (Z.of_nat (K - 2 - i)) by (clear - I1 HK; lia). fold w.
      rewrite !Z.abs_mul, (Z.abs_eq j), (Z.abs_eq w) by lia.
      replace (Z.abs d * (j * w)) with (j * (Z.abs d * w)) by ring. exact J2.
    + (* factors 2, 3, 0 and -1 *)
      exists (block2 (K - 4) 0), [octet 0]. assert (E : is_eme_pkcs1 K (block2 (K - 4) 0) [octet 0]) by (apply block2_ok; lia).
      split; [exact E|]. pose proof (eme_range _ _ _ E) as R. fold B in R. set (x := os2ip (block2 (K - 4) 0)) in *. clearbody x.
      rewrite Zmult_mod, Ed, <- Zmult_mod. unfold in_range in *.
      assert (Cases : d = 1 \/ d = 2 \/ d = -1 \/ d = -2) by lia. clear - Cases R HB Hn2.
      destruct Cases as [-> | [-> | [-> | ->]]].
      * rewrite Z.mod_small; lia.
      * rewrite Z.mod_small; lia.
      * cbn. rewrite Z.mod_0_l; lia.
      * replace ((1 + -2) * x) with (n - x + (-1) * n) by ring. rewrite Z_mod_plus_full, Z.mod_small; lia.
Qed.

(** Two different numbers below [n], the first a unit: some question has different answers. *)
Lemma distinguish n K m m' : (12 <= K)%nat -> is_octet_len n K ->
  0 <= m < n -> 0 <= m' < n -> Z.gcd m n = 1 -> m <> m' ->
  exists s, 0 <= s < n /\ conforms K (m * s mod n) = true /\ conforms K (m' * s mod n) = false.
Proof.
  intros HK (Hn & Hn') Hm Hm' G N.
  assert (Hn1 : 1 < n).
  { apply Z.lt_le_trans with (256 ^ (Z.of_nat K - 1)); [|exact Hn]. apply Z.pow_gt_1; lia. }
  destruct (Zis_gcd_bezout m n 1) as [u v E]. { rewrite <- G. apply Zgcd_is_gcd. }
  assert (I : (m * u) mod n = 1).
  { replace (m * u) with (1 + (- v) * n) by lia. rewrite Z_mod_plus_full. apply Z.mod_small; lia. }
  destruct (separate n K (m' * u) HK Hn) as (em & M & E1 & E2).
  { intros C. apply N.
    assert (A : (m' * u * m) mod n = m mod n) by (rewrite Zmult_mod, C, Z.mul_1_l, Zmod_mod; reflexivity).
    replace (m' * u * m) with (m' * (m * u)) in A by ring. rewrite Zmult_mod, I, Z.mul_1_r, Zmod_mod in A.
    rewrite !Z.mod_small in A by lia. auto. }
  pose proof (eme_range _ _ _ E1) as R. unfold in_range in R.
  assert (HB : 3 * 256 ^ (Z.of_nat K - 2) <= n).
  { replace (Z.of_nat K - 1) with (Z.succ (Z.of_nat K - 2)) in Hn by lia. rewrite Z.pow_succ_r in Hn by lia. lia. }
  exists (u * os2ip em mod n). split; [apply Z.mod_pos_bound; lia|].
  assert (X : (m * (u * os2ip em mod n)) mod n = os2ip em).
  { rewrite Zmult_mod_idemp_r, Z.mul_assoc, Zmult_mod, I, Z.mul_1_l, Zmod_mod. apply Z.mod_small. clear - R HB. lia. }
  assert (Y : (m' * (u * os2ip em mod n)) mod n = m' * u * os2ip em mod n).
  { rewrite Zmult_mod_idemp_r, Z.mul_assoc. reflexivity. }
  rewrite X, Y. split.
  - apply conforms_exact. exists M. rewrite i2osp_os2ip by apply E1. exact E1.
  - destruct (conforms K (m' * u * os2ip em mod n)) eqn:Q; [|reflexivity]. exfalso. apply E2.
    apply conforms_exact in Q. destruct Q as (M' & Q). apply eme_range in Q.
    pose proof (Z.mod_pos_bound (m' * u * os2ip em) n ltac:(lia)). rewrite os2ip_i2osp in Q by lia. exact Q.
Qed.

Lemma numbers_below_in n x : In x (numbers_below n) <-> 0 <= x < n.
Proof.
  unfold numbers_below. rewrite in_map_iff. split.
  - intros (i & <- & H). apply in_seq in H. lia.
  - intros H. exists (Z.to_nat x). split; [lia|]. apply in_seq. lia.
Qed.

Lemma recover_unit n K m answers : (12 <= K)%nat -> is_octet_len n K -> 0 <= m < n -> Z.gcd m n = 1 ->
  (forall s, 0 <= s < n -> answers s = conforms K (m * s mod n)) -> recover n K answers = Some m.
Proof.
  intros HK Hn Hm G A. unfold recover.
  destruct (find _ (numbers_below n)) as [m'|] eqn:F.
  - apply find_some in F. destruct F as (I & F). apply numbers_below_in in I. rewrite forallb_forall in F.
    destruct (Z.eq_dec m m') as [->|N]; [reflexivity|].
    destruct (distinguish n K m m' HK Hn Hm I G N) as (s & S & C1 & C2).
    specialize (F s (proj2 (numbers_below_in n s) S)). apply Bool.eqb_prop in F. rewrite A in F by exact S. congruence.
  - pose proof (find_none _ _ F m (proj2 (numbers_below_in n m) Hm)) as Q. cbv beta in Q.
    assert (X : forallb (fun s => Bool.eqb (answers s) (conforms K (m * s mod n))) (numbers_below n) = true).
    { apply forallb_forall. intros s S. apply numbers_below_in in S. rewrite A by exact S. apply Bool.eqb_reflx. }
    congruence.
Qed.
