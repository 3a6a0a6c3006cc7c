(** Number theory used by the proofs: Fermat for exponents, modular inverses,
    products of distinct primes. *)
From Coq Require Import ZArith Znumtheory Zpow_facts List Bool Lia.
From Verif Require Import Base Bigint Fermat.
Import ListNotations.
Local Open Scope Z_scope.

(** * Modular exponentiation *)

Lemma powm_spec a e m : 0 < m -> 0 <= e -> powm a e m = a ^ e mod m.
Proof. intros; unfold powm; apply Zpow_mod_correct; lia. Qed.

Lemma powm_range a e m : 0 < m -> 0 <= e -> 0 <= powm a e m < m.
Proof. intros; rewrite powm_spec by lia; apply Z.mod_pos_bound; lia. Qed.

Lemma pow_mod_base a e m : 0 < m -> (a mod m) ^ e mod m = a ^ e mod m.
Proof. intros; symmetry; apply Zpower_mod; lia. Qed.

Lemma divide_mod_eq a b m : 0 < m -> (m | a - b) <-> a mod m = b mod m.
Proof.
  intros Hm; split.
  - intros [k Hk]. replace a with (b + k * m) by lia.
    apply Z_mod_plus_full.
  - intros H. apply Zmod_divide; [lia|].
    rewrite Zminus_mod, H, Z.sub_diag. apply Zmod_0_l.
Qed.

(** * Fermat *)

Lemma fermat_Z p a : prime p -> a ^ p mod p = a mod p.
Proof.
  intros Hp. pose proof (prime_ge_2 p Hp).
  rewrite Zpower_mod by lia.
  rewrite fermat_nat_Z; auto.
  - apply Zmod_mod.
  - apply Z.mod_pos_bound; lia.
Qed.

Lemma fermat_pm1 p a : prime p -> ~ (p | a) -> a ^ (p - 1) mod p = 1.
Proof.
  intros Hp Hn. pose proof (prime_ge_2 p Hp).
  pose proof (fermat_Z p a Hp) as F.
  apply divide_mod_eq in F; [|lia].
  replace (a ^ p - a) with (a * (a ^ (p - 1) - 1)) in F.
  2:{ replace p with (Z.succ (p - 1)) at 2 by lia.
      rewrite Z.pow_succ_r by lia. ring. }
  apply Gauss in F.
  - apply divide_mod_eq in F; [|lia]. rewrite F. apply Z.mod_small; lia.
  - apply prime_rel_prime; auto.
Qed.

Lemma fermat_exp p a k :
  prime p -> 1 <= k -> k mod (p - 1) = 1 mod (p - 1) -> a ^ k mod p = a mod p.
Proof.
  intros Hp Hk Hc. pose proof (prime_ge_2 p Hp).
  destruct (Zdivide_dec p a) as [Hd|Hn].
  - assert (a mod p = 0) as Ha by (apply Zdivide_mod; auto).
    rewrite Zpower_mod by lia. rewrite Ha. rewrite Z.pow_0_l by lia.
    apply Zmod_0_l.
  - apply divide_mod_eq in Hc; [|lia]. destruct Hc as [t Ht].
    assert (0 <= t) by nia.
    replace k with (1 + (p - 1) * t) by lia.
    rewrite Z.pow_add_r, Z.pow_mul_r by nia.
    rewrite Zmult_mod, (Zpower_mod (a ^ (p - 1))) by lia.
    rewrite fermat_pm1 by auto.
    rewrite Z.pow_1_l by lia.
    rewrite <- Zmult_mod. f_equal. ring.
Qed.

(** * Products of distinct primes *)

Definition zprod (l : list Z) : Z := fold_right Z.mul 1 l.

Lemma zprod_pos l : Forall (fun p => 0 < p) l -> 0 < zprod l.
Proof. induction 1; simpl; lia. Qed.

Lemma prime_pos_all l : Forall prime l -> Forall (fun p => 0 < p) l.
Proof. intros H; eapply Forall_impl; [|exact H]. intros p Hp; pose proof (prime_ge_2 _ Hp); lia. Qed.

Lemma prime_not_in_prod p l :
  prime p -> Forall prime l -> ~ In p l -> rel_prime p (zprod l).
Proof.
  intros Hp Hl. induction Hl as [|q l Hq Hl IH]; intros Hni; simpl.
  - apply rel_prime_1 || (apply rel_prime_sym; apply rel_prime_1).
  - apply rel_prime_mult.
    + apply prime_rel_prime; auto. intros Hd.
      apply prime_div_prime in Hd; auto. subst. apply Hni; left; auto.
    + apply IH. intros Hi; apply Hni; right; auto.
Qed.

Lemma prod_divide l x :
  Forall prime l -> NoDup l -> (forall p, In p l -> (p | x)) -> (zprod l | x).
Proof.
  intros Hl Hd. induction Hd as [|p l Hni Hd IH]; intros H; simpl.
  - apply Z.divide_1_l.
  - inversion Hl; subst.
    destruct (H p) as [y Hy]; [left; auto|].
    assert (zprod l | x) as Hx by (apply IH; auto; intros; apply H; right; auto).
    rewrite Hy in Hx. rewrite Z.mul_comm in Hx.
    apply Gauss in Hx.
    + destruct Hx as [z Hz]. exists z. rewrite Hy, Hz. ring.
    + apply rel_prime_sym. apply prime_not_in_prod; auto.
Qed.

Lemma in_divide_zprod p l : In p l -> (p | zprod l).
Proof.
  induction l; simpl; [tauto|]. intros [->|H].
  - apply Z.divide_factor_l.
  - apply Z.divide_mul_r; auto.
Qed.

(** The RSA identity. *)
Lemma rsa_identity ps k x :
  Forall prime ps -> NoDup ps -> 1 <= k ->
  (forall p, In p ps -> k mod (p - 1) = 1 mod (p - 1)) ->
  x ^ k mod zprod ps = x mod zprod ps.
Proof.
  intros Hp Hd Hk Hc.
  assert (0 < zprod ps) by (apply zprod_pos, prime_pos_all; auto).
  apply divide_mod_eq; auto.
  apply prod_divide; auto. intros p Hi.
  assert (prime p) as Hpp by (eapply Forall_forall in Hp; eauto).
  pose proof (prime_ge_2 _ Hpp).
  apply divide_mod_eq; [lia|]. apply fermat_exp; auto.
Qed.

(** * Modular inverse *)

Lemma egcd_inv fuel : forall A M a b x0 x1 g x,
  0 <= a -> 0 <= b ->
  (M | a - A * x0) -> (M | b - A * x1) ->
  egcd fuel a b x0 x1 = Some (g, x) ->
  g = Z.gcd a b /\ (M | g - A * x).
Proof.
  induction fuel; intros A M a b x0 x1 g x Ha Hb H0 H1; simpl; [discriminate|].
  destruct (Z.eqb_spec b 0).
  - intros [= <- <-]. subst. rewrite Z.gcd_0_r, Z.abs_eq by lia. auto.
  - intros H. apply (IHfuel A M) in H; auto.
    + destruct H as [-> H]. split; auto.
      rewrite Z.gcd_comm, Z.gcd_mod by lia. apply Z.gcd_comm.
    + apply Z.mod_pos_bound; lia.
    + pose proof (Z_div_mod_eq_full a b) as E.
      replace (a mod b - A * (x0 - a / b * x1))
        with ((a - A * x0) - (a / b) * (b - A * x1)).
      * apply Z.divide_sub_r; auto. apply Z.divide_mul_r; auto.
      * rewrite Z.mul_sub_distr_l. lia.
Qed.

Lemma egcd_some fuel : forall k a b x0 x1,
  0 <= b -> b <= a -> b < 2 ^ k -> 0 <= k ->
  (2 * Z.to_nat k + 1 <= fuel)%nat ->
  exists r, egcd fuel a b x0 x1 = Some r.
Proof.
  (* two steps at least halve b *)
  induction fuel as [fuel IH] using (well_founded_induction lt_wf).
  intros k a b x0 x1 Hb Hab Hlt Hk Hf.
  destruct fuel as [|f]; [lia|]. simpl.
  destruct (Z.eqb_spec b 0); [eauto|].
  assert (1 <= k) by (destruct (Z.eq_dec k 0); [subst; simpl in *; lia|lia]).
  destruct f as [|f]; [lia|]. simpl.
  pose proof (Z.mod_pos_bound a b ltac:(lia)).
  destruct (Z.eqb_spec (a mod b) 0) as [|Hn]; [eauto|].
  pose proof (Z.mod_pos_bound b (a mod b) ltac:(lia)).
  apply (IH f ltac:(lia) (k - 1)); try lia.
  assert (2 * (b mod (a mod b)) < b).
  { pose proof (Z_div_mod_eq_full b (a mod b)).
    assert (1 <= b / (a mod b)) by (apply Z.div_le_lower_bound; lia). nia. }
  replace (2 ^ k) with (2 * 2 ^ (k - 1)) in Hlt; [lia|].
  rewrite <- Z.pow_succ_r by lia. f_equal; lia.
Qed.

Lemma egcd_S f a b x0 x1 :
  egcd (S f) a b x0 x1 =
  if b =? 0 then Some (a, x0) else egcd f b (a mod b) x1 (x0 - (a / b) * x1).
Proof. reflexivity. Qed.

Lemma egcd_fuel_ok a m : 0 < m -> 0 <= a < m -> exists r, egcd (egcd_fuel m) a m 1 0 = Some r.
Proof.
  intros Hm Ha. unfold egcd_fuel.
  replace (4 + 2 * Z.to_nat (Z.log2 m))%nat with (S (3 + 2 * Z.to_nat (Z.log2 m)))%nat by lia.
  rewrite egcd_S. destruct (Z.eqb_spec m 0); [lia|].
  rewrite Z.mod_small by lia.
  pose proof (Z.log2_nonneg m). pose proof (Z.log2_spec m Hm).
  apply (egcd_some _ (Z.log2 m + 1)); try lia.
Qed.

Lemma zinv_some a m x : zinv a m = Some x -> 0 < m /\ 0 <= x < m /\ (a * x) mod m = 1 mod m.
Proof.
  unfold zinv. destruct (Z.leb_spec m 0); [discriminate|].
  destruct (egcd _ _ _ _ _) as [[g y]|] eqn:E; [|discriminate].
  destruct (Z.eqb_spec g 1); [|discriminate]. intros [= <-]. subst.
  pose proof (Z.mod_pos_bound a m ltac:(lia)).
  apply (egcd_inv _ (a mod m) m) in E; try lia.
  - destruct E as [_ E]. split; [lia|].
    split; [apply Z.mod_pos_bound; lia|].
    apply divide_mod_eq in E; [|lia]. rewrite E.
    rewrite Zmult_mod_idemp_r, Zmult_mod_idemp_l. auto.
  - exists 0; lia.
  - exists 1; lia.
Qed.

Lemma zinv_exists a m : 0 < m -> Z.gcd a m = 1 -> exists x, zinv a m = Some x.
Proof.
  intros Hm Hg. unfold zinv. destruct (Z.leb_spec m 0); [lia|].
  pose proof (Z.mod_pos_bound a m Hm).
  destruct (egcd_fuel_ok (a mod m) m) as [[g y] E]; auto.
  rewrite E. apply (egcd_inv _ (a mod m) m) in E; try lia.
  - destruct E as [-> _].
    rewrite Z.gcd_mod by lia. rewrite Z.gcd_comm, Hg. simpl. eauto.
  - exists 0; lia.
  - exists 1; lia.
Qed.

Lemma inverse_gcd a m x : 0 < m -> (a * x) mod m = 1 mod m -> Z.gcd a m = 1.
Proof.
  intros Hm H. apply divide_mod_eq in H; auto. destruct H as [k Hk].
  apply Zgcd_1_rel_prime. apply bezout_rel_prime.
  apply (Bezout_intro _ _ _ x (- k)). lia.
Qed.

Lemma zinv_none a m : 0 < m -> (zinv a m = None <-> Z.gcd a m <> 1).
Proof.
  intros Hm; split.
  - intros H Hg. destruct (zinv_exists a m Hm Hg). congruence.
  - intros Hg. destruct (zinv a m) eqn:E; auto.
    apply zinv_some in E. destruct E as (_ & _ & E).
    apply inverse_gcd in E; auto. contradiction.
Qed.

Lemma inverse_unique a m x y :
  0 < m -> 0 <= x < m -> 0 <= y < m ->
  (a * x) mod m = 1 mod m -> (a * y) mod m = 1 mod m -> x = y.
Proof.
  intros Hm Hx Hy Ex Ey.
  rewrite <- (Z.mod_small x m), <- (Z.mod_small y m) by lia.
  transitivity ((x * (a * y)) mod m).
  - rewrite <- Zmult_mod_idemp_r, Ey, Zmult_mod_idemp_r. f_equal; ring.
  - replace (x * (a * y)) with (y * (a * x)) by ring.
    rewrite <- Zmult_mod_idemp_r, Ex, Zmult_mod_idemp_r. f_equal; ring.
Qed.

(** * Garner recombination *)
Lemma crt_combine p q qinv m1 m2 x :
  prime p -> prime q -> p <> q ->
  0 <= m2 < q -> 0 <= x < p * q ->
  (q * qinv) mod p = 1 mod p ->
  m1 mod p = x mod p -> m2 = x mod q ->
  ((qinv * ((m1 - m2) mod p)) mod p) * q + m2 = x.
Proof.
  intros Hp Hq Hne Hm2 Hx Hi E1 E2.
  pose proof (prime_ge_2 p Hp). pose proof (prime_ge_2 q Hq).
  set (h := (qinv * ((m1 - m2) mod p)) mod p).
  pose proof (Z.mod_pos_bound (qinv * ((m1 - m2) mod p)) p ltac:(lia)) as Hh.
  fold h in Hh.
  assert (0 <= h * q + m2 < p * q) by nia.
  rewrite <- (Z.mod_small (h * q + m2) (p * q)) by lia.
  rewrite <- (Z.mod_small x (p * q)) by lia.
  apply divide_mod_eq; [lia|].
  replace (p * q) with (zprod [p; q]) by (simpl; ring).
  apply prod_divide.
  - apply Forall_cons; [exact Hp|]. apply Forall_cons; [exact Hq|apply Forall_nil].
  - constructor; [simpl; intuition|]. constructor; [simpl; tauto|constructor].
  - intros r [<-|[<-|[]]].
    + apply divide_mod_eq; [lia|].
      rewrite <- Zplus_mod_idemp_l. unfold h.
      rewrite Zmult_mod_idemp_l.
      replace (qinv * ((m1 - m2) mod p) * q) with (((m1 - m2) mod p) * (q * qinv)) by ring.
      rewrite <- Zmult_mod_idemp_r, Hi, Zmult_mod_idemp_r, Z.mul_1_r, Zmod_mod.
      rewrite Zplus_mod_idemp_l. rewrite <- E1. f_equal; ring.
    + apply divide_mod_eq; [lia|].
      rewrite Z.add_comm, Z_mod_plus_full. subst m2. apply Zmod_mod.
Qed.
