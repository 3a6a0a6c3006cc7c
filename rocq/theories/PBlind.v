(** Lemmas on what blinding does to the number the private exponent is applied to. *)
From Coq Require Import ZArith List Bool Lia Znumtheory.
From Coq Require Import Init.Byte.
From Verif Require Import Base Bigint BytesLemmas BigintLemmas NumTheory SpecRFC SpecRng SpecBlind MHash MRsa MKey
  MBlind KeyDefs PRsa.
Import ListNotations.
Local Open Scope Z_scope.

Lemma private_path {R} (g : rng_ops R) fuel rng k c :
  rsa_decrypt g fuel rng k c =
  if uleb (pk_n (sk_pub k)) c then Err Decryption
  else let* (x, ir) := private_operand g fuel rng k c in private_finish k x ir.
Proof. reflexivity. Qed.

Lemma draws_ok v : rng_ok (draws v).
Proof.
  split; cbn; intros r n ? ?.
  - intros H. injection H as <- _. apply repeat_length.
  - intros Hn H. injection H as <- _. apply Z.mod_pos_bound; auto.
Qed.

Lemma scaled_ok {R} n t (g : rng_ops R) : rng_ok g -> rng_ok (scaled n t g).
Proof.
  intros [H1 H2]. split; cbn; auto. intros r m v r' Hm H.
  destruct (rng_mod g r m) as [[w|] s] eqn:E; [|discriminate].
  apply H2 in E; auto. injection H as <- _. destruct (Z.eqb_spec m n); subst; auto.
  apply Z.mod_pos_bound; auto.
Qed.

Section Operand.
  Context {R : Type} (g : rng_ops R).

  Lemma operand_loop fuel st k c :
    rng_ok g -> good_priv k -> wf_uint c -> uprec c = uprec (pk_n (sk_pub k)) ->
    private_operand g fuel (Some st) k c =
    match blind_loop g fuel st (sk_pub k) with
    | Ok (r, ir, _) =>
        Ok (mkU ((uval c * (uval r ^ uval (pk_e (sk_pub k)) mod uval (pk_n (sk_pub k))))
                 mod uval (pk_n (sk_pub k))) (uprec (sk_d k)), Some ir)
    | Err e => Err e
    | Panic => Panic
    | OutOfFuel => OutOfFuel
    end.
  Proof.
    intros Hg Hk Hc Hcp. pose proof (good_gt1 k Hk) as H1.
    pose proof Hk as (Hpub & Hd & _ & HV & Hprec & _).
    unfold private_operand. rewrite blind_ok by auto.
    destruct (blind_loop g fuel st (sk_pub k)) as [[[r ir] st']| | |] eqn:E; cbn [bind]; auto.
    pose proof Hpub as (Hn & _).
    rewrite widen_ok; auto.
    - destruct Hn as (? & ? & ?). apply wf_mk; auto.
      match goal with |- context [?a mod uval (pk_n (sk_pub k))] =>
        pose proof (Z.mod_pos_bound a (uval (pk_n (sk_pub k))) ltac:(lia)) end. lia.
    - destruct Hd as (_ & _ & ?); auto.
  Qed.
End Operand.

(** ** One draw *)

Lemma operand_draw {R} (g : rng_ops R) f st st' v k c :
  rng_ok g -> good_priv k -> wf_uint c -> uprec c = uprec (pk_n (sk_pub k)) ->
  rng_mod g st (uval (pk_n (sk_pub k))) = (Some v, st') ->
  let n := uval (pk_n (sk_pub k)) in
  let e := uval (pk_e (sk_pub k)) in
  (v = 0 -> exists ri, private_operand g (S f) (Some st) k c
            = Ok (mkU (uval c mod n) (uprec (sk_d k)), Some ri)) /\
  (Z.gcd v n = 1 -> exists ri, private_operand g (S f) (Some st) k c
            = Ok (mkU ((uval c * v ^ e) mod n) (uprec (sk_d k)), Some ri)) /\
  (v <> 0 -> Z.gcd v n <> 1 ->
   private_operand g (S f) (Some st) k c = private_operand g f (Some st') k c).
Proof.
  intros Hg Hk Hc Hcp E n e. pose proof (good_gt1 k Hk) as H1.
  pose proof Hk as ((Hn & _) & _ & _ & HV & _).
  assert (He : 0 < e) by (destruct HV as (_ & _ & _ & _ & ? & _); auto).
  fold n in H1. rewrite operand_loop by auto. rewrite blind_loop_step by auto. rewrite E. cbv zeta.
  split; [|split].
  - intros ->. rewrite Z.eqb_refl. destruct (zinv_unit 1 n H1) as (x & Ex); [apply Z.gcd_1_l|].
    fold n. rewrite Ex. exists (mkU x (uprec (pk_n (sk_pub k)))). do 3 f_equal. cbn [uval].
    fold e. rewrite Z.pow_1_l by lia. rewrite (Z.mod_small 1) by lia. f_equal. lia.
  - intros Hv. destruct (zinv_unit v n H1 Hv) as (x & Ex).
    destruct (Z.eqb_spec v 0) as [->|Hz]; [rewrite Z.gcd_0_l in Hv; lia|].
    fold n. rewrite Ex. exists (mkU x (uprec (pk_n (sk_pub k)))). do 3 f_equal. cbn [uval].
    fold e. apply Z.mul_mod_idemp_r. lia.
  - intros Hz Hv. destruct (Z.eqb_spec v 0) as [->|_]; [tauto|]. fold n.
    rewrite zinv_gcd_none by (auto; lia). rewrite operand_loop by auto. reflexivity.
Qed.

(** ** Units *)

Lemma gcd_mod_l a n : Z.gcd (a mod n) n = Z.gcd a n.
Proof.
  destruct (Z.eq_dec n 0) as [->|H]; [rewrite Zmod_0_r; auto|].
  rewrite Z.gcd_mod by auto. apply Z.gcd_comm.
Qed.

Lemma gcd_mul_unit a t n : Z.gcd t n = 1 -> Z.gcd (a * t) n = Z.gcd a n.
Proof.
  intros Ht. apply Z.gcd_unique.
  - apply Z.gcd_nonneg.
  - apply Z.divide_mul_l, Z.gcd_divide_l.
  - apply Z.gcd_divide_r.
  - intros q Hq1 Hq2. apply Z.gcd_greatest; auto.
    assert (Z.gcd q t = 1) as Hg.
    { apply Zgcd_1_rel_prime. apply Zgcd_1_rel_prime in Ht.
      apply rel_prime_sym in Ht. apply rel_prime_div with (p := n); auto. }
    rewrite Z.mul_comm in Hq1. eapply Z.gauss; eauto.
Qed.

Lemma gcd_pow_unit r e n : 0 <= e -> Z.gcd r n = 1 -> Z.gcd (r ^ e) n = 1.
Proof.
  intros He H. pattern e. apply natlike_ind; auto.
  - cbn. apply Z.gcd_1_l.
  - intros x Hx IH. rewrite Z.pow_succ_r by auto. rewrite gcd_mul_unit; auto.
Qed.

Lemma unit_inv c n : 1 < n -> Z.gcd c n = 1 -> exists x, (c * x) mod n = 1 /\ Z.gcd x n = 1.
Proof.
  intros Hn Hc. destruct (zinv_unit c n Hn Hc) as (x & E). apply zinv_some in E.
  destruct E as (_ & _ & E). exists x. split; [rewrite (Z.mod_small 1) in E; auto; lia|].
  apply (inverse_gcd x n c); [lia|]. rewrite Z.mul_comm. auto.
Qed.

(** Two numbers sharing the same primes with n differ by an invertible factor. *)
Lemma unit_ratio ps b c :
  Forall prime ps -> NoDup ps -> (forall p, In p ps -> ((p | b) <-> (p | c))) ->
  exists u, (forall p, In p ps -> ~ (p | u)) /\ (forall p, In p ps -> (p | c * u - b)).
Proof.
  intros HP HN. induction ps as [|p ps IH]; intros HB.
  { exists 1. split; intros ? []. }
  inversion HP as [|? ? Hp HP']; subst. inversion HN as [|? ? Hin HN']; subst.
  destruct IH as (u & Hu & Eu); auto. { intros q Hq. apply HB. right; auto. }
  assert (p2 : 2 <= p) by (apply prime_ge_2; auto).
  assert (exists w, ~ (p | w) /\ (p | c * w - b)) as (w & Hw & Ew).
  { destruct (Zdivide_dec p c) as [D|D].
    - exists 1. split; [intros H; apply Z.divide_1_r_nonneg in H; lia|].
      apply Z.divide_sub_r; [apply Z.divide_mul_l; auto|]. apply (HB p (or_introl eq_refl)); auto.
    - assert (Z.gcd c p = 1) as G.
      { apply Zgcd_1_rel_prime. apply rel_prime_sym. apply prime_rel_prime; auto. }
      destruct (unit_inv c p ltac:(lia) G) as (x & Ex & _).
      assert (Dx : (p | c * x - 1)).
      { apply divide_mod_eq; [lia|]. rewrite Ex. symmetry. apply Z.mod_small. lia. }
      exists (b * x). split.
      + intros H. apply prime_mult in H; auto. destruct H as [H|H].
        * apply D. apply (HB p (or_introl eq_refl)); auto.
        * assert (p | 1) as H1.
          { replace 1 with (c * x - (c * x - 1)) by ring. apply Z.divide_sub_r; auto.
            apply Z.divide_mul_r; auto. }
          apply Z.divide_1_r_nonneg in H1; lia.
      + replace (c * (b * x) - b) with (b * (c * x - 1)) by ring. apply Z.divide_mul_r; auto. }
  set (P := zprod ps).
  assert (GP : Z.gcd P p = 1).
  { apply Zgcd_1_rel_prime. apply rel_prime_sym.
    apply prime_not_in_prod; auto. }
  destruct (unit_inv P p ltac:(lia) GP) as (x & Ex & _).
  assert (Dx : (p | P * x - 1)).
  { apply divide_mod_eq; [lia|]. rewrite Ex. symmetry. apply Z.mod_small. lia. }
  assert (Dw : (p | (u + P * (x * (w - u))) - w)).
  { replace ((u + P * (x * (w - u))) - w) with ((w - u) * (P * x - 1)) by ring. apply Z.divide_mul_r; auto. }
  assert (Dq : forall q, In q ps -> (q | (u + P * (x * (w - u))) - u)).
  { intros q Hq. replace ((u + P * (x * (w - u))) - u) with (P * (x * (w - u))) by ring.
    apply Z.divide_mul_l. apply in_divide_zprod; auto. }
  exists (u + P * (x * (w - u))). split; intros q [<-|Hq].
  - intros H. apply Hw. replace w with ((u + P * (x * (w - u))) - ((u + P * (x * (w - u))) - w)) by ring.
    apply Z.divide_sub_r; auto.
  - intros H. apply (Hu q Hq). replace u with ((u + P * (x * (w - u))) - ((u + P * (x * (w - u))) - u)) by ring.
    apply Z.divide_sub_r; auto.
  - replace (c * (u + P * (x * (w - u))) - b) with
      (c * ((u + P * (x * (w - u))) - w) + (c * w - b)) by ring.
    apply Z.divide_add_r; auto. apply Z.divide_mul_r; auto.
  - replace (c * (u + P * (x * (w - u))) - b) with
      (c * ((u + P * (x * (w - u))) - u) + (c * u - b)) by ring.
    apply Z.divide_add_r; auto. apply Z.divide_mul_r; auto.
Qed.

Lemma gcd_zprod ps u : Forall prime ps -> (forall p, In p ps -> ~ (p | u)) -> Z.gcd u (zprod ps) = 1.
Proof.
  induction ps as [|p ps IH]; intros HP H; cbn [zprod]; [apply Z.gcd_1_r|].
  inversion HP; subst. apply Zgcd_1_rel_prime. apply rel_prime_mult.
  - apply rel_prime_sym, prime_rel_prime; auto. apply H. left; auto.
  - apply Zgcd_1_rel_prime. apply IH; auto. intros; apply H; right; auto.
Qed.

(** For two numbers with the same gcd with n, a factor that takes the blinding of one to
    the other. *)
Lemma root_exists n e d ps b c :
  valid_rsa_key n e d ps -> 1 < n -> Z.gcd b n = Z.gcd c n ->
  exists t, 0 <= t < n /\ Z.gcd t n = 1 /\ (c * t ^ e) mod n = b mod n.
Proof.
  intros HV Hn G. pose proof HV as (_ & HP & HD & En & He & Hd & _).
  rewrite product_zprod in En.
  destruct (unit_ratio ps b c) as (u & Hu & Eu); auto.
  { intros p Hp. assert (p | n) by (rewrite En; apply in_divide_zprod; auto).
    split; intros H0.
    - eapply Z.divide_trans; [|apply (Z.gcd_divide_l c n)]. rewrite <- G. apply Z.gcd_greatest; auto.
    - eapply Z.divide_trans; [|apply (Z.gcd_divide_l b n)]. rewrite G. apply Z.gcd_greatest; auto. }
  assert (Gu : Z.gcd u n = 1) by (rewrite En; apply gcd_zprod; auto).
  assert (E : (n | c * u - b)) by (rewrite En; apply prod_divide; auto).
  exists (u ^ d mod n). split; [apply Z.mod_pos_bound; lia|]. split.
  - rewrite gcd_mod_l. apply gcd_pow_unit; [lia|auto].
  - rewrite Z.mul_mod by lia. rewrite pow_mod_base by lia. rewrite <- Z.pow_mul_r by lia.
    rewrite (Z.mul_comm d e). rewrite (rsa_id n e d ps u HV).
    rewrite <- Z.mul_mod by lia. apply divide_mod_eq; [lia|auto].
Qed.

Lemma root_unique n e d ps c v w :
  valid_rsa_key n e d ps -> 1 < n -> Z.gcd c n = 1 -> 0 <= v < n -> 0 <= w < n ->
  (c * v ^ e) mod n = (c * w ^ e) mod n -> v = w.
Proof.
  intros HV Hn Hc Hv Hw H. pose proof HV as (_ & _ & _ & _ & He & Hd & _).
  destruct (unit_inv c n Hn Hc) as (x & Ex & _).
  assert (E : v ^ e mod n = w ^ e mod n).
  { assert (forall a, a mod n = ((c * a) mod n * x) mod n) as Hm.
    { intros a. rewrite Z.mul_mod_idemp_l by lia. replace (c * a * x) with (a * (c * x)) by ring.
      rewrite Z.mul_mod by lia. rewrite Ex, Z.mul_1_r. symmetry. apply Zmod_mod. }
    rewrite (Hm (v ^ e)), (Hm (w ^ e)), H. reflexivity. }
  rewrite <- (Z.mod_small v n), <- (Z.mod_small w n) by lia.
  rewrite <- (rsa_id n e d ps v HV), <- (rsa_id n e d ps w HV).
  rewrite !Z.pow_mul_r by lia. rewrite <- (pow_mod_base (v ^ e)), <- (pow_mod_base (w ^ e)) by lia.
  rewrite E. reflexivity.
Qed.

(** ** Whole runs *)

Lemma scaled_loop {R} (g : rng_ops R) t key :
  rng_ok g -> wf_uint (pk_n key) -> 1 < uval (pk_n key) -> Z.gcd t (uval (pk_n key)) = 1 ->
  never_zero (uval (pk_n key)) g ->
  forall fuel st,
  match blind_loop g fuel st key, blind_loop (scaled (uval (pk_n key)) t g) fuel st key with
  | Ok (r, _, s), Ok (r', _, s') => uval r' = (uval r * t) mod uval (pk_n key) /\ s = s'
  | Err e, Err e' => e = e'
  | OutOfFuel, OutOfFuel => True
  | _, _ => False
  end.
Proof.
  intros Hg Hn H1 Ht Hz. set (n := uval (pk_n key)) in *.
  induction fuel as [|f IH]; intros st; [exact I|].
  rewrite !blind_loop_step by auto. fold n. cbn [rng_mod scaled].
  destruct (rng_mod g st n) as [[v|] st'] eqn:E; [|reflexivity].
  rewrite Z.eqb_refl. cbv zeta.
  assert (Hv : 0 <= v < n) by (eapply (proj2 Hg); eauto; lia).
  assert (v <> 0) by (intros ->; eapply Hz; eauto).
  destruct (Z.eqb_spec v 0); [contradiction|].
  destruct (Z.eqb_spec ((v * t) mod n) 0) as [E0|E0].
  { exfalso. assert (Z.gcd (v * t) n = n) as HG.
    { rewrite <- gcd_mod_l, E0, Z.gcd_0_l. lia. }
    rewrite gcd_mul_unit in HG by auto.
    assert (n | v) by (rewrite <- HG; apply Z.gcd_divide_l).
    apply Z.divide_pos_le in H0; lia. }
  destruct (Z.eq_dec (Z.gcd v n) 1) as [G|G].
  - destruct (zinv_unit v n H1 G) as (x & ->).
    destruct (zinv_unit ((v * t) mod n) n H1) as (y & ->).
    { rewrite gcd_mod_l, gcd_mul_unit; auto. }
    auto.
  - rewrite !zinv_gcd_none by (auto; try lia; rewrite gcd_mod_l, gcd_mul_unit; auto). apply IH.
Qed.

Lemma hiding k c c' :
  good_priv k -> wf_uint c -> wf_uint c' ->
  uprec c = uprec (pk_n (sk_pub k)) -> uprec c' = uprec (pk_n (sk_pub k)) ->
  Z.gcd (uval c) (uval (pk_n (sk_pub k))) = Z.gcd (uval c') (uval (pk_n (sk_pub k))) ->
  exists t, Z.gcd t (uval (pk_n (sk_pub k))) = 1 /\
  forall R (g : rng_ops R) fuel st, rng_ok g -> never_zero (uval (pk_n (sk_pub k))) g ->
  operand_value g fuel (Some st) k c =
  operand_value (scaled (uval (pk_n (sk_pub k))) t g) fuel (Some st) k c'.
Proof.
  intros Hk Hc Hc' P P' G. pose proof (good_gt1 k Hk) as H1.
  pose proof Hk as ((Hn & _) & _ & _ & HV & _). pose proof HV as (_ & _ & _ & _ & He & _ & _).
  destruct (root_exists _ _ _ _ (uval c) (uval c') HV H1 G) as (t & Ht & Gt & Et).
  exists t. split; auto. intros R g fuel st Hg Hz. unfold operand_value.
  rewrite !operand_loop by (auto using scaled_ok).
  pose proof (scaled_loop g t (sk_pub k) Hg Hn H1 Gt Hz fuel st) as HL.
  destruct (blind_loop g fuel st (sk_pub k)) as [[[r ir] s]| | |],
    (blind_loop (scaled (uval (pk_n (sk_pub k))) t g) fuel st (sk_pub k)) as [[[r' ir'] s']| | |];
    try contradiction; cbn [bind]; try (f_equal; auto; fail); auto.
  destruct HL as [-> _]. do 2 f_equal.
  set (n := uval (pk_n (sk_pub k))) in *. set (e := uval (pk_e (sk_pub k))) in *.
  rewrite pow_mod_base by lia. rewrite !Z.mul_mod_idemp_r by lia. rewrite Z.pow_mul_l.
  replace (uval c' * (uval r ^ e * t ^ e)) with (uval r ^ e * (uval c' * t ^ e)) by ring.
  rewrite (Z.mul_mod (uval r ^ e)) by lia. rewrite Et. rewrite <- Z.mul_mod by lia. f_equal. ring.
Qed.

(** ** Counting *)

Lemma filter_none {A} (P : A -> bool) l : (forall x, In x l -> P x = false) -> filter P l = [].
Proof.
  induction l as [|a l IH]; intros H; cbn; auto. rewrite (H a (or_introl eq_refl)).
  apply IH. intros; apply H; right; auto.
Qed.

Lemma filter_one {A} (P : A -> bool) l x :
  NoDup l -> In x l -> P x = true -> (forall y, In y l -> P y = true -> y = x) ->
  filter P l = [x].
Proof.
  induction l as [|a l IH]; intros HN HI HP HU; [destruct HI|].
  inversion HN as [|? ? Ha HN']; subst. cbn. destruct (P a) eqn:E.
  - assert (a = x) as -> by (apply HU; [left|]; auto). f_equal. apply filter_none.
    intros y Hy. destruct (P y) eqn:EY; auto. exfalso. apply Ha.
    rewrite <- (HU y); auto. right; auto.
  - destruct HI as [->|HI]; [congruence|]. apply IH; auto. intros; apply HU; auto. right; auto.
Qed.

Lemma all_draws_cons n : 0 < n ->
  all_draws n = 0 :: map Z.of_nat (seq 1 (Z.to_nat n - 1)).
Proof.
  intros Hn. unfold all_draws. replace (Z.to_nat n) with (S (Z.to_nat n - 1)) at 1 by lia.
  cbn [seq map]. reflexivity.
Qed.

Lemma in_positive n v : In v (map Z.of_nat (seq 1 (Z.to_nat n - 1))) <-> 1 <= v < n.
Proof.
  rewrite in_map_iff. split.
  - intros (x & <- & H). apply in_seq in H. lia.
  - intros H. exists (Z.to_nat v). split; [lia|]. apply in_seq. lia.
Qed.

Lemma operand_is_spec k c b v :
  good_priv k -> wf_uint c -> uprec c = uprec (pk_n (sk_pub k)) ->
  0 <= v < uval (pk_n (sk_pub k)) ->
  let n := uval (pk_n (sk_pub k)) in
  let e := uval (pk_e (sk_pub k)) in
  operand_is k c b v =
    if v =? 0 then (uval c mod n =? b)
    else if Z.gcd v n =? 1 then ((uval c * v ^ e) mod n =? b) else false.
Proof.
  intros Hk Hc Hp Hv n e. pose proof (good_gt1 k Hk) as H1.
  destruct (operand_draw (draws v) 0 tt tt v k c (draws_ok v) Hk Hc Hp) as (A & B & C).
  { cbn. rewrite Z.mod_small by auto. reflexivity. }
  fold n e in A, B, C. unfold operand_is, operand_value. destruct (Z.eqb_spec v 0).
  - destruct (A e0) as (ri & ->). reflexivity.
  - destruct (Z.eqb_spec (Z.gcd v n) 1).
    + destruct (B e0) as (ri & ->). reflexivity.
    + rewrite (C n0 n1). rewrite operand_loop by (auto using draws_ok). reflexivity.
Qed.

Lemma counting k c b :
  good_priv k -> wf_uint c -> uprec c = uprec (pk_n (sk_pub k)) ->
  let n := uval (pk_n (sk_pub k)) in
  uval c < n -> 0 <= b < n -> Z.gcd (uval c) n = 1 -> Z.gcd b n = 1 ->
  length (filter (operand_is k c b) (all_draws n)) = (if b =? uval c then 2%nat else 1%nat).
Proof.
  intros Hk Hc Hp n Hcn Hb Gc Gb. pose proof (good_gt1 k Hk) as H1. fold n in H1.
  pose proof Hk as ((Hn & _) & _ & _ & HV & _). pose proof HV as (_ & _ & _ & _ & He & _ & _).
  fold n in HV. set (e := uval (pk_e (sk_pub k))) in *.
  assert (0 <= uval c) by (destruct Hc; lia).
  destruct (root_exists _ _ _ _ b (uval c) HV H1 (eq_trans Gb (eq_sym Gc))) as (t & Ht & Gt & Et).
  assert (t <> 0) by (intros ->; rewrite Z.gcd_0_l in Gt; lia).
  rewrite (Z.mod_small b) in Et by auto.
  rewrite all_draws_cons by lia. cbn [filter].
  rewrite operand_is_spec by (auto; fold n; lia). rewrite Z.eqb_refl. fold n.
  rewrite (Z.mod_small (uval c)) by lia. rewrite (Z.eqb_sym b).
  assert (E : filter (operand_is k c b) (map Z.of_nat (seq 1 (Z.to_nat n - 1))) = [t]).
  { apply filter_one.
    - apply FinFun.Injective_map_NoDup; [intros x y; lia|apply seq_NoDup].
    - apply in_positive. lia.
    - rewrite operand_is_spec by (auto; fold n; lia). fold n e.
      destruct (Z.eqb_spec t 0); [contradiction|]. rewrite Gt. cbn. rewrite Et. apply Z.eqb_refl.
    - intros y Hy. apply in_positive in Hy. rewrite operand_is_spec by (auto; fold n; lia). fold n e.
      destruct (Z.eqb_spec y 0); [lia|]. destruct (Z.gcd y n =? 1); [|discriminate].
      intros H2. apply Z.eqb_eq in H2.
      apply (root_unique n e _ _ (uval c) y t HV); auto; [lia|congruence]. }
  rewrite E. destruct (uval c =? b); reflexivity.
Qed.

(** What blinding does not hide. *)
Lemma operand_gcd {R} (g : rng_ops R) fuel st k c x :
  rng_ok g -> good_priv k -> wf_uint c -> uprec c = uprec (pk_n (sk_pub k)) ->
  operand_value g fuel (Some st) k c = Ok x ->
  Z.gcd (uval x) (uval (pk_n (sk_pub k))) = Z.gcd (uval c) (uval (pk_n (sk_pub k))).
Proof.
  intros Hg Hk Hc Hp. unfold operand_value. rewrite operand_loop by auto.
  pose proof (good_gt1 k Hk) as H1. pose proof Hk as ((Hn & _) & _ & _ & HV & _).
  pose proof HV as (_ & _ & _ & _ & He & _ & _).
  destruct (blind_loop g fuel st (sk_pub k)) as [[[r ir] s]| | |] eqn:E; cbn [bind]; try discriminate.
  apply blind_loop_ok in E; auto. destruct E as (_ & _ & _ & _ & E).
  intros H. injection H as <-. cbn [uval]. rewrite gcd_mod_l, gcd_mul_unit; auto.
  rewrite gcd_mod_l. apply gcd_pow_unit; [lia|]. eapply inverse_gcd; [lia|].
  rewrite E. symmetry. apply Z.mod_small. lia.
Qed.
