(** Proofs about rebuilding a key from its primes: [compute_modulus],
    [compute_private_exponent_*] (src/algorithms/rsa.rs:303-366), [from_p_q] and
    [from_primes] (src/key.rs:354-394).  C29. *)
From Coq Require Import ZArith List Bool Lia Znumtheory.
From Coq Require Import Init.Byte.
From Verif Require Import Base Bigint BytesLemmas NumTheory SpecRFC SpecKey BigintLemmas
  MHash MRsa MGenerate MKey KeyDefs PRsa PApi PKey PRecover SpecGen.
Import ListNotations.
Local Open Scope Z_scope.

(** Bits needed to store a product: the sum of the stored widths. *)
Fixpoint sum_prec (ps : list uint) : Z :=
  match ps with [] => 0 | p :: ps => uprec p + sum_prec ps end.

Lemma sum_prec_nonneg ps : Forall wf_uint ps -> 0 <= sum_prec ps.
Proof. induction 1 as [|p ps (_ & A & _) _ IH]; cbn [sum_prec]; lia. Qed.

Lemma sum_prec_mod ps : Forall wf_uint ps -> sum_prec ps mod 64 = 0.
Proof.
  induction 1 as [|p ps (_ & _ & A) _ IH]; cbn [sum_prec]; [reflexivity|].
  rewrite Zplus_mod, A, IH. reflexivity.
Qed.

Lemma sum_prec_in ps p : Forall wf_uint ps -> In p ps -> uprec p <= sum_prec ps.
Proof.
  induction 1 as [|x ps (_ & A & _) F IH]; cbn [sum_prec In]; [tauto|].
  pose proof (sum_prec_nonneg ps F). intros [<-|I]; [lia|]. specialize (IH I). lia.
Qed.

Lemma product_bound_le ps : Forall wf_uint ps -> 0 <= product (map uval ps) <= 2 ^ sum_prec ps.
Proof.
  induction 1 as [|p ps (A & B & _) F IH]; cbn [sum_prec map]; [vm_compute; split; congruence|].
  rewrite product_cons, Z.pow_add_r by (pose proof (sum_prec_nonneg ps F); lia). nia.
Qed.

Lemma product_bound ps : Forall wf_uint ps -> ps <> [] -> 0 <= product (map uval ps) < 2 ^ sum_prec ps.
Proof.
  intros F N. destruct F as [|p ps (A & B & _) F]; [contradiction|]. cbn [sum_prec map].
  pose proof (sum_prec_nonneg ps F) as S0. pose proof (product_bound_le ps F).
  rewrite product_cons, Z.pow_add_r by lia.
  assert (0 < 2 ^ sum_prec ps) by (apply Z.pow_pos_nonneg; lia). nia.
Qed.

Lemma fold_umul rest : forall acc,
  fold_left (fun out p => umul out p) rest acc
  = mkU (uval acc * product (map uval rest)) (uprec acc + sum_prec rest).
Proof.
  induction rest as [|p rest IH]; intros acc; cbn [fold_left map sum_prec].
  - cbn [product fold_right]. rewrite Z.mul_1_r, Z.add_0_r. destruct acc; reflexivity.
  - rewrite IH. unfold umul. cbn [uval uprec]. rewrite product_cons. f_equal; ring.
Qed.

Lemma compute_modulus_eq ps : ps <> [] ->
  compute_modulus ps = if Z.odd (product (map uval ps))
                       then Ok (mkU (product (map uval ps)) (sum_prec ps)) else Panic.
Proof.
  destruct ps as [|p rest]; [contradiction|]. intros _. unfold compute_modulus. cbv zeta.
  rewrite fold_umul. cbn [map sum_prec]. rewrite product_cons.
  unfold uis_odd, assert_. cbn [uval uprec]. destruct (Z.odd _); reflexivity.
Qed.

Lemma modulus_wf ps : Forall wf_uint ps -> ps <> [] ->
  wf_uint (mkU (product (map uval ps)) (sum_prec ps)).
Proof.
  intros F N. split; [apply product_bound; auto|]. cbn [uprec]. split.
  - destruct F as [|p ps (_ & A & _) F]; [contradiction|]. cbn [sum_prec].
    pose proof (sum_prec_nonneg ps F). lia.
  - apply sum_prec_mod; auto.
Qed.

Lemma totient_loop_ok ps : Forall wf_uint ps -> Forall (fun p => 0 < uval p) ps -> forall t,
  totient_loop ps t = Ok (mkU (uval t * totient (map uval ps)) (uprec t + sum_prec ps)).
Proof.
  intros F P. induction P as [|p ps Hp P IH]; intros t; cbn [totient_loop map sum_prec].
  - unfold totient. cbn [product map fold_right]. rewrite Z.mul_1_r, Z.add_0_r. destruct t; reflexivity.
  - inversion F as [|? ? (A & B & C) F']; subst.
    rewrite usub_big_ok by (cbn [u_of_u64 uval]; lia). cbn [bind].
    rewrite IH by auto. unfold umul. cbn [uval uprec u_of_u64].
    unfold totient. cbn [map]. rewrite product_cons. rewrite (Z.max_l (uprec p)) by lia.
    f_equal. f_equal; ring.
Qed.

Lemma totient_loop_zero ps : Exists (fun p => uval p = 0) ps -> forall t, totient_loop ps t = Panic.
Proof.
  induction 1 as [p ps Hp|p ps _ IH]; intros t; cbn [totient_loop]; unfold usub_big; cbn [u_of_u64 uval].
  - rewrite Hp. reflexivity.
  - destruct (1 <=? uval p); cbn [bind]; auto.
Qed.

Lemma totient_pos ps : Forall (fun p => 1 < p) ps -> 0 < totient ps.
Proof. intros F. apply product_pos. rewrite Forall_map. eapply Forall_impl; [|exact F]. cbv beta; lia. Qed.

Lemma totient_nonneg ps : Forall (fun p => 0 < p) ps -> 0 <= totient ps.
Proof. intros F. apply product_nonneg. rewrite Forall_map. eapply Forall_impl; [|exact F]. cbv beta; lia. Qed.

Lemma totient_le ps : Forall (fun p => 0 < p) ps -> totient ps <= product ps.
Proof.
  induction 1 as [|p ps Hp F IH]; [cbn; lia|].
  unfold totient. cbn [map]. rewrite !product_cons. fold (totient ps).
  pose proof (totient_nonneg ps F). nia.
Qed.

Lemma totient_divide ps p : In p ps -> (p - 1 | totient ps).
Proof.
  intros I. unfold totient. rewrite product_zprod. apply in_divide_zprod.
  apply (in_map (fun p => p - 1)). auto.
Qed.

Lemma inv_mod_result e m T r :
  wf_uint e -> 0 <= T -> 64 <= m -> m mod 64 = 0 ->
  (let* x := widen e m in uinv_mod x (mkU T m)) = r ->
  (m < uprec e -> r = Panic) /\
  (uprec e <= m -> r = Ok (match zinv (uval e) T with Some x => Some (mkU x m) | None => None end)).
Proof.
  intros We HT Hm M <-. unfold widen. destruct (Z.leb_spec (uprec e) m) as [L|L]; cbn [bind].
  - split; [lia|]. intros _. unfold uinv_mod. cbn [uprec uval]. rewrite prec_for_id by auto.
    rewrite Z.eqb_refl. reflexivity.
  - split; [reflexivity|lia].
Qed.

(** d from the totient. *)
Lemma euler_d ps e : (2 <= length ps)%nat -> Forall wf_uint ps -> Forall (fun p => 0 < uval p) ps ->
  wf_uint e ->
  let T := totient (map uval ps) in
  let m := uprec (nth 0 ps (mkU 0 64)) + sum_prec ps in
  (m < uprec e -> compute_private_exponent_euler_totient ps e = Panic) /\
  (uprec e <= m ->
   compute_private_exponent_euler_totient ps e
   = match zinv (uval e) T with Some d => Ok (mkU d m) | None => Err InvalidPrime end).
Proof.
  intros L F P We T m. destruct ps as [|p0 ps]; [simpl in L; lia|].
  unfold compute_private_exponent_euler_totient.
  destruct (Nat.ltb_spec (length (p0 :: ps)) 2); [lia|].
  cbn [get_idx nth_error bind]. cbv zeta.
  assert (Wp : wf_uint p0) by (inversion F; auto). destruct Wp as (A & B & C).
  rewrite totient_loop_ok by auto. cbn [bind]. unfold u_one_with. cbn [uval uprec].
  rewrite prec_for_id by auto. rewrite Z.mul_1_l. fold T. cbn [nth] in m. fold m.
  pose proof (sum_prec_nonneg _ F). pose proof (sum_prec_mod _ F).
  assert (M1 : 64 <= m) by (unfold m; lia).
  assert (M2 : m mod 64 = 0) by (unfold m; rewrite Zplus_mod, C, H1; reflexivity).
  assert (HT : 0 <= T) by (apply totient_nonneg; rewrite Forall_map; auto).
  clearbody m T. unfold widen. destruct (Z.leb_spec (uprec e) m) as [Le|Le]; cbn [bind].
  - split; [lia|]. intros _. unfold uinv_mod. cbn [uprec uval]. rewrite prec_for_id by auto.
    rewrite Z.eqb_refl. cbn [bind]. destruct (zinv (uval e) T); reflexivity.
  - split; [reflexivity|lia].
Qed.

Lemma lcm_div a b : 0 <= a -> 0 <= b -> 0 < a \/ 0 < b -> a / Z.gcd a b * b = Z.lcm a b.
Proof.
  intros Ha Hb Hab. pose proof (Z.gcd_nonneg a b) as G0.
  assert (G : 0 < Z.gcd a b).
  { destruct (Z.eq_dec (Z.gcd a b) 0) as [E|]; [|lia].
    pose proof (Z.gcd_eq_0_l _ _ E). pose proof (Z.gcd_eq_0_r _ _ E). lia. }
  destruct (Z.gcd_divide_l a b) as (x & Hx). destruct (Z.gcd_divide_r a b) as (y & Hy).
  unfold Z.lcm. set (g := Z.gcd a b) in *. clearbody g.
  rewrite Hx at 1. rewrite Hy at 2. rewrite !Z.div_mul by lia.
  rewrite Z.abs_eq; [rewrite Hx at 1; rewrite Hy at 1; ring|nia].
Qed.

Lemma carmichael_d p q e : wf_uint p -> wf_uint q -> wf_uint e ->
  0 < uval p -> 0 < uval q -> uval p <> uval q ->
  let T := Z.lcm (uval p - 1) (uval q - 1) in
  let m := uprec p + uprec q in
  (m < uprec e -> compute_private_exponent_carmicheal p q e = Panic) /\
  (uprec e <= m ->
   compute_private_exponent_carmicheal p q e
   = match zinv (uval e) T with Some d => Ok (mkU d m) | None => Err InvalidPrime end).
Proof.
  intros (A1 & A2 & A3) (B1 & B2 & B3) We Hp Hq Hne T m.
  unfold compute_private_exponent_carmicheal. cbv zeta.
  rewrite !usub_big_ok by (cbn [u_of_u64 uval]; lia). cbn [bind u_of_u64 uval uprec].
  unfold ugcd. cbn [uval uprec]. rewrite (Z.max_l (uprec p)), (Z.max_l (uprec q)) by lia.
  assert (G : Z.gcd (uval p - 1) (uval q - 1) <> 0).
  { intros E. pose proof (Z.gcd_eq_0_l _ _ E). pose proof (Z.gcd_eq_0_r _ _ E). lia. }
  rewrite !udiv_ok by (cbn [uval]; auto). cbn [bind uval uprec]. unfold umul. cbn [uval uprec].
  rewrite lcm_div by lia. fold T m.
  assert (M1 : 64 <= m) by (unfold m; lia).
  assert (M2 : m mod 64 = 0) by (unfold m; rewrite Zplus_mod, A3, B3; reflexivity).
  clearbody m T. unfold widen. destruct (Z.leb_spec (uprec e) m) as [Le|Le]; cbn [bind].
  - split; [lia|]. intros _. unfold uinv_mod. cbn [uprec uval]. rewrite prec_for_id by auto.
    rewrite Z.eqb_refl. cbn [bind]. destruct (zinv (uval e) T); reflexivity.
  - split; [reflexivity|lia].
Qed.

(** * Duplicates *)

Lemma has_duplicate_spec ps : has_duplicate ps = false <-> NoDup (map uval ps).
Proof.
  induction ps as [|p ps IH]; cbn [has_duplicate map].
  - split; [constructor|reflexivity].
  - rewrite orb_false_iff, IH, NoDup_cons_iff. apply and_iff_compat_r.
    unfold ueqb. split.
    + intros H I. apply in_map_iff in I. destruct I as (x & E & I).
      assert (existsb (fun q => uval q =? uval p) ps = true).
      { apply existsb_exists. exists x. rewrite Z.eqb_eq. auto. }
      congruence.
    + intros H. apply not_true_iff_false. intros E. apply H. apply existsb_exists in E.
      destruct E as (x & I & E). apply Z.eqb_eq in E. rewrite <- E. apply in_map. auto.
Qed.

Lemma odd_product_iff ps : Z.odd (product ps) = true <-> Forall (fun p => Z.odd p = true) ps.
Proof.
  induction ps as [|p ps IH]; [split; [constructor|reflexivity]|].
  rewrite product_cons, Z.odd_mul, andb_true_iff, IH. split.
  - intros []; constructor; auto.
  - intros H; inversion H; auto.
Qed.

Lemma mod_divide_eq a m k : 0 < k -> (k | m) -> 0 < m -> a mod m = 1 mod m -> a mod k = 1 mod k.
Proof.
  intros Hk D Hm E. apply divide_mod_eq; auto. apply divide_mod_eq in E; auto.
  eapply Z.divide_trans; eauto.
Qed.

(** The common part: a key built from primes [ps], n their product, d an inverse of
    e modulo a common multiple [T] of the (prime - 1). *)
Lemma build_ok ps e d T m :
  (2 <= length ps)%nat -> Forall wf_uint ps -> wf_uint e ->
  Z.odd (product (map uval ps)) = true ->
  0 <= T <= product (map uval ps) -> (forall p, In p ps -> (uval p - 1 | T)) ->
  zinv (uval e) T = Some d -> sum_prec ps <= m -> m mod 64 = 0 ->
  let n := mkU (product (map uval ps)) (sum_prec ps) in
  wf_uint (mkU d m) /\
  ((exists k, from_components n e (mkU d m) ps = Ok k) <->
   public_usable (uval n) (uval e) (uprec n) /\ Forall (fun p => 3 <= uval p) ps).
Proof.
  intros L F We Ho HT HD Z Hm M n.
  assert (N : ps <> []) by (intros ->; simpl in L; lia).
  pose proof (modulus_wf ps F N) as Wn. fold n in Wn.
  destruct (zinv_some _ _ _ Z) as (T0 & D1 & D2).
  assert (P64 : 64 <= m) by (destruct Wn as (_ & A & _); cbn [uprec n] in A; lia).
  assert (Wd : wf_uint (mkU d m)).
  { split; [|auto]. cbn [uval uprec]. pose proof (product_bound ps F N).
    assert (2 ^ sum_prec ps <= 2 ^ m) by (apply Z.pow_le_mono_r; lia). lia. }
  split; [auto|].
  assert (HW : Forall (fun p => uprec p <= uprec (mkU d m)) ps).
  { apply Forall_forall. intros p I. cbn [uprec]. pose proof (sum_prec_in ps p F I). lia. }
  rewrite (c27_exact n e (mkU d m) ps) by auto.
  split; intros (U & R); (split; [exact U|]).
  - destruct R as (_ & R). eapply Forall_impl; [|exact R]. cbv beta. tauto.
  - split.
    + apply Z.mod_small. apply product_bound; auto.
    + apply Forall_forall. intros p I. rewrite Forall_forall in R. specialize (R p I).
      split; [auto|].
      assert (O : Z.odd (uval p) = true) by (eapply odd_factors; [exact Ho|apply in_map; auto]).
      assert (uval p <> 4) by (intros E; rewrite E in O; discriminate).
      cbn [uval]. rewrite (mod_divide_eq _ T (uval p - 1)); auto; try lia.
      rewrite Z.mod_small by lia. reflexivity.
Qed.

(** * [from_primes] *)

Lemma from_primes_unfold ps e : (2 <= length ps)%nat -> Forall wf_uint ps -> wf_uint e ->
  let n := mkU (product (map uval ps)) (sum_prec ps) in
  let m := uprec (nth 0 ps (mkU 0 64)) + sum_prec ps in
  NoDup (map uval ps) ->
  from_primes ps e
  = if negb (Z.odd (uval n)) then Panic
    else if uprec e <=? m then
           match zinv (uval e) (totient (map uval ps)) with
           | Some d => from_components n e (mkU d m) ps
           | None => Err InvalidPrime
           end
         else Panic.
Proof.
  intros L F We n m ND. unfold from_primes.
  destruct (Nat.ltb_spec (length ps) 2); [lia|].
  rewrite (proj2 (has_duplicate_spec ps) ND).
  assert (N : ps <> []) by (intros ->; simpl in L; lia).
  rewrite compute_modulus_eq by auto. cbn [uval n].
  destruct (Z.odd (product (map uval ps))) eqn:O; cbn [negb bind]; [|reflexivity].
  assert (P : Forall (fun p => 0 < uval p) ps).
  { destruct (zero_or_pos ps F) as [P|P]; auto. exfalso.
    apply Exists_exists in P. destruct P as (p & I & E).
    assert (X : Z.odd (uval p) = true) by (eapply odd_factors; [exact O|apply in_map; auto]).
    rewrite E in X. discriminate. }
  destruct (euler_d ps e L F P We) as (D1 & D2). fold m in D1, D2. fold n.
  destruct (Z.leb_spec (uprec e) m) as [Le|Le].
  - rewrite D2 by auto. destruct (zinv (uval e) (totient (map uval ps))); reflexivity.
  - rewrite D1 by auto. reflexivity.
Qed.

Lemma first_prec ps : (2 <= length ps)%nat -> Forall wf_uint ps ->
  64 <= uprec (nth 0 ps (mkU 0 64)) /\ uprec (nth 0 ps (mkU 0 64)) mod 64 = 0.
Proof.
  intros L F. destruct F as [|p ps (_ & A & B) F]; [simpl in L; lia|]. auto.
Qed.

Lemma odd_pos ps : Forall wf_uint ps -> Z.odd (product (map uval ps)) = true ->
  Forall (fun p => 0 < uval p /\ Z.odd (uval p) = true) ps.
Proof.
  intros F O. apply Forall_forall. intros p I.
  assert (X : Z.odd (uval p) = true) by (eapply odd_factors; [exact O|apply in_map; auto]).
  split; auto. rewrite Forall_forall in F. destruct (F p I) as (A & _).
  destruct (Z.eq_dec (uval p) 0) as [E|]; [rewrite E in X; discriminate|lia].
Qed.

Lemma c29_primes_exact ps e :
  (2 <= length ps)%nat -> Forall wf_uint ps -> wf_uint e -> uprec e <= sum_prec ps ->
  ((exists k, from_primes ps e = Ok k) <->
   NoDup (map uval ps) /\ Forall (fun p => 3 <= uval p) ps /\
   Z.gcd (uval e) (totient (map uval ps)) = 1 /\
   public_usable (product (map uval ps)) (uval e) (sum_prec ps)).
Proof.
  intros L F We Le. destruct (first_prec ps L F) as (M1 & M2).
  destruct (has_duplicate ps) eqn:HD.
  { split.
    - intros (k & H). unfold from_primes in H. rewrite HD in H.
      destruct (length ps <? 2)%nat; discriminate.
    - intros (ND & _). apply has_duplicate_spec in ND. congruence. }
  pose proof (proj1 (has_duplicate_spec ps) HD) as ND.
  rewrite (from_primes_unfold ps e L F We ND). cbn [uval].
  set (m := uprec (nth 0 ps (mkU 0 64)) + sum_prec ps).
  assert (Hm : (uprec e <=? m) = true) by (apply Z.leb_le; unfold m; lia). rewrite Hm.
  destruct (Z.odd (product (map uval ps))) eqn:O; cbn [negb].
  2:{ split; [intros (? & ?); discriminate|]. intros (_ & _ & _ & (_ & X & _)). congruence. }
  pose proof (odd_pos ps F O) as OP.
  assert (P : Forall (fun p => 0 < p) (map uval ps))
    by (rewrite Forall_map; eapply Forall_impl; [|exact OP]; cbv beta; tauto).
  assert (HT : 0 <= totient (map uval ps) <= product (map uval ps))
    by (split; [apply totient_nonneg; auto|apply totient_le; auto]).
  assert (HDv : forall p, In p ps -> (uval p - 1 | totient (map uval ps)))
    by (intros p I; apply totient_divide, in_map; auto).
  destruct (zinv (uval e) (totient (map uval ps))) as [d|] eqn:Z.
  - assert (Mm : m mod 64 = 0)
      by (unfold m; rewrite Zplus_mod, M2, (sum_prec_mod ps F); reflexivity).
    destruct (build_ok ps e d _ m L F We O HT HDv Z) as (_ & B); [unfold m; lia|auto|].
    rewrite B. cbn [uval uprec].
    destruct (zinv_some _ _ _ Z) as (T0 & D1 & D2). pose proof (inverse_gcd _ _ _ T0 D2). tauto.
  - split; [intros (? & ?); discriminate|]. intros (_ & P3 & G & _).
    assert (T0 : 0 < totient (map uval ps)).
    { apply totient_pos. rewrite Forall_map. eapply Forall_impl; [|exact P3]. cbv beta; lia. }
    apply zinv_none in Z; auto. contradiction.
Qed.

Lemma two_factors ps : Forall (fun p => 3 <= p) ps -> (2 <= length ps)%nat -> 4 <= totient ps.
Proof.
  intros F L. destruct ps as [|p [|q ps]]; simpl in L; try lia.
  inversion F as [|? ? Hp F2]; subst. inversion F2 as [|? ? Hq F3]; subst.
  unfold totient. cbn [map]. rewrite !product_cons. fold (totient ps).
  assert (0 < totient ps) by (apply totient_pos; eapply Forall_impl; [|exact F3]; cbv beta; lia).
  assert (2 * totient ps <= (q - 1) * totient ps) by nia. nia.
Qed.

Lemma c29_primes_result ps e k :
  (2 <= length ps)%nat -> Forall wf_uint ps -> wf_uint e ->
  from_primes ps e = Ok k ->
  uval (pk_n (sk_pub k)) = product (map uval ps) /\ uprec (pk_n (sk_pub k)) = sum_prec ps /\
  pk_e (sk_pub k) = e /\ sk_primes k = ps /\
  0 < uval (sk_d k) < totient (map uval ps) /\
  (uval e * uval (sk_d k)) mod totient (map uval ps) = 1 /\
  validate k = Ok tt /\ sane_priv k /\
  (Forall prime (map uval ps) -> good_priv k /\ sk_pre k <> None).
Proof.
  intros L F We H. destruct (first_prec ps L F) as (M1 & M2).
  destruct (has_duplicate ps) eqn:HD.
  { unfold from_primes in H. rewrite HD in H. destruct (length ps <? 2)%nat; discriminate. }
  pose proof (proj1 (has_duplicate_spec ps) HD) as ND.
  rewrite (from_primes_unfold ps e L F We ND) in H. cbn [uval] in H.
  set (m := uprec (nth 0 ps (mkU 0 64)) + sum_prec ps) in *.
  destruct (Z.odd (product (map uval ps))) eqn:O; cbn [negb] in H; [|discriminate].
  destruct (uprec e <=? m); [|discriminate].
  destruct (zinv (uval e) (totient (map uval ps))) as [d|] eqn:Z; [|discriminate].
  pose proof (odd_pos ps F O) as OP.
  assert (P : Forall (fun p => 0 < p) (map uval ps))
    by (rewrite Forall_map; eapply Forall_impl; [|exact OP]; cbv beta; tauto).
  assert (HT : 0 <= totient (map uval ps) <= product (map uval ps))
    by (split; [apply totient_nonneg; auto|apply totient_le; auto]).
  assert (HDv : forall p, In p ps -> (uval p - 1 | totient (map uval ps)))
    by (intros p I; apply totient_divide, in_map; auto).
  assert (N : ps <> []) by (intros ->; simpl in L; lia).
  assert (Mm : m mod 64 = 0)
    by (unfold m; rewrite Zplus_mod, M2, (sum_prec_mod ps F); reflexivity).
  destruct (build_ok ps e d _ m L F We O HT HDv Z) as (Wd & B); [unfold m; lia|auto|].
  assert (U : Forall (fun p => 3 <= uval p) ps) by (apply (proj1 B); eauto).
  pose proof (modulus_wf ps F N) as Wn.
  destruct (c27_result _ _ _ _ _ Wn We Wd F O L H) as (E1 & E2 & E3 & E4 & V & SA & GO & PR).
  assert (T4 : 4 <= totient (map uval ps)) by (apply two_factors; [rewrite Forall_map; auto|rewrite map_length; auto]).
  destruct (zinv_some _ _ _ Z) as (T0 & D1 & D2). rewrite (Z.mod_small 1) in D2 by lia.
  rewrite E1, E2, E3, E4. cbn [uval uprec].
  split; [auto|]. split; [auto|]. split; [auto|]. split; [auto|]. split.
  { destruct (Z.eq_dec d 0) as [->|]; [|lia]. rewrite Z.mul_0_r, Zmod_0_l in D2. discriminate. }
  split; [auto|]. split; [auto|]. split; [apply SA; cbn [uprec]; unfold m; lia|].
  intros PRM. split.
  - apply GO; auto; [cbn [uprec]; unfold m; lia|]. cbn [uprec]. apply product_bound; auto.
  - destruct ps as [|p [|q rest]]; simpl in L; try lia.
    apply (PR p q rest); auto. inversion PRM as [|? ? X PRM2]; subst. inversion PRM2 as [|? ? Y _]; subst.
    cbn [map] in ND. apply NoDup_cons_iff in ND. destruct ND as (NI & _).
    apply distinct_primes_gcd; auto. intros EQ. apply NI. rewrite EQ. left. auto.
Qed.

Lemma c29_primes_rejects ps e :
  ((length ps < 2)%nat -> from_primes ps e = Err NprimesTooSmall) /\
  ((2 <= length ps)%nat -> ~ NoDup (map uval ps) -> from_primes ps e = Err InvalidPrime).
Proof.
  unfold from_primes. split.
  - intros L. destruct (Nat.ltb_spec (length ps) 2); [reflexivity|lia].
  - intros L N. destruct (Nat.ltb_spec (length ps) 2); [lia|].
    destruct (has_duplicate ps) eqn:HD; [reflexivity|]. elim N. apply has_duplicate_spec; auto.
Qed.

(** Panics: exactly an even factor (2, 0), or a factor 1 in a key that would
    otherwise be accepted, or an exponent stored too wide. *)
Lemma c29_primes_even ps e : (2 <= length ps)%nat -> Forall wf_uint ps -> wf_uint e ->
  NoDup (map uval ps) -> Exists (fun p => Z.odd (uval p) = false) ps ->
  from_primes ps e = Panic.
Proof.
  intros L F We ND X. rewrite from_primes_unfold by auto. cbn [uval].
  destruct (Z.odd (product (map uval ps))) eqn:O; [|reflexivity].
  pose proof (odd_pos ps F O) as OP. apply Exists_exists in X. destruct X as (p & I & E).
  rewrite Forall_forall in OP. destruct (OP p I). congruence.
Qed.

Lemma c29_primes_no_panic ps e : Forall wf_uint ps -> wf_uint e -> uprec e <= sum_prec ps ->
  Forall (fun p => 3 <= uval p /\ Z.odd (uval p) = true) ps ->
  (exists k, from_primes ps e = Ok k) \/ (exists err, from_primes ps e = Err err).
Proof.
  intros F We Le A. destruct (c29_primes_rejects ps e) as (R1 & R2).
  destruct (Nat.lt_ge_cases (length ps) 2) as [L|L]; [right; eauto|].
  destruct (has_duplicate ps) eqn:HD.
  { right. exists InvalidPrime. apply R2; auto. intros ND. apply has_duplicate_spec in ND. congruence. }
  pose proof (proj1 (has_duplicate_spec ps) HD) as ND. clear R1 R2.
  destruct (first_prec ps L F) as (M1 & M2).
  rewrite (from_primes_unfold ps e L F We ND). cbn [uval].
  set (m := uprec (nth 0 ps (mkU 0 64)) + sum_prec ps).
  assert (Hm : (uprec e <=? m) = true) by (apply Z.leb_le; unfold m; lia). rewrite Hm.
  assert (O : Z.odd (product (map uval ps)) = true).
  { apply odd_product_iff. rewrite Forall_map. eapply Forall_impl; [|exact A]. cbv beta; tauto. }
  rewrite O. cbn [negb].
  destruct (zinv (uval e) (totient (map uval ps))) as [d|] eqn:Z; [|right; eauto].
  assert (P : Forall (fun p => 0 < p) (map uval ps))
    by (rewrite Forall_map; eapply Forall_impl; [|exact A]; cbv beta; lia).
  assert (HT : 0 <= totient (map uval ps) <= product (map uval ps))
    by (split; [apply totient_nonneg; auto|apply totient_le; auto]).
  assert (HDv : forall p, In p ps -> (uval p - 1 | totient (map uval ps)))
    by (intros p I; apply totient_divide, in_map; auto).
  assert (N : ps <> []) by (intros ->; simpl in L; lia).
  assert (Mm : m mod 64 = 0)
    by (unfold m; rewrite Zplus_mod, M2, (sum_prec_mod ps F); reflexivity).
  destruct (build_ok ps e d _ m L F We O HT HDv Z) as (Wd & _); [unfold m; lia|auto|].
  apply c27_no_panic; auto. { apply modulus_wf; auto. }
  apply Forall_forall. intros p I. rewrite Forall_forall in A. destruct (A p I).
  split; [lia|]. cbn [uprec]. pose proof (sum_prec_in ps p F I). unfold m. lia.
Qed.

(** * [from_p_q] *)

Lemma from_p_q_unfold p q e : wf_uint p -> wf_uint q -> wf_uint e ->
  0 < uval p -> 0 < uval q -> uval p <> uval q ->
  let n := mkU (product (map uval [p; q])) (sum_prec [p; q]) in
  let m := sum_prec [p; q] in
  from_p_q p q e
  = if uprec e <=? m then
      match zinv (uval e) (Z.lcm (uval p - 1) (uval q - 1)) with
      | Some d => if Z.odd (uval n) then from_components n e (mkU d m) [p; q] else Panic
      | None => Err InvalidPrime
      end
    else Panic.
Proof.
  intros Wp Wq We Hp Hq Hne n m. unfold from_p_q, ueqb.
  destruct (Z.eqb_spec (uval p) (uval q)); [lia|].
  assert (Em : m = uprec p + uprec q) by (unfold m; cbn [sum_prec]; lia).
  destruct (carmichael_d p q e Wp Wq We Hp Hq Hne) as (D1 & D2). rewrite <- Em in D1, D2.
  destruct (Z.leb_spec (uprec e) m).
  - rewrite D2 by auto. destruct (zinv _ _); [|reflexivity]. cbn [bind].
    rewrite compute_modulus_eq by discriminate. cbn [uval n]. destruct (Z.odd _); reflexivity.
  - rewrite D1 by auto. reflexivity.
Qed.

Lemma from_p_q_zero p q e : 0 <= uval p -> 0 <= uval q -> uval p = 0 \/ uval q = 0 ->
  uval p <> uval q -> from_p_q p q e = Panic.
Proof.
  intros Hp Hq H Hne. unfold from_p_q, ueqb. destruct (Z.eqb_spec (uval p) (uval q)); [lia|].
  unfold compute_private_exponent_carmicheal, usub_big. cbv zeta. cbn [u_of_u64 uval].
  destruct (Z.leb_spec 1 (uval p)); cbn [bind]; [|reflexivity].
  destruct (Z.leb_spec 1 (uval q)); cbn [bind]; [lia|reflexivity].
Qed.

Lemma c29_pq_equal p q e : uval p = uval q -> from_p_q p q e = Err InvalidPrime.
Proof. intros E. unfold from_p_q, ueqb. rewrite E, Z.eqb_refl. reflexivity. Qed.

Lemma lcm_facts a b : 0 < a -> 0 < b -> 0 < Z.lcm a b <= a * b.
Proof.
  intros Ha Hb. rewrite <- lcm_div by lia.
  pose proof (Z.gcd_nonneg a b) as G0.
  assert (G : 0 < Z.gcd a b).
  { destruct (Z.eq_dec (Z.gcd a b) 0) as [E|]; [|lia]. pose proof (Z.gcd_eq_0_l _ _ E). lia. }
  destruct (Z.gcd_divide_l a b) as (x & Hx). set (g := Z.gcd a b) in *. clearbody g.
  rewrite Hx at 1 2. rewrite Z.div_mul by lia.
  assert (0 < x) by nia. split; [nia|]. subst a. nia.
Qed.

Lemma map2 (p q : uint) : map uval [p; q] = [uval p; uval q].
Proof. reflexivity. Qed.
Lemma product2 a b : product [a; b] = a * b.
Proof. unfold product. cbn [fold_right]. ring. Qed.
Lemma sum2 p q : sum_prec [p; q] = uprec p + uprec q.
Proof. cbn [sum_prec]. ring. Qed.

Lemma lcm_common (p q : uint) : 0 < uval p -> 0 < uval q ->
  0 <= Z.lcm (uval p - 1) (uval q - 1) <= product (map uval [p; q]) /\
  (forall x, In x [p; q] -> (uval x - 1 | Z.lcm (uval p - 1) (uval q - 1))).
Proof.
  intros Hp Hq. rewrite map2, product2. split.
  - split; [apply Z.lcm_nonneg|].
    destruct (Z.eq_dec (uval p) 1) as [->|]; [rewrite Z.lcm_0_l; nia|].
    destruct (Z.eq_dec (uval q) 1) as [->|]; [rewrite Z.lcm_0_r; nia|].
    pose proof (lcm_facts (uval p - 1) (uval q - 1)). nia.
  - intros x [<-|[<-|[]]]; [apply Z.divide_lcm_l|apply Z.divide_lcm_r].
Qed.

Lemma c29_pq_exact p q e :
  wf_uint p -> wf_uint q -> wf_uint e -> uprec e <= uprec p + uprec q ->
  ((exists k, from_p_q p q e = Ok k) <->
   uval p <> uval q /\ 3 <= uval p /\ 3 <= uval q /\
   Z.gcd (uval e) (Z.lcm (uval p - 1) (uval q - 1)) = 1 /\
   public_usable (uval p * uval q) (uval e) (uprec p + uprec q)).
Proof.
  intros Wp Wq We Le.
  destruct (Z.eq_dec (uval p) (uval q)) as [E|Hne].
  { rewrite c29_pq_equal by auto. split; [intros (? & ?); discriminate|tauto]. }
  pose proof Wp as (P0 & _). pose proof Wq as (Q0 & _).
  destruct (Z.eq_dec (uval p) 0) as [Zp|Zp].
  { rewrite from_p_q_zero by lia. split; [intros (? & ?); discriminate|lia]. }
  destruct (Z.eq_dec (uval q) 0) as [Zq|Zq].
  { rewrite from_p_q_zero by lia. split; [intros (? & ?); discriminate|lia]. }
  rewrite from_p_q_unfold by (auto; lia). cbv zeta.
  assert (Hm : (uprec e <=? sum_prec [p; q]) = true) by (apply Z.leb_le; rewrite sum2; lia).
  rewrite Hm. destruct (lcm_common p q ltac:(lia) ltac:(lia)) as (HT & HD).
  assert (F : Forall wf_uint [p; q]) by (constructor; [auto|constructor; [auto|constructor]]).
  destruct (zinv _ _) as [d|] eqn:Z.
  - destruct (zinv_some _ _ _ Z) as (T0 & D1 & D2). pose proof (inverse_gcd _ _ _ T0 D2) as G.
    cbn [uval]. destruct (Z.odd (product (map uval [p; q]))) eqn:O.
    + destruct (build_ok [p; q] e d _ (sum_prec [p; q]) ltac:(simpl; lia) F We O HT HD Z ltac:(lia) (sum_prec_mod _ F))
        as (_ & B).
      rewrite B. cbn [uval uprec]. rewrite map2, product2, sum2. split.
      * intros (U & FF). inversion FF as [|? ? A1 FF2]; subst. inversion FF2 as [|? ? A2 _]; subst. tauto.
      * intros (_ & A1 & A2 & _ & U). split; [auto|]. constructor; [auto|constructor; [auto|constructor]].
    + split; [intros (? & ?); discriminate|]. intros (_ & _ & _ & _ & (_ & X & _)).
      rewrite map2, product2 in O. congruence.
  - split; [intros (? & ?); discriminate|]. intros (_ & A1 & A2 & G & _).
    apply zinv_none in Z; [contradiction|]. apply lcm_facts; lia.
Qed.

Lemma c29_pq_result p q e k :
  wf_uint p -> wf_uint q -> wf_uint e ->
  from_p_q p q e = Ok k ->
  let lam := Z.lcm (uval p - 1) (uval q - 1) in
  uval (pk_n (sk_pub k)) = uval p * uval q /\ uprec (pk_n (sk_pub k)) = uprec p + uprec q /\
  pk_e (sk_pub k) = e /\ sk_primes k = [p; q] /\
  0 < uval (sk_d k) < lam /\ (uval e * uval (sk_d k)) mod lam = 1 /\
  validate k = Ok tt /\ sane_priv k /\
  (prime (uval p) -> prime (uval q) -> good_priv k /\ sk_pre k <> None).
Proof.
  intros Wp Wq We H lam.
  destruct (Z.eq_dec (uval p) (uval q)) as [E|Hne].
  { rewrite c29_pq_equal in H by auto. discriminate. }
  pose proof Wp as (P0 & _). pose proof Wq as (Q0 & _).
  destruct (Z.eq_dec (uval p) 0) as [Zp|Zp]; [rewrite from_p_q_zero in H by lia; discriminate|].
  destruct (Z.eq_dec (uval q) 0) as [Zq|Zq]; [rewrite from_p_q_zero in H by lia; discriminate|].
  rewrite from_p_q_unfold in H by (auto; lia). cbv zeta in H. fold lam in H.
  destruct (uprec e <=? sum_prec [p; q]); [|discriminate].
  destruct (zinv _ _) as [d|] eqn:Z; [|discriminate].
  destruct (Z.odd _) eqn:O; [|discriminate]. cbn [uval] in O.
  destruct (lcm_common p q ltac:(lia) ltac:(lia)) as (HT & HD). fold lam in HT, HD.
  assert (F : Forall wf_uint [p; q]) by (constructor; [auto|constructor; [auto|constructor]]).
  destruct (build_ok [p; q] e d _ (sum_prec [p; q]) ltac:(simpl; lia) F We O HT HD Z ltac:(lia) (sum_prec_mod _ F))
    as (Wd & B).
  assert (U : Forall (fun p => 3 <= uval p) [p; q]) by (apply (proj1 B); eauto).
  inversion U as [|? ? U1 U']; subst. inversion U' as [|? ? U2 _]; subst.
  pose proof (modulus_wf [p; q] F ltac:(discriminate)) as Wn.
  destruct (c27_result _ _ _ _ _ Wn We Wd F O ltac:(simpl; lia) H) as (E1 & E2 & E3 & E4 & V & SA & GO & PR).
  destruct (zinv_some _ _ _ Z) as (T0 & D1 & D2).
  assert (L2 : 2 <= lam).
  { destruct (Z.divide_lcm_l (uval p - 1) (uval q - 1)) as (x & Hx). fold lam in Hx.
    rewrite Hx in *. assert (0 < x) by nia. nia. }
  rewrite (Z.mod_small 1) in D2 by lia.
  rewrite E1, E2, E3, E4. cbn [uval uprec]. rewrite map2, product2, sum2 in *.
  split; [auto|]. split; [auto|]. split; [auto|]. split; [auto|]. split.
  { destruct (Z.eq_dec d 0) as [->|]; [|lia]. rewrite Z.mul_0_r, Zmod_0_l in D2. discriminate. }
  split; [auto|]. split; [auto|]. split; [apply SA; cbn [uprec]; lia|].
  intros PP PQ. split.
  - apply GO.
    + cbn [uprec]. lia.
    + constructor; [auto|constructor; [auto|constructor]].
    + constructor; [|constructor; [|constructor]]; simpl; [intros [X|[]]; lia|tauto].
    + cbn [uprec]. destruct Wn as (X & _). cbn [uval uprec] in X. lia.
  - apply (PR p q []); auto. apply distinct_primes_gcd; auto.
Qed.

(** Even primes: 2 panics although it is a prime. *)
Lemma c29_pq_even p q e : wf_uint p -> wf_uint q -> wf_uint e ->
  1 < uval p -> 1 < uval q -> uval p <> uval q -> Z.odd (uval p * uval q) = false ->
  uprec e <= uprec p + uprec q ->
  Z.gcd (uval e) (Z.lcm (uval p - 1) (uval q - 1)) = 1 ->
  from_p_q p q e = Panic.
Proof.
  intros Wp Wq We Hp Hq Hne O Le G. rewrite from_p_q_unfold by (auto; lia). cbv zeta.
  assert (Hm : (uprec e <=? sum_prec [p; q]) = true) by (apply Z.leb_le; rewrite sum2; lia).
  rewrite Hm. destruct (zinv_exists (uval e) (Z.lcm (uval p - 1) (uval q - 1))) as (x & ->); auto.
  { apply lcm_facts; lia. }
  cbn [uval]. rewrite map2, product2, O. reflexivity.
Qed.

Lemma c29_pq_no_panic p q e : wf_uint p -> wf_uint q -> wf_uint e ->
  uprec e <= uprec p + uprec q ->
  3 <= uval p -> 3 <= uval q -> Z.odd (uval p) = true -> Z.odd (uval q) = true ->
  (exists k, from_p_q p q e = Ok k) \/ (exists err, from_p_q p q e = Err err).
Proof.
  intros Wp Wq We Le A1 A2 O1 O2.
  destruct (Z.eq_dec (uval p) (uval q)) as [E|Hne].
  { rewrite c29_pq_equal by auto. eauto. }
  rewrite from_p_q_unfold by (auto; lia). cbv zeta.
  assert (Hm : (uprec e <=? sum_prec [p; q]) = true) by (apply Z.leb_le; rewrite sum2; lia).
  rewrite Hm. destruct (lcm_common p q ltac:(lia) ltac:(lia)) as (HT & HD).
  assert (F : Forall wf_uint [p; q]) by (constructor; [auto|constructor; [auto|constructor]]).
  destruct (zinv _ _) as [d|] eqn:Z; [|eauto].
  assert (O : Z.odd (product (map uval [p; q])) = true) by (rewrite map2, product2, Z.odd_mul, O1, O2; auto).
  cbn [uval]. rewrite O.
  destruct (build_ok [p; q] e d _ (sum_prec [p; q]) ltac:(simpl; lia) F We O HT HD Z ltac:(lia) (sum_prec_mod _ F))
    as (Wd & _).
  apply c27_no_panic; auto.
  - apply modulus_wf; auto. discriminate.
  - cbn [uprec]. pose proof (sum_prec_in [p; q] p F ltac:(simpl; auto)).
    pose proof (sum_prec_in [p; q] q F ltac:(simpl; auto)).
    constructor; [lia|constructor; [lia|constructor]].
Qed.
