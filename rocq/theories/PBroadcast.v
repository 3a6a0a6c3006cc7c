(** Proofs for PropBroadcast.v. *)
From Coq Require Import ZArith List Bool Lia Znumtheory.
From Coq Require Import Init.Byte.
From Verif Require Import Base Bigint NumTheory SpecRFC SpecRng SpecKey SpecBroadcast MRsa MKey MApi KeyDefs BigintLemmas PRsa PApi.
Import ListNotations.
Local Open Scope Z_scope.

Lemma root_from_exact bits : forall e m acc, 0 < e -> 0 <= acc -> acc <= m < acc + 2 ^ Z.of_nat bits ->
  root_from bits e (m ^ e) acc = m.
Proof.
  induction bits as [|b IH]; intros e m acc E A R.
  - change (2 ^ Z.of_nat 0) with 1 in R. cbn [root_from]. lia.
  - rewrite Nat2Z.inj_succ, Z.pow_succ_r in R by lia. cbn [root_from].
    assert (P : 0 < 2 ^ Z.of_nat b) by (apply Z.pow_pos_nonneg; lia).
    set (t := acc + 2 ^ Z.of_nat b) in *.
    destruct (Z.leb_spec (t ^ e) (m ^ e)) as [L|L].
    + apply IH; [exact E|unfold t; lia|]. split; [|unfold t; lia].
      destruct (Z_lt_le_dec m t) as [C|C]; [|exact C].
      pose proof (Z.pow_lt_mono_l m t e E ltac:(lia)). lia.
    + apply IH; [exact E|exact A|]. split; [lia|].
      destruct (Z_lt_le_dec m t) as [C|C]; [unfold t in C; exact C|].
      pose proof (Z.pow_le_mono_l t m e ltac:(unfold t in *; lia)). lia.
Qed.

Lemma iroot_exact e m : 0 < e -> 0 <= m -> iroot e (m ^ e) = m.
Proof.
  intros E M. apply root_from_exact; [exact E|lia|]. split; [exact M|]. rewrite Z.add_0_l.
  rewrite Nat2Z.inj_succ, Z2Nat.id by apply Z.log2_nonneg.
  destruct (Z.eq_dec m 0) as [->|N].
  - apply Z.pow_pos_nonneg; [lia|]. pose proof (Z.log2_nonneg (0 ^ e)). lia.
  - assert (P : 0 < m ^ e) by (apply Z.pow_pos_nonneg; lia).
    pose proof (Z.log2_spec (m ^ e) P) as (_ & U). apply Z.le_lt_trans with (m ^ e); [|exact U].
    rewrite <- (Z.pow_1_r m) at 1. apply Z.pow_le_mono_r; lia.
Qed.

Lemma coprime_product n ns : Forall (fun m => Z.gcd n m = 1) ns -> Z.gcd n (product ns) = 1.
Proof.
  induction 1 as [|m ns H _ IH]; [apply Z.gcd_1_r|].
  change (product (m :: ns)) with (m * product ns). apply Zgcd_1_rel_prime.
  apply rel_prime_mult; apply Zgcd_1_rel_prime; assumption.
Qed.

Lemma join_exact l y : coprime (map snd l) -> Forall (fun cn => 1 < snd cn /\ fst cn = y mod snd cn) l ->
  snd (join l) = product (map snd l) /\ 0 < product (map snd l) /\ fst (join l) = y mod product (map snd l).
Proof.
  induction l as [|[c n] l IH]; intros C F.
  - cbn. split; [reflexivity|]. split; [lia|]. symmetry. apply Z.mod_1_r.
  - cbn [map snd fst coprime] in C. destruct C as (C1 & C2).
    apply Forall_cons_iff in F. destruct F as ((N & E) & F). cbn [fst snd] in N, E.
    destruct (IH C2 F) as (I1 & I2 & I3). cbn [join map snd].
    change (product (n :: map snd l)) with (n * product (map snd l)).
    destruct (join l) as [x m]. cbn [fst snd] in *. subst m. set (M := product (map snd l)) in *.
    assert (G : Z.gcd M n = 1) by (rewrite Z.gcd_comm; apply coprime_product; exact C1).
    destruct (zinv_exists M n ltac:(lia) G) as (i & I). rewrite I. apply zinv_some in I. destruct I as (_ & _ & I).
    set (t := ((c - x) * i) mod n). assert (T : 0 <= t < n) by (apply Z.mod_pos_bound; lia).
    split; [ring|]. split; [apply Z.mul_pos_pos; lia|]. cbn [fst].
    pose proof (Z.mod_pos_bound y M I2) as YB. rewrite <- I3 in YB.
    assert (R : 0 <= x + M * t < n * M).
    { split; [apply Z.add_nonneg_nonneg; [lia|apply Z.mul_nonneg_nonneg; lia]|].
      assert (M * t <= M * (n - 1)) by (apply Z.mul_le_mono_nonneg_l; lia). lia. }
    rewrite <- (Z.mod_small (x + M * t) (n * M)) by exact R.
    apply divide_mod_eq; [apply Z.mul_pos_pos; lia|].
    assert (D1 : (M | x + M * t - y)).
    { apply divide_mod_eq; [exact I2|]. rewrite Z.mul_comm, Z_mod_plus_full, I3. apply Z.mod_mod. lia. }
    assert (D2 : (n | x + M * t - y)).
    { apply divide_mod_eq; [lia|]. rewrite <- E.
      rewrite <- (Z.mod_small c n) by (rewrite E; apply Z.mod_pos_bound; lia).
      apply divide_mod_eq; [lia|].
      assert (DI : (n | M * i - 1)) by (apply divide_mod_eq; [lia|exact I]). destruct DI as (a & A).
      pose proof (Z.div_mod ((c - x) * i) n ltac:(lia)) as DM. fold t in DM.
      exists ((c - x) * a - M * ((c - x) * i / n)).
      replace t with ((c - x) * i - n * ((c - x) * i / n)) by lia.
      replace (x + M * ((c - x) * i - n * ((c - x) * i / n)) - c)
        with ((c - x) * (M * i - 1) - M * n * ((c - x) * i / n)) by ring.
      rewrite A. ring. }
    destruct D2 as (u & U). rewrite U in D1 |- *. rewrite Z.mul_comm in D1. apply Gauss in D1.
    + destruct D1 as (v & ->). exists v. ring.
    + apply Zgcd_1_rel_prime. exact G.
Qed.

Lemma product_above l m : 0 <= m -> Forall (fun n => m < n) l -> l <> [] -> m ^ Z.of_nat (length l) < product l.
Proof.
  intros M. induction l as [|a l IH]; intros F N; [congruence|]. apply Forall_cons_iff in F. destruct F as (A & F).
  change (product (a :: l)) with (a * product l). cbn [length]. rewrite Nat2Z.inj_succ, Z.pow_succ_r by lia.
  destruct l as [|b l]; [cbn; lia|]. specialize (IH F ltac:(congruence)).
  assert (0 <= m ^ Z.of_nat (length (b :: l))) by (apply Z.pow_nonneg; exact M).
  apply Z.mul_lt_mono_nonneg; assumption.
Qed.

Lemma broadcast_exact e m l : 0 < e -> e <= Z.of_nat (length l) -> 0 <= m -> coprime (map snd l) ->
  Forall (fun cn => 1 < snd cn /\ m < snd cn /\ fst cn = m ^ e mod snd cn) l -> broadcast e l = m.
Proof.
  intros E L M C F. unfold broadcast.
  destruct (join_exact l (m ^ e) C) as (_ & P & J); [eapply Forall_impl; [|exact F]; intros cn (A & _ & B); split; assumption|].
  rewrite J, Z.mod_small; [apply iroot_exact; assumption|]. split; [apply Z.pow_nonneg; exact M|].
  assert (B : m ^ Z.of_nat (length (map snd l)) < product (map snd l)).
  { apply product_above; [exact M| |].
    - apply Forall_map. eapply Forall_impl; [|exact F]. cbn beta. intros; tauto.
    - intros Z0. apply (f_equal (@length Z)) in Z0. rewrite map_length in Z0. cbn in Z0. lia. }
  rewrite map_length in B. destruct (Z.eq_dec m 0) as [->|N]; [rewrite Z.pow_0_l by exact E; exact P|].
  apply Z.le_lt_trans with (m ^ Z.of_nat (length l)); [apply Z.pow_le_mono_r; lia|exact B].
Qed.

(** A padded message is at least 2 * 256^(k-2). *)
Lemma eme_big k em msg : is_eme_pkcs1 k em msg -> 2 * 256 ^ (Z.of_nat k - 2) <= os2ip em /\ (11 <= k)%nat.
Proof.
  intros (L & PS & E & P8 & _). subst em. unfold eme_pkcs1 in *. cbn [length] in L. rewrite app_length in L. cbn [length] in L.
  split; [|lia]. rewrite !os2ip_cons. change (b2z x00) with 0. change (b2z x02) with 2.
  pose proof (os2ip_range (PS ++ x00 :: msg)) as R.
  replace (Z.of_nat k - 2) with (Z.of_nat (length (PS ++ x00 :: msg))) by (rewrite app_length; cbn [length]; lia). lia.
Qed.

Lemma padded_wraps n e em k : 0 < n < 256 ^ Z.of_nat k -> (11 <= k)%nat -> 2 * 256 ^ (Z.of_nat k - 2) <= em -> 2 <= e ->
  n < em ^ e.
Proof.
  intros N K B E.
  assert (P : 0 < 256 ^ (Z.of_nat k - 2)) by (apply Z.pow_pos_nonneg; lia).
  apply Z.lt_le_trans with (em ^ 2); [|apply Z.pow_le_mono_r; lia].
  apply Z.lt_le_trans with (256 ^ Z.of_nat k); [lia|].
  apply Z.le_trans with ((256 ^ (Z.of_nat k - 2)) ^ 2); [|apply Z.pow_le_mono_l; lia].
  rewrite <- Z.pow_mul_r by lia. apply Z.pow_le_mono_r; lia.
Qed.
