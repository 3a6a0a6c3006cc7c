(** Proofs for PropWeak.v. *)
From Coq Require Import ZArith List Bool Lia Znumtheory.
From Verif Require Import Base Bigint NumTheory SpecRFC SpecKey SpecGen SpecWeak MRsa MGenerate MKey KeyDefs BigintLemmas PRsa PKey.
Import ListNotations.
Local Open Scope Z_scope.

(** ** Private exponents *)

(** A number congruent to 1 and more than 1 exceeds the modulus. *)
Lemma over_modulus x m : 0 < m -> 1 < x -> x mod m = 1 -> m < x.
Proof.
  intros M X H. destruct (Z_lt_le_dec x m) as [L|L].
  - rewrite Z.mod_small in H by lia. lia.
  - destruct (Z.eq_dec x m) as [->|]; [rewrite Z_mod_same_full in H; lia|lia].
Qed.

Lemma product_le ps b : 0 < b -> Forall (fun p => 0 <= p <= b) ps ->
  0 <= product ps <= b ^ Z.of_nat (length ps).
Proof.
  intros B. induction ps as [|p ps IH]; intros F; [cbn; lia|].
  apply Forall_cons_iff in F. destruct F as [P F]. specialize (IH F).
  cbn [length]. rewrite Nat2Z.inj_succ, Z.pow_succ_r by lia.
  change (product (p :: ps)) with (p * product ps).
  split; [apply Z.mul_nonneg_nonneg; lia|apply Z.mul_le_mono_nonneg; lia].
Qed.

Lemma exponent_not_small k :
  wf_pub (sk_pub k) -> wf_uint (sk_d k) -> Forall wf_uint (sk_primes k) -> validate k = Ok tt ->
  Forall (fun p => uval p <= uval (pk_e (sk_pub k)) * uval (sk_d k)) (sk_primes k) /\
  uval (pk_n (sk_pub k)) <= (uval (pk_e (sk_pub k)) * uval (sk_d k)) ^ Z.of_nat (length (sk_primes k)).
Proof.
  intros Wp Wd F V. apply (validate_exact k Wp Wd F) in V. destruct V as (U & P & G).
  set (e := uval (pk_e (sk_pub k))) in *. set (d := uval (sk_d k)) in *.
  destruct U as (_ & _ & _ & E1 & _).
  assert (D0 : 0 <= d) by (unfold d; destruct Wd as ((A & _) & _); exact A).
  assert (H : Forall (fun p => 3 <= uval p <= e * d) (sk_primes k)).
  { apply Forall_forall. intros p I. rewrite Forall_forall in G. destruct (G p I) as (P3 & _ & M).
    split; [exact P3|]. assert (X : uval p - 1 < e * d); [|lia].
    apply over_modulus; [lia| |exact M].
    assert (N0 : e * d <> 0) by (intros Z0; rewrite Z0, Zmod_0_l in M; discriminate).
    assert (D1 : 1 <= d) by (destruct (Z.eq_dec d 0) as [Z0|]; [rewrite Z0, Z.mul_0_r in N0|]; lia).
    fold e in E1. clear - D1 E1. nia. }
  split; [apply Forall_forall; intros p I; rewrite Forall_forall in H; specialize (H p I); lia|].
  destruct (Z.eq_dec (e * d) 0) as [Z0|N0].
  - destruct (sk_primes k) as [|p ps] eqn:EP.
    + cbn [length]. change (Z.of_nat 0) with 0. rewrite Z.pow_0_r, <- P. cbn. destruct Wp as ((Wn & _) & _).
      assert (0 < 2 ^ uprec (pk_n (sk_pub k))) by (clear - Wn; lia).
      pose proof (Z.mod_le 1 (2 ^ uprec (pk_n (sk_pub k))) ltac:(lia) H0). lia.
    + apply Forall_cons_iff in H. destruct H as (H & _). lia.
  - assert (ED : 0 < e * d) by (fold e in E1; clear - E1 D0 N0; nia).
    assert (Q : 0 <= product (map uval (sk_primes k)) <= (e * d) ^ Z.of_nat (length (map uval (sk_primes k)))).
    { apply product_le; [exact ED|]. apply Forall_map. eapply Forall_impl; [|exact H]. cbn beta. intros; lia. }
    rewrite map_length in Q. rewrite <- P. destruct Wp as ((Wn & _) & _).
    assert (0 < 2 ^ uprec (pk_n (sk_pub k))) by (clear - Wn; lia).
    etransitivity; [apply Z.mod_le; [apply Q|assumption]|apply Q].
Qed.

Lemma no_short_exponent n e d : 0 < e -> 0 <= d -> 0 <= n -> e ^ 4 <= n -> n <= (e * d) ^ 2 -> n <= d ^ 4.
Proof.
  intros E D N B H. destruct (Z.eq_dec n 0) as [->|N0]; [apply Z.pow_nonneg; lia|].
  assert (A : n * n <= (e * d) ^ 2 * (e * d) ^ 2) by (apply Z.mul_le_mono_nonneg; assumption).
  replace ((e * d) ^ 2 * (e * d) ^ 2) with (e ^ 4 * d ^ 4) in A by ring.
  assert (D4 : 0 <= d ^ 4) by (apply Z.pow_nonneg; exact D).
  assert (C : e ^ 4 * d ^ 4 <= n * d ^ 4) by (apply Z.mul_le_mono_nonneg_r; assumption).
  apply (Z.mul_le_mono_pos_l n (d ^ 4) n); lia.
Qed.

(** ** Fermat's method *)

Lemma square_test x : 0 <= x -> (Z.sqrt x * Z.sqrt x = x <-> exists b, 0 <= b /\ b * b = x).
Proof.
  intros X. split; [intros H; exists (Z.sqrt x); split; [apply Z.sqrt_nonneg|exact H]|].
  intros (b & B & <-). rewrite Z.sqrt_square by exact B. reflexivity.
Qed.

Lemma sqrt_up_bounds n : 0 < n -> n <= Z.sqrt_up n * Z.sqrt_up n /\ 0 < Z.sqrt_up n.
Proof.
  intros N. pose proof (Z.sqrt_up_spec n N) as (_ & A). pose proof (Z.sqrt_up_pos n) as (_ & P).
  split; [exact A|auto].
Qed.

(** Divisors of a product of two primes. *)
Lemma two_prime_divisors p q x : prime p -> prime q -> 0 < x -> (x | p * q) ->
  x = 1 \/ x = p \/ x = q \/ x = p * q.
Proof.
  intros P Q X (y & Y). pose proof (prime_ge_2 p P). pose proof (prime_ge_2 q Q).
  assert (D : (p | y * x)) by (rewrite <- Y; exists q; ring).
  apply prime_mult in D; [|exact P]. destruct D as [(z & ->)|(z & ->)].
  - assert (E : q = z * x) by nia.
    assert (DQ : (x | q)) by (exists z; exact E).
    destruct (prime_divisors q Q x DQ) as [?|[?|[?|?]]]; lia.
  - assert (E : q = y * z) by nia. assert (DQ : (z | q)) by (exists y; exact E).
    destruct (prime_divisors q Q z DQ) as [?|[?|[?|?]]]; subst; nia.
Qed.

Section Fermat.
  Context (p q : Z) (P : prime p) (Q : prime q) (L : 2 < p < q).
  Let n := p * q.

  Lemma halves : Z.odd p = true /\ Z.odd q = true /\ 2 * ((p + q) / 2) = p + q /\ 2 * ((q - p) / 2) = q - p.
  Proof.
    assert (O : forall r, prime r -> 2 < r -> Z.odd r = true).
    { intros r R R2. destruct (Z.odd r) eqn:E; [reflexivity|exfalso].
      rewrite <- Z.negb_even in E. apply negb_false_iff in E. apply Z.even_spec in E. destruct E as (m & M).
      assert (D : (2 | r)) by (exists m; lia).
      destruct (prime_divisors r R 2 D) as [?|[?|[?|?]]]; lia. }
    pose proof (O p P ltac:(lia)) as A. pose proof (O q Q ltac:(lia)) as B. split; [exact A|]. split; [exact B|].
    apply Z.odd_spec in A. apply Z.odd_spec in B. destruct A as (a & ->). destruct B as (b & ->).
    replace (2 * a + 1 + (2 * b + 1)) with ((a + b + 1) * 2) by ring.
    replace (2 * b + 1 - (2 * a + 1)) with ((b - a) * 2) by ring.
    rewrite !Z_div_mult by lia. lia.
  Qed.

  Lemma middle : ((p + q) / 2) * ((p + q) / 2) - n = ((q - p) / 2) * ((q - p) / 2).
  Proof. destruct halves as (_ & _ & A & B). unfold n. nia. Qed.

  Lemma start_below : 0 < n /\ Z.sqrt_up n <= (p + q) / 2.
  Proof.
    assert (N : 0 < n) by (unfold n; nia). split; [exact N|].
    destruct halves as (_ & _ & A & B). pose proof middle as M.
    apply Z.sqrt_up_le_square; [lia|lia|]. pose proof (Z.square_nonneg ((q - p) / 2)). lia.
  Qed.

  Lemma fermat_from_exact : forall steps a, Z.sqrt_up n <= a <= (p + q) / 2 ->
    fermat_from steps a n = if (p + q) / 2 <? a + Z.of_nat steps then Some (p, q) else None.
  Proof.
    destruct halves as (_ & _ & HA & HB). pose proof middle as M. pose proof start_below as (N & S0).
    destruct (sqrt_up_bounds n N) as (U & U0).
    induction steps as [|s IH]; intros a R.
    - cbn [fermat_from]. rewrite Z.add_0_r. destruct (Z.ltb_spec ((p + q) / 2) a); [lia|reflexivity].
    - cbn [fermat_from]. rewrite Nat2Z.inj_succ.
      assert (X : 0 <= a * a - n) by (clear - R U U0; nia).
      destruct (Z.eqb_spec (Z.sqrt (a * a - n) * Z.sqrt (a * a - n)) (a * a - n)) as [E|E].
      + assert (A : a = (p + q) / 2).
        { set (b := Z.sqrt (a * a - n)) in *. assert (B0 : 0 <= b) by apply Z.sqrt_nonneg.
          assert (F : (a - b) * (a + b) = p * q) by (fold n; lia).
          assert (AB : 0 < a - b) by (apply (Z.mul_pos_cancel_r (a - b) (a + b)); lia).
          assert (D : (a - b | p * q)) by (exists (a + b); lia).
          destruct (two_prime_divisors p q (a - b) P Q AB D) as [W|[W|[W|W]]]; rewrite W in F.
          - assert (0 <= (p - 1) * (q - 1)) by (apply Z.mul_nonneg_nonneg; lia). lia.
          - assert (a + b = q) by (clear - F L; nia). lia.
          - assert (a + b = p) by (clear - F L; nia). lia.
          - assert (3 * q <= p * q) by (apply Z.mul_le_mono_nonneg_r; lia). lia. }
        replace (a * a - n) with (((q - p) / 2) * ((q - p) / 2)) by (rewrite A; symmetry; exact M).
        rewrite Z.sqrt_square by lia.
        destruct (Z.ltb_spec ((p + q) / 2) (a + Z.succ (Z.of_nat s))); [|lia].
        f_equal. f_equal; lia.
      + assert (A : a <> (p + q) / 2).
        { intros ->. apply E. rewrite M. rewrite Z.sqrt_square by lia. reflexivity. }
        rewrite IH by lia. replace (a + 1 + Z.of_nat s) with (a + Z.succ (Z.of_nat s)) by lia. reflexivity.
  Qed.

  Lemma fermat_exact steps :
    fermat steps n = if (p + q) / 2 <? Z.sqrt_up n + Z.of_nat steps then Some (p, q) else None.
  Proof. apply fermat_from_exact. pose proof start_below. lia. Qed.

  Lemma fermat_bound j : (q - p) ^ 2 <= 8 * Z.of_nat j * Z.sqrt n -> fermat (S j) n = Some (p, q).
  Proof.
    intros H. rewrite fermat_exact. pose proof start_below as (N & S0).
    destruct (sqrt_up_bounds n N) as (U & U0). destruct halves as (_ & _ & HA & HB). pose proof middle as M.
    destruct (Z.ltb_spec ((p + q) / 2) (Z.sqrt_up n + Z.of_nat (S j))) as [|C]; [reflexivity|exfalso].
    pose proof (Z.sqrt_spec n ltac:(lia)) as (W & _). pose proof (Z.sqrt_nonneg n) as V0.
    assert (V : Z.sqrt n <= Z.sqrt_up n) by (apply Z.square_le_simpl_nonneg; lia).
    assert (B : 4 * (((q - p) / 2) * ((q - p) / 2)) = (q - p) ^ 2) by (rewrite <- HB at 3; ring).
    set (A := (p + q) / 2) in *. set (b := (q - p) / 2) in *. set (r := Z.sqrt n) in *. set (u := Z.sqrt_up n) in *.
    assert (A2 : A * A <= n + 2 * Z.of_nat j * r) by (rewrite <- B in H; clear - H M; lia).
    rewrite Nat2Z.inj_succ in C. set (z := Z.of_nat j) in *. assert (Z0 : 0 <= z) by (unfold z; lia).
    assert (A3 : (u + z) * (u + z) < A * A) by (apply Z.square_lt_mono_nonneg; lia).
    assert (A4 : z * r <= z * u) by (apply Z.mul_le_mono_nonneg_l; lia).
    assert (Z2 : 0 <= z * z) by (apply Z.mul_nonneg_nonneg; lia).
    clear - A2 A3 A4 Z2 U. lia.
  Qed.
End Fermat.

(** ** A CRT exponent gives a factor *)

Lemma proper_factor_spec n f : proper_factor n f = true <-> 1 < f < n /\ (f | n).
Proof.
  unfold proper_factor. rewrite !andb_true_iff, !Z.ltb_lt, Z.eqb_eq. split.
  - intros ((A & B) & C). split; [lia|]. apply Z.mod_divide; [lia|exact C].
  - intros ((A & B) & C). split; [lia|]. apply Z.mod_divide; [lia|exact C].
Qed.

Lemma factor_with_sound n e x f : factor_with n e x = Some f -> 1 < f < n /\ (f | n).
Proof. intros H. apply find_some in H. apply proper_factor_spec. apply H. Qed.

Lemma factor_with_finds n e x p : 1 < e -> 0 < x < p - 1 -> (e * x) mod (p - 1) = 1 -> 1 < p < n -> (p | n) ->
  exists f, factor_with n e x = Some f.
Proof.
  intros E X M P D. unfold factor_with.
  destruct (find _ _) as [f|] eqn:F; [eexists; reflexivity|exfalso].
  pose proof (Z.div_mod (e * x) (p - 1) ltac:(lia)) as DM. rewrite M in DM.
  set (k := e * x / (p - 1)) in *.
  assert (K : 0 < k < e) by (clear - DM X E; nia).
  pose proof (find_none _ _ F p) as N.
  assert (I : In p (map (fun i : nat => (e * x - 1) / Z.of_nat i + 1) (seq 1 (Z.to_nat e)))).
  { apply in_map_iff. exists (Z.to_nat k). split; [|apply in_seq; lia].
    rewrite Z2Nat.id by lia. replace (e * x - 1) with ((p - 1) * k) by lia. rewrite Z_div_mult by lia. ring. }
  specialize (N I). assert (T : proper_factor n p = true) by (apply proper_factor_spec; auto). congruence.
Qed.
