(** Proofs about key generation: src/algorithms/generate.rs and
    [RsaPrivateKey::new], [new_with_exp] (src/key.rs:275-290).  C30, C31, C32, C49. *)
From Coq Require Import ZArith List Bool Lia Znumtheory.
From Coq Require Import Init.Byte.
From Verif Require Import Base Bigint PFloat BytesLemmas NumTheory SpecRFC SpecKey BigintLemmas
  MHash MRsa MGenerate MKey KeyDefs PRsa PApi SpecRng MApi PKey PRecover PBuild SpecGen PSign.
Import ListNotations.
Local Open Scope Z_scope.

(** * C32: the size check *)

Lemma few_primes_table :
  forallb (fun b => Bool.eqb (too_few_primes (Z.of_nat b) 2) (b <? 12)%nat) (seq 0 64) = true.
Proof. vm_compute. reflexivity. Qed.

Lemma too_few_spec b : 0 <= b < 64 -> (too_few_primes b 2 = true <-> b < 12).
Proof.
  intros H. pose proof few_primes_table as T. rewrite forallb_forall in T.
  specialize (T (Z.to_nat b)). rewrite Z2Nat.id in T by lia.
  assert (I : In (Z.to_nat b) (seq 0 64)) by (apply in_seq; lia).
  apply T in I. apply eqb_prop in I. rewrite I, Nat.ltb_lt. lia.
Qed.

Definition pair_key (b : Z) (e : uint) (p q : uint) (c : key_components) : Prop :=
  exists d, zinv (uval e) ((uval p - 1) * (uval q - 1)) = Some d /\
    c = mkKC (mkU (uval p * uval q) (key_prec b)) e
             (mkU d (prec_for (b / 2) + key_prec b)) [p; q].

Lemma prec_for_le b m : 64 <= m -> m mod 64 = 0 -> b <= m -> prec_for b <= m.
Proof.
  intros H M L. unfold prec_for, ceil64. apply Z.max_lub; [auto|].
  pose proof (Z_div_mod_eq_full m 64) as E. rewrite M, Z.add_0_r in E.
  set (t := m / 64) in *. clearbody t.
  assert ((b + 63) / 64 < t + 1) by (apply Z.div_lt_upper_bound; lia). lia.
Qed.

Lemma key_prec_max b : b <= 4096 -> key_prec b <= 4096.
Proof.
  intros H. unfold key_prec.
  assert (b / 2 <= 2048) by (apply Z.div_le_upper_bound; lia).
  assert (b - b / 2 <= 2048).
  { pose proof (Z.div_mod b 2 ltac:(lia)). pose proof (Z.mod_pos_bound b 2 ltac:(lia)). lia. }
  pose proof (prec_for_le (b / 2) 2048 ltac:(lia) ltac:(reflexivity) ltac:(lia)).
  pose proof (prec_for_le (b - b / 2) 2048 ltac:(lia) ltac:(reflexivity) ltac:(lia)). lia.
Qed.

Lemma key_prec_min b : b <= key_prec b /\ 128 <= key_prec b /\ key_prec b mod 64 = 0.
Proof.
  unfold key_prec. pose proof (prec_for_ge (b / 2)). pose proof (prec_for_ge (b - b / 2)).
  destruct (prec_for_wf (b / 2)) as (A1 & A2). destruct (prec_for_wf (b - b / 2)) as (B1 & B2).
  split; [lia|]. split; [lia|]. rewrite Zplus_mod, A2, B2. reflexivity.
Qed.

Lemma exp_fits b : 64 <= prec_for (b / 2) + key_prec b.
Proof. pose proof (key_prec_min b). destruct (prec_for_wf (b / 2)). lia. Qed.

Lemma key_prec_iff b : 12 <= b -> (key_prec b - 64 < b <-> ~ 2 <= b mod 128 <= 64).
Proof.
  intros H. unfold key_prec, prec_for, ceil64.
  pose proof (Z.div_mod b 128 ltac:(lia)) as D. pose proof (Z.mod_pos_bound b 128 ltac:(lia)) as M.
  set (r := b mod 128) in *. set (m := b / 128) in *. clearbody r m.
  pose proof (Z.div_mod b 2 ltac:(lia)) as D2. pose proof (Z.mod_pos_bound b 2 ltac:(lia)) as M2.
  set (x := b / 2) in *. set (s := b mod 2) in *. clearbody x s.
  pose proof (Z.div_mod (x + 63) 64 ltac:(lia)) as Dx. pose proof (Z.mod_pos_bound (x + 63) 64 ltac:(lia)) as Mx.
  set (u := (x + 63) / 64) in *. set (u' := (x + 63) mod 64) in *. clearbody u u'.
  pose proof (Z.div_mod (b - x + 63) 64 ltac:(lia)) as Dy. pose proof (Z.mod_pos_bound (b - x + 63) 64 ltac:(lia)) as My.
  set (v := (b - x + 63) / 64) in *. set (v' := (b - x + 63) mod 64) in *. clearbody v v'.
  lia.
Qed.

Section WithGen.
  Context {R : Type} (gp : prime_gen R).

  Lemma c32_small fuel st b e : 0 <= b < 12 ->
    private_new_with_exp gp fuel st b e = Err TooFewPrimes.
  Proof.
    intros H. unfold private_new_with_exp, generate_multi_prime_key_with_exp.
    cbn [Nat.ltb Nat.leb]. change (Z.of_nat 2) with 2.
    destruct (Z.ltb_spec b 64); [|lia]. cbn [andb].
    assert (T : too_few_primes b 2 = true) by (apply too_few_spec; lia). rewrite T. reflexivity.
  Qed.

  Lemma gen_large fuel st b e : 12 <= b ->
    generate_multi_prime_key_with_exp gp fuel st 2 b e = generate_loop gp fuel st 2 b e.
  Proof.
    intros H. unfold generate_multi_prime_key_with_exp. cbn [Nat.ltb Nat.leb].
    change (Z.of_nat 2) with 2.
    destruct (Z.ltb_spec b 64) as [L|L]; cbn [andb]; [|reflexivity].
    assert (T : too_few_primes b 2 = false).
    { apply not_true_iff_false. rewrite too_few_spec by lia. lia. }
    rewrite T. reflexivity.
  Qed.

  (** * One round of the loop for two primes *)

  Context (b : Z).
  Hypothesis HG : prime_source gp b.

  Lemma pow2_step a : 2 <= a -> 2 ^ a = 4 * 2 ^ (a - 2).
  Proof. intros H. replace a with (2 + (a - 2)) at 1 by lia. rewrite Z.pow_add_r by lia. reflexivity. Qed.

  Lemma source_facts st bits : bits = b / 2 \/ bits = b - b / 2 -> 2 <= bits ->
    let p := fst (gp st bits) in
    wf_uint p /\ prime (uval p) /\ 3 <= uval p /\ Z.odd (uval p) = true /\
    zbits (uval p) = bits /\ uprec p = prec_for bits.
  Proof.
    intros I H p. destruct (HG st bits I H) as (P & B & E). fold p in P, B, E.
    assert (X : 1 <= 2 ^ (bits - 2)) by (apply (Z.pow_le_mono_r 2 0); lia).
    assert (Y : 2 ^ bits = 4 * 2 ^ (bits - 2)) by (apply pow2_step; lia).
    assert (Y' : 2 ^ (bits - 1) = 2 * 2 ^ (bits - 2)).
    { replace (bits - 1) with (1 + (bits - 2)) by lia. rewrite Z.pow_add_r by lia. reflexivity. }
    assert (E' : uprec p = prec_for bits).
    { rewrite E. unfold prec_for, ceil64. lia. }
    assert (O : Z.odd (uval p) = true).
    { destruct (Z.odd (uval p)) eqn:O; auto. exfalso.
      rewrite <- Z.negb_even in O. apply negb_false_iff, Z.even_spec in O. destruct O as (c & O).
      assert (D : (2 | uval p)) by (exists c; lia).
      destruct (prime_divisors _ P 2 D) as [|[|[|]]]; lia. }
    split; [|split; [auto|split; [lia|split; [auto|split; [|auto]]]]].
    - destruct (prec_for_wf bits) as (W1 & W2). rewrite <- E' in W1, W2.
      split; [|auto]. pose proof (prec_for_ge bits). rewrite <- E' in H0.
      assert (2 ^ bits <= 2 ^ uprec p) by (apply Z.pow_le_mono_r; lia). lia.
    - apply zbits_unique; lia.
  Qed.

  Lemma pair_facts st : 4 <= b ->
    let p := pair_p gp st b in let q := pair_q gp st b in
    wf_uint p /\ wf_uint q /\ prime (uval p) /\ prime (uval q) /\
    3 <= uval p /\ 3 <= uval q /\ Z.odd (uval p) = true /\ Z.odd (uval q) = true /\
    zbits (uval p) = b / 2 /\ zbits (uval q) = b - b / 2 /\
    uprec p = prec_for (b / 2) /\ uprec q = prec_for (b - b / 2) /\
    9 * 2 ^ (b - 4) <= uval p * uval q < 2 ^ b.
  Proof.
    intros H p q.
    assert (H1 : 2 <= b / 2) by (apply Z.div_le_lower_bound; lia).
    assert (H2 : b / 2 <= b - 2) by (pose proof (Z.mul_div_le b 2); lia).
    destruct (source_facts st (b / 2) ltac:(auto) H1) as (A1 & A2 & A3 & A4 & A5 & A6).
    destruct (source_facts (snd (gp st (b / 2))) (b - b / 2) ltac:(auto) ltac:(lia)) as (B1 & B2 & B3 & B4 & B5 & B6).
    destruct (HG st (b / 2) ltac:(auto) H1) as (_ & P & _).
    destruct (HG (snd (gp st (b / 2))) (b - b / 2) ltac:(auto) ltac:(lia)) as (_ & Q & _).
    fold (pair_p gp st b) in A1, A2, A3, A4, A5, A6, P. fold (pair_q gp st b) in B1, B2, B3, B4, B5, B6, Q.
    fold p in A1, A2, A3, A4, A5, A6, P. fold q in B1, B2, B3, B4, B5, B6, Q.
    do 12 (split; [auto|]).
    set (x := b / 2) in *.
    assert (E1 : 2 ^ (b - 4) = 2 ^ (x - 2) * 2 ^ (b - x - 2))
      by (rewrite <- Z.pow_add_r by lia; f_equal; lia).
    assert (E2 : 2 ^ b = 2 ^ x * 2 ^ (b - x)) by (rewrite <- Z.pow_add_r by lia; f_equal; lia).
    assert (0 < 2 ^ (x - 2)) by (apply Z.pow_pos_nonneg; lia).
    assert (0 < 2 ^ (b - x - 2)) by (apply Z.pow_pos_nonneg; lia).
    assert (0 < 2 ^ x) by (apply Z.pow_pos_nonneg; lia).
    rewrite E1, E2. clear - P Q H0 H3 H4.
    set (u := 2 ^ (x - 2)) in *. set (v := 2 ^ (b - x - 2)) in *.
    set (U := 2 ^ x) in *. set (V := 2 ^ (b - x)) in *. clearbody u v U V. nia.
  Qed.

  Lemma draw_two st : 4 <= b < 2 ^ 32 ->
    draw_primes gp 2 st b = Ok ([pair_p gp st b; pair_q gp st b], pair_next gp st b).
  Proof.
    intros H. destruct (pair_facts st ltac:(lia)) as (_ & _ & _ & _ & _ & _ & _ & _ & E1 & E2 & _).
    assert (H1 : 2 <= b / 2) by (apply Z.div_le_lower_bound; lia).
    assert (H2 : b / 2 <= b - 2) by (pose proof (Z.mul_div_le b 2); lia).
    cbn [draw_primes]. unfold generate_prime_with_rng.
    change (Z.of_nat 2) with 2. change (Z.of_nat 1) with 1.
    rewrite (Z.mod_small (b / 2)) by lia.
    destruct (Z.ltb_spec (b / 2) 2); [lia|]. cbn [bind].
    unfold pair_p, pair_q, pair_next in *.
    destruct (gp st (b / 2)) as [p st1] eqn:G1. cbn [fst snd] in *.
    unfold ubits. rewrite E1. unfold assert_ at 1.
    assert (L1 : (b / 2 <=? b) = true) by (apply Z.leb_le; lia). rewrite L1. cbn [bind].
    rewrite Z.div_1_r, (Z.mod_small (b - b / 2)) by lia.
    destruct (Z.ltb_spec (b - b / 2) 2); [lia|]. cbn [bind].
    destruct (gp st1 (b - b / 2)) as [q st2] eqn:G2. cbn [fst snd] in *.
    rewrite E2, Z.leb_refl. unfold assert_. cbn [bind]. reflexivity.
  Qed.

  Lemma pair_totient st : totient (map uval [pair_p gp st b; pair_q gp st b])
    = (uval (pair_p gp st b) - 1) * (uval (pair_q gp st b) - 1).
  Proof. unfold totient. cbn [map]. apply product2. Qed.

  Lemma loop_step fuel st e : 4 <= b < 2 ^ 32 -> wf_uint e ->
    let p := pair_p gp st b in let q := pair_q gp st b in
    generate_loop gp (S fuel) st 2 b e
    = if uval q =? uval p then generate_loop gp fuel (pair_next gp st b) 2 b e
      else if uprec e <=? prec_for (b / 2) + key_prec b then
        match zinv (uval e) ((uval p - 1) * (uval q - 1)) with
        | Some d => Ok (mkKC (mkU (uval p * uval q) (key_prec b)) e
                             (mkU d (prec_for (b / 2) + key_prec b)) [p; q])
        | None => generate_loop gp fuel (pair_next gp st b) 2 b e
        end
      else Panic.
  Proof.
    intros H We p q.
    destruct (pair_facts st ltac:(lia))
      as (W1 & W2 & P1 & P2 & T1 & T2 & O1 & O2 & Z1 & Z2 & R1 & R2 & N1 & N2).
    cbn [generate_loop Nat.leb]. cbv zeta. rewrite draw_two by auto. cbn [bind].
    fold p q in W1, W2, P1, P2, T1, T2, O1, O2, Z1, Z2, R1, R2, N1, N2 |- *.
    cbn [has_duplicate existsb]. unfold ueqb. rewrite !orb_false_r.
    destruct (Z.eqb_spec (uval q) (uval p)) as [|Hne]; [reflexivity|].
    assert (F : Forall wf_uint [p; q]) by (constructor; [auto|constructor; [auto|constructor]]).
    rewrite compute_modulus_eq by discriminate.
    rewrite map2, product2, sum2, Z.odd_mul, O1, O2, R1, R2. cbn [andb bind]. fold (key_prec b).
    unfold ubits. cbn [uval].
    assert (Eb : zbits (uval p * uval q) = b).
    { apply zbits_unique; [lia|]. split; [|lia].
      assert (2 ^ (b - 1) = 8 * 2 ^ (b - 4)).
      { replace (b - 1) with (3 + (b - 4)) by lia. rewrite Z.pow_add_r by lia. reflexivity. }
      assert (0 < 2 ^ (b - 4)) by (apply Z.pow_pos_nonneg; lia). lia. }
    rewrite Eb, Z.eqb_refl. cbn [negb].
    destruct (euler_d [p; q] e ltac:(simpl; lia) F) as (D1 & D2); auto.
    { constructor; [lia|constructor; [lia|constructor]]. }
    cbn [nth] in D1, D2. rewrite sum2, R1, R2 in D1, D2. fold (key_prec b) in D1, D2.
    unfold p, q in D2. rewrite pair_totient in D2. fold p q in D2.
    destruct (Z.leb_spec (uprec e) (prec_for (b / 2) + key_prec b)) as [L|L].
    - rewrite D2 by auto. destruct (zinv _ _); reflexivity.
    - rewrite D1 by auto. reflexivity.
  Qed.

  Lemma totient_pair_pos st : 4 <= b ->
    0 < (uval (pair_p gp st b) - 1) * (uval (pair_q gp st b) - 1).
  Proof. intros H. destruct (pair_facts st H) as (_ & _ & _ & _ & A & B & _). nia. Qed.

  Lemma pair_fit_dec st e : 4 <= b ->
    (pair_fit gp st b e <->
     uval (pair_q gp st b) <> uval (pair_p gp st b) /\
     exists d, zinv e ((uval (pair_p gp st b) - 1) * (uval (pair_q gp st b) - 1)) = Some d).
  Proof.
    intros H. pose proof (totient_pair_pos st H) as T. unfold pair_fit. split.
    - intros (A & B). split; [auto|]. apply zinv_exists; auto.
    - intros (A & d & B). split; [auto|]. destruct (zinv_some _ _ _ B) as (_ & _ & D).
      eapply inverse_gcd; eauto.
  Qed.

  (** The whole loop: it stops at the first fit pair, and only there. *)
  Lemma loop_exact e : 4 <= b < 2 ^ 32 -> wf_uint e -> uprec e <= prec_for (b / 2) + key_prec b ->
    forall fuel st,
    (exists j p q c, (j < fuel)%nat /\ fit_at gp b (uval e) st j p q /\ pair_key b e p q c /\
       generate_loop gp fuel st 2 b e = Ok c) \/
    (unfit_for gp b (uval e) st fuel /\ generate_loop gp fuel st 2 b e = OutOfFuel).
  Proof.
    intros H We Le. induction fuel as [|fuel IH]; intros st.
    - right. split; [constructor|reflexivity].
    - rewrite loop_step by auto. cbv zeta.
      apply Z.leb_le in Le. rewrite Le.
      pose proof (pair_fit_dec st (uval e) ltac:(lia)) as PF.
      assert (Rec : ~ pair_fit gp st b (uval e) ->
        (exists j p q c, (j < S fuel)%nat /\ fit_at gp b (uval e) st j p q /\ pair_key b e p q c /\
          generate_loop gp fuel (pair_next gp st b) 2 b e = Ok c) \/
        (unfit_for gp b (uval e) st (S fuel) /\
          generate_loop gp fuel (pair_next gp st b) 2 b e = OutOfFuel)).
      { intros NF. destruct (IH (pair_next gp st b)) as [(j & p & q & c & A & B & C & D)|(A & B)].
        - left. exists (S j), p, q, c. split; [lia|]. split; [constructor; auto|auto].
        - right. split; [constructor; auto|auto]. }
      destruct (Z.eqb_spec (uval (pair_q gp st b)) (uval (pair_p gp st b))) as [E|E].
      + apply Rec. rewrite PF. tauto.
      + destruct (zinv _ _) as [d|] eqn:Z.
        * left. exists O, (pair_p gp st b), (pair_q gp st b). eexists. split; [lia|].
          split; [constructor; rewrite PF; eauto|]. split; [|reflexivity]. exists d. auto.
        * apply Rec. rewrite PF. intros (_ & d & D). congruence.
  Qed.

  Lemma fit_at_inv e : 4 <= b -> forall st j p q, fit_at gp b e st j p q ->
    exists st', p = pair_p gp st' b /\ q = pair_q gp st' b /\ pair_fit gp st' b e.
  Proof. intros H. induction 1; eauto. Qed.

  (** If the exponent is stored too wide, generation can only panic or run on. *)
  Lemma loop_wide e : 4 <= b < 2 ^ 32 -> wf_uint e -> prec_for (b / 2) + key_prec b < uprec e ->
    forall fuel st, generate_loop gp fuel st 2 b e = Panic \/ generate_loop gp fuel st 2 b e = OutOfFuel.
  Proof.
    intros H We Le. induction fuel as [|fuel IH]; intros st; [right; reflexivity|].
    rewrite loop_step by auto. cbv zeta. destruct (_ =? _); [apply IH|].
    destruct (Z.leb_spec (uprec e) (prec_for (b / 2) + key_prec b)); [lia|auto].
  Qed.

  (** * C30 *)

  Lemma c30_component st e d : 4 <= b -> wf_uint e ->
    let p := pair_p gp st b in let q := pair_q gp st b in
    uval p <> uval q ->
    zinv (uval e) ((uval p - 1) * (uval q - 1)) = Some d ->
    let n := mkU (uval p * uval q) (key_prec b) in
    let dd := mkU d (prec_for (b / 2) + key_prec b) in
    wf_uint n /\ wf_uint dd /\ Forall wf_uint [p; q] /\ Z.odd (uval n) = true /\
    0 < d < (uval p - 1) * (uval q - 1) /\ (uval e * d) mod ((uval p - 1) * (uval q - 1)) = 1 /\
    ((exists k, from_components n e dd [p; q] = Ok k) <->
     public_usable (uval n) (uval e) (key_prec b)).
  Proof.
    intros H We p q Hne Z n dd.
    destruct (pair_facts st ltac:(lia))
      as (W1 & W2 & P1 & P2 & T1 & T2 & O1 & O2 & Z1 & Z2 & R1 & R2 & N1 & N2).
    fold p q in W1, W2, P1, P2, T1, T2, O1, O2, Z1, Z2, R1, R2, N1, N2.
    assert (F : Forall wf_uint [p; q]) by (constructor; [auto|constructor; [auto|constructor]]).
    assert (En : n = mkU (product (map uval [p; q])) (sum_prec [p; q])).
    { unfold n, key_prec. rewrite map2, product2, sum2, R1, R2. reflexivity. }
    assert (O : Z.odd (product (map uval [p; q])) = true) by (rewrite map2, product2, Z.odd_mul, O1, O2; auto).
    assert (HT : 0 <= (uval p - 1) * (uval q - 1) <= product (map uval [p; q]))
      by (rewrite map2, product2; nia).
    assert (HD : forall x, In x [p; q] -> (uval x - 1 | (uval p - 1) * (uval q - 1))).
    { intros x [<-|[<-|[]]]; [apply Z.divide_factor_l|apply Z.divide_factor_r]. }
    destruct (prec_for_wf (b / 2)) as (X1 & X2).
    destruct (build_ok [p; q] e d _ (prec_for (b / 2) + key_prec b) ltac:(simpl; lia) F We O HT HD Z) as (Wd & B).
    { unfold key_prec. rewrite sum2, R1, R2. lia. }
    { unfold key_prec. rewrite <- R1, <- R2. pose proof (sum_prec_mod _ F) as M. rewrite sum2 in M.
      rewrite Zplus_mod, M, R1, X2. reflexivity. }
    destruct (zinv_some _ _ _ Z) as (T0 & D1 & D2). rewrite (Z.mod_small 1) in D2 by nia.
    rewrite <- En in B. split; [rewrite En; apply modulus_wf; auto; discriminate|].
    split; [auto|]. split; [auto|]. split; [rewrite En; auto|]. split.
    { destruct (Z.eq_dec d 0) as [->|]; [|lia]. rewrite Z.mul_0_r, Zmod_0_l in D2. discriminate. }
    split; [auto|]. fold dd in B. rewrite B. cbn [uprec n]. split; [tauto|].
    intros U. split; [auto|]. constructor; [auto|constructor; [auto|constructor]].
  Qed.

  Lemma new_unfold fuel st e : 12 <= b ->
    private_new_with_exp gp fuel st b e
    = let* c := generate_loop gp fuel st 2 b e in
      from_components (kc_n c) (kc_e c) (kc_d c) (kc_primes c).
  Proof. intros H. unfold private_new_with_exp. rewrite gen_large by auto. reflexivity. Qed.

  Lemma zbits_product st : 4 <= b -> zbits (uval (pair_p gp st b) * uval (pair_q gp st b)) = b.
  Proof.
    intros H.
    destruct (pair_facts st H) as (_ & _ & _ & _ & _ & _ & _ & _ & _ & _ & _ & _ & N1 & N2).
    apply zbits_unique; [lia|]. split; [|lia].
    assert (2 ^ (b - 1) = 8 * 2 ^ (b - 4)).
    { replace (b - 1) with (3 + (b - 4)) by lia. rewrite Z.pow_add_r by lia. reflexivity. }
    assert (0 < 2 ^ (b - 4)) by (apply Z.pow_pos_nonneg; lia). lia.
  Qed.

  (** Whatever the generator does, a returned key is a valid key of the requested size. *)
  Lemma c30_valid fuel st e k : 0 <= b < 2 ^ 32 -> wf_uint e ->
    private_new_with_exp gp fuel st b e = Ok k ->
    exists p q,
      sk_primes k = [p; q] /\ prime (uval p) /\ prime (uval q) /\ uval p <> uval q /\
      uval (pk_n (sk_pub k)) = uval p * uval q /\ pk_e (sk_pub k) = e /\
      zbits (uval (pk_n (sk_pub k))) = b /\ zbits (uval p) = b / 2 /\ zbits (uval q) = b - b / 2 /\
      uprec (pk_n (sk_pub k)) = prec_for (b / 2) + prec_for (b - b / 2) /\
      0 < uval (sk_d k) < (uval p - 1) * (uval q - 1) /\
      (uval e * uval (sk_d k)) mod ((uval p - 1) * (uval q - 1)) = 1 /\
      validate k = Ok tt /\ sk_pre k <> None /\ good_priv k.
  Proof.
    intros H We HK.
    destruct (Z.lt_ge_cases b 12) as [L|L]; [rewrite c32_small in HK by lia; discriminate|].
    rewrite new_unfold in HK by auto.
    destruct (Z.le_gt_cases (uprec e) (prec_for (b / 2) + key_prec b)) as [Le|Le].
    2:{ destruct (loop_wide e ltac:(lia) We Le fuel st) as [E|E]; rewrite E in HK; discriminate. }
    destruct (loop_exact e ltac:(lia) We Le fuel st) as [(j & p & q & c & _ & A & (d & Z & C) & G)|(_ & G)];
      rewrite G in HK; [|discriminate].
    cbn [bind] in HK. rewrite C in HK. cbn [kc_n kc_e kc_d kc_primes] in HK.
    destruct (fit_at_inv _ ltac:(lia) _ _ _ _ A) as (st' & -> & -> & (Hne & _)).
    destruct (c30_component st' e d ltac:(lia) We Hne Z) as (Wn & Wd & F & O & D0 & D1 & _).
    destruct (pair_facts st' ltac:(lia))
      as (W1 & W2 & P1 & P2 & T1 & T2 & O1 & O2 & Z1 & Z2 & R1 & R2 & N1 & N2).
    destruct (c27_result _ _ _ _ _ Wn We Wd F O ltac:(simpl; lia) HK) as (E1 & E2 & E3 & E4 & V & SA & GO & PR).
    exists (pair_p gp st' b), (pair_q gp st' b). rewrite E1, E2, E3, E4. cbn [uval uprec].
    do 6 (split; [auto|]). split; [apply zbits_product; lia|]. do 6 (split; [auto|]). split.
    - apply (PR (pair_p gp st' b) (pair_q gp st' b) []); auto. apply distinct_primes_gcd; auto.
    - apply GO.
      + cbn [uprec]. destruct (prec_for_wf (b / 2)). lia.
      + constructor; [auto|constructor; [auto|constructor]].
      + constructor; [|constructor; [|constructor]]; simpl; [intros [X|[]]; lia|tauto].
      + rewrite map2, product2. cbn [uprec]. destruct Wn as (X & _). cbn [uval uprec] in X. lia.
  Qed.

  (** [new] with a size the library accepts: it returns a key as soon as a fit pair
      is drawn, and never fails otherwise. *)
  Lemma c30_terminates fuel st e :
    12 <= b < 2 ^ 32 -> wf_uint e -> uprec e <= prec_for (b / 2) + key_prec b ->
    key_prec b <= 4096 -> Z.odd (uval e) = true -> 2 <= uval e < 9 * 2 ^ (b - 4) ->
    uval e <= 2 ^ 33 - 1 ->
    (exists k, private_new_with_exp gp fuel st b e = Ok k /\
       exists j p q, (j < fuel)%nat /\ fit_at gp b (uval e) st j p q /\ sk_primes k = [p; q]) \/
    (private_new_with_exp gp fuel st b e = OutOfFuel /\ unfit_for gp b (uval e) st fuel).
  Proof.
    intros H We Le HP Oe E1 E2. rewrite new_unfold by lia.
    destruct (loop_exact e ltac:(lia) We Le fuel st)
      as [(j & p & q & c & J & A & (d & Z & C) & G)|(U & G)]; rewrite G; [left|right; auto].
    cbn [bind]. rewrite C. cbn [kc_n kc_e kc_d kc_primes].
    destruct (fit_at_inv _ ltac:(lia) _ _ _ _ A) as (st' & Ep & Eq & (Hne & _)).
    rewrite Ep, Eq in Z. 
    destruct (c30_component st' e d ltac:(lia) We Hne Z) as (Wn & Wd & F & O & D0 & D1 & X).
    destruct (pair_facts st' ltac:(lia))
      as (W1 & W2 & P1 & P2 & T1 & T2 & O1 & O2 & Z1 & Z2 & R1 & R2 & N1 & N2).
    destruct (proj2 X) as (k & K).
    { cbn [uval] in O |- *. split; [lia|]. split; [auto|]. split; [auto|]. lia. }
    exists k. rewrite Ep, Eq. split; [exact K|]. exists j, p, q. split; [auto|]. split; [auto|].
    destruct (c27_result _ _ _ _ _ Wn We Wd F O ltac:(simpl; lia) K) as (_ & _ & _ & E4 & _).
    rewrite Ep, Eq. auto.
  Qed.

  Lemma wf_exp : wf_uint (u_of_u64 EXP).
  Proof. split; [vm_compute; split; congruence|]. split; [cbn; lia|reflexivity]. Qed.

  Lemma c30_new fuel st : 17 <= b <= 4096 ->
    (exists k, private_new gp fuel st b = Ok k /\
       exists j p q, (j < fuel)%nat /\ fit_at gp b 65537 st j p q /\ sk_primes k = [p; q]) \/
    (private_new gp fuel st b = OutOfFuel /\ unfit_for gp b 65537 st fuel).
  Proof.
    intros H. unfold private_new.
    apply (c30_terminates fuel st (u_of_u64 EXP)).
    - lia.
    - apply wf_exp.
    - cbn [u_of_u64 uprec]. apply exp_fits.
    - apply key_prec_max. lia.
    - reflexivity.
    - cbn [u_of_u64 uval]. unfold EXP.
      assert (2 ^ 13 <= 2 ^ (b - 4)) by (apply Z.pow_le_mono_r; lia).
      change (2 ^ 13) with 8192 in *. lia.
    - vm_compute. congruence.
  Qed.

  (** Sizes for which [new] can never succeed. *)
  Lemma c30_refused fuel st e : 12 <= b < 2 ^ 32 -> wf_uint e ->
    uprec e <= prec_for (b / 2) + key_prec b ->
    (4096 < key_prec b -> private_new_with_exp gp fuel st b e = Err ModulusTooLarge \/
                   private_new_with_exp gp fuel st b e = OutOfFuel) /\
    (key_prec b <= 4096 -> 2 ^ b <= uval e ->
                   private_new_with_exp gp fuel st b e = Err InvalidModulus \/
                   private_new_with_exp gp fuel st b e = OutOfFuel).
  Proof.
    intros H We Le. rewrite new_unfold by lia.
    destruct (loop_exact e ltac:(lia) We Le fuel st)
      as [(j & p & q & c & J & A & (d & Z & C) & G)|(U & G)]; rewrite G; [|auto].
    cbn [bind]. rewrite C. cbn [kc_n kc_e kc_d kc_primes].
    destruct (fit_at_inv _ ltac:(lia) _ _ _ _ A) as (st' & Ep & Eq & (Hne & _)).
    rewrite Ep, Eq in Z |- *.
    destruct (c30_component st' e d ltac:(lia) We Hne Z) as (Wn & Wd & F & O & D0 & D1 & X).
    destruct (pair_facts st' ltac:(lia))
      as (W1 & W2 & P1 & P2 & T1 & T2 & O1 & O2 & Z1 & Z2 & R1 & R2 & N1 & N2).
    rewrite fc_unfold by (auto; simpl; lia). cbv zeta.
    unfold validate, check_public, check_public_with_max_size, MAX_SIZE.
    cbn [sk_pub pk_n pk_e uprec]. split.
    - intros L. left. destruct (Z.ltb_spec 4096 (key_prec b)); [reflexivity|lia].
    - intros L1 L2. left. destruct (Z.ltb_spec 4096 (key_prec b)); [lia|].
      unfold uleb. cbn [uval].
      destruct (Z.leb_spec (uval (pair_p gp st' b) * uval (pair_q gp st' b)) (uval e)); [reflexivity|lia].
  Qed.

  Lemma c30_new_refused fuel st : 0 <= b < 2 ^ 32 ->
    (b < 12 -> private_new gp fuel st b = Err TooFewPrimes) /\
    (12 <= b < 17 -> private_new gp fuel st b = Err InvalidModulus \/ private_new gp fuel st b = OutOfFuel) /\
    (4096 < b -> private_new gp fuel st b = Err ModulusTooLarge \/ private_new gp fuel st b = OutOfFuel).
  Proof.
    intros H. unfold private_new. split; [intros; apply c32_small; lia|].
    split; intros L;
      destruct (c30_refused fuel st (u_of_u64 EXP) ltac:(lia) wf_exp) as (A & B);
      try (cbn [u_of_u64 uprec]; apply exp_fits).
    - apply B; [apply key_prec_max; lia|].
      assert (2 ^ b <= 2 ^ 16) by (apply Z.pow_le_mono_r; lia).
      cbn [u_of_u64 uval]. unfold EXP. change (2 ^ 16) with 65536 in *. lia.
    - apply A. pose proof (key_prec_min b). lia.
  Qed.

  (** * C31 *)
  Lemma even_unfit e : 4 <= b -> Z.even e = true -> forall f st, unfit_for gp b e st f.
  Proof.
    intros H E. induction f as [|f IH]; intros st; constructor; auto.
    intros (_ & G). destruct (pair_facts st H) as (_ & _ & _ & _ & _ & _ & O1 & _).
    set (t := (uval (pair_p gp st b) - 1) * (uval (pair_q gp st b) - 1)) in *.
    assert (D : (2 | Z.gcd e t)).
    { apply Z.gcd_greatest.
      - apply Z.even_spec in E. destruct E as (c & ->). exists c. ring.
      - unfold t. apply Z.divide_mul_l.
        apply Z.odd_spec in O1. destruct O1 as (c & ->). exists c. ring. }
    rewrite G in D. destruct D as (c & D). lia.
  Qed.

  Lemma fit_unfit e : forall st j p q, fit_at gp b e st j p q ->
    forall f, (j < f)%nat -> ~ unfit_for gp b e st f.
  Proof.
    induction 1 as [st F|st j p q NF F IH]; intros f L U; inversion U as [|? f' NU U']; subst; try lia.
    - contradiction.
    - apply (IH f'); auto. lia.
  Qed.

  Lemma c31_even fuel st e : 12 <= b < 2 ^ 32 -> wf_uint e ->
    uprec e <= prec_for (b / 2) + key_prec b -> Z.even (uval e) = true ->
    private_new_with_exp gp fuel st b e = OutOfFuel.
  Proof.
    intros H We Le E. rewrite new_unfold by lia.
    destruct (loop_exact e ltac:(lia) We Le fuel st) as [(j & p & q & c & J & A & _)|(_ & G)].
    - elim (fit_unfit _ _ _ _ _ A fuel J). apply even_unfit; auto. lia.
    - rewrite G. reflexivity.
  Qed.

  (** More generally, an exponent that shares a factor with p-1 of every drawn pair. *)
  Lemma c31_stuck fuel st e : 12 <= b < 2 ^ 32 -> wf_uint e ->
    uprec e <= prec_for (b / 2) + key_prec b ->
    (private_new_with_exp gp fuel st b e = OutOfFuel <-> unfit_for gp b (uval e) st fuel).
  Proof.
    intros H We Le. rewrite new_unfold by lia.
    destruct (loop_exact e ltac:(lia) We Le fuel st) as [(j & p & q & c & J & A & (d & Z & C) & G)|(U & G)];
      rewrite G; [|tauto].
    split; [|intros U; elim (fit_unfit _ _ _ _ _ A fuel J); auto].
    cbn [bind]. rewrite C. cbn [kc_n kc_e kc_d kc_primes].
    destruct (fit_at_inv _ ltac:(lia) _ _ _ _ A) as (st' & Ep & Eq & (Hne & _)).
    rewrite Ep, Eq in Z |- *.
    destruct (c30_component st' e d ltac:(lia) We Hne Z) as (Wn & Wd & F & O & D0 & D1 & X).
    destruct (pair_facts st' ltac:(lia))
      as (W1 & W2 & P1 & P2 & T1 & T2 & O1 & O2 & Z1 & Z2 & R1 & R2 & N1 & N2).
    destruct (c27_no_panic _ _ _ _ Wn We Wd F O) as [(k & K)|(err & K)].
    - simpl; lia.
    - cbn [uprec]. rewrite <- R1. unfold key_prec. rewrite <- R1, <- R2.
      destruct W1 as (_ & ? & _). destruct W2 as (_ & ? & _).
      constructor; [lia|constructor; [lia|constructor]].
    - rewrite K. discriminate.
    - rewrite K. discriminate.
  Qed.

  (** * C49: when is the modulus of a generated key stored minimally? *)
  Lemma c49_minimal fuel st e k : 0 <= b < 2 ^ 32 -> wf_uint e ->
    private_new_with_exp gp fuel st b e = Ok k ->
    (stored_minimally (pk_n (sk_pub k)) <-> ~ 2 <= b mod 128 <= 64).
  Proof.
    intros H We HK.
    assert (L : 12 <= b).
    { destruct (Z.lt_ge_cases b 12) as [L|L]; [rewrite c32_small in HK by lia; discriminate|lia]. }
    destruct (c30_valid fuel st e k H We HK) as (p & q & _ & _ & _ & _ & _ & _ & Hb & _ & _ & HP & _).
    rewrite <- key_prec_iff by auto. unfold stored_minimally. rewrite HP. fold (key_prec b).
    set (n := uval (pk_n (sk_pub k))) in *.
    assert (N0 : 0 < n).
    { destruct (Z.le_gt_cases n 0) as [X|X]; auto. unfold zbits in Hb.
      apply Z.leb_le in X. rewrite X in Hb. lia. }
    pose proof (zbits_pow n N0) as B. rewrite Hb in B. pose proof (key_prec_min b) as KM.
    split; intros X.
    - apply (Z.pow_lt_mono_r_iff 2); lia.
    - eapply Z.le_trans; [|apply B]. apply Z.pow_le_mono_r; lia.
  Qed.

End WithGen.

Section Multi.
  Context {R : Type} (gp : prime_gen R).
  Hypothesis HG : returns_primes gp.

  (** * Any number of primes (internal interface) *)
  Lemma draw_sound left : forall st todo ps st',
    draw_primes gp left st todo = Ok (ps, st') ->
    length ps = left /\ Forall wf_uint ps /\
    Forall (fun p => prime (uval p) /\ 3 <= uval p) ps.
  Proof.
    induction left as [|left IH]; intros st todo ps st' H; cbn [draw_primes] in H.
    - injection H as <- <-. auto.
    - cbv zeta in H. unfold generate_prime_with_rng in H.
      set (bits := (todo / Z.of_nat (S left)) mod 2 ^ 32) in *.
      destruct (Z.ltb_spec bits 2) as [|L]; cbn [bind] in H; [discriminate|].
      destruct (HG st bits L) as (W & P & T).
      destruct (gp st bits) as [p st1]. cbn [fst] in W, P, T.
      unfold assert_ in H. destruct (_ <=? _); cbn [bind] in H; [|discriminate].
      destruct (draw_primes gp left st1 (todo - ubits p)) as [[r st2]| | |] eqn:D; cbn [bind] in H; try discriminate.
      injection H as <- <-. destruct (IH _ _ _ _ D) as (A & B & C).
      split; [simpl; lia|]. split; constructor; auto.
  Qed.

  Lemma c30_multi fuel : forall st k b e c, wf_uint e ->
    generate_multi_prime_key_with_exp gp fuel st k b e = Ok c ->
    length (kc_primes c) = k /\ (2 <= k)%nat /\ Forall wf_uint (kc_primes c) /\
    Forall prime (map uval (kc_primes c)) /\ NoDup (map uval (kc_primes c)) /\
    uval (kc_n c) = product (map uval (kc_primes c)) /\ zbits (uval (kc_n c)) = b /\
    kc_e c = e /\ 0 < uval (kc_d c) < totient (map uval (kc_primes c)) /\
    (uval e * uval (kc_d c)) mod totient (map uval (kc_primes c)) = 1.
  Proof.
    intros st k b e c We H. unfold generate_multi_prime_key_with_exp in H.
    destruct (Nat.ltb_spec k 2) as [|L]; [discriminate|]. destruct (_ && _); [discriminate|].
    revert st H. induction fuel as [|fuel IH]; intros st H; cbn [generate_loop] in H; [discriminate|].
    cbv zeta in H. set (todo := if (7 <=? k)%nat then _ else _) in H. clearbody todo.
    destruct (draw_primes gp k st todo) as [[ps st1]| | |] eqn:D; cbn [bind] in H; try discriminate.
    destruct (draw_sound _ _ _ _ _ D) as (D1 & D2 & D3).
    destruct (has_duplicate ps) eqn:HD; [eauto|].
    assert (N : ps <> []) by (intros ->; simpl in D1; lia).
    rewrite compute_modulus_eq in H by auto.
    destruct (Z.odd (product (map uval ps))); cbn [bind] in H; [|discriminate].
    unfold ubits in H. cbn [uval] in H.
    destruct (Z.eqb_spec (zbits (product (map uval ps))) b) as [Eb|]; cbn [negb] in H; [|eauto].
    assert (T4 : 4 <= totient (map uval ps)).
    { apply two_factors; [|rewrite map_length; lia]. rewrite Forall_map.
      eapply Forall_impl; [|exact D3]. cbv beta. tauto. }
    destruct (euler_d ps e ltac:(lia) D2) as (X1 & X2); auto.
    { eapply Forall_impl; [|exact D3]. cbv beta. lia. }
    cbv zeta in X1, X2. set (m := uprec (nth 0 ps (mkU 0 64)) + sum_prec ps) in *.
    destruct (Z.le_gt_cases (uprec e) m) as [Le|Le].
    2:{ rewrite X1 in H by lia. discriminate. }
    rewrite X2 in H by auto.
    destruct (zinv (uval e) (totient (map uval ps))) as [d|] eqn:Z; [|eauto].
    injection H as <-. cbn [kc_primes kc_n kc_e kc_d uval].
    destruct (zinv_some _ _ _ Z) as (T0 & Y1 & Y2). rewrite (Z.mod_small 1) in Y2 by lia.
    split; [auto|]. split; [auto|]. split; [auto|]. split.
    { rewrite Forall_map. eapply Forall_impl; [|exact D3]. cbv beta. tauto. }
    split; [apply has_duplicate_spec; auto|]. split; [auto|]. split; [auto|]. split; [auto|].
    split; [|auto]. destruct (Z.eq_dec d 0) as [->|]; [|lia]. rewrite Z.mul_0_r, Zmod_0_l in Y2. discriminate.
  Qed.
End Multi.

(** * Errors of key generation, for any generator at all *)

Lemma loop_no_err {R} (gp : prime_gen R) fuel : forall st k b e err,
  generate_loop gp fuel st k b e <> Err err.
Proof.
  assert (D : forall left st todo err, draw_primes gp left st todo <> Err err).
  { induction left as [|left IH]; intros st todo err; cbn [draw_primes]; [congruence|].
    cbv zeta. unfold generate_prime_with_rng. destruct (_ <? 2); cbn [bind]; [congruence|].
    destruct (gp st _) as [p s]. unfold assert_. destruct (_ <=? _); cbn [bind]; [|congruence].
    specialize (IH s (todo - ubits p)).
    destruct (draw_primes gp left s _) as [[ps s']| | |]; cbn [bind]; try congruence. }
  induction fuel as [|fuel IH]; intros st k b e err; cbn [generate_loop]; [congruence|].
  cbv zeta. set (todo := if (7 <=? k)%nat then _ else _). clearbody todo.
  pose proof (D k st todo) as D1.
  destruct (draw_primes gp k st todo) as [[ps s]|e1| |]; cbn [bind]; try congruence;
    [|exfalso; apply (D1 e1); reflexivity].
  destruct (has_duplicate ps); [apply IH|].
  assert (M : forall e2, compute_modulus ps <> Err e2).
  { intros e2. destruct ps; cbn [compute_modulus]; [congruence|]. cbv zeta. unfold assert_.
    destruct (uis_odd _); cbn [bind]; congruence. }
  destruct (compute_modulus ps) as [n|e2| |]; cbn [bind]; try congruence;
    [|exfalso; apply (M e2); reflexivity].
  destruct (negb _); [apply IH|].
  destruct (compute_private_exponent_euler_totient ps e); try congruence. apply IH.
Qed.

Lemma c32_errors {R} (gp : prime_gen R) fuel st k b e err : 0 <= b ->
  (generate_multi_prime_key_with_exp gp fuel st k b e = Err err <->
   (k < 2)%nat /\ err = NprimesTooSmall \/
   (2 <= k)%nat /\ b < min_bits (Z.of_nat k) /\ err = TooFewPrimes).
Proof.
  intros Hb. unfold generate_multi_prime_key_with_exp.
  destruct (Nat.ltb_spec k 2) as [L|L].
  - split; [intros H; injection H as <-; auto|].
    intros [(_ & ->)|(A & _)]; [auto|lia].
  - assert (M : min_bits (Z.of_nat k) <= 64).
    { unfold min_bits. repeat (destruct (_ =? _); [lia|]). lia. }
    destruct (Z.ltb_spec b 64) as [B|B]; cbn [andb].
    + pose proof (too_few_exact b (Z.of_nat k) ltac:(lia) ltac:(lia)) as T.
      destruct (too_few_primes b (Z.of_nat k)).
      * split; [intros H; injection H as <-; right; split; [auto|]; split; [apply T; auto|auto]|].
        intros [(A & _)|(_ & _ & ->)]; [lia|auto].
      * split; [intros H; exfalso; revert H; apply loop_no_err|].
        intros [(A & _)|(_ & A & _)]; [lia|]. apply T in A. discriminate.
    + split; [intros H; exfalso; revert H; apply loop_no_err|].
      intros [(A & _)|(_ & A & _)]; lia.
Qed.

(** Two primes: [RsaPrivateKey::new_with_exp] reports [TooFewPrimes] below 12 bits only. *)
Lemma bind_not_err {A B} err (o : outcome A) (f : A -> outcome B) :
  o <> Err err -> (forall a, f a <> Err err) -> bind o f <> Err err.
Proof. intros H1 H2. destruct o; cbn [bind]; auto; congruence. Qed.

Lemma validate_not_few k : validate k <> Err TooFewPrimes.
Proof.
  assert (PC : forall l a, product_check l a <> Err TooFewPrimes).
  { induction l as [|p l IH]; intros a; cbn [product_check]; [congruence|].
    destruct (ultb _ _); [congruence|auto]. }
  assert (EC : forall l d2 de, exponent_check l d2 de <> Err TooFewPrimes).
  { induction l as [|p l IH]; intros d2 de; cbn [exponent_check]; [congruence|].
    apply bind_not_err; [unfold widen; destruct (_ <=? _); congruence|intros x].
    apply bind_not_err; [unfold assert_; destruct (negb _); congruence|intros _].
    apply bind_not_err; [unfold urem; destruct (_ =? _); congruence|intros y].
    destruct (negb _); [congruence|auto]. }
  unfold validate. apply bind_not_err; [|intros _].
  - unfold check_public, check_public_with_max_size.
    repeat (match goal with |- (if ?c then _ else _) <> _ => destruct c end; [congruence|]). congruence.
  - apply bind_not_err; [auto|intros m]. destruct (negb _); [congruence|].
    apply bind_not_err; [unfold widen; destruct (_ <=? _); congruence|intros d]. apply EC.
Qed.

Lemma draw_length {R} (gp : prime_gen R) left : forall st todo ps st',
  draw_primes gp left st todo = Ok (ps, st') -> length ps = left.
Proof.
  induction left as [|left IH]; intros st todo ps st' H; cbn [draw_primes] in H;
    [injection H as <- <-; reflexivity|].
  cbv zeta in H. unfold generate_prime_with_rng in H. destruct (_ <? 2); cbn [bind] in H; [congruence|].
  destruct (gp st _) as [p s]. unfold assert_ in H. destruct (_ <=? _); cbn [bind] in H; [|congruence].
  destruct (draw_primes gp left s _) as [[qs s']| | |] eqn:E; cbn [bind] in H; try congruence.
  injection H as <- <-. cbn [length]. f_equal. eapply IH; eauto.
Qed.

Lemma loop_length {R} (gp : prime_gen R) fuel : forall st k b e c,
  generate_loop gp fuel st k b e = Ok c -> length (kc_primes c) = k.
Proof.
  induction fuel as [|fuel IH]; intros st k b e c H; cbn [generate_loop] in H; [congruence|].
  cbv zeta in H. set (todo := if (7 <=? k)%nat then _ else _) in H. clearbody todo.
  destruct (draw_primes gp k st todo) as [[ps s]| | |] eqn:D; cbn [bind] in H; try congruence.
  apply draw_length in D.
  destruct (has_duplicate ps); [eauto|].
  destruct (compute_modulus ps) as [n| | |]; cbn [bind] in H; try congruence.
  destruct (negb _); [eauto|].
  destruct (compute_private_exponent_euler_totient ps e); try congruence; [|eauto].
  injection H as <-. exact D.
Qed.

Lemma c32_boundary {R} (gp : prime_gen R) fuel st b e : 0 <= b ->
  (private_new_with_exp gp fuel st b e = Err TooFewPrimes <-> b < 12).
Proof.
  intros Hb. split; [|intros; apply c32_small; lia].
  intros H. destruct (Z_lt_ge_dec b 12) as [L|L]; [auto|exfalso].
  unfold private_new_with_exp in H. rewrite gen_large in H by lia.
  destruct (generate_loop gp fuel st 2 b e) as [c|err| |] eqn:G; cbn [bind] in H; try congruence;
    [|revert G; apply loop_no_err].
  apply loop_length in G. destruct (kc_primes c) as [|p [|q [|]]]; try discriminate G.
  revert H. unfold from_components. cbv zeta.
  apply bind_not_err; [unfold guard; destruct (negb _); congruence|intros _]. cbn [bind].
  apply bind_not_err; [apply validate_not_few|intros _].
  unfold try_precompute. destruct (precompute _); congruence.
Qed.

(** * C49: signatures by a generated key *)

Lemma c49_signatures {R} (gp : prime_gen R) {Q} (g : rng_ops Q) gfuel st b e k fuel rng s hashed :
  prime_source gp b -> 0 <= b < 2 ^ 32 -> wf_uint e ->
  private_new_with_exp gp gfuel st b e = Ok k ->
  (rng <> None -> rng_ok g) -> hash_len_ok s hashed ->
  8 * (Z.of_nat (length (p1_prefix s ++ hashed)) + 11) <= b ->
  blinding_succeeds g (uval (pk_n (sk_pub k))) rng fuel ->
  exists sig, scheme_sign g fuel rng k (SigPkcs1v15 s) hashed = Ok sig /\
    (public_verify (sk_pub k) (SigPkcs1v15 s) hashed sig = Ok tt <-> ~ 2 <= b mod 128 <= 64).
Proof.
  intros HG Hb We H Hr Hh HL Hbl.
  pose proof (c49_minimal gp b HG gfuel st e k Hb We H) as M.
  destruct (c30_valid gp b HG gfuel st e k Hb We H)
    as (p & q & _ & _ & _ & _ & _ & _ & Zn & _ & _ & _ & _ & _ & V & _ & G).
  assert (W : wf_pub (sk_pub k)) by apply G.
  assert (U : uprec (pk_n (sk_pub k)) < 2 ^ 32).
  { unfold validate in V. destruct (check_public_spec (sk_pub k) W) as [[E A]|(err & E & _)];
      rewrite E in V; [|discriminate V].
    unfold public_usable, public_acceptable in A. lia. }
  destruct (c12_scheme g fuel rng k s hashed Hr G U Hh) as (sig & E & I); [|exact Hbl|].
  - unfold key_size, ubits, div_ceil8. rewrite Zn.
    apply Nat2Z.inj_le. rewrite Nat2Z.inj_add, Nat2Z.inj_div, Nat2Z.inj_add, Z2Nat.id by lia.
    change (Z.of_nat 8) with 8. change (Z.of_nat 7) with 7. change (Z.of_nat 11) with 11.
    apply Z.div_le_lower_bound; lia.
  - exists sig. split; [exact E|]. rewrite I. exact M.
Qed.
