(** Properties C100 (which weak keys are excluded and which are not) and C101 (one exponent
    of a private key gives the factors). *)
From Coq Require Import ZArith List Bool Lia Znumtheory.
From Verif Require Import Base Bigint NumTheory SpecRFC SpecKey SpecGen SpecWeak MRsa MGenerate MKey MMisc KeyDefs BigintLemmas
  PRsa PApi PKey PFloat PGenerate PWeak PSplit KeyExamples PropKey PropGen PropMisc.
Import ListNotations.
Local Open Scope Z_scope.

(** ** C100: weak keys *)

(** In every key that is accepted, whatever numbers it is made of, e d is at least every
    listed prime; so n is at most (e d)^(number of primes). *)
Theorem C100_exponent : forall n e d primes k,
  wf_uint n -> wf_uint e -> wf_uint d -> Forall wf_uint primes -> Z.odd (uval n) = true ->
  from_components n e d primes = Ok k ->
  Forall (fun p => uval p <= uval e * uval d) primes /\
  uval n <= (uval e * uval d) ^ Z.of_nat (length primes).
Proof.
  intros n e d primes k Wn We Wd Wp O H.
  destruct (C27_two_primes n e d primes k Wn We Wd Wp O H) as (L & _).
  destruct (fc_ok n e d primes k Wn We Wd Wp O L H) as (_ & V & A & C & D & _).
  destruct (exponent_not_small k) as (X & Y); [| | |exact V|].
  - rewrite A. repeat split; assumption || apply Wn || apply We.
  - rewrite C. exact Wd.
  - rewrite D. exact Wp.
  - rewrite A, C, D in X, Y. split; assumption.
Qed.

(** So no accepted two-prime key has a private exponent short enough for Wiener's method,
    if the fourth power of e does not exceed n (e is below 2^33: any n of 133 bits or
    more; with the default exponent any n of 66 bits or more). *)
Theorem C100_no_short_exponent : forall n e d p q k,
  wf_uint n -> wf_uint e -> wf_uint d -> wf_uint p -> wf_uint q -> Z.odd (uval n) = true ->
  from_components n e d [p; q] = Ok k -> uval e ^ 4 <= uval n ->
  uval n <= uval d ^ 4 /\ ~ short_exponent (uval n) (uval d).
Proof.
  intros n e d p q k Wn We Wd Wp Wq O H B.
  destruct (C100_exponent n e d [p; q] k Wn We Wd ltac:(auto) O H) as (_ & Y).
  change (Z.of_nat (length [p; q])) with 2 in Y.
  destruct Wn as ((N0 & _) & _). destruct We as ((E0 & _) & _). destruct Wd as ((D0 & _) & _).
  assert (E1 : uval e <> 0).
  { intros Z0. rewrite Z0 in Y. cbn in Y. assert (N : uval n = 0) by lia. rewrite N in O. discriminate. }
  assert (X : uval n <= uval d ^ 4) by (apply (no_short_exponent (uval n) (uval e)); lia || assumption).
  split; [exact X|]. unfold short_exponent. rewrite Z.pow_mul_l. change (3 ^ 4) with 81.
  assert (0 <= uval d ^ 4) by (apply Z.pow_nonneg; exact D0). clear - X H0. lia.
Qed.

(** Generated keys have exponents of nearly the size of n: n < 2 e d. *)
Theorem C100_generated_exponent : forall {R} (gp : prime_gen R) b, prime_source gp b ->
  forall fuel st e k, 0 <= b < 2 ^ 32 -> wf_uint e ->
  private_new_with_exp gp fuel st b e = Ok k ->
  uval (pk_n (sk_pub k)) < 2 * (uval e * uval (sk_d k)).
Proof.
  intros R gp b S fuel st e k B We H.
  destruct (C30_generated_keys_are_valid gp b S fuel st e k B We H)
    as (p & q & EP & P & Q & NE & N & EE & _ & _ & _ & _ & D & M & V & _ & G).
  destruct G as (Wp & Wd & Wl & _). pose proof Wp as (_ & _ & _ & O).
  apply (validate_exact k Wp Wd Wl) in V. destruct V as ((_ & _ & _ & E2 & _) & _). rewrite EE in E2.
  rewrite N in O |- *. rewrite Z.odd_mul in O. apply andb_true_iff in O. destruct O as (Op & Oq).
  pose proof (odd_prime_gt2 _ P Op) as P2. pose proof (odd_prime_gt2 _ Q Oq) as Q2.
  set (a := uval p) in *. set (c := uval q) in *. set (d := uval (sk_d k)) in *. set (x := uval e) in *.
  assert (L : (a - 1) * (c - 1) < x * d).
  { apply over_modulus; [clear - P2 Q2; nia|clear - E2 D; nia|exact M]. }
  assert (K : a * c < 2 * ((a - 1) * (c - 1))).
  { apply Z.odd_spec in Op. apply Z.odd_spec in Oq. destruct Op as (i & I). destruct Oq as (j & J).
    assert (T : 3 <= (a - 2) * (c - 2)).
    { destruct (Z_lt_le_dec i j); [apply (Z.le_trans _ (1 * (c - 2)))|apply (Z.le_trans _ ((a - 2) * 1))];
        try apply Z.mul_le_mono_nonneg; lia. }
    clear - T. lia. }
  clear - L K. lia.
Qed.

(** The same for keys rebuilt from their primes, with p-1 and q-1 multiplied, or their
    least common multiple. *)
Theorem C100_rebuilt_exponent :
  (forall ps e k, (2 <= length ps)%nat -> Forall wf_uint ps -> wf_uint e ->
     from_primes ps e = Ok k -> totient (map uval ps) < uval e * uval (sk_d k)) /\
  (forall p q e k, wf_uint p -> wf_uint q -> wf_uint e ->
     from_p_q p q e = Ok k -> Z.lcm (uval p - 1) (uval q - 1) < uval e * uval (sk_d k)).
Proof.
  assert (T : forall k e phi, wf_pub (sk_pub k) -> wf_uint (sk_d k) -> Forall wf_uint (sk_primes k) -> validate k = Ok tt ->
    pk_e (sk_pub k) = e -> 0 < uval (sk_d k) < phi -> (uval e * uval (sk_d k)) mod phi = 1 -> phi < uval e * uval (sk_d k)).
  { intros k e phi Wp Wd Wl V <- D M. apply (validate_exact k Wp Wd Wl) in V. destruct V as ((_ & _ & _ & E2 & _) & _).
    apply over_modulus; [lia|clear - E2 D; nia|exact M]. }
  split.
  - intros ps e k L W We H.
    destruct (C29_primes_result ps e k L W We H) as (_ & _ & E & _ & D & M & V & (Wp & Wd & Wl & _) & _).
    exact (T k e _ Wp Wd Wl V E D M).
  - intros p q e k Wp' Wq We H.
    destruct (C29_pq_result p q e k Wp' Wq We H) as (_ & _ & E & _ & D & M & V & (Wp & Wd & Wl & _) & _).
    exact (T k e _ Wp Wd Wl V E D M).
Qed.

(** But an imported exponent can be far shorter than n / e. *)
Theorem C100_exponent_refuted : exists n e d p q k,
  from_components n e d [p; q] = Ok k /\ 4 * (uval e * uval d) < uval n.
Proof.
  exists (mkU 45 64), (mkU 3 64), (mkU 3 64), (mkU 9 64), (mkU 5 64). eexists.
  split; [vm_compute; reflexivity|vm_compute; reflexivity].
Qed.

Lemma two_prime_facts k p q : good_priv k -> sk_primes k = [p; q] ->
  prime (uval p) /\ prime (uval q) /\ 2 < uval p /\ 2 < uval q /\ uval p <> uval q /\
  uval (pk_n (sk_pub k)) = uval p * uval q.
Proof.
  intros ((_ & _ & _ & O) & _ & _ & (_ & F & ND & N & _) & _) E. rewrite E in F, ND, N. cbn [map] in F, ND, N.
  apply Forall_cons_iff in F. destruct F as (P & F). apply Forall_cons_iff in F. destruct F as (Q & _).
  apply NoDup_cons_iff in ND. destruct ND as (NI & _).
  assert (NN : uval (pk_n (sk_pub k)) = uval p * uval q) by (rewrite N; unfold product; cbn [fold_right]; ring).
  rewrite NN, Z.odd_mul in O. apply andb_true_iff in O. destruct O as (Op & Oq).
  split; [exact P|]. split; [exact Q|]. split; [apply odd_prime_gt2; assumption|].
  split; [apply odd_prime_gt2; assumption|]. split; [|exact NN]. intros C. apply NI. left. symmetry. exact C.
Qed.

(** Fermat's method finds the factors of a two-prime key in exactly (p + q) / 2 less the
    square root of n steps. *)
Theorem C100_fermat : forall k p q steps, good_priv k -> sk_primes k = [p; q] ->
  let lo := Z.min (uval p) (uval q) in let hi := Z.max (uval p) (uval q) in
  let n := uval (pk_n (sk_pub k)) in
  fermat steps n =
    if (uval p + uval q) / 2 <? Z.sqrt_up n + Z.of_nat steps then Some (lo, hi) else None.
Proof.
  intros k p q steps G E lo hi n. destruct (two_prime_facts k p q G E) as (P & Q & P2 & Q2 & NE & N).
  unfold n, lo, hi. rewrite N. destruct (Z_lt_le_dec (uval p) (uval q)) as [L|L].
  - rewrite Z.min_l, Z.max_r by lia. apply fermat_exact; auto; lia.
  - rewrite Z.min_r, Z.max_l by lia. rewrite (Z.mul_comm (uval p)), (Z.add_comm (uval p)).
    apply fermat_exact; auto; lia.
Qed.

(** In particular in j + 1 steps if (p - q)^2 is at most 8 j times the square root of n. *)
Theorem C100_fermat_close : forall k p q j, good_priv k -> sk_primes k = [p; q] ->
  let lo := Z.min (uval p) (uval q) in let hi := Z.max (uval p) (uval q) in
  let n := uval (pk_n (sk_pub k)) in
  (uval p - uval q) ^ 2 <= 8 * Z.of_nat j * Z.sqrt n -> fermat (S j) n = Some (lo, hi).
Proof.
  intros k p q j G E lo hi n. destruct (two_prime_facts k p q G E) as (P & Q & P2 & Q2 & NE & N).
  unfold n, lo, hi. rewrite N. destruct (Z_lt_le_dec (uval p) (uval q)) as [L|L]; intros H.
  - rewrite Z.min_l, Z.max_r by lia. apply fermat_bound; auto; lia.
  - rewrite Z.min_r, Z.max_l by lia. rewrite (Z.mul_comm (uval p)) in H |- *. apply fermat_bound; auto; lia.
Qed.

(** Key generation does not look at the distance of the primes: for every two different
    primes the prime generator may return, and that suit the exponent, there is a
    source meeting the contract with which the first attempt returns them. *)
Definition two_primes_source (b : Z) (p q : uint) : prime_gen bool := fun st bits =>
  (if Z.even b then (if st then q else p) else (if bits =? b / 2 then p else q), negb st).

Theorem C100_any_pair : forall b p q, 17 <= b <= 4096 ->
  let h := b / 2 in let h' := b - b / 2 in
  prime (uval p) -> 3 * 2 ^ (h - 2) <= uval p < 2 ^ h -> uprec p = 64 * ((h + 63) / 64) ->
  prime (uval q) -> 3 * 2 ^ (h' - 2) <= uval q < 2 ^ h' -> uprec q = 64 * ((h' + 63) / 64) ->
  uval p <> uval q -> Z.gcd 65537 ((uval p - 1) * (uval q - 1)) = 1 ->
  prime_source (two_primes_source b p q) b /\
  exists k, private_new (two_primes_source b p q) 1 false b = Ok k /\ sk_primes k = [p; q].
Proof.
  intros b p q B h h' P Pr Pw Q Qr Qw NE C.
  assert (S : prime_source (two_primes_source b p q) b).
  { intros st bits H _. unfold two_primes_source. cbn [fst]. destruct (Z.even b) eqn:E.
    - assert (HH : h = h').
      { unfold h, h'. apply Z.even_spec in E. destruct E as (m & ->). rewrite Z.mul_comm, Z_div_mult by lia. lia. }
      assert (bits = h) by (destruct H; unfold h, h' in *; lia). subst bits.
      rewrite <- HH in Qr, Qw. destruct st; [exact (conj Q (conj Qr Qw))|exact (conj P (conj Pr Pw))].
    - destruct (Z.eqb_spec bits (b / 2)) as [->|N]; [exact (conj P (conj Pr Pw))|].
      destruct H as [H|H]; [contradiction|]. subst bits. exact (conj Q (conj Qr Qw)). }
  split; [exact S|].
  assert (Ep : pair_p (two_primes_source b p q) false b = p).
  { unfold pair_p, two_primes_source. cbn [fst]. destruct (Z.even b); [reflexivity|]. rewrite Z.eqb_refl. reflexivity. }
  assert (Eq : pair_q (two_primes_source b p q) false b = q).
  { unfold pair_q, two_primes_source. cbn [fst snd negb]. destruct (Z.even b) eqn:E; [reflexivity|].
    destruct (Z.eqb_spec (b - b / 2) (b / 2)) as [H|]; [|reflexivity].
    exfalso. assert (X : b = 2 * (b / 2)) by lia. rewrite X, Z.even_mul in E. discriminate. }
  assert (F : pair_fit (two_primes_source b p q) false b 65537) by (unfold pair_fit; rewrite Ep, Eq; auto).
  destruct (C30_default_exponent _ b S 1 false B) as [(k & K & j & p' & q' & J & FA & EK)|(_ & U)].
  - exists k. split; [exact K|]. rewrite EK. assert (J0 : j = 0%nat) by lia. subst j. inversion FA. subst. rewrite Ep, Eq. reflexivity.
  - exfalso. inversion U as [|? ? N _]. contradiction.
Qed.

(** So the naive claim "generated keys resist Fermat's method" is wrong: here the very
    first step finds the factors. *)
Definition p40 : uint := mkU 786433 64.
Definition q40 : uint := mkU 786449 64.
Lemma prime_p40 : prime (uval p40). Proof. by_trial. Qed.
Lemma prime_q40 : prime (uval q40). Proof. by_trial. Qed.

Theorem C100_distance_refuted : exists (gp : prime_gen bool) k,
  prime_source gp 40 /\ private_new gp 1 false 40 = Ok k /\ good_priv k /\
  fermat 1 (uval (pk_n (sk_pub k))) = Some (uval p40, uval q40).
Proof.
  destruct (C100_any_pair 40 p40 q40 ltac:(lia)) as (S & k & K & E);
    [exact prime_p40|vm_compute; split; congruence|reflexivity|exact prime_q40|vm_compute; split; congruence|reflexivity
    |vm_compute; congruence|vm_compute; reflexivity|].
  exists (two_primes_source 40 p40 q40), k. split; [exact S|]. split; [exact K|].
  destruct (C30_generated_keys_are_valid _ 40 S 1 false (u_of_u64 EXP) k ltac:(lia) wf_exp K)
    as (p & q & EP & _ & _ & _ & N & _ & _ & _ & _ & _ & _ & _ & _ & _ & G).
  split; [exact G|]. rewrite E in EP. injection EP as <- <-. rewrite N. vm_compute. reflexivity.
Qed.

(** The key of 64 bits: Fermat's method takes more than 10 steps; its exponent is long. *)
Example C100_case : good_priv key64 /\ sk_primes key64 = [p64; q64] /\
  from_components n64 e64 d64 [p64; q64] = Ok key64 /\ uval n64 < 2 * (uval e64 * uval d64) /\
  fermat 10 (uval n64) = None /\
  (exists k, from_components (mkU 10403 64) (mkU 7 64) (mkU 8743 64) [mkU 101 64; mkU 103 64] = Ok k /\
     uval (mkU 7 64) ^ 4 <= uval (mkU 10403 64) /\ fermat 1 10403 = Some (101, 103)).
Proof.
  split; [exact good64|]. split; [reflexivity|]. split; [vm_compute; reflexivity|]. split; [vm_compute; reflexivity|].
  split; [vm_compute; reflexivity|]. eexists. split; [vm_compute; reflexivity|]. split; [vm_compute; congruence|].
  vm_compute. reflexivity.
Qed.

(** ** C101: one exponent gives the factors *)

Lemma first_two k p q rest : good_priv k -> sk_primes k = p :: q :: rest ->
  exists r, prime (uval p) /\ prime (uval q) /\ 2 < uval p /\ 2 < uval q /\ 0 < r /\
    uval (pk_n (sk_pub k)) = uval p * (uval q * r) /\ Z.gcd (uval p) (uval q * r) = 1.
Proof.
  intros ((_ & _ & _ & O) & _ & _ & (_ & F & ND & N & _) & _) E. rewrite E in F, ND, N. cbn [map] in F, ND, N.
  rewrite product_zprod in N. exists (zprod (map uval rest)).
  apply Forall_cons_iff in F. destruct F as (P & FQ). pose proof FQ as FQ'.
  apply Forall_cons_iff in FQ. destruct FQ as (Q & F).
  apply NoDup_cons_iff in ND. destruct ND as (NI & _).
  assert (NN : uval (pk_n (sk_pub k)) = uval p * (uval q * zprod (map uval rest))) by exact N.
  rewrite NN, !Z.odd_mul in O. apply andb_true_iff in O. destruct O as (Op & O). apply andb_true_iff in O. destruct O as (Oq & _).
  split; [exact P|]. split; [exact Q|]. split; [apply odd_prime_gt2; assumption|].
  split; [apply odd_prime_gt2; assumption|]. split; [apply zprod_pos, prime_pos_all; exact F|]. split; [exact NN|].
  apply Zgcd_1_rel_prime. exact (prime_not_in_prod (uval p) (uval q :: map uval rest) P FQ' NI).
Qed.

(** Either reported CRT exponent of a valid key, with the public key, gives a proper factor
    of n in at most e divisions; for a two-prime key one of its primes. *)
Theorem C101_crt_exponent : forall k x,
  good_priv k -> 1 < uval (pk_e (sk_pub k)) -> priv_dp k = Some x \/ priv_dq k = Some x ->
  let n := uval (pk_n (sk_pub k)) in
  exists f, factor_with n (uval (pk_e (sk_pub k))) (uval x) = Some f /\ 1 < f < n /\ (f | n) /\
    forall p q, sk_primes k = [p; q] -> f = uval p \/ f = uval q.
Proof.
  intros k x G E1 X n. pose proof G as (_ & _ & _ & (L & F & ND & N & _) & _ & _).
  assert (PRE : sk_pre k <> None).
  { intros C. unfold priv_dp, priv_dq in X. rewrite C in X. destruct X; discriminate. }
  destruct (sk_primes k) as [|p [|q rest]] eqn:EP; [cbn in L; lia|cbn in L; lia|].
  destruct (C75_values k p q rest G EP PRE) as (dp & dq & qi & Dp & Dq & _ & _ & _ & Rp & Mp & Rq & Mq & _).
  destruct (first_two k p q rest G EP) as (r & P & Q & P2 & Q2 & R & NN & _). fold n in NN.
  assert (PF : (1 < uval p < n /\ (uval p | n)) /\ (1 < uval q < n /\ (uval q | n))).
  { assert (1 < uval q * r) by (clear - Q2 R; nia). assert (1 < uval p * r) by (clear - P2 R; nia).
    split; (split; [|]); [rewrite NN; nia|exists (uval q * r); rewrite NN; ring
      |replace n with (uval q * (uval p * r)) by (rewrite NN; ring); nia|exists (uval p * r); rewrite NN; ring]. }
  destruct PF as ((Ap & Bp) & (Aq & Bq)). clear P Q R NN.
  assert (S : exists f, factor_with n (uval (pk_e (sk_pub k))) (uval x) = Some f).
  { destruct X as [X|X].
    - rewrite Dp in X. injection X as <-. exact (factor_with_finds n _ _ (uval p) E1 Rp Mp Ap Bp).
    - rewrite Dq in X. injection X as <-. exact (factor_with_finds n _ _ (uval q) E1 Rq Mq Aq Bq). }
  destruct S as (f & S). exists f. split; [exact S|]. destruct (factor_with_sound n _ _ f S) as (A & B).
  split; [exact A|]. split; [exact B|]. intros p' q' W.
  destruct (two_prime_facts k p' q') as (P & Q & _ & _ & _ & NN); [exact G|congruence|].
  unfold n in A, B. rewrite NN in A, B.
  destruct (two_prime_divisors (uval p') (uval q') f P Q ltac:(lia) B) as [?|[?|[?|?]]]; auto; lia.
Qed.

(** Every exponent that works with a valid key, its own or any other one: at least half of
    all bases from 1 to n - 1 give a proper factor of n. *)
Theorem C101_working_exponent : forall k d',
  good_priv k -> 1 < uval (pk_e (sk_pub k)) * d' ->
  (forall p, In p (sk_primes k) -> (uval (pk_e (sk_pub k)) * d') mod (uval p - 1) = 1) ->
  let n := uval (pk_n (sk_pub k)) in let m := uval (pk_e (sk_pub k)) * d' - 1 in
  n - 1 <= 2 * Z.of_nat (length (splitting n m)) /\
  (forall x, In x (splitting n m) <->
     0 < x < n /\ exists f, split_with n m x = Some f /\ 1 < f < n /\ (f | n)).
Proof.
  intros k d' G ED W n m. split.
  - pose proof G as (_ & _ & _ & (L & _) & _).
    destruct (sk_primes k) as [|p [|q rest]] eqn:EP; [cbn in L; lia|cbn in L; lia|].
    destruct (first_two k p q rest G EP) as (r & P & Q & P2 & Q2 & R & NN & C).
    apply (half_split n m (uval p) (uval q) r); auto; [unfold m; lia|].
    intros x X. specialize (W p (or_introl eq_refl)). unfold m.
    assert (D : (uval p - 1 | uval (pk_e (sk_pub k)) * d' - 1)).
    { apply divide_mod_eq; [lia|]. rewrite W. symmetry. apply Z.mod_small. lia. }
    destruct D as (c & D). rewrite D. rewrite Z.mul_comm, Z.pow_mul_r by (clear - D ED P2; nia).
    rewrite <- pow_mod_base, fermat_pm1 by (lia || exact P || (intros V; apply Z.divide_pos_le in V; lia)).
    rewrite Z.pow_1_l by (clear - D ED P2; nia). apply Z.mod_small. lia.
  - intros x. unfold splitting. rewrite filter_In, in_bases. split.
    + intros (A & B). split; [exact A|]. destruct (split_with n m x) as [f|] eqn:S; [|discriminate].
      exists f. split; [reflexivity|]. apply proper_factor_spec. apply find_some in S. apply S.
    + intros (A & f & S & _). split; [exact A|]. rewrite S. reflexivity.
Qed.

(** From the three-prime key; and 16 of the 20 bases below 21 with d = 5, e = 5. *)
Example C101_case : good_priv key91 /\ option_map uval (priv_dp key91) = Some 460177423 /\
  factor_with (uval (pk_n (sk_pub key91))) 7 460177423 = Some 1610620981 /\
  forallb (fun p => (7 * uval (sk_d key91)) mod (uval p - 1) =? 1) (sk_primes key91) = true /\
  split_with (uval (pk_n (sk_pub key91))) (7 * uval (sk_d key91) - 1) 2 <> None /\
  length (splitting 21 24) = 16%nat.
Proof.
  split; [exact good91|]. split; [vm_compute; reflexivity|]. split; [vm_compute; reflexivity|].
  split; [vm_compute; reflexivity|]. split; [vm_compute; congruence|vm_compute; reflexivity].
Qed.

Print Assumptions C100_exponent.
Print Assumptions C100_no_short_exponent.
Print Assumptions C100_generated_exponent.
Print Assumptions C100_rebuilt_exponent.
Print Assumptions C100_exponent_refuted.
Print Assumptions C100_fermat.
Print Assumptions C100_fermat_close.
Print Assumptions C100_any_pair.
Print Assumptions C100_distance_refuted.
Print Assumptions C101_crt_exponent.
Print Assumptions C101_working_exponent.
