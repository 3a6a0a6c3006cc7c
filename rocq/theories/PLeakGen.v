(** What generating a private key shows. *)
From Coq Require Import ZArith List Bool Lia Znumtheory.
From Coq Require Import Init.Byte.
From Verif Require Import Base Bigint BytesLemmas BigintLemmas NumTheory SpecRFC SpecKey SpecGen SpecTries KeyDefs
  MHash MRsa MGenerate MKey MApi MLeak MLeakKey MLeakGen PKey PBuild PGenerate PLeak PLeakRel PLeakApi PLeakKey.
Import ListNotations.
Local Open Scope Z_scope.

Section WithGen.
  Context {R : Type} (gp : prime_gen R) (shows : R -> Z -> list event).

  (** * Same results *)

  Lemma rf_draw left : forall st todo, result (l_draw_primes gp shows left st todo) = draw_primes gp left st todo.
  Proof.
    induction left as [|left IH]; intros st todo; [reflexivity|]. cbn [l_draw_primes draw_primes]. cbv zeta.
    rewrite res_bind. unfold l_generate_prime, generate_prime_with_rng.
    destruct (_ <? _); [reflexivity|]. cbn [result snd bind]. destruct (gp st _) as (p & st1).
    rewrite res_bind. cbn [l_bits l_op emit result snd bind].
    rewrite res_bind. cbn [l_assert emit result snd]. destruct (assert_ (ubits p <=? todo)); [|reflexivity..].
    cbn [bind]. rewrite res_bind, IH. destruct (draw_primes gp left st1 _) as [(r & st2)| | |]; reflexivity.
  Qed.

  Lemma rf_gloop fuel : forall st k b e, result (l_generate_loop gp shows fuel st k b e) = generate_loop gp fuel st k b e.
  Proof.
    induction fuel as [|fuel IH]; intros st k b e; [reflexivity|]. cbn [l_generate_loop generate_loop]. cbv zeta.
    rewrite res_bind, rf_draw. destruct (draw_primes gp k st _) as [(ps & st1)| | |]; [|reflexivity..]. cbn [bind].
    rewrite res_bind, rf_repeated. cbn [bind].
    assert (X : existsb (fun x => existsb (ueqb x) []) ps = false) by (induction ps; auto).
    rewrite X. cbn [orb]. destruct (has_duplicate ps); [apply IH|].
    rewrite res_bind, rf_compute_modulus. destruct (compute_modulus ps) as [n| | |]; [|reflexivity..]. cbn [bind].
    rewrite res_bind. cbn [l_bits l_op emit result snd bind]. rewrite res_bind. cbn [l_if emit result snd bind].
    destruct (negb (ubits n =? b)); [apply IH|].
    pose proof (rf_euler ps e) as E. destruct (l_euler_totient ps e) as (t & o). cbn [result snd] in E. subst o.
    destruct (compute_private_exponent_euler_totient ps e); [reflexivity| |reflexivity..].
    specialize (IH st1 k b e). destruct (l_generate_loop gp shows fuel st1 k b e). exact IH.
  Qed.

  Lemma rf_gen fuel st k b e : result (l_generate gp shows fuel st k b e) = generate_multi_prime_key_with_exp gp fuel st k b e.
  Proof.
    unfold l_generate, generate_multi_prime_key_with_exp. destruct (k <? 2)%nat; [reflexivity|].
    destruct (_ && _); [reflexivity|]. apply rf_gloop.
  Qed.

  Lemma rf_new_exp fuel st b e : result (l_private_new_with_exp gp shows fuel st b e) = private_new_with_exp gp fuel st b e.
  Proof.
    unfold l_private_new_with_exp, private_new_with_exp. rewrite res_bind, rf_gen.
    destruct (generate_multi_prime_key_with_exp gp fuel st 2 b e); [|reflexivity..]. apply rf_from_components.
  Qed.

  (** * One round *)

  Context (b : Z) (e : uint).
  Hypothesis HG : prime_source gp b.
  Hypothesis Hb : 12 <= b < 2 ^ 32.
  Hypothesis We : wf_uint e.
  Hypothesis Le : uprec e <= prec_for (b / 2) + key_prec b.

  Definition draw_trace (st : R) : list event :=
    let P := prec_for (b / 2) in let Q := prec_for (b - b / 2) in
    (ERandMod (b / 2) :: shows st (b / 2)) ++ [EUint OpLeadingZeros [P]; ECheck true] ++
    (ERandMod (b - b / 2) :: shows (snd (gp st (b / 2))) (b - b / 2)) ++ [EUint OpLeadingZeros [Q]; ECheck true] ++
    [EUint OpCmp [Q; P]].

  Definition work_trace : list event :=
    let P := prec_for (b / 2) in let Q := prec_for (b - b / 2) in
    [EUint OpMul [P; Q]; ECheck true; EUint OpLeadingZeros [P + Q]; EBranch false;
     EBranch false; EIndex 0 2; EUint OpSub [P; 64]; ECheck true; EUint OpMul [P; P];
     EUint OpSub [Q; 64]; ECheck true; EUint OpMul [P + P; Q];
     EUint OpWiden [uprec e; P + P + Q]; EUint OpInv [P + P + Q; P + P + Q]].

  Definition verdict_trace (v : verdict) : list event :=
    match v with
    | Equal => [EBranch true]
    | NoInverse => EBranch false :: work_trace ++ [EBranch false]
    | Kept => EBranch false :: work_trace ++ [EBranch true]
    end.

  Lemma draw_shows st : trace (l_draw_primes gp shows 2 st b) ++ [EUint OpCmp [prec_for (b - b / 2); prec_for (b / 2)]] = draw_trace st.
  Proof.
    destruct (pair_facts gp b HG st ltac:(lia)) as (_ & _ & _ & _ & _ & _ & _ & _ & E1 & E2 & R1 & R2 & _).
    assert (H1 : 2 <= b / 2) by (apply Z.div_le_lower_bound; lia).
    assert (H2 : b / 2 <= b - 2) by (pose proof (Z.mul_div_le b 2); lia).
    unfold draw_trace. cbv zeta.
    cbn [l_draw_primes]. unfold l_generate_prime.
    change (Z.of_nat 2) with 2. change (Z.of_nat 1) with 1.
    rewrite (Z.mod_small (b / 2)) by lia.
    destruct (Z.ltb_spec (b / 2) 2); [lia|]. rewrite trace_bind. cbn [trace result fst snd].
    unfold pair_p, pair_q, pair_next in *.
    destruct (gp st (b / 2)) as [p st1] eqn:G1. cbn [fst snd] in *.
    rewrite trace_bind. unfold l_bits, ubits. cbn [l_op emit trace result fst snd]. rewrite E1, R1.
    rewrite trace_bind. cbn [l_assert emit trace result fst snd].
    assert (L1 : (b / 2 <=? b) = true) by (apply Z.leb_le; lia). rewrite L1. cbn [assert_].
    rewrite Z.div_1_r, (Z.mod_small (b - b / 2)) by lia.
    destruct (Z.ltb_spec (b - b / 2) 2); [lia|]. rewrite trace_bind. rewrite trace_bind. cbn [trace result fst snd].
    destruct (gp st1 (b - b / 2)) as [q st2] eqn:G2. cbn [fst snd] in *.
    rewrite trace_bind. cbn [l_op emit trace result fst snd]. rewrite E2, R2.
    rewrite trace_bind. cbn [l_assert emit trace result fst snd]. rewrite Z.leb_refl. cbn [assert_].
    unfold lbind, l_op, l_assert, emit, lret. cbn [fst snd]. rewrite E2, Z.leb_refl. cbn [assert_ fst snd result trace].
    cbn [app]. rewrite <- !app_assoc. cbn [app]. rewrite <- !app_assoc. cbn [app]. reflexivity.
  Qed.

  Lemma euler_shows p q : 3 <= uval p -> 3 <= uval q ->
    uprec p = prec_for (b / 2) -> uprec q = prec_for (b - b / 2) ->
    let P := prec_for (b / 2) in let Q := prec_for (b - b / 2) in
    trace (l_euler_totient [p; q] e) =
    [EBranch false; EIndex 0 2; EUint OpSub [P; 64]; ECheck true; EUint OpMul [P; P];
     EUint OpSub [Q; 64]; ECheck true; EUint OpMul [P + P; Q];
     EUint OpWiden [uprec e; P + P + Q]; EUint OpInv [P + P + Q; P + P + Q]] ++
    [EBranch (match zinv (uval e) ((uval p - 1) * (uval q - 1)) with Some _ => true | None => false end)].
  Proof.
    intros Hp Hq Rp Rq P Q. destruct (prec_for_wf (b / 2)) as (P1 & P2). destruct (prec_for_wf (b - b / 2)) as (Q1 & Q2).
    fold P in Rp, P1, P2. fold Q in Rq, Q1, Q2.
    assert (M : (P + P + Q) mod 64 = 0) by (rewrite (Zplus_mod (P + P)), (Zplus_mod P P), P2, Q2; reflexivity).
    unfold l_euler_totient. cbn [length Nat.ltb Nat.leb]. cbn [l_totient_loop].
    unfold l_usub, l_opc, l_umul, l_get, l_if, l_op, l_check, l_inverse, l_inv_mod, l_widen, l_op, emit, lbind, lret, lerr, trace.
    cbn [fst snd get_idx nth_error length].
    assert (S1 : usub_big p (u_of_u64 1) = Ok (mkU (uval p - 1) P)).
    { unfold usub_big, u_of_u64. cbn [uval uprec]. rewrite Rp. destruct (Z.leb_spec 1 (uval p)); [|lia].
      rewrite Z.max_l by lia. reflexivity. }
    assert (S2 : usub_big q (u_of_u64 1) = Ok (mkU (uval q - 1) Q)).
    { unfold usub_big, u_of_u64. cbn [uval uprec]. rewrite Rq. destruct (Z.leb_spec 1 (uval q)); [|lia].
      rewrite Z.max_l by lia. reflexivity. }
    rewrite S1, S2, Rp, Rq. unfold u_one_with, umul, u_of_u64. cbn [fst snd uval uprec has_value app]. rewrite (prec_for_id P) by auto.
    assert (W : widen e (P + P + Q) = Ok (mkU (uval e) (P + P + Q))).
    { unfold widen. rewrite (prec_for_id (P + P + Q)) by (auto; lia).
      destruct (Z.leb_spec (uprec e) (P + P + Q)); [reflexivity|]. unfold key_prec in Le. fold P Q in Le. lia. }
    rewrite W. cbn [fst snd uprec uval app]. unfold uinv_mod. cbn [uprec uval]. rewrite Z.eqb_refl, Z.mul_1_l. cbn [fst snd].
    destruct (zinv _ _); reflexivity.
  Qed.

  Lemma repeated2 p q : l_repeated [] [p; q] = ([EUint OpCmp [uprec q; uprec p]; EBranch (ueqb q p)], Ok (ueqb q p)).
  Proof. cbn. destruct (ueqb q p); reflexivity. Qed.

  Lemma modulus2 p q : Z.odd (uval p) = true -> Z.odd (uval q) = true ->
    l_compute_modulus [p; q] = ([EUint OpMul [uprec p; uprec q]; ECheck true], Ok (umul p q)).
  Proof.
    intros O1 O2. cbn [l_compute_modulus l_mul_all].
    assert (O : uis_odd (umul p q) = true) by (unfold uis_odd, umul; cbn [uval]; rewrite Z.odd_mul, O1, O2; reflexivity).
    unfold lbind, l_umul, l_op, l_assert, emit, lret. cbn [fst snd app]. rewrite O. reflexivity.
  Qed.

  Lemma loop_shows fuel st :
    trace (l_generate_loop gp shows (S fuel) st 2 b e) =
    draw_trace st ++ verdict_trace (verdict_on gp b (uval e) st) ++
    match verdict_on gp b (uval e) st with Kept => [] | _ => trace (l_generate_loop gp shows fuel (pair_next gp st b) 2 b e) end.
  Proof.
    destruct (pair_facts gp b HG st ltac:(lia))
      as (W1 & W2 & P1 & P2 & T1 & T2 & O1 & O2 & Z1 & Z2 & R1 & R2 & N1 & N2).
    rewrite <- draw_shows. cbn [l_generate_loop Nat.leb]. cbv zeta.
    rewrite trace_bind, rf_draw, (draw_two gp b HG) by (auto; lia). rewrite <- app_assoc. f_equal.
    unfold verdict_on. set (p := pair_p gp st b) in *. set (q := pair_q gp st b) in *. cbv zeta.
    rewrite trace_bind, repeated2. cbn [trace result fst snd]. unfold ueqb. rewrite (Z.eqb_sym (uval q)), R1, R2.
    destruct (Z.eqb_spec (uval p) (uval q)) as [E|E].
    { reflexivity. }
    cbn [app]. f_equal. f_equal.
    assert (Zb : zbits (uval p * uval q) = b) by (apply (zbits_product gp b HG); lia).
    rewrite trace_bind, modulus2 by assumption. cbn [trace result fst snd].
    rewrite trace_bind. unfold l_bits, l_op, emit. cbn [fst snd trace result]. unfold umul, ubits. cbn [uval uprec].
    rewrite Zb, trace_bind. cbn [l_if emit fst snd trace result]. rewrite Z.eqb_refl. cbn [negb].
    pose proof (euler_shows p q T1 T2 R1 R2) as X. cbv zeta in X.
    pose proof (rf_euler [p; q] e) as Y. destruct (l_euler_totient [p; q] e) as (t & o). cbn [trace fst result snd] in X, Y. subst t o.
    assert (F : Forall wf_uint [p; q]) by (constructor; [auto|constructor; [auto|constructor]]).
    destruct (euler_d [p; q] e ltac:(simpl; lia) F) as (_ & D2); auto.
    { constructor; [lia|constructor; [lia|constructor]]. }
    cbn [nth] in D2. rewrite sum2, R1, R2 in D2. fold (key_prec b) in D2.
    rewrite D2 by auto. clear D2. unfold p, q. rewrite (pair_totient gp b). fold p q.
    pose proof (totient_pair_pos gp b HG st ltac:(lia)) as TP. fold p q in TP.
    destruct (Z.eqb_spec (Z.gcd (uval e) ((uval p - 1) * (uval q - 1))) 1) as [G|G].
    - destruct (zinv_exists _ _ TP G) as (x & Ex). rewrite Ex. rewrite R1, R2. reflexivity.
    - rewrite (proj2 (zinv_none _ _ TP) G). destruct (l_generate_loop gp shows fuel (pair_next gp st b) 2 b e) as (t' & o').
      rewrite R1, R2. cbn [trace fst verdict_trace]. unfold work_trace. cbv zeta. cbn [app]. reflexivity.
  Qed.

  (** * The whole search *)

  Lemma gen_loop fuel st : l_generate gp shows fuel st 2 b e = l_generate_loop gp shows fuel st 2 b e.
  Proof.
    unfold l_generate. cbn [Nat.ltb Nat.leb]. change (Z.of_nat 2) with 2.
    destruct (Z.ltb_spec b 64) as [L|L]; cbn [andb]; [|reflexivity].
    assert (T : too_few_primes b 2 = false).
    { apply not_true_iff_false. rewrite too_few_spec by lia. lia. }
    rewrite T. reflexivity.
  Qed.

  (** the key that is built, and from what *)
  Lemma new_parts fuel st k : private_new_with_exp gp fuel st b e = Ok k ->
    exists st' d, let p := pair_p gp st' b in let q := pair_q gp st' b in
    let n := mkU (uval p * uval q) (key_prec b) in let d := mkU d (prec_for (b / 2) + key_prec b) in
    generate_loop gp fuel st 2 b e = Ok (mkKC n e d [p; q]) /\ from_components n e d [p; q] = Ok k /\
    wf_uint n /\ wf_uint d /\ Forall wf_uint [p; q] /\ Z.odd (uval n) = true /\ sk_primes k = [p; q] /\
    uprec p = prec_for (b / 2) /\ uprec q = prec_for (b - b / 2).
  Proof.
    intros H. rewrite new_unfold in H by lia.
    destruct (loop_exact gp b HG e ltac:(lia) We Le fuel st) as [(j & p & q & c & _ & Fi & (d & Ed & Ec) & E)|(_ & E)];
      [|rewrite E in H; discriminate].
    rewrite E in H. cbn [bind] in H. subst c. cbn [kc_n kc_e kc_d kc_primes] in H.
    destruct (fit_at_inv gp b (uval e) ltac:(lia) _ _ _ _ Fi) as (st' & -> & -> & (Ne & _)).
    destruct (c30_component gp b HG st' e d ltac:(lia) We Ne Ed) as (W1 & W2 & W3 & W4 & _).
    destruct (pair_facts gp b HG st' ltac:(lia)) as (_ & _ & _ & _ & _ & _ & _ & _ & _ & _ & R1 & R2 & _).
    exists st', d. cbv zeta. split; [exact E|]. split; [exact H|]. do 4 (split; [assumption|]).
    destruct (fc_ok _ _ _ _ _ W1 We W2 W3 W4 ltac:(simpl; lia) H) as (_ & _ & _ & _ & S & _).
    split; [exact S|]. split; assumption.
  Qed.

  Lemma new_trace fuel st k : private_new_with_exp gp fuel st b e = Ok k ->
    exists st' d, let p := pair_p gp st' b in let q := pair_q gp st' b in
    let n := mkU (uval p * uval q) (key_prec b) in let d := mkU d (prec_for (b / 2) + key_prec b) in
    trace (l_private_new_with_exp gp shows fuel st b e) =
      trace (l_generate_loop gp shows fuel st 2 b e) ++ trace (l_from_components n e d [p; q]) /\
    from_components n e d [p; q] = Ok k /\ sk_primes k = [p; q] /\
    divs (l_from_components n e d [p; q]) = [uval p - 1; uval q - 1; uval p - 1; uval q - 1] /\
    uprec p = prec_for (b / 2) /\ uprec q = prec_for (b - b / 2).
  Proof.
    intros H. destruct (new_parts _ _ _ H) as (st' & d & E & F & Wn & Wd & Wp & O & S & R1 & R2).
    exists st', d. cbv zeta. split.
    { unfold l_private_new_with_exp. rewrite trace_bind, gen_loop, rf_gloop, E. reflexivity. }
    split; [exact F|]. split; [exact S|]. split; [|split; assumption].
    apply (from_components_divs _ _ _ _ _ Wn We Wd Wp O ltac:(simpl; lia) F).
  Qed.
End WithGen.

(** The last two divisors are one less than the primes. *)
Definition read_last (t : list event) : list Z :=
  let ds := divisors t in map Z.succ (skipn (length ds - 2) ds).

Lemma new_wide {R} (gp : prime_gen R) b e fuel st k : prime_source gp b -> 0 <= b < 2 ^ 32 -> wf_uint e ->
  private_new_with_exp gp fuel st b e = Ok k -> 12 <= b /\ uprec e <= prec_for (b / 2) + key_prec b.
Proof.
  intros HG Hb We H. destruct (Z_lt_le_dec b 12) as [L|L]; [rewrite c32_small in H by lia; discriminate|].
  split; [exact L|]. destruct (Z_le_gt_dec (uprec e) (prec_for (b / 2) + key_prec b)) as [G|G]; [exact G|].
  rewrite new_unfold in H by lia.
  destruct (loop_wide gp b HG e ltac:(lia) We ltac:(lia) fuel st) as [X|X]; rewrite X in H; discriminate.
Qed.

Lemma new_reads {R} (gp : prime_gen R) shows b e fuel st k : prime_source gp b -> 0 <= b < 2 ^ 32 -> wf_uint e ->
  private_new_with_exp gp fuel st b e = Ok k ->
  read_last (trace (l_private_new_with_exp gp shows fuel st b e)) = map uval (sk_primes k).
Proof.
  intros HG Hb We H. destruct (new_wide gp b e fuel st k HG Hb We H) as (L & G).
  destruct (new_trace gp shows b e HG ltac:(lia) We G fuel st k H) as (st' & d & T & _ & S & D & _).
  rewrite T, S. unfold read_last. cbv zeta. rewrite divisors_app. unfold divs in D. rewrite D.
  rewrite app_length. cbn [length].
  replace (length (divisors (trace (l_generate_loop gp shows fuel st 2 b e))) + 4 - 2)%nat
    with (length (divisors (trace (l_generate_loop gp shows fuel st 2 b e))) + 2)%nat by lia.
  rewrite skipn_app, skipn_all2 by lia. rewrite Nat.add_comm, Nat.add_sub. cbn [app skipn map]. repeat f_equal; lia.
Qed.

(** * With a search that shows nothing *)

Definition quiet {R} (st : R) (bits : Z) : list event := [].

Definition round (b pe : Z) (v : verdict) : list event :=
  draw_trace (R := unit) (fun st _ => (mkU 0 64, st)) quiet b tt ++ verdict_trace b (mkU 0 pe) v.

Lemma loop_rounds {R} (gp : prime_gen R) b e : prime_source gp b -> 12 <= b < 2 ^ 32 -> wf_uint e ->
  uprec e <= prec_for (b / 2) + key_prec b -> forall fuel st,
  trace (l_generate_loop gp quiet fuel st 2 b e) = flat_map (round b (uprec e)) (verdicts gp b (uval e) fuel st).
Proof.
  intros HG Hb We Le. induction fuel as [|fuel IH]; intros st; [reflexivity|].
  rewrite loop_shows by assumption. cbn [verdicts].
  assert (X : forall v, draw_trace gp quiet b st ++ verdict_trace b e v = round b (uprec e) v) by reflexivity.
  rewrite app_assoc, X. destruct (verdict_on gp b (uval e) st); cbn [flat_map]; [rewrite IH; reflexivity|rewrite IH; reflexivity|reflexivity].
Qed.

Lemma cons_tail {A} (x y : A) l m : x :: l = y :: m -> l = m.
Proof. congruence. Qed.

Lemma rounds_inj b pe : forall l l', flat_map (round b pe) l = flat_map (round b pe) l' -> l = l'.
Proof.
  assert (N : forall v, round b pe v <> []) by (intros v H; discriminate H).
  induction l as [|v l IH]; intros [|v' l'] H; [reflexivity| | |].
  - cbn [flat_map] in H. symmetry in H. apply app_eq_nil in H. destruct (N _ (proj1 H)).
  - cbn [flat_map] in H. apply app_eq_nil in H. destruct (N _ (proj1 H)).
  - cbn [flat_map] in H. unfold round in H at 1 3. rewrite <- !app_assoc in H. apply app_inv_head in H.
    destruct v, v'; cbn [verdict_trace app] in H; try discriminate.
    + apply cons_tail in H. f_equal. apply IH, H.
    + apply cons_tail in H. rewrite <- !app_assoc in H. apply app_inv_head in H. apply cons_tail in H. f_equal. apply IH, H.
    + apply cons_tail in H. rewrite <- !app_assoc in H. apply app_inv_head in H. apply cons_tail in H. f_equal. apply IH, H.
Qed.

Lemma gen_iff {R R'} (gp : prime_gen R) (gp' : prime_gen R') b e : prime_source gp b -> prime_source gp' b ->
  12 <= b < 2 ^ 32 -> wf_uint e -> uprec e <= prec_for (b / 2) + key_prec b -> forall fuel fuel' st st',
  trace (l_generate gp quiet fuel st 2 b e) = trace (l_generate gp' quiet fuel' st' 2 b e) <->
  verdicts gp b (uval e) fuel st = verdicts gp' b (uval e) fuel' st'.
Proof.
  intros HG HG' Hb We Le fuel fuel' st st'. rewrite !gen_loop, !loop_rounds by assumption.
  split; [apply rounds_inj|congruence].
Qed.

Lemma new_iff {R R'} (gp : prime_gen R) (gp' : prime_gen R') b e fuel fuel' st st' k k' :
  prime_source gp b -> prime_source gp' b -> 0 <= b < 2 ^ 32 -> wf_uint e ->
  private_new_with_exp gp fuel st b e = Ok k -> private_new_with_exp gp' fuel' st' b e = Ok k' ->
  (trace (l_private_new_with_exp gp quiet fuel st b e) = trace (l_private_new_with_exp gp' quiet fuel' st' b e) <->
   verdicts gp b (uval e) fuel st = verdicts gp' b (uval e) fuel' st' /\
   map uval (sk_primes k) = map uval (sk_primes k')).
Proof.
  intros HG HG' Hb We E E'. destruct (new_wide gp b e fuel st k HG Hb We E) as (L & G).
  assert (Hb' : 12 <= b < 2 ^ 32) by lia.
  assert (C : map uval (sk_primes k) = map uval (sk_primes k') ->
    (trace (l_private_new_with_exp gp quiet fuel st b e) = trace (l_private_new_with_exp gp' quiet fuel' st' b e) <->
     verdicts gp b (uval e) fuel st = verdicts gp' b (uval e) fuel' st')).
  { intros P.
    destruct (new_trace gp quiet b e HG Hb' We G fuel st k E) as (s & d & T & F & S & _ & R1 & R2).
    destruct (new_trace gp' quiet b e HG' Hb' We G fuel' st' k' E') as (s' & d' & T' & F' & S' & _ & R1' & R2').
    cbv zeta in *. rewrite T, T'. rewrite S, S' in P. cbn [map] in P. injection P as Pp Pq.
    assert (Ep : pair_p gp s b = pair_p gp' s' b)
      by (destruct (pair_p gp s b) as [u1 w1], (pair_p gp' s' b) as [u2 w2]; cbn [uval uprec] in *; congruence).
    assert (Eq : pair_q gp s b = pair_q gp' s' b)
      by (destruct (pair_q gp s b) as [u1 w1], (pair_q gp' s' b) as [u2 w2]; cbn [uval uprec] in *; congruence).
    rewrite <- Ep, <- Eq in F' |- *.
    assert (LH : same_prec (mkU d (prec_for (b / 2) + key_prec b)) (mkU d' (prec_for (b / 2) + key_prec b))) by reflexivity.
    assert (L2 : (2 <= length [pair_p gp s b; pair_q gp s b])%nat) by (simpl; lia).
    rewrite (load_hides _ _ _ _ _ _ _ LH L2 F F').
    rewrite !loop_rounds by assumption. split; [|congruence]. intros X. apply app_inv_tail in X. apply rounds_inj in X. exact X. }
  split.
  - intros X. assert (P : map uval (sk_primes k) = map uval (sk_primes k')).
    { rewrite <- (new_reads gp quiet b e fuel st k HG Hb We E), <- (new_reads gp' quiet b e fuel' st' k' HG' Hb We E'), X. reflexivity. }
    split; [apply C; assumption|exact P].
  - intros (V & P). apply C; assumption.
Qed.
