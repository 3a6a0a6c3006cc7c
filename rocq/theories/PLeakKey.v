(** What loading a key shows: the traced constructors. *)
From Coq Require Import ZArith List Bool Lia Znumtheory.
From Coq Require Import Init.Byte.
From Verif Require Import Base Bigint BytesLemmas BigintLemmas NumTheory SpecRFC SpecKey SpecGen KeyDefs MHash MRsa MGenerate MKey MApi MLeak
  MLeakKey PRsa PApi PLeak PLeakRel PLeakApi PKey PBuild.
Import ListNotations.
Local Open Scope Z_scope.

(** * Same results *)

Lemma rf_opc {A} op ps (o : outcome A) : result (l_opc op ps o) = o.
Proof. destruct o; reflexivity. Qed.

Ltac rfk :=
  match goal with
  | |- result (lbind (l_jump_cmp _ _ _) _) = _ => eapply rf_val; [reflexivity|]
  | |- result (lbind (l_jump_test _ _) _) = _ => eapply rf_val; [reflexivity|]
  | |- result (lbind (l_umul _ _) _) = _ => eapply rf_val; [reflexivity|]
  | |- result (lbind (l_ugcd _ _) _) = _ => eapply rf_val; [reflexivity|]
  | |- result (lbind (l_usqrt _) _) = _ => eapply rf_val; [reflexivity|]
  | |- result (lbind (l_usquare _) _) = _ => eapply rf_val; [reflexivity|]
  | |- result (lbind (l_wrapping_sub _ _) _) = _ => eapply rf_val; [reflexivity|]
  | |- result (lbind (l_usub _ _) _) = bind _ _ => eapply rf_bind; [apply rf_opc|intros]
  | |- result (lbind (l_uadd _ _) _) = bind _ _ => eapply rf_bind; [apply rf_opc|intros]
  | |- result (lbind (l_udiv _ _) _) = bind _ _ => eapply rf_bind; [apply rf_opc|intros]
  | |- result (lbind (l_urem _ _) _) = bind _ _ => eapply rf_bind; [apply rf_opc|intros]
  | |- result (if ?b then _ else _) = _ => destruct b; [reflexivity|]
  | _ => rf1
  end.

Lemma rf_product_check ps : forall m, result (l_product_check ps m) = product_check ps m.
Proof.
  induction ps as [|p ps IH]; intros m; [reflexivity|]. cbn [l_product_check product_check].
  rfk. destruct (ultb p (u_of_u64 1)); [reflexivity|]. rfk. apply IH.
Qed.

Lemma rf_exponent_check ps d2 de : result (l_exponent_check ps d2 de) = exponent_check ps d2 de.
Proof.
  induction ps as [|p ps IH]; [reflexivity|]. cbn [l_exponent_check exponent_check].
  rfk. cbv zeta. rfk. rfk. rfk. rfk. destruct (negb (uis_one _)); [reflexivity|]. apply IH.
Qed.

Lemma rf_validate k : result (l_validate k) = validate k.
Proof.
  unfold l_validate, validate. rfk. eapply rf_bind; [apply rf_product_check|]. intros m _.
  rfk. destruct (negb _); [reflexivity|]. rfk. rfk. apply rf_exponent_check.
Qed.

Lemma rf_try_precompute k : result (l_try_precompute k) = try_precompute k.
Proof.
  unfold l_try_precompute, try_precompute. rewrite <- rf_precompute. unfold result.
  destruct (l_precompute k) as [t []]; reflexivity.
Qed.

Lemma rf_crt_coefficient k : result (l_crt_coefficient k) = crt_coefficient k.
Proof.
  unfold l_crt_coefficient, crt_coefficient. rfk. rfk.
  unfold l_inv_mod, l_op. rewrite res_bind. cbn [emit result snd].
  destruct (uinv_mod a0 a); reflexivity.
Qed.

Lemma rf_recover n e d : result (l_recover_primes n e d) = recover_primes n e d.
Proof.
  unfold l_recover_primes, recover_primes. rfk. rfk. cbv zeta.
  do 4 rfk. rfk. rfk. rfk. rfk. rfk. rfk. rfk. rfk. rfk. rfk. rfk. rfk. rfk.
  destruct (negb _); [reflexivity|]. do 4 rfk. rfk. destruct (uleb _ _); [reflexivity|].
  rfk. rfk. rfk. rfk. destruct (negb _); [reflexivity|]. rfk. rfk. rfk. rfk. rfk. reflexivity.
Qed.

Lemma rf_mul_all ps : forall out, result (l_mul_all out ps) = Ok (fold_left (fun o p => umul o p) ps out).
Proof. induction ps as [|p ps IH]; intros out; [reflexivity|]. cbn [l_mul_all fold_left]. rfk. apply IH. Qed.

Lemma rf_compute_modulus ps : result (l_compute_modulus ps) = compute_modulus ps.
Proof.
  destruct ps as [|p ps]; [reflexivity|]. cbn [l_compute_modulus compute_modulus]. cbv zeta.
  eapply rf_val; [apply rf_mul_all|]. rfk. reflexivity.
Qed.

Lemma rf_totient_loop ps : forall t, result (l_totient_loop ps t) = totient_loop ps t.
Proof.
  induction ps as [|p ps IH]; intros t; [reflexivity|]. cbn [l_totient_loop totient_loop].
  rfk. rfk. apply IH.
Qed.

Lemma rf_inverse e m : result (l_inverse e m)
  = let* r := uinv_mod e m in match r with Some d => Ok d | None => Err InvalidPrime end.
Proof.
  unfold l_inverse, l_inv_mod, l_op. eapply rf_bind; [reflexivity|]. intros r _. rfk.
  destruct r; reflexivity.
Qed.

Lemma rf_euler ps e : result (l_euler_totient ps e) = compute_private_exponent_euler_totient ps e.
Proof.
  unfold l_euler_totient, compute_private_exponent_euler_totient. rfk.
  destruct (length ps <? 2)%nat; [reflexivity|]. rfk. cbv zeta.
  eapply rf_bind; [apply rf_totient_loop|]. intros t _. rfk. apply rf_inverse.
Qed.

Lemma rf_carmicheal p q e : result (l_carmicheal p q e) = compute_private_exponent_carmicheal p q e.
Proof.
  unfold l_carmicheal, compute_private_exponent_carmicheal. cbv zeta.
  rfk. rfk. rfk. rfk. rfk. rfk. apply rf_inverse.
Qed.

Lemma rf_from_components n e d ps : result (l_from_components n e d ps) = from_components n e d ps.
Proof.
  unfold l_from_components, from_components. cbv zeta. rfk.
  eapply rf_bind.
  - destruct ps as [|p [|q r]]; [|reflexivity..].
    eapply rf_bind; [apply rf_recover|]. intros [p q] _. reflexivity.
  - intros ps' _. eapply rf_bind; [apply rf_validate|]. intros _ _. apply rf_try_precompute.
Qed.

Lemma rf_from_p_q p q e : result (l_from_p_q p q e) = from_p_q p q e.
Proof.
  unfold l_from_p_q, from_p_q. rfk. destruct (ueqb p q); [reflexivity|].
  eapply rf_bind; [apply rf_carmicheal|]. intros d _.
  eapply rf_bind; [apply rf_compute_modulus|]. intros n _. apply rf_from_components.
Qed.

Lemma rf_among p l : result (l_among p l) = Ok (existsb (ueqb p) l).
Proof.
  induction l as [|q l IH]; [reflexivity|]. cbn [l_among existsb]. rfk.
  destruct (ueqb p q); [reflexivity|]. exact IH.
Qed.

Lemma existsb_sym p l : existsb (fun q => ueqb q p) l = existsb (ueqb p) l.
Proof. induction l as [|q l IH]; [reflexivity|]. cbn. rewrite IH. unfold ueqb. rewrite (Z.eqb_sym (uval q)). reflexivity. Qed.

Lemma repeated_snoc rest : forall earlier p,
  existsb (fun x => existsb (ueqb x) (earlier ++ [p])) rest
  = existsb (fun x => existsb (ueqb x) earlier) rest || existsb (fun q => ueqb q p) rest.
Proof.
  induction rest as [|x rest IH]; intros earlier p; [reflexivity|]. cbn [existsb]. rewrite IH.
  rewrite existsb_app. cbn [existsb]. rewrite orb_false_r.
  destruct (existsb (ueqb x) earlier), (ueqb x p), (existsb (fun x0 => existsb (ueqb x0) earlier) rest),
    (existsb (fun q => ueqb q p) rest); reflexivity.
Qed.

Lemma rf_repeated ps : forall earlier, result (l_repeated earlier ps)
  = Ok (existsb (fun x => existsb (ueqb x) earlier) ps || has_duplicate ps).
Proof.
  induction ps as [|p ps IH]; intros earlier; [reflexivity|]. cbn [l_repeated].
  eapply rf_val; [apply rf_among|]. cbn [existsb has_duplicate].
  destruct (existsb (ueqb p) earlier); [reflexivity|]. rewrite IH, repeated_snoc.
  cbn [orb]. rewrite orb_assoc. reflexivity.
Qed.

Lemma rf_from_primes ps e : result (l_from_primes ps e) = from_primes ps e.
Proof.
  unfold l_from_primes, from_primes. rfk. destruct (length ps <? 2)%nat; [reflexivity|].
  eapply rf_val; [apply rf_repeated|].
  replace (existsb _ ps) with false.
  - cbn [orb]. destruct (has_duplicate ps); [reflexivity|].
    eapply rf_bind; [apply rf_compute_modulus|]. intros n _.
    eapply rf_bind; [apply rf_euler|]. intros d _. apply rf_from_components.
  - symmetry. induction ps as [|p ps IH]; [reflexivity|]. exact IH.
Qed.

(** * The divisors that show *)

(** The moduli of the variable-time divisions of a run, in order. *)
Fixpoint divisors (t : list event) : list Z :=
  match t with
  | [] => []
  | EVartime _ m :: r => m :: divisors r
  | _ :: r => divisors r
  end.

Lemma divisors_app t t' : divisors (t ++ t') = divisors t ++ divisors t'.
Proof. induction t as [|e t IH]; [reflexivity|]. destruct e; cbn; rewrite ?IH; reflexivity. Qed.

Lemma trace_bind {A B} (m : leaky A) (k : A -> leaky B) :
  trace (lbind m k) = trace m ++ match result m with Ok a => trace (k a) | _ => [] end.
Proof.
  unfold lbind, trace, result. destruct m as [t o]. cbn [fst snd].
  destruct o; cbn [fst]; rewrite ?app_nil_r; auto. destruct (k a); reflexivity.
Qed.

Definition divs {A} (m : leaky A) : list Z := divisors (trace m).

Lemma divs_bind {A B} (m : leaky A) (k : A -> leaky B) :
  divs (lbind m k) = divs m ++ match result m with Ok a => divs (k a) | _ => [] end.
Proof. unfold divs. rewrite trace_bind, divisors_app. destruct (result m); reflexivity. Qed.

Lemma nodiv_bind {A B} (m : leaky A) (k : A -> leaky B) :
  divs m = [] -> (forall a, result m = Ok a -> divs (k a) = []) -> divs (lbind m k) = [].
Proof. intros H K. rewrite divs_bind, H. destruct (result m) eqn:E; auto. cbn [app]. auto. Qed.

(** a step without variable-time division, which succeeds *)
Lemma divs_step {A B} (m : leaky A) (k : A -> leaky B) a :
  divs m = [] -> result m = Ok a -> divs (lbind m k) = divs (k a).
Proof. intros H E. rewrite divs_bind, H, E. reflexivity. Qed.

Lemma nodiv_opc {A} op ps (o : outcome A) : divs (l_opc op ps o) = [].
Proof. reflexivity. Qed.

Lemma nodiv_product ps : forall m, divs (l_product_check ps m) = [].
Proof.
  induction ps as [|p ps IH]; intros m; [reflexivity|]. cbn [l_product_check].
  apply nodiv_bind; [reflexivity|]. intros c _. destruct c; [reflexivity|].
  apply nodiv_bind; [reflexivity|]. intros. apply IH.
Qed.

Ltac nodiv := repeat first
  [ reflexivity
  | apply nodiv_bind; [reflexivity|intros]
  | match goal with |- divs (if ?b then _ else _) = [] => destruct b end
  | match goal with |- divs (match ?r with Some _ => _ | None => _ end) = [] => destruct r end ].

Lemma nodiv_recover n e d : divs (l_recover_primes n e d) = [].
Proof. unfold l_recover_primes. cbv zeta. nodiv. Qed.

Lemma nodiv_inverse e m : divs (l_inverse e m) = [].
Proof. unfold l_inverse. nodiv. Qed.

Lemma nodiv_carmicheal p q e : divs (l_carmicheal p q e) = [].
Proof. unfold l_carmicheal. cbv zeta. do 6 (apply nodiv_bind; [reflexivity|intros]). apply nodiv_inverse. Qed.

Lemma nodiv_mul_all ps : forall out, divs (l_mul_all out ps) = [].
Proof. induction ps as [|p ps IH]; intros out; [reflexivity|]. apply nodiv_bind; [reflexivity|]. intros. apply IH. Qed.

Lemma nodiv_modulus ps : divs (l_compute_modulus ps) = [].
Proof. destruct ps; [reflexivity|]. apply nodiv_bind; [apply nodiv_mul_all|]. intros. nodiv. Qed.

Lemma nodiv_totient ps : forall t, divs (l_totient_loop ps t) = [].
Proof.
  induction ps as [|p ps IH]; intros t; [reflexivity|]. cbn [l_totient_loop].
  apply nodiv_bind; [reflexivity|]. intros. apply nodiv_bind; [reflexivity|]. intros. apply IH.
Qed.

Lemma nodiv_euler ps e : divs (l_euler_totient ps e) = [].
Proof.
  unfold l_euler_totient. cbv zeta. apply nodiv_bind; [reflexivity|]. intros c _. destruct c; [reflexivity|].
  apply nodiv_bind; [reflexivity|]. intros. apply nodiv_bind; [apply nodiv_totient|]. intros.
  apply nodiv_bind; [reflexivity|]. intros. apply nodiv_inverse.
Qed.

Lemma nodiv_among p l : divs (l_among p l) = [].
Proof.
  induction l as [|q l IH]; [reflexivity|]. apply nodiv_bind; [reflexivity|]. intros c _.
  destruct c; [reflexivity|exact IH].
Qed.

Lemma nodiv_repeated ps : forall earlier, divs (l_repeated earlier ps) = [].
Proof.
  induction ps as [|p ps IH]; intros earlier; [reflexivity|]. apply nodiv_bind; [apply nodiv_among|].
  intros c _. destruct c; [reflexivity|apply IH].
Qed.

(** one round of the exponent check *)
Lemma exponent_step p ps d2 de :
  wf_uint p -> 0 < uval p -> uprec d2 mod 64 = 0 -> 64 <= uprec d2 ->
  uprec p <= uprec d2 -> uval p <> 1 ->
  divs (l_exponent_check (p :: ps) d2 de)
  = (uval p - 1) :: (if uval de mod (uval p - 1) =? 1 then divs (l_exponent_check ps d2 de) else []).
Proof.
  intros Wp Hp Hd Hd64 Hle Hne. cbn [l_exponent_check].
  rewrite divs_bind. change (divs (l_widen p (uprec d2))) with (@nil Z).
  change (result (l_widen p (uprec d2))) with (widen p (uprec d2)). rewrite widen_ok by auto.
  cbn [app]. erewrite divs_step; [|reflexivity|reflexivity]. rewrite wrapping_pred by (auto; lia).
  unfold uis_zero. cbn [uval uprec]. destruct (Z.eqb_spec (uval p - 1) 0); [lia|]. cbn [negb].
  erewrite divs_step; [|reflexivity|reflexivity].
  rewrite divs_bind. unfold l_rem_vartime. cbn [uval uprec].
  unfold divs at 1. cbn [trace emit fst divisors app result snd]. f_equal.
  unfold urem. cbn [uval uprec]. destruct (Z.eqb_spec (uval p - 1) 0); [lia|]. 
  erewrite divs_step; [|reflexivity|reflexivity]. unfold uis_one. cbn [uval].
  destruct (uval de mod (uval p - 1) =? 1); reflexivity.
Qed.

Lemma exponent_divs ps d2 de :
  Forall wf_uint ps -> Forall (fun p => 0 < uval p) ps -> uprec d2 mod 64 = 0 -> 64 <= uprec d2 ->
  exponent_check ps d2 de = Ok tt ->
  divs (l_exponent_check ps d2 de) = map (fun p => uval p - 1) ps.
Proof.
  intros HF HP Hd Hd64. induction ps as [|p ps IH]; intros E; [reflexivity|].
  inversion HF as [|? ? Wp HF2]; subst. inversion HP as [|? ? Pp HP2]; subst.
  cbn [exponent_check] in E. unfold widen in E.
  destruct (Z.leb_spec (uprec p) (uprec d2)) as [L|L]; [|discriminate]. cbn [bind] in E.
  rewrite prec_for_id in E by auto. cbv zeta in E.
  rewrite wrapping_pred in E by (auto; lia). unfold uis_zero in E. cbn [uval] in E.
  destruct (Z.eqb_spec (uval p - 1) 0) as [Z1|Z1]; [discriminate|]. cbn [negb assert_ bind] in E.
  unfold urem in E. cbn [uval uprec] in E. destruct (Z.eqb_spec (uval p - 1) 0); [lia|]. cbn [bind] in E.
  unfold uis_one in E. cbn [uval] in E.
  rewrite exponent_step by (auto; lia).
  destruct (uval de mod (uval p - 1) =? 1) eqn:C; [|discriminate]. cbn [negb] in E.
  cbn [map]. f_equal. apply IH; auto.
Qed.

Lemma divs_try k : divs (l_try_precompute k) = divs (l_precompute k).
Proof. unfold l_try_precompute, divs, trace. destruct (l_precompute k); reflexivity. Qed.

(** the two divisions of [precompute] *)
Lemma precompute_divs k p q rest :
  wf_uint (sk_d k) -> wf_uint p -> wf_uint q -> sk_pre k = None -> sk_primes k = p :: q :: rest ->
  Z.odd (uval p) = true -> Z.odd (uval q) = true -> 3 <= uval p -> 3 <= uval q ->
  uprec p <= uprec (sk_d k) -> uprec q <= uprec (sk_d k) ->
  divs (l_precompute k) = [uval p - 1; uval q - 1].
Proof.
  intros Hd Wp Wq Hn EP Op Oq Gp Gq Fp Fq.
  pose proof Hd as (_ & Hd1 & Hd2).
  unfold l_precompute. rewrite Hn, EP. cbv zeta.
  erewrite divs_step; [|reflexivity|reflexivity].
  erewrite divs_step; [|reflexivity|reflexivity].
  erewrite divs_step; [|reflexivity|change (result (l_widen p (uprec (sk_d k)))) with (widen p (uprec (sk_d k)));
    apply widen_ok; auto].
  erewrite divs_step; [|reflexivity|reflexivity].
  erewrite divs_step; [|reflexivity|change (result (l_widen q (uprec (sk_d k)))) with (widen q (uprec (sk_d k)));
    apply widen_ok; auto].
  unfold uis_odd. cbn [uval]. rewrite Op, Oq.
  do 4 (erewrite divs_step; [|reflexivity|reflexivity]).
  rewrite !wrapping_pred by (auto; lia). unfold uis_zero. cbn [uval uprec].
  destruct (Z.eqb_spec (uval p - 1) 0); [lia|]. destruct (Z.eqb_spec (uval q - 1) 0); [lia|]. cbn [negb guard].
  erewrite divs_step; [|reflexivity|reflexivity].
  rewrite divs_bind. unfold l_rem_vartime at 1 2. unfold divs at 1.
  cbn [uval uprec trace emit fst divisors app result snd]. f_equal.
  unfold urem at 1. cbn [uval uprec]. destruct (Z.eqb_spec (uval p - 1) 0); [lia|].
  erewrite divs_step; [|reflexivity|reflexivity].
  rewrite divs_bind. unfold l_rem_vartime at 1 2. unfold divs at 1.
  cbn [uval uprec trace emit fst divisors app result snd]. f_equal.
  unfold urem at 1. cbn [uval uprec]. destruct (Z.eqb_spec (uval q - 1) 0); [lia|].
  apply nodiv_bind; [reflexivity|]. intros qm _. apply nodiv_bind; [reflexivity|]. intros qi _.
  apply nodiv_bind; [reflexivity|]. intros _ _. destruct qi; [|reflexivity].
  apply nodiv_bind; [reflexivity|]. reflexivity.
Qed.

(** * Whole constructors *)

Lemma validate_divs k :
  wf_pub (sk_pub k) -> wf_uint (sk_d k) -> Forall wf_uint (sk_primes k) -> validate k = Ok tt ->
  divs (l_validate k) = map (fun p => uval p - 1) (sk_primes k).
Proof.
  intros Hpub Hd HF HV. pose proof HV as HX. apply validate_exact in HX; auto.
  destruct HX as (_ & _ & HE).
  assert (HP : Forall (fun p => 0 < uval p) (sk_primes k)).
  { eapply Forall_impl; [|exact HE]. intros ? (A & _). lia. }
  clear HE. unfold validate in HV. apply bind_ok in HV. destruct HV as ([] & E1 & HV).
  apply bind_ok in HV. destruct HV as (m & E2 & HV).
  unfold l_validate.
  erewrite divs_step; [|reflexivity|exact E1].
  erewrite divs_step; [|apply nodiv_product|rewrite rf_product_check; exact E2].
  erewrite divs_step; [|reflexivity|reflexivity].
  destruct (negb (ueqb m (pk_n (sk_pub k)))); [discriminate|].
  apply bind_ok in HV. destruct HV as (d & E3 & HV).
  erewrite divs_step; [|reflexivity|exact E3].
  erewrite divs_step; [|reflexivity|reflexivity].
  pose proof Hd as (_ & Hd1 & Hd2).
  assert (D2 : (2 * uprec (sk_d k)) mod 64 = 0).
  { apply Z.mod_divide in Hd2; [|lia]. destruct Hd2 as [w Hw]. rewrite Hw.
    replace (2 * (w * 64)) with (2 * w * 64) by ring. apply Z_mod_mult. }
  rewrite widen_ok in E3 by (auto; lia). injection E3 as <-.
  apply exponent_divs; auto. cbn [uprec]. lia.
Qed.

Lemma from_components_divs n e d ps k :
  wf_uint n -> wf_uint e -> wf_uint d -> Forall wf_uint ps -> Z.odd (uval n) = true ->
  (2 <= length ps)%nat -> from_components n e d ps = Ok k ->
  divs (l_from_components n e d ps)
  = map (fun p => uval p - 1) ps ++ map (fun p => uval p - 1) (firstn 2 ps).
Proof.
  intros Wn We Wd WF Ho HL H.
  pose proof (fc_ok _ _ _ _ _ Wn We Wd WF Ho HL H) as (HC & _).
  destruct (fc_validated n e d ps Wn We Wd WF Ho HL HC) as (EQ & p & q & rest & EP & T).
  set (k0 := mkPriv (mkPub n e (mkMP n)) d ps None) in *.
  assert (HV : validate k0 = Ok tt) by (apply validate_exact; auto; apply mk_wf_pub; auto).
  assert (HO : forall x, In x (map uval ps) -> Z.odd x = true).
  { apply odd_factors. destruct HC as (_ & M & _). eapply product_odd_mod; [|exact M|auto]. apply Wn. }
  unfold l_from_components. cbv zeta.
  erewrite divs_step with (a := tt); [|reflexivity|].
  2: { unfold uis_zero. destruct (Z.eqb_spec (uval n) 0) as [E|E]; [rewrite E in Ho; discriminate|reflexivity]. }
  rewrite divs_step with (a := ps); [|rewrite EP; reflexivity|rewrite EP; reflexivity].
  fold k0. rewrite divs_bind, rf_validate, HV. rewrite validate_divs; auto; [|apply mk_wf_pub; auto].
  f_equal. rewrite divs_try.
  destruct T as [(_ & T)|(Fp & Fq & _)]; [rewrite EQ, T in H; discriminate|].
  destruct HC as (_ & _ & HE). subst ps.
  inversion WF as [|? ? Wp WF2]; subst. inversion WF2 as [|? ? Wq _]; subst.
  inversion HE as [|? ? (Gp & _) HE2]; subst. inversion HE2 as [|? ? (Gq & _) _]; subst.
  cbn [firstn map]. eapply precompute_divs with (rest := rest); auto; apply HO; simpl; auto.
Qed.

(** The primes, read off the run. *)
Definition read_primes (t : list event) : list Z :=
  let ds := divisors t in map Z.succ (firstn (length ds - 2) ds).

Lemma read_primes_spec t (ps : list uint) : (2 <= length ps)%nat ->
  divisors t = map (fun p => uval p - 1) ps ++ map (fun p => uval p - 1) (firstn 2 ps) ->
  read_primes t = map uval ps.
Proof.
  intros HL E. unfold read_primes. rewrite E, app_length, !map_length, firstn_length, Nat.min_l by lia.
  assert (X : (length ps + 2 - 2)%nat = (length (map (fun p => (uval p - 1)%Z) ps) + 0)%nat)
    by (rewrite map_length; lia).
  rewrite X, firstn_app_2. cbn [firstn]. rewrite app_nil_r, map_map. apply map_ext. intros; lia.
Qed.

Lemma load_reads n e d ps k :
  wf_uint n -> wf_uint e -> wf_uint d -> Forall wf_uint ps -> Z.odd (uval n) = true ->
  (2 <= length ps)%nat -> from_components n e d ps = Ok k ->
  read_primes (trace (l_from_components n e d ps)) = map uval ps.
Proof. intros. apply read_primes_spec; auto. eapply from_components_divs; eauto. Qed.

Lemma from_p_q_reads p q e k :
  wf_uint p -> wf_uint q -> wf_uint e -> from_p_q p q e = Ok k ->
  read_primes (trace (l_from_p_q p q e)) = [uval p; uval q].
Proof.
  intros Wp Wq We H. change [uval p; uval q] with (map uval [p; q]).
  apply read_primes_spec; [simpl; lia|]. fold (divs (l_from_p_q p q e)).
  pose proof H as H0. unfold from_p_q in H0. unfold l_from_p_q.
  erewrite divs_step; [|reflexivity|reflexivity].
  destruct (ueqb p q) eqn:E; [discriminate|].
  assert (Hne : uval p <> uval q) by (unfold ueqb in E; apply Z.eqb_neq; auto).
  apply bind_ok in H0. destruct H0 as (d & E1 & H0).
  apply bind_ok in H0. destruct H0 as (n & E2 & H0).
  erewrite divs_step; [|apply nodiv_carmicheal|rewrite rf_carmicheal; exact E1].
  erewrite divs_step; [|apply nodiv_modulus|rewrite rf_compute_modulus; exact E2].
  pose proof Wp as (P0 & _). pose proof Wq as (Q0 & _).
  destruct (Z.eq_dec (uval p) 0) as [Zp|Zp]; [rewrite from_p_q_zero in H by lia; discriminate|].
  destruct (Z.eq_dec (uval q) 0) as [Zq|Zq]; [rewrite from_p_q_zero in H by lia; discriminate|].
  assert (F : Forall wf_uint [p; q]) by (constructor; [auto|constructor; [auto|constructor]]).
  rewrite compute_modulus_eq in E2 by discriminate.
  destruct (Z.odd (product (map uval [p; q]))) eqn:O; [|discriminate]. injection E2 as <-.
  destruct (carmichael_d p q e Wp Wq We ltac:(lia) ltac:(lia) Hne) as (D1 & D2).
  destruct (Z_lt_le_dec (uprec p + uprec q) (uprec e)) as [L|L]; [rewrite D1 in E1 by auto; discriminate|].
  rewrite D2 in E1 by auto. destruct (zinv _ _) as [d0|] eqn:Zi; [|discriminate]. injection E1 as <-.
  destruct (lcm_common p q ltac:(lia) ltac:(lia)) as (HT & HD).
  rewrite <- sum2 in *.
  destruct (build_ok [p; q] e d0 _ (sum_prec [p; q]) ltac:(simpl; lia) F We O HT HD Zi ltac:(lia) (sum_prec_mod _ F))
    as (Wd & _).
  eapply from_components_divs; eauto. exact (modulus_wf [p; q] F ltac:(discriminate)).
Qed.

Lemma from_primes_reads ps e k :
  Forall wf_uint ps -> wf_uint e -> from_primes ps e = Ok k ->
  read_primes (trace (l_from_primes ps e)) = map uval ps.
Proof.
  intros F We H. pose proof H as H0. unfold from_primes in H0.
  destruct (Nat.ltb_spec (length ps) 2) as [L|L]; [discriminate|].
  destruct (has_duplicate ps) eqn:HD; [discriminate|].
  apply bind_ok in H0. destruct H0 as (n & E1 & H0).
  apply bind_ok in H0. destruct H0 as (d & E2 & H0).
  apply read_primes_spec; [auto|]. fold (divs (l_from_primes ps e)). unfold l_from_primes.
  erewrite divs_step; [|reflexivity|reflexivity].
  destruct (Nat.ltb_spec (length ps) 2); [lia|].
  erewrite divs_step; [|apply nodiv_repeated|rewrite rf_repeated; reflexivity].
  replace (existsb _ ps) with false.
  2: { symmetry. clear. induction ps as [|p ps IH]; [reflexivity|]. exact IH. }
  rewrite HD. cbn [orb].
  erewrite divs_step; [|apply nodiv_modulus|rewrite rf_compute_modulus; exact E1].
  erewrite divs_step; [|apply nodiv_euler|rewrite rf_euler; exact E2].
  assert (N : ps <> []) by (intros ->; simpl in L; lia).
  rewrite compute_modulus_eq in E1 by auto.
  destruct (Z.odd (product (map uval ps))) eqn:O; [|discriminate]. injection E1 as <-.
  pose proof (odd_pos ps F O) as OP.
  assert (P0 : Forall (fun p => 0 < uval p) ps) by (eapply Forall_impl; [|exact OP]; cbv beta; tauto).
  assert (P : Forall (fun p => 0 < p) (map uval ps)) by (rewrite Forall_map; exact P0).
  destruct (euler_d ps e L F P0 We) as (D1 & D2).
  set (m := uprec (nth 0 ps (mkU 0 64)) + sum_prec ps) in *.
  destruct (Z_lt_le_dec m (uprec e)) as [Le|Le]; [rewrite D1 in E2 by auto; discriminate|].
  rewrite D2 in E2 by auto. destruct (zinv _ _) as [d0|] eqn:Zi; [|discriminate]. injection E2 as <-.
  assert (HT : 0 <= totient (map uval ps) <= product (map uval ps))
    by (split; [apply totient_nonneg; auto|apply totient_le; auto]).
  assert (HDv : forall p, In p ps -> (uval p - 1 | totient (map uval ps)))
    by (intros p I; apply totient_divide, in_map; auto).
  destruct (first_prec ps L F) as (M1 & M2).
  assert (Mm : m mod 64 = 0)
    by (unfold m; rewrite Zplus_mod, M2, (sum_prec_mod ps F); reflexivity).
  destruct (build_ok ps e d0 _ m L F We O HT HDv Zi) as (Wd & _); [unfold m; lia|auto|].
  eapply from_components_divs; eauto. apply modulus_wf; auto.
Qed.

(** * Refusals show which prime failed *)

Lemma refused_divs ps d2 de :
  Forall wf_uint ps -> Forall (fun p => 0 < uval p) ps -> uprec d2 mod 64 = 0 -> 64 <= uprec d2 ->
  exponent_check ps d2 de = Err InvalidExponent ->
  exists l1 p l2, ps = l1 ++ p :: l2 /\
    Forall (fun p => uval de mod (uval p - 1) = 1) l1 /\ uval de mod (uval p - 1) <> 1 /\
    divs (l_exponent_check ps d2 de) = map (fun p => uval p - 1) (l1 ++ [p]).
Proof.
  intros HF HP Hd Hd64. induction ps as [|p ps IH]; intros E; [discriminate|].
  inversion HF as [|? ? Wp HF2]; subst. inversion HP as [|? ? Pp HP2]; subst.
  cbn [exponent_check] in E. unfold widen in E.
  destruct (Z.leb_spec (uprec p) (uprec d2)) as [L|L]; [|discriminate]. cbn [bind] in E.
  rewrite prec_for_id in E by auto. cbv zeta in E.
  rewrite wrapping_pred in E by (auto; lia). unfold uis_zero in E. cbn [uval] in E.
  destruct (Z.eqb_spec (uval p - 1) 0) as [Z1|Z1]; [discriminate|]. cbn [negb assert_ bind] in E.
  unfold urem in E. cbn [uval uprec] in E. destruct (Z.eqb_spec (uval p - 1) 0); [lia|]. cbn [bind] in E.
  unfold uis_one in E. cbn [uval] in E.
  rewrite exponent_step by (auto; lia).
  destruct (Z.eqb_spec (uval de mod (uval p - 1)) 1) as [C|C]; cbn [negb] in E.
  - destruct (IH HF2 HP2 E) as (l1 & x & l2 & -> & A & B & D).
    exists (p :: l1), x, l2. split; [reflexivity|]. split; [constructor; auto|]. split; [auto|].
    rewrite D. reflexivity.
  - exists [], p, ps. split; [reflexivity|]. split; [constructor|]. split; auto.
Qed.

Lemma refused_shows n e d ps :
  wf_uint n -> wf_uint e -> wf_uint d -> Forall wf_uint ps -> Z.odd (uval n) = true ->
  (2 <= length ps)%nat -> from_components n e d ps = Err InvalidExponent ->
  public_usable (uval n) (uval e) (uprec n) ->
  exists l1 p l2, ps = l1 ++ p :: l2 /\
    Forall (fun p => (uval e * uval d) mod (uval p - 1) = 1) l1 /\
    (uval e * uval d) mod (uval p - 1) <> 1 /\
    divisors (trace (l_from_components n e d ps)) = map (fun p => uval p - 1) (l1 ++ [p]).
Proof.
  intros Wn We Wd WF Ho HL H U0.
  assert (U : check_public (mkPub n e (mkMP n)) = Ok tt)
    by (apply check_public_ok; [apply mk_wf_pub; auto|exact U0]).
  set (k0 := mkPriv (mkPub n e (mkMP n)) d ps None).
  assert (Hpub : wf_pub (sk_pub k0)) by (apply mk_wf_pub; auto).
  assert (HX : divs (l_from_components n e d ps) = divs (l_validate k0) ++
                match validate k0 with Ok _ => divs (l_try_precompute k0) | _ => [] end).
  { unfold l_from_components. cbv zeta.
    erewrite divs_step with (a := tt); [|reflexivity|].
    2: { unfold uis_zero. destruct (Z.eqb_spec (uval n) 0) as [E|E]; [rewrite E in Ho; discriminate|reflexivity]. }
    rewrite divs_step with (a := ps).
    2: { destruct ps as [|a [|b r]]; simpl in HL; try lia. reflexivity. }
    2: { destruct ps as [|a [|b r]]; simpl in HL; try lia. reflexivity. }
    fold k0. rewrite divs_bind, rf_validate. reflexivity. }
  rewrite fc_unfold in H by auto. cbv zeta in H. fold k0 in H.
  assert (HV : validate k0 = Err InvalidExponent).
  { destruct (validate k0) as [[]| | |]; cbn [bind] in H; try discriminate.
    - unfold try_precompute in H. destruct (precompute k0); discriminate.
    - injection H as ->. reflexivity. }
  rewrite HV, app_nil_r in HX. unfold divs at 1 in HX. rewrite HX. clear HX H.
  destruct (zero_or_pos ps WF) as [HP|HZ].
  2: { exfalso. unfold validate in HV. cbn [sk_pub sk_primes k0] in HV. rewrite U in HV. cbn [bind] in HV.
       rewrite product_check_zero in HV by auto. discriminate. }
  unfold validate in HV. cbn [sk_pub sk_primes sk_d k0] in HV. rewrite U in HV. cbn [bind] in HV.
  unfold l_validate. cbn [sk_pub sk_primes sk_d k0].
  erewrite divs_step; [|reflexivity|exact U].
  destruct (product_check ps (u_one_with (uprec (pk_n (mkPub n e (mkMP n)))))) as [m| | |] eqn:E2;
    cbn [bind] in HV; try discriminate.
  2: { exfalso. cbn [pk_n] in E2. pose proof Wn as (_ & B1 & B2).
       assert (1 < 2 ^ uprec n) by (apply Z.pow_gt_1; lia).
       unfold u_one_with in E2. rewrite prec_for_id in E2 by auto.
       rewrite product_check_pos in E2; auto; cbn [uval uprec]; try lia. discriminate. }
  erewrite divs_step; [|apply nodiv_product|rewrite rf_product_check; exact E2].
  erewrite divs_step; [|reflexivity|reflexivity].
  destruct (negb _); [discriminate|].
  pose proof Wd as (Hdv & Hd1 & Hd2). pose proof Wn as (_ & Hn1 & Hn2).
  assert (D2 : (2 * uprec d) mod 64 = 0).
  { apply Z.mod_divide in Hd2; [|lia]. destruct Hd2 as [w Hw]. rewrite Hw.
    replace (2 * (w * 64)) with (2 * w * 64) by ring. apply Z_mod_mult. }
  rewrite widen_ok in HV by (auto; lia). cbn [bind] in HV.
  erewrite divs_step; [|reflexivity|unfold l_widen, l_op; cbn [result emit snd]; apply widen_ok; auto; lia].
  erewrite divs_step; [|reflexivity|reflexivity].
  destruct (refused_divs ps (mkU (uval d) (2 * uprec d)) _ WF HP D2 ltac:(cbn [uprec]; lia) HV) as (l1 & p & l2 & A & B & C & D).
  exists l1, p, l2. rewrite D.
  assert (Ede : uval (uwrapping_mul (mkU (uval d) (2 * uprec d)) (pk_e (mkPub n e (mkMP n)))) = uval e * uval d).
  { unfold uwrapping_mul. cbn [uval uprec pk_e]. rewrite Z.mod_small; [ring|].
    destruct U0 as (_ & _ & _ & U1 & _ & U2).
    replace (2 * uprec d) with (uprec d + uprec d) by ring.
    rewrite Z.pow_add_r by lia.
    assert (2 ^ 64 <= 2 ^ uprec d) by (apply Z.pow_le_mono_r; lia).
    assert (2 ^ 33 - 1 < 2 ^ 64) by (vm_compute; reflexivity).
    nia. }
  rewrite Ede in B, C. auto.
Qed.

(** * Successful runs look alike *)

(** If both succeed, the traces are the same and the results related. *)
Definition alike {A B} (P : A -> B -> Prop) (m : leaky A) (m' : leaky B) : Prop :=
  forall a b, result m = Ok a -> result m' = Ok b -> trace m = trace m' /\ P a b.

Lemma al_bind {A B C D} (P : A -> B -> Prop) (Q : C -> D -> Prop) m m' k k' :
  alike P m m' -> (forall a b, result m = Ok a -> result m' = Ok b -> P a b -> alike Q (k a) (k' b)) ->
  alike Q (lbind m k) (lbind m' k').
Proof.
  intros H K c d Ec Ed. rewrite res_bind in Ec. rewrite res_bind in Ed.
  apply bind_ok in Ec. destruct Ec as (a & Ea & Ec). apply bind_ok in Ed. destruct Ed as (b & Eb & Ed).
  destruct (H a b Ea Eb) as (T & X). destruct (K a b Ea Eb X c d Ec Ed) as (T2 & Y).
  rewrite !trace_bind, Ea, Eb, T, T2. auto.
Qed.

Lemma al_agree {A B} (P : A -> B -> Prop) m m' : agree P m m' -> alike P m m'.
Proof. intros (T & H) a b Ea Eb. rewrite Ea, Eb in H. auto. Qed.

Lemma al_ret {A B} (P : A -> B -> Prop) a b : P a b -> alike P (lret a) (lret b).
Proof. intros H. apply al_agree, ag_ret, H. Qed.

Lemma al_err {A B} (P : A -> B -> Prop) e (m : leaky B) : alike P (lerr e) m.
Proof. intros a b E. discriminate. Qed.

(** the same step on both sides *)
Lemma al_same {A B C} (P : B -> C -> Prop) (m : leaky A) (k : A -> leaky B) (k' : A -> leaky C) :
  (forall a, result m = Ok a -> alike P (k a) (k' a)) -> alike P (lbind m k) (lbind m k').
Proof.
  intros H. eapply (al_bind eq).
  - intros a b Ea Eb. split; [reflexivity|congruence].
  - intros a b Ea _ <-. auto.
Qed.

(** a jump to an error exit *)
Lemma al_cmp {A B} (Q : A -> B -> Prop) a b a' b' c c' e e' K K' :
  same_prec a a' -> same_prec b b' -> alike Q K K' ->
  alike Q (let! x := l_jump_cmp a b c in if x then lerr e else K)
          (let! x := l_jump_cmp a' b' c' in if x then lerr e' else K').
Proof.
  intros Ha Hb HK u v Eu Ev. rewrite res_bind in Eu. rewrite res_bind in Ev. cbn in Eu, Ev.
  destruct c; [discriminate|]. destruct c'; [discriminate|].
  destruct (HK u v Eu Ev) as (T & X). split; [|exact X].
  rewrite !trace_bind. unfold same_prec in *. cbn. rewrite Ha, Hb, T. reflexivity.
Qed.

Lemma al_test {A B} (Q : A -> B -> Prop) a a' c c' e e' K K' :
  same_prec a a' -> alike Q K K' ->
  alike Q (let! x := l_jump_test a c in if x then lerr e else K)
          (let! x := l_jump_test a' c' in if x then lerr e' else K').
Proof.
  intros Ha HK u v Eu Ev. rewrite res_bind in Eu. rewrite res_bind in Ev. cbn in Eu, Ev.
  destruct c; [discriminate|]. destruct c'; [discriminate|].
  destruct (HK u v Eu Ev) as (T & X). split; [|exact X].
  rewrite !trace_bind. unfold same_prec in *. cbn. rewrite Ha, T. reflexivity.
Qed.

Lemma al_opc {A B} (P : A -> B -> Prop) op ps ps' o o' :
  ps = ps' -> (forall a b, o = Ok a -> o' = Ok b -> P a b) -> alike P (l_opc op ps o) (l_opc op ps' o').
Proof.
  intros <- H a b Ea Eb. rewrite rf_opc in Ea. rewrite rf_opc in Eb. subst. split; [reflexivity|auto].
Qed.

Lemma usub_prec a b x : usub_big a b = Ok x -> uprec x = Z.max (uprec a) (uprec b).
Proof. unfold usub_big. destruct (_ <=? _); intros [= <-]. reflexivity. Qed.
Lemma uadd_prec a b x : uadd_big a b = Ok x -> uprec x = Z.max (uprec a) (uprec b).
Proof. unfold uadd_big. cbv zeta. destruct (_ <? _); intros [= <-]. reflexivity. Qed.
Lemma udiv_prec a b x : udiv a b = Ok x -> uprec x = uprec a.
Proof. unfold udiv. destruct (_ =? _); intros [= <-]. reflexivity. Qed.
Lemma urem_prec a b x : urem a b = Ok x -> uprec x = uprec b.
Proof. unfold urem. destruct (_ =? _); intros [= <-]. reflexivity. Qed.

Section Ops.
  Variables a a' b b' : uint.
  Hypotheses (Ha : same_prec a a') (Hb : same_prec b b').
  Lemma al_usub : alike same_prec (l_usub a b) (l_usub a' b').
  Proof.
    unfold same_prec in *. apply al_opc; [congruence|]. intros x y X Y.
    apply usub_prec in X, Y. unfold same_prec. congruence.
  Qed.
  Lemma al_uadd : alike same_prec (l_uadd a b) (l_uadd a' b').
  Proof.
    unfold same_prec in *. apply al_opc; [congruence|]. intros x y X Y.
    apply uadd_prec in X, Y. unfold same_prec. congruence.
  Qed.
  Lemma al_udiv : alike same_prec (l_udiv a b) (l_udiv a' b').
  Proof.
    unfold same_prec in *. apply al_opc; [congruence|]. intros x y X Y.
    apply udiv_prec in X, Y. unfold same_prec. congruence.
  Qed.
  Lemma al_urem : alike same_prec (l_urem a b) (l_urem a' b').
  Proof.
    unfold same_prec in *. apply al_opc; [congruence|]. intros x y X Y.
    apply urem_prec in X, Y. unfold same_prec. congruence.
  Qed.
  Lemma al_umul : alike same_prec (l_umul a b) (l_umul a' b').
  Proof.
    unfold same_prec in *. intros x y X Y. injection X as <-. injection Y as <-.
    split; [unfold l_umul, l_op; cbn; congruence|cbn; congruence].
  Qed.
  Lemma al_ugcd : alike same_prec (l_ugcd a b) (l_ugcd a' b').
  Proof.
    unfold same_prec in *. intros x y X Y. injection X as <-. injection Y as <-.
    split; [unfold l_ugcd, l_op; cbn; congruence|cbn; congruence].
  Qed.
  Lemma al_wmul : alike same_prec (l_wrapping_mul a b) (l_wrapping_mul a' b').
  Proof.
    unfold same_prec in *. intros x y X Y. injection X as <-. injection Y as <-.
    split; [unfold l_wrapping_mul, l_op; cbn; congruence|cbn; congruence].
  Qed.
  Lemma al_wsub : alike same_prec (l_wrapping_sub a b) (l_wrapping_sub a' b').
  Proof.
    unfold same_prec in *. intros x y X Y. injection X as <-. injection Y as <-.
    split; [unfold l_wrapping_sub, l_op; cbn; congruence|cbn; congruence].
  Qed.
  Lemma al_usqrt : alike same_prec (l_usqrt a) (l_usqrt a').
  Proof.
    unfold same_prec in *. intros x y X Y. injection X as <-. injection Y as <-.
    split; [unfold l_usqrt, l_op; cbn; congruence|cbn; congruence].
  Qed.
  Lemma al_usquare : alike same_prec (l_usquare a) (l_usquare a').
  Proof.
    unfold same_prec in *. intros x y X Y. injection X as <-. injection Y as <-.
    split; [unfold l_usquare, l_op; cbn; congruence|cbn; congruence].
  Qed.
  Lemma al_inverse : alike same_prec (l_inverse a b) (l_inverse a' b').
  Proof.
    intros x y X Y. pose proof X as X0. pose proof Y as Y0. rewrite rf_inverse in X. rewrite rf_inverse in Y.
    apply bind_ok in X. destruct X as (r & X1 & X). apply bind_ok in Y. destruct Y as (s & Y1 & Y).
    destruct r as [r|]; [|discriminate]. destruct s as [s|]; [|discriminate].
    injection X as <-. injection Y as <-.
    unfold l_inverse. rewrite !trace_bind. unfold l_inv_mod, l_op. cbn [result emit snd].
    rewrite X1, Y1. rewrite !trace_bind. cbn. unfold same_prec in *. rewrite Ha, Hb. split; [reflexivity|].
    unfold uinv_mod in X1, Y1. destruct (_ =? _); [|discriminate]. destruct (uprec a' =? _); [|discriminate].
    destruct (zinv _ _); [|discriminate]. destruct (zinv (uval a') _); [|discriminate].
    injection X1 as <-. injection Y1 as <-. exact Hb.
  Qed.
End Ops.

Lemma al_widen u v p p' : same_prec u v -> p = p' -> alike same_prec (l_widen u p) (l_widen v p').
Proof. intros H <-. apply al_agree, ag_widen, H. Qed.

Ltac alk :=
  first
  [ apply al_cmp; [assumption || reflexivity|assumption || reflexivity|]
  | apply al_test; [assumption || reflexivity|]
  | (eapply al_bind;
     [first [ apply al_usub | apply al_uadd | apply al_udiv | apply al_urem | apply al_umul | apply al_ugcd
            | apply al_wmul | apply al_wsub | apply al_usqrt | apply al_usquare ];
      (assumption || reflexivity)
     |intros ? ? _ _ ?])
  | (eapply al_bind;
     [apply al_widen; [assumption || reflexivity|unfold same_prec in *; congruence]|intros ? ? _ _ ?]) ].

Lemma al_recover n e d n' e' d' :
  same_prec n n' -> same_prec e e' -> same_prec d d' ->
  alike (fun x y => same_prec (fst x) (fst y) /\ same_prec (snd x) (snd y))
        (l_recover_primes n e d) (l_recover_primes n' e' d').
Proof.
  intros Hn He Hd. unfold l_recover_primes. cbv zeta.
  assert (Q : uprec d * 2 = uprec d' * 2) by (rewrite Hd; reflexivity).
  repeat alk. apply al_ret. split; assumption.
Qed.

Lemma al_carmicheal p q e p' q' e' : same_prec p p' -> same_prec q q' -> same_prec e e' ->
  alike same_prec (l_carmicheal p q e) (l_carmicheal p' q' e').
Proof. intros Hp Hq He. unfold l_carmicheal. cbv zeta. repeat alk. apply al_inverse; assumption. Qed.

Lemma al_totient ps ps' : Forall2 same_prec ps ps' -> forall t t', same_prec t t' ->
  alike same_prec (l_totient_loop ps t) (l_totient_loop ps' t').
Proof.
  induction 1 as [|p p' ps ps' Hp F IH]; intros t t' Ht; [apply al_ret; auto|].
  cbn [l_totient_loop]. repeat alk. apply IH. assumption.
Qed.

Lemma F2_length {A B} (P : A -> B -> Prop) l l' : Forall2 P l l' -> length l = length l'.
Proof. induction 1; cbn; congruence. Qed.

Lemma al_euler ps ps' e e' : Forall2 same_prec ps ps' -> same_prec e e' ->
  alike same_prec (l_euler_totient ps e) (l_euler_totient ps' e').
Proof.
  intros F He. unfold l_euler_totient. rewrite (F2_length _ _ _ F). cbv zeta.
  eapply al_bind; [apply al_agree, ag_if|]. intros c c' _ _ (-> & ->).
  destruct (length ps' <? 2)%nat; [apply al_err|].
  eapply (al_bind same_prec).
  { destruct F as [|p p' ps ps' Hp F]; intros x y X Y; [discriminate|].
    injection X as <-. injection Y as <-. split; [|exact Hp].
    unfold l_get. cbn. rewrite (F2_length _ _ _ F). reflexivity. }
  intros p0 p0' _ _ H0. eapply al_bind.
  { apply al_totient; [exact F|]. unfold u_one_with, same_prec in *. cbn. rewrite H0. reflexivity. }
  intros t t' _ _ Ht. alk. apply al_inverse; assumption.
Qed.

(** Keys with the same primes and accepted exponents of one precision. *)
Lemma al_exponent ps d2 d2' de de' : same_prec d2 d2' -> same_prec de de' ->
  alike (fun _ _ => True) (l_exponent_check ps d2 de) (l_exponent_check ps d2' de').
Proof.
  intros Hd He. induction ps as [|p ps IH]; [apply al_ret; auto|]. cbn [l_exponent_check].
  rewrite <- Hd.
  apply al_same. intros p1 _. apply al_same. intros x _. apply al_same. intros _ _.
  eapply al_bind; [apply al_agree, ag_rem; exact He|]. intros c c' _ _ Hc.
  apply al_test; [exact Hc|exact IH].
Qed.

Lemma al_validate n e d d' ps : same_prec d d' ->
  let k d := mkPriv (mkPub n e (mkMP n)) d ps None in
  alike (fun _ _ => True) (l_validate (k d)) (l_validate (k d')).
Proof.
  intros Hd k. unfold l_validate, k. cbn [sk_pub sk_primes sk_d].
  apply al_same. intros _ _. apply al_same. intros m _. apply al_same. intros c _. destruct c; [apply al_err|].
  alk. alk. apply al_exponent; assumption.
Qed.

Lemma try_trace k k' : sk_pre k = None -> sk_pre k' = None -> sk_primes k = sk_primes k' ->
  same_prec (sk_d k) (sk_d k') -> trace (l_try_precompute k) = trace (l_try_precompute k').
Proof.
  intros A B C D. pose proof (precompute_trace_d k k' A B C D) as T.
  unfold l_try_precompute, trace in *. destruct (l_precompute k), (l_precompute k'). exact T.
Qed.

Lemma load_hides n e d d' ps k k' :
  same_prec d d' -> (2 <= length ps)%nat ->
  from_components n e d ps = Ok k -> from_components n e d' ps = Ok k' ->
  trace (l_from_components n e d ps) = trace (l_from_components n e d' ps).
Proof.
  intros Hd HL H H'.
  assert (L : alike (fun _ _ => True) (l_from_components n e d ps) (l_from_components n e d' ps)).
  { unfold l_from_components. cbv zeta.
    apply al_same. intros _ _. destruct ps as [|a [|b r]]; simpl in HL; try lia.
    apply al_same. intros ps E. injection E as <-.
    eapply al_bind; [apply al_validate; exact Hd|]. intros [] [] _ _ _.
    intros u v _ _. split; [|exact I]. apply try_trace; auto. }
  apply (L k k'); rewrite rf_from_components; assumption.
Qed.

Lemma coefficient_trace k k' x y :
  Forall2 same_prec (sk_primes k) (sk_primes k') ->
  crt_coefficient k = Ok (Some x) -> crt_coefficient k' = Ok (Some y) ->
  trace (l_crt_coefficient k) = trace (l_crt_coefficient k').
Proof.
  intros F. unfold crt_coefficient, l_crt_coefficient.
  destruct F as [|p p' l l' Hp [|q q' l2 l2' Hq F]]; [discriminate..|].
  cbn [get_idx nth_error bind]. intros E E'.
  unfold l_get. cbn [get_idx nth_error]. rewrite !trace_bind. cbn [trace emit fst result snd].
  rewrite !trace_bind. cbn [trace emit fst result snd].
  rewrite !trace_bind. unfold l_inv_mod, l_op. cbn [trace emit fst result snd].
  rewrite E, E'. unfold same_prec in *. rewrite Hp, Hq.
  cbn [length]. rewrite (F2_length _ _ _ F). reflexivity.
Qed.

(** The function that reads the position of the failing prime off a refusal. *)
Definition read_position (t : list event) : nat := pred (length (divisors t)).

Lemma refused_position n e d ps :
  wf_uint n -> wf_uint e -> wf_uint d -> Forall wf_uint ps -> Z.odd (uval n) = true ->
  (2 <= length ps)%nat -> public_usable (uval n) (uval e) (uprec n) ->
  from_components n e d ps = Err InvalidExponent ->
  exists l1 p l2, ps = l1 ++ p :: l2 /\
    Forall (fun p => (uval e * uval d) mod (uval p - 1) = 1) l1 /\
    (uval e * uval d) mod (uval p - 1) <> 1 /\
    read_position (trace (l_from_components n e d ps)) = length l1.
Proof.
  intros Wn We Wd WF Ho HL U H.
  destruct (refused_shows n e d ps Wn We Wd WF Ho HL H U) as (l1 & p & l2 & A & B & C & D).
  exists l1, p, l2. split; [auto|]. split; [auto|]. split; [auto|].
  unfold read_position. rewrite D, map_length, app_length. cbn [length]. lia.
Qed.
