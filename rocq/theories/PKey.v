(** Proofs about src/key.rs: validation and the constructors (C25-C29, C36). *)
From Coq Require Import ZArith List Bool Lia Znumtheory.
From Coq Require Import Init.Byte.
From Verif Require Import Base Bigint BytesLemmas NumTheory SpecRFC SpecKey BigintLemmas
  MHash MRsa MGenerate MKey KeyDefs PRsa PApi.
Import ListNotations.
Local Open Scope Z_scope.

(** * The product check *)

Lemma product_cons x l : product (x :: l) = x * product l.
Proof. reflexivity. Qed.

Lemma product_nonneg l : Forall (fun x => 0 <= x) l -> 0 <= product l.
Proof. induction 1; [cbn; lia|]. rewrite product_cons. nia. Qed.

Lemma product_pos l : Forall (fun x => 0 < x) l -> 0 < product l.
Proof. induction 1; [cbn; lia|]. rewrite product_cons. nia. Qed.

Lemma product_check_pos ps : Forall (fun p => 0 < uval p) ps -> forall m,
  0 <= uval m < 2 ^ uprec m -> 0 <= uprec m ->
  product_check ps m
  = Ok (mkU ((uval m * product (map uval ps)) mod 2 ^ uprec m) (uprec m)).
Proof.
  induction 1 as [|p ps Hp _ IH]; intros m Hm Hpm; cbn [product_check map].
  - cbn [product fold_right]. rewrite Z.mul_1_r, Z.mod_small by lia. destruct m; reflexivity.
  - unfold ultb. cbn [uval u_of_u64]. destruct (Z.ltb_spec (uval p) 1); [lia|].
    assert (0 < 2 ^ uprec m) by (apply Z.pow_pos_nonneg; lia).
    rewrite IH; cbn [uwrapping_mul uval uprec]; auto.
    + rewrite product_cons, Zmult_mod_idemp_l. do 2 f_equal. f_equal. ring.
    + apply Z.mod_pos_bound; auto.
Qed.

Lemma product_check_zero ps : Exists (fun p => uval p = 0) ps -> forall m,
  product_check ps m = Err InvalidPrime.
Proof.
  induction 1 as [p ps Hp|p ps _ IH]; intros m; cbn [product_check]; unfold ultb; cbn [uval u_of_u64].
  - rewrite Hp. reflexivity.
  - destruct (uval p <? 1); auto.
Qed.

Lemma zero_or_pos ps : Forall wf_uint ps ->
  Forall (fun p => 0 < uval p) ps \/ Exists (fun p => uval p = 0) ps.
Proof.
  induction 1 as [|p ps Hp _ [IH|IH]]; auto.
  destruct Hp as (Hv & _). destruct (Z.eq_dec (uval p) 0); auto.
  left. constructor; auto. lia.
Qed.

(** * The exponent check *)

Definition prime_good (D X : Z) (p : uint) : Prop :=
  uprec p <= D /\ uval p <> 1 /\ X mod (uval p - 1) = 1.
Definition prime_panics (D : Z) (p : uint) : Prop := D < uprec p \/ uval p = 1.

Lemma exponent_step p rest d2 de :
  wf_uint p -> 0 < uval p -> 64 <= uprec d2 -> uprec d2 mod 64 = 0 ->
  exponent_check (p :: rest) d2 de
  = if (uprec d2 <? uprec p) || (uval p =? 1) then Panic
    else if uval de mod (uval p - 1) =? 1 then exponent_check rest d2 de
    else Err InvalidExponent.
Proof.
  intros Hp Hpos HD1 HD2. cbn [exponent_check]. unfold widen.
  destruct (Z.leb_spec (uprec p) (uprec d2)) as [L|L];
    destruct (Z.ltb_spec (uprec d2) (uprec p)); try lia; [|reflexivity].
  rewrite prec_for_id by auto. cbn [bind]. unfold uwrapping_sub, u_of_u64. cbn [uval uprec].
  rewrite Z.max_l by lia.
  assert (Hs : 0 <= uval p - 1 < 2 ^ uprec d2).
  { destruct Hp as (Hv & A & B). assert (2 ^ uprec p <= 2 ^ uprec d2) by (apply Z.pow_le_mono_r; lia). lia. }
  rewrite Z.mod_small by lia. unfold uis_zero. cbn [uval orb].
  destruct (Z.eqb_spec (uval p) 1) as [E|E].
  - rewrite E. reflexivity.
  - destruct (Z.eqb_spec (uval p - 1) 0); [lia|]. cbn [negb assert_ bind].
    unfold urem. cbn [uval uprec]. destruct (Z.eqb_spec (uval p - 1) 0); [lia|]. cbn [bind].
    unfold uis_one. cbn [uval]. destruct (_ =? 1); reflexivity.
Qed.

Lemma exponent_check_total ps d2 de :
  Forall wf_uint ps -> Forall (fun p => 0 < uval p) ps -> 64 <= uprec d2 -> uprec d2 mod 64 = 0 ->
  let good := prime_good (uprec d2) (uval de) in
  (exponent_check ps d2 de = Ok tt /\ Forall good ps) \/
  (exists l1 p l2, ps = l1 ++ p :: l2 /\ Forall good l1 /\
     ((exponent_check ps d2 de = Panic /\ prime_panics (uprec d2) p) \/
      (exponent_check ps d2 de = Err InvalidExponent /\ ~ prime_panics (uprec d2) p /\ ~ good p))).
Proof.
  intros HF HP HD1 HD2 good. revert HP. induction HF as [|p ps Hp HF IH]; intros HP; [left; auto|].
  inversion HP as [|? ? Hpos HP']; subst. specialize (IH HP').
  rewrite exponent_step by auto.
  destruct (Z.ltb_spec (uprec d2) (uprec p)) as [L|L]; cbn [orb].
  { right. exists [], p, ps. split; auto. split; auto. left. split; auto. left; auto. }
  destruct (Z.eqb_spec (uval p) 1) as [E|E].
  { right. exists [], p, ps. split; auto. split; auto. left. split; auto. right; auto. }
  destruct (Z.eqb_spec (uval de mod (uval p - 1)) 1) as [Ec|Ec].
  - assert (G : good p) by (repeat split; auto).
    destruct IH as [[A B]|(l1 & x & l2 & A & B & C)].
    + left. rewrite A. auto.
    + right. exists (p :: l1), x, l2. split; [rewrite A; reflexivity|]. split; auto.
  - right. exists [], p, ps. split; auto. split; auto. right. split; auto.
    split; [intros [?|?]; [lia|contradiction]|]. intros (_ & _ & ?). contradiction.
Qed.

Lemma Forall_app_cons {A} (P : A -> Prop) l1 x l2 : Forall P (l1 ++ x :: l2) -> P x.
Proof. intros H. apply Forall_app in H. destruct H as [_ H]. inversion H; auto. Qed.

(** * [validate], exactly *)

Definition exponent_ok (k : privkey) : uint -> Prop :=
  prime_good (2 * uprec (sk_d k)) (uval (pk_e (sk_pub k)) * uval (sk_d k)).

Lemma validate_total k :
  wf_pub (sk_pub k) -> wf_uint (sk_d k) -> Forall wf_uint (sk_primes k) ->
  let n := pk_n (sk_pub k) in let e := pk_e (sk_pub k) in
  let usable := public_usable (uval n) (uval e) (uprec n) in
  let prod_ok := product (map uval (sk_primes k)) mod 2 ^ uprec n = uval n in
  let pos := Forall (fun p => 0 < uval p) (sk_primes k) in
  (exists err, validate k = Err err /\ check_public (sk_pub k) = Err err /\ ~ usable) \/
  (validate k = Err InvalidPrime /\ usable /\ Exists (fun p => uval p = 0) (sk_primes k)) \/
  (validate k = Err InvalidModulus /\ usable /\ pos /\ ~ prod_ok) \/
  (usable /\ pos /\ prod_ok /\
   ((validate k = Ok tt /\ Forall (exponent_ok k) (sk_primes k)) \/
    (exists l1 p l2, sk_primes k = l1 ++ p :: l2 /\ Forall (exponent_ok k) l1 /\
      ((validate k = Panic /\ prime_panics (2 * uprec (sk_d k)) p) \/
       (validate k = Err InvalidExponent /\ ~ prime_panics (2 * uprec (sk_d k)) p
        /\ ~ exponent_ok k p))))).
Proof.
  intros Hpub Hd HF n e usable prod_ok pos.
  destruct (check_public_spec (sk_pub k) Hpub) as [[E U]|(err & E & U)].
  2: { left. exists err. unfold validate. rewrite E. auto. }
  right. unfold validate. rewrite E. cbn [bind].
  pose proof Hpub as (Hn & He & _ & Hodd). fold n in Hn, Hodd |- *. fold e in He |- *.
  destruct (zero_or_pos _ HF) as [HP|HZ].
  2: { left. rewrite product_check_zero by auto. auto. }
  right.
  pose proof Hn as (Hnv & Hn1 & Hn2).
  assert (Pn : 1 < 2 ^ uprec n) by (apply Z.pow_gt_1; lia).
  unfold u_one_with. rewrite prec_for_id by auto.
  rewrite product_check_pos; auto; cbn [uval uprec]; try lia. cbn [bind].
  unfold ueqb. cbn [uval]. rewrite Z.mul_1_l.
  destruct (Z.eqb_spec (product (map uval (sk_primes k)) mod 2 ^ uprec n) (uval n)) as [Ep|Ep];
    cbn [negb]; [right|left; auto].
  split; [auto|]. split; [auto|]. split; [auto|].
  pose proof Hd as (Hdv & Hd1 & Hd2).
  assert (D2 : (2 * uprec (sk_d k)) mod 64 = 0).
  { apply Z.mod_divide in Hd2; [|lia]. destruct Hd2 as [w Hw]. rewrite Hw.
    replace (2 * (w * 64)) with (2 * w * 64) by ring. apply Z_mod_mult. }
  rewrite widen_ok by (auto; lia). cbn [bind].
  unfold uwrapping_mul. cbn [uval uprec].
  assert (Ede : (uval (sk_d k) * uval e) mod 2 ^ (2 * uprec (sk_d k)) = uval e * uval (sk_d k)).
  { rewrite Z.mod_small; [ring|].
    destruct U as (_ & _ & _ & U1 & _ & U2). fold e in U1, U2.
    replace (2 * uprec (sk_d k)) with (uprec (sk_d k) + uprec (sk_d k)) by ring.
    rewrite Z.pow_add_r by lia.
    assert (2 ^ 64 <= 2 ^ uprec (sk_d k)) by (apply Z.pow_le_mono_r; lia).
    assert (2 ^ 33 - 1 < 2 ^ 64) by (vm_compute; reflexivity).
    nia. }
  pose proof (exponent_check_total (sk_primes k) (mkU (uval (sk_d k)) (2 * uprec (sk_d k)))
    (mkU ((uval (sk_d k) * uval e) mod 2 ^ (2 * uprec (sk_d k))) (2 * uprec (sk_d k))) HF HP) as T.
  cbn [uval uprec] in T. rewrite Ede in T |- *.
  specialize (T ltac:(lia) D2). unfold exponent_ok. fold e. exact T.
Qed.

Lemma validate_exact k :
  wf_pub (sk_pub k) -> wf_uint (sk_d k) -> Forall wf_uint (sk_primes k) ->
  let n := pk_n (sk_pub k) in let e := pk_e (sk_pub k) in
  (validate k = Ok tt <->
   public_usable (uval n) (uval e) (uprec n) /\
   product (map uval (sk_primes k)) mod 2 ^ uprec n = uval n /\
   Forall (fun p => 3 <= uval p /\ uprec p <= 2 * uprec (sk_d k) /\
                    (uval e * uval (sk_d k)) mod (uval p - 1) = 1) (sk_primes k)).
Proof.
  intros Hpub Hd HF n e.
  assert (Q : forall l, Forall (fun p => 0 < uval p) l ->
     (Forall (exponent_ok k) l <->
      Forall (fun p => 3 <= uval p /\ uprec p <= 2 * uprec (sk_d k) /\
                    (uval e * uval (sk_d k)) mod (uval p - 1) = 1) l)).
  { intros l HP. rewrite !Forall_forall in *. split; intros H p I; specialize (H p I); specialize (HP p I).
    - destruct H as (A & B & C). fold e in C. split; [|auto].
      destruct (Z.eq_dec (uval p) 2) as [E|]; [|lia]. rewrite E in C.
      change (2 - 1) with 1 in C. rewrite Z.mod_1_r in C. discriminate.
    - destruct H as (A & B & C). split; [auto|split; [lia|auto]]. }
  destruct (validate_total k Hpub Hd HF) as [(err & E & _ & U)|[(E & U & Z)|[(E & U & P & M)|(U & P & M & T)]]].
  - rewrite E. split; [discriminate|tauto].
  - rewrite E. split; [discriminate|]. intros (_ & _ & H).
    rewrite Exists_exists in Z. destruct Z as (p & I & Zp). rewrite Forall_forall in H.
    specialize (H p I). cbv beta in H. lia.
  - rewrite E. split; [discriminate|tauto].
  - destruct T as [[E G]|(l1 & p & l2 & El & G1 & T)].
    + rewrite E. split; [intros _|auto]. split; [auto|split; [auto|]]. apply Q; auto.
    + assert (B : validate k <> Ok tt) by (destruct T as [[E _]|[E _]]; rewrite E; discriminate).
      split; [intros E; contradiction|]. intros (_ & _ & H). exfalso.
      apply Q in H; auto. rewrite El in H. apply Forall_app_cons in H.
      destruct T as [(_ & [L|L])|(_ & _ & N)]; [destruct H; lia|destruct H as (_ & ? & _); contradiction|contradiction].
Qed.

Lemma validate_valid k :
  wf_pub (sk_pub k) -> wf_uint (sk_d k) -> Forall wf_uint (sk_primes k) ->
  validate k = Ok tt ->
  (2 <= length (sk_primes k))%nat -> Forall prime (map uval (sk_primes k)) ->
  NoDup (map uval (sk_primes k)) ->
  product (map uval (sk_primes k)) < 2 ^ uprec (pk_n (sk_pub k)) ->
  valid_rsa_key (uval (pk_n (sk_pub k))) (uval (pk_e (sk_pub k))) (uval (sk_d k))
                (map uval (sk_primes k)).
Proof.
  intros Hpub Hd HF HV HL HP HN HB. apply validate_exact in HV; auto.
  destruct HV as ((_ & _ & _ & He & _) & M & HE).
  assert (0 <= product (map uval (sk_primes k))).
  { apply product_nonneg. rewrite Forall_map. eapply Forall_impl; [|exact HF]. intros ? (? & _); lia. }
  rewrite Z.mod_small in M by lia.
  split; [rewrite map_length; auto|]. split; [auto|]. split; [auto|]. split; [auto|]. split; [lia|].
  destruct (sk_primes k) as [|p ps] eqn:EP; [simpl in HL; lia|].
  split.
  - destruct Hd as (Hdv & _). destruct (Z.eq_dec (uval (sk_d k)) 0) as [E|]; [|lia].
    inversion HE as [|? ? (A & _ & C) _]; subst. rewrite E, Z.mul_0_r, Zmod_0_l in C. discriminate.
  - intros x I. apply in_map_iff in I. destruct I as (u & <- & I).
    rewrite Forall_forall in HE. destruct (HE u I) as (A & _ & C). cbv beta in *. rewrite C.
    destruct (Z.eq_dec (uval u - 1) 1) as [E|].
    + rewrite E in *. lia.
    + rewrite Z.mod_small; lia.
Qed.

(** * [precompute] on a validated key *)

Lemma precompute_cases k p q rest :
  wf_uint (sk_d k) -> wf_uint p -> wf_uint q -> sk_pre k = None ->
  sk_primes k = p :: q :: rest ->
  Z.odd (uval p) = true -> Z.odd (uval q) = true -> 3 <= uval p -> 3 <= uval q ->
  let bits := uprec (sk_d k) in
  (bits < uprec p \/ bits < uprec q -> precompute k = Panic) /\
  (uprec p <= bits -> uprec q <= bits ->
   (Z.gcd (uval p) (uval q) = 1 /\ exists k', precompute k = Ok k' /\ sk_pre k' <> None) \/
   (Z.gcd (uval p) (uval q) <> 1 /\ precompute k = Err InvalidPrime)).
Proof.
  intros Hd Wp Wq Hn EP Op Oq Gp Gq bits. unfold precompute. rewrite Hn, EP.
  cbn [get_idx nth_error bind]. fold bits.
  assert (Hb : 64 <= bits /\ bits mod 64 = 0) by (destruct Hd as (_ & A & B); auto).
  split.
  - intros HL. unfold widen. destruct (Z.leb_spec (uprec p) bits) as [L|L]; [|reflexivity].
    destruct HL; [lia|]. cbn [bind]. destruct (Z.leb_spec (uprec q) bits); [lia|reflexivity].
  - intros Fp Fq. rewrite !widen_ok by tauto. cbn [bind]. unfold uis_odd. cbn [uval].
    rewrite Op, Oq. cbn [guard bind].
    rewrite !wrapping_pred by (tauto || lia).
    unfold uis_zero. cbn [uval uprec].
    destruct (Z.eqb_spec (uval p - 1) 0); [lia|]. cbn [negb guard bind].
    unfold urem. cbn [uval uprec]. destruct (Z.eqb_spec (uval p - 1) 0); [lia|]. cbn [bind].
    destruct (Z.eqb_spec (uval q - 1) 0); [lia|]. cbn [negb guard bind].
    unfold mf_new, mp_prec. cbn [mp_modulus uprec uval]. rewrite Z.eqb_refl.
    cbn [bind]. unfold mf_invert, mp_val. cbn [mf_res mf_params mp_modulus uval uprec].
    assert (Eg : Z.gcd (uval q mod uval p) (uval p) = Z.gcd (uval p) (uval q)) by (apply Z.gcd_mod; lia).
    destruct (Z.eq_dec (Z.gcd (uval p) (uval q)) 1) as [G|G].
    + left. split; auto. destruct (zinv_exists (uval q mod uval p) (uval p)) as (x & ->); [lia|congruence|].
      cbn [mf_params mp_modulus uprec]. rewrite Z.eqb_refl. cbn [andb assert_ bind].
      eexists. split; [reflexivity|]. discriminate.
    + right. split; auto.
      replace (zinv (uval q mod uval p) (uval p)) with (@None Z); auto.
      symmetry. apply zinv_none; [lia|congruence].
Qed.

(** * [from_components] *)

Lemma fc_unfold n e d primes :
  Z.odd (uval n) = true -> (2 <= length primes)%nat ->
  from_components n e d primes
  = let k := mkPriv (mkPub n e (mkMP n)) d primes None in
    let* _ := validate k in try_precompute k.
Proof.
  intros Ho HL. unfold from_components, uis_zero.
  destruct (Z.eqb_spec (uval n) 0) as [E|E]; [rewrite E in Ho; discriminate|].
  cbn [negb guard bind]. destruct primes as [|a [|b l]]; cbn [length] in HL; try lia. reflexivity.
Qed.

Lemma mk_wf_pub n e : wf_uint n -> wf_uint e -> Z.odd (uval n) = true -> wf_pub (mkPub n e (mkMP n)).
Proof. intros. split; [auto|split; [auto|split; auto]]. Qed.

Lemma product_odd_mod x p n : 64 <= p -> x mod 2 ^ p = n -> Z.odd n = true -> Z.odd x = true.
Proof.
  intros Hp E Ho. rewrite (Z_div_mod_eq_full x (2 ^ p)), E.
  replace p with (Z.succ (p - 1)) by lia. rewrite Z.pow_succ_r by lia.
  rewrite Z.odd_add, <- Z.mul_assoc, Z.odd_mul, Ho. reflexivity.
Qed.

Definition components_ok (n e d : uint) (primes : list uint) : Prop :=
  public_usable (uval n) (uval e) (uprec n) /\
  product (map uval primes) mod 2 ^ uprec n = uval n /\
  Forall (fun p => 3 <= uval p /\ uprec p <= 2 * uprec d /\ (uval e * uval d) mod (uval p - 1) = 1) primes.

Lemma fc_validated n e d primes :
  wf_uint n -> wf_uint e -> wf_uint d -> Forall wf_uint primes ->
  Z.odd (uval n) = true -> (2 <= length primes)%nat ->
  let k := mkPriv (mkPub n e (mkMP n)) d primes None in
  components_ok n e d primes ->
  from_components n e d primes = try_precompute k /\
  exists p q rest, primes = p :: q :: rest /\
   ((uprec d < uprec p \/ uprec d < uprec q) /\ try_precompute k = Panic \/
    uprec p <= uprec d /\ uprec q <= uprec d /\
    (Z.gcd (uval p) (uval q) = 1 /\ (exists k', precompute k = Ok k' /\ try_precompute k = Ok k' /\ sk_pre k' <> None) \/
     Z.gcd (uval p) (uval q) <> 1 /\ try_precompute k = Ok k)).
Proof.
  intros Wn We Wd WF Ho HL k HC.
  assert (HV : validate k = Ok tt) by (apply validate_exact; auto; apply mk_wf_pub; auto).
  rewrite fc_unfold by auto. fold k. cbv zeta. rewrite HV. cbn [bind]. split; [reflexivity|].
  destruct HC as (_ & M & HE).
  assert (HO : forall x, In x (map uval primes) -> Z.odd x = true).
  { apply odd_factors. eapply product_odd_mod; [|exact M|auto]. apply Wn. }
  destruct primes as [|p [|q rest]]; cbn [length] in HL; try lia.
  exists p, q, rest. split; auto.
  inversion WF as [|? ? Wp WF2]; subst. inversion WF2 as [|? ? Wq _]; subst.
  inversion HE as [|? ? (Gp & _) HE2]; subst. inversion HE2 as [|? ? (Gq & _) _]; subst.
  pose proof (precompute_cases k p q rest Wd Wp Wq eq_refl eq_refl
    (HO _ (or_introl eq_refl)) (HO _ (or_intror (or_introl eq_refl))) Gp Gq) as [PA PB].
  change (uprec (sk_d k)) with (uprec d) in PA, PB. unfold try_precompute.
  destruct (Z_lt_le_dec (uprec d) (uprec p)) as [A|A]; [left; split; auto; rewrite PA; auto|].
  destruct (Z_lt_le_dec (uprec d) (uprec q)) as [B|B]; [left; split; auto; rewrite PA; auto|].
  right. split; auto. split; auto.
  destruct (PB A B) as [(G & k' & E & N)|(G & E)]; rewrite E; [left|right]; split; auto.
  exists k'. auto.
Qed.

Lemma try_precompute_ok k k' : try_precompute k = Ok k' -> precompute k = Ok k' \/ k' = k.
Proof. unfold try_precompute. destruct (precompute k); intros [= <-]; auto. Qed.

Lemma fc_ok n e d primes k :
  wf_uint n -> wf_uint e -> wf_uint d -> Forall wf_uint primes ->
  Z.odd (uval n) = true -> (2 <= length primes)%nat ->
  from_components n e d primes = Ok k ->
  components_ok n e d primes /\ validate k = Ok tt /\
  sk_pub k = mkPub n e (mkMP n) /\ sk_d k = d /\ sk_primes k = primes /\ pre_consistent k.
Proof.
  intros Wn We Wd WF Ho HL H. rewrite fc_unfold in H by auto. cbv zeta in H.
  set (k0 := mkPriv (mkPub n e (mkMP n)) d primes None) in *.
  apply bind_ok in H. destruct H as ([] & HV & H).
  assert (W : wf_pub (sk_pub k0)) by (apply mk_wf_pub; auto).
  assert (HC : components_ok n e d primes) by (apply (validate_exact k0 W Wd WF); auto).
  split; [auto|].
  destruct (try_precompute_ok _ _ H) as [E|E].
  - pose proof (precompute_keeps _ _ E) as (E1 & E2 & E3).
    assert (Ev : validate k = validate k0).
    { unfold validate. rewrite E1, E2, E3. reflexivity. }
    rewrite Ev. repeat (split; auto).
    right. replace (clear_precomputed k) with k0; auto.
    destruct k as [a b c w]. cbn [sk_pre sk_pub sk_d sk_primes] in *.
    unfold clear_precomputed. cbn [sk_pub sk_d sk_primes]. rewrite E1, E2, E3. reflexivity.
  - rewrite E. repeat (split; auto). left. reflexivity.
Qed.

(** ** C27 *)

Lemma c27_exact n e d primes :
  wf_uint n -> wf_uint e -> wf_uint d -> Forall wf_uint primes ->
  Z.odd (uval n) = true -> (2 <= length primes)%nat ->
  Forall (fun p => uprec p <= uprec d) primes ->
  ((exists k, from_components n e d primes = Ok k) <->
   public_usable (uval n) (uval e) (uprec n) /\
   product (map uval primes) mod 2 ^ uprec n = uval n /\
   Forall (fun p => 3 <= uval p /\ (uval e * uval d) mod (uval p - 1) = 1) primes).
Proof.
  intros Wn We Wd WF Ho HL HP. split.
  - intros (k & H). destruct (fc_ok _ _ _ _ _ Wn We Wd WF Ho HL H) as ((A & B & C) & _).
    split; [auto|split; auto]. eapply Forall_impl; [|exact C]. cbv beta. tauto.
  - intros (A & B & C).
    assert (HC : components_ok n e d primes).
    { split; [auto|split; auto]. rewrite Forall_forall in *. intros p I.
      specialize (C p I). specialize (HP p I). cbv beta in *. destruct Wd as (_ & ? & _). split; [tauto|split; [lia|tauto]]. }
    destruct (fc_validated n e d primes Wn We Wd WF Ho HL HC) as (E & p & q & rest & EP & T).
    rewrite E. subst primes. inversion HP as [|? ? P1 HP2]; subst. inversion HP2 as [|? ? P2 _]; subst.
    destruct T as [([L|L] & _)|(_ & _ & [(_ & k' & _ & T & _)|(_ & T)])]; try lia; eauto.
Qed.

Lemma c27_no_panic n e d primes :
  wf_uint n -> wf_uint e -> wf_uint d -> Forall wf_uint primes ->
  Z.odd (uval n) = true -> (2 <= length primes)%nat ->
  Forall (fun p => uval p <> 1 /\ uprec p <= uprec d) primes ->
  (exists k, from_components n e d primes = Ok k) \/
  (exists err, from_components n e d primes = Err err).
Proof.
  intros Wn We Wd WF Ho HL HP.
  assert (HP' : Forall (fun p => uprec p <= uprec d) primes)
    by (eapply Forall_impl; [|exact HP]; cbv beta; tauto).
  rewrite fc_unfold by auto. cbv zeta.
  set (k := mkPriv (mkPub n e (mkMP n)) d primes None).
  destruct (validate_total k (mk_wf_pub _ _ Wn We Ho) Wd WF)
    as [(err & E & _)|[(E & _)|[(E & _)|(U & P & M & T)]]]; try (rewrite E; cbn [bind]; eauto; fail).
  destruct T as [[E G]|(l1 & p & l2 & El & _ & [(E & [L|L])|(E & _)])].
  - left. destruct (c27_exact n e d primes) as [_ Q]; auto.
    destruct Q as (k' & Q).
    + apply (validate_exact k (mk_wf_pub _ _ Wn We Ho) Wd WF) in E. destruct E as (A & B & C).
      split; [auto|split; auto]. eapply Forall_impl; [|exact C]. cbv beta. tauto.
    + rewrite fc_unfold in Q by auto. cbv zeta in Q. fold k in Q. eauto.
  - exfalso. change (sk_primes k) with primes in El. rewrite El in HP. apply Forall_app_cons in HP.
    change (uprec (sk_d k)) with (uprec d) in L. destruct Wd as (_ & ? & _). lia.
  - exfalso. change (sk_primes k) with primes in El. rewrite El in HP. apply Forall_app_cons in HP. tauto.
  - rewrite E. cbn [bind]. eauto.
Qed.

(** What an accepted key satisfies. *)
Lemma c27_result n e d primes k :
  wf_uint n -> wf_uint e -> wf_uint d -> Forall wf_uint primes ->
  Z.odd (uval n) = true -> (2 <= length primes)%nat ->
  from_components n e d primes = Ok k ->
  pk_n (sk_pub k) = n /\ pk_e (sk_pub k) = e /\ sk_d k = d /\ sk_primes k = primes /\
  validate k = Ok tt /\
  (uprec n <= uprec d -> sane_priv k) /\
  (uprec n <= uprec d -> Forall prime (map uval primes) -> NoDup (map uval primes) ->
   product (map uval primes) < 2 ^ uprec n -> good_priv k) /\
  (forall p q rest, primes = p :: q :: rest ->
     (sk_pre k <> None <-> Z.gcd (uval p) (uval q) = 1)).
Proof.
  intros Wn We Wd WF Ho HL H.
  destruct (fc_ok _ _ _ _ _ Wn We Wd WF Ho HL H) as (HC & HV & E1 & E2 & E3 & PC).
  assert (W : wf_pub (sk_pub k)) by (rewrite E1; apply mk_wf_pub; auto).
  assert (N1 : 1 < uval n) by (destruct HC as ((_ & _ & _ & A & B & _) & _); lia).
  assert (S1 : uprec n <= uprec d -> sane_priv k).
  { intros L. unfold sane_priv. split; [auto|]. rewrite E2, E3, E1. cbn [pk_n]. auto 10. }
  split; [rewrite E1; auto|]. split; [rewrite E1; auto|]. split; [auto|]. split; [auto|].
  split; [auto|]. split; [auto|]. split.
  { intros L HP HD HB. unfold good_priv. rewrite E2, E3. split; [auto|]. split; [auto|]. split; [auto|].
    pose proof (validate_valid k W) as V. rewrite E2, E3 in V.
    assert (En : pk_n (sk_pub k) = n) by (rewrite E1; auto).
    split; [apply V; auto; rewrite En; auto|]. rewrite En. auto. }
  intros p q rest H0. split.
  - destruct (fc_validated n e d primes Wn We Wd WF Ho HL HC) as (E & p' & q' & r' & EP & T).
    rewrite E in H. rewrite H0 in EP. injection EP as <- <- <-.
    destruct T as [(_ & T)|(_ & _ & [(G & k' & _ & T & N)|(G & T)])]; rewrite T in H.
    + discriminate.
    + auto.
    + injection H as <-. intros N. elim N. reflexivity.
  - destruct (fc_validated n e d primes Wn We Wd WF Ho HL HC) as (E & p' & q' & r' & EP & T).
    rewrite E in H. rewrite H0 in EP. injection EP as <- <- <-. intros G0.
    destruct T as [(_ & T)|(_ & _ & [(G & k' & _ & T & N)|(G & T)])]; rewrite T in H.
    + discriminate.
    + injection H as <-. auto.
    + contradiction.
Qed.

Lemma c27_prime_one n e d one n' :
  wf_uint n -> wf_uint e -> wf_uint d -> wf_uint one -> wf_uint n' ->
  public_usable (uval n) (uval e) (uprec n) -> uval one = 1 -> uval n' = uval n ->
  from_components n e d [one; n'] = Panic.
Proof.
  intros Wn We Wd Wo Wn' U E1 E2. pose proof U as (_ & Ho & _ & A & B & _).
  rewrite fc_unfold by (auto; simpl; lia). cbv zeta.
  set (k := mkPriv (mkPub n e (mkMP n)) d [one; n'] None).
  assert (WF : Forall wf_uint [one; n']) by (constructor; [auto|constructor; [auto|constructor]]).
  assert (PP : product (map uval (sk_primes k)) mod 2 ^ uprec n = uval n).
  { cbn [sk_primes k map]. rewrite !product_cons, E1, E2. cbn [product fold_right].
    rewrite Z.mul_1_l, Z.mul_1_r. apply Z.mod_small. apply Wn. }
  destruct (validate_total k (mk_wf_pub _ _ Wn We Ho) Wd WF)
    as [(err & E & _ & T)|[(E & _ & T)|[(E & _ & _ & T)|(_ & _ & _ & T)]]].
  - contradiction.
  - exfalso. inversion T as [? ? X|? ? T2]; subst; [congruence|].
    inversion T2 as [? ? X|? ? T3]; subst; [lia|inversion T3].
  - contradiction.
  - destruct T as [[_ T]|(l1 & p & l2 & El & G & T)].
    + inversion T as [|? ? (_ & X & _) _]; contradiction.
    + destruct l1 as [|x l1].
      * cbn [sk_primes k app] in El. injection El as <- El.
        destruct T as [(E & _)|(E & X & _)]; [rewrite E; reflexivity|].
        exfalso. apply X. right. auto.
      * cbn [sk_primes k app] in El. injection El as <- El.
        inversion G as [|? ? (_ & X & _) _]. contradiction.
Qed.

Lemma c27_wide_prime n e d primes :
  wf_uint n -> wf_uint e -> wf_uint d -> Forall wf_uint primes ->
  Z.odd (uval n) = true -> (2 <= length primes)%nat ->
  (exists p, In p (firstn 2 primes) /\ uprec d < uprec p) ->
  components_ok n e d primes ->
  from_components n e d primes = Panic.
Proof.
  intros Wn We Wd WF Ho HL (p & I & L) HC.
  destruct (fc_validated n e d primes Wn We Wd WF Ho HL HC) as (E & p' & q' & r' & EP & T).
  rewrite E. subst primes. cbn [firstn In] in I.
  destruct T as [(_ & T)|(A & B & _)]; auto.
  destruct I as [<-|[<-|[]]]; lia.
Qed.
