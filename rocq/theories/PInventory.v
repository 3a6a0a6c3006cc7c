(** Lemmas for PropInventory.v: the complete list of what each function gives back. *)
From Coq Require Import ZArith Znumtheory List Bool Lia.
From Coq Require Import Init.Byte.
From Verif Require Import Base Bigint BytesLemmas NumTheory SpecRFC BigintLemmas MHash MPad MMgf MPkcs1 MOaep MPss MRsa MKey
  MApi MDer MEncoding MResidue MResidueSig KeyDefs SpecRng SpecKey SpecDer SpecResidue SpecInventory PPad PMgf PPkcs1 PPss PRsa
  POaep PKey PApi PEnc PSig PHist PEncoding PCodec PWrapEnc PResidue PResidueSig.
Import ListNotations.
Local Open Scope Z_scope.

Lemma inv_bind {A B} (m : holding A) (k : A -> holding B) :
  inventory (zbind m k) =
  inventory m ++ match outcome_of m with Ok a => inventory (k a) | _ => [] end.
Proof.
  unfold inventory, heap, outcome_of, zbind. destruct (snd m) as [a| | |]; cbn [fst]; rewrite ?app_nil_r; auto.
  destruct (k a) as (t & r). cbn [fst]. apply map_app.
Qed.
Lemma inv_own {A} f (m : holding A) : inventory (owning f m) = inventory m ++ [fate_of f].
Proof. unfold inventory, heap, owning. cbn [fst]. apply map_app. Qed.
Lemma inv_lift {A} (o : outcome A) : inventory (z_lift o) = [].
Proof. reflexivity. Qed.
Lemma inv_ret {A} (a : A) : inventory (z_ret a) = [].
Proof. reflexivity. Qed.
Lemma inv_if_err {A} f (m : holding A) : inventory (owning_if_err f m) =
  inventory m ++ match outcome_of m with Err _ => [fate_of f] | _ => [] end.
Proof.
  unfold owning_if_err, outcome_of. destruct (snd m) eqn:E; rewrite ?app_nil_r; auto. apply inv_own.
Qed.
(** One step of a bind whose outcome is known. *)
Lemma inv_ok {A B} (m : holding A) (k : A -> holding B) a :
  outcome_of m = Ok a -> inventory (zbind m k) = inventory m ++ inventory (k a).
Proof. intros H. rewrite inv_bind, H. reflexivity. Qed.
Lemma inv_step {A B} (o : outcome A) (k : A -> holding B) a :
  o = Ok a -> inventory (zbind (z_lift o) k) = inventory (k a).
Proof. intros ->. rewrite inv_bind. reflexivity. Qed.

(** * The RSA operations *)

Lemma inv_pow x e N : wf_uint x -> wf_uint N -> 0 < uval N -> 0 <= uval e -> uval x < 2 ^ uprec N ->
  inventory (z_pow_mod_params x e (mkMP N)) = power_list (uval N) (uval x) (uval e).
Proof.
  intros Wx WN N0 E0 L. unfold z_pow_mod_params.
  pose proof (reduce_vartime_ok x N Wx WN N0) as RV. rewrite (Z.mod_small (uval x) (2 ^ uprec N)) in RV by (destruct Wx; lia).
  rewrite (inv_ok _ _ (mkMF (uval x mod uval N) (mkMP N))) by (rewrite zr_reduce; exact RV).
  assert (RI : inventory (z_reduce_vartime x (mkMP N)) = kept [uval x mod uval N; uval x; uval N]).
  { unfold z_reduce_vartime. cbv zeta. cbn [mp_modulus]. rewrite inv_own.
    assert (E : (if uprec x <? uprec N then widen x (uprec N)
                 else if uprec x =? uprec N then Ok x else shorten x (uprec N)) = Ok (mkU (uval x) (uprec N))).
    { destruct Wx as (Hv & H1 & H2). destruct WN as (HvN & H1N & H2N).
      destruct (Z.ltb_spec (uprec x) (uprec N)); [apply widen_ok; try lia; split; auto|].
      destruct (Z.eqb_spec (uprec x) (uprec N)) as [E|].
      - rewrite <- E. destruct x; reflexivity.
      - rewrite shorten_ok by lia. rewrite Z.mod_small by lia. reflexivity. }
    rewrite (inv_step _ _ _ E), inv_own.
    assert (U : urem (mkU (uval x) (uprec N)) N = Ok (mkU (uval x mod uval N) (uprec N))).
    { unfold urem. destruct (Z.eqb_spec (uval N) 0); [lia|]. reflexivity. }
    rewrite (inv_step _ _ _ U), inv_own.
    pose proof (Z.mod_pos_bound (uval x) (uval N) N0) as B. destruct WN as (HvN & H1N & H2N).
    rewrite (inv_step (widen _ _) _ (mkU (uval x mod uval N) (uprec N))).
    2:{ unfold mp_prec. cbn [mp_modulus]. apply widen_ok; [apply wf_mk; cbn; lia|cbn; lia|auto]. }
    reflexivity. }
  rewrite RI, !inv_own, inv_ret. cbn [app fate_of content_of mf_pow mf_res mf_params]. unfold mp_val. cbn [mp_modulus].
  rewrite powm_spec by lia. rewrite pow_mod_base by lia. reflexivity.
Qed.

Lemma inv_mul a b N : uprec a = uprec N -> uprec b = uprec N ->
  inventory (z_mul_mod_params a b (mkMP N)) = kept [(uval a * uval b) mod uval N].
Proof.
  intros Ha Hb. unfold z_mul_mod_params, mf_new, mp_prec, mp_val. cbn [mp_modulus].
  rewrite Ha, Hb, Z.eqb_refl. rewrite !(inv_step _ _ _ eq_refl), inv_own.
  cbn. unfold mp_val. cbn. rewrite <- Zmult_mod. reflexivity.
Qed.

Lemma inv_crt c pc p q d bits qinv :
  2 < uval p -> 2 < uval q -> uprec c = bits ->
  pc = mkPre (mkU (d mod (uval p - 1)) bits) (mkU (d mod (uval q - 1)) bits)
             (mkMF qinv (mkMP (mkU (uval p) bits)))
             (mkMP (mkU (uval p) bits)) (mkMP (mkU (uval q) bits)) ->
  inventory (z_crt_pow c pc q) =
  crt_list (uval p) (uval q) (d mod (uval p - 1)) (d mod (uval q - 1)) qinv (uval c).
Proof.
  intros P2 Q2 Hcb ->. unfold z_crt_pow. cbn [pc_p_params pc_q_params pc_dp pc_dq pc_qinv].
  unfold mf_new, mp_prec, mp_val. cbn [mp_modulus uprec uval]. rewrite Hcb, Z.eqb_refl.
  rewrite (inv_step _ _ _ eq_refl), inv_own. cbv zeta. rewrite (inv_step _ _ _ eq_refl), !inv_own.
  unfold mf_pow, mf_retrieve, mf_sub, mf_mul, mp_val, mp_prec. cbn [mf_res mf_params mp_modulus uval uprec].
  rewrite Z.eqb_refl, (inv_step _ _ _ eq_refl), !inv_own, inv_ret.
  cbn [app fate_of content_of mf_res mf_params mp_modulus uval uprec].
  pose proof (Z.mod_pos_bound d (uval p - 1) ltac:(lia)).
  pose proof (Z.mod_pos_bound d (uval q - 1) ltac:(lia)).
  rewrite !powm_spec by lia. rewrite !pow_mod_base by lia. unfold crt_list, kept. cbn [map].
  rewrite !Zminus_mod_idemp_r, Zmult_mod_idemp_r. reflexivity.
Qed.

(** The middle of [z_rsa_decrypt]. *)
Definition z_private_pow (k : privkey) (c : uint) : holding uint :=
  match sk_pre k with
  | Some pc =>
      if (2 <? length (sk_primes k))%nat
      then owning (Plain (Int c)) (z_pow_mod_params c (sk_d k) (pk_params (sk_pub k)))
      else
        let~ _p := z_lift (get_idx (sk_primes k) 0) in
        let~ q := z_lift (get_idx (sk_primes k) 1) in
        z_crt_pow c pc q
  | None => owning (Plain (Int c)) (z_pow_mod_params c (sk_d k) (pk_params (sk_pub k)))
  end.

Lemma zr_private k c : outcome_of (z_private_pow k c) = private_pow k c.
Proof.
  unfold z_private_pow, private_pow. cbv zeta.
  destruct (sk_pre k); [|rewrite zr_own; apply zr_pow].
  destruct (2 <? length (sk_primes k))%nat; [rewrite zr_own; apply zr_pow|]. zr_step. zr_step. apply zr_crt.
Qed.

Lemma inv_private k c : good_priv k -> wf_uint c -> uprec c = uprec (sk_d k) -> uval c < uval (pk_n (sk_pub k)) ->
  private_power_list k (uval c) (inventory (z_private_pow k c)).
Proof.
  intros (Hpub & Hd & HF & HV & Hprec & Hpre) Hc Hcp Hcn.
  pose proof (odd_pos_n _ Hpub) as Hn0. pose proof Hpub as (Hn & He & Hpar & Hodd).
  assert (P : inventory (owning (Plain (Int c)) (z_pow_mod_params c (sk_d k) (pk_params (sk_pub k)))) =
              power_list (uval (pk_n (sk_pub k))) (uval c) (uval (sk_d k)) ++ kept [uval c]).
  { rewrite Hpar, inv_own, inv_pow; auto; [destruct Hd; lia|destruct Hn; lia]. }
  unfold private_power_list, z_private_pow. cbv zeta.
  destruct (sk_pre k) as [pc|] eqn:Epre; [|exact P].
  destruct (pre_consistent_inv k pc) as (p & q & rest & qinv & EP & H1); auto.
  cbv zeta in H1. destruct H1 as (A & B & C & D & F & G & X).
  rewrite EP in *. destruct rest as [|r rest]; [|exact P].
  pose proof HV as (HL & HP & HD & HNn & He0 & Hd0 & Hcong). cbn [map length] in *.
  change (2 <? 2)%nat with false. cbn [get_idx nth_error].
  rewrite !(inv_step _ _ _ eq_refl).
  inversion HP as [|? ? Pp HP2]; subst. inversion HP2 as [|? ? Pq HP3]; subst.
  assert (Ho : forall x, In x [uval p; uval q] -> Z.odd x = true)
    by (apply odd_factors; rewrite <- HNn; auto).
  assert (P2 : 2 < uval p) by (apply odd_prime_gt2; auto; apply Ho; simpl; auto).
  assert (Q2 : 2 < uval q) by (apply odd_prime_gt2; auto; apply Ho; simpl; auto).
  exists qinv. split; [exact F|]. split.
  { rewrite Z.mul_comm, G. apply Z.mod_small. lia. }
  apply inv_crt with (bits := uprec (sk_d k)); auto.
Qed.

Section Rng.
  Context {R : Type} (g : rng_ops R).

  Lemma inv_blind_loop fuel : forall st key r0 r ir st',
    rng_ok g -> wf_uint (pk_n key) -> 1 < uval (pk_n key) ->
    blind_loop g fuel st key = Ok (r, ir, st') ->
    exists zero rejected, (zero = [] \/ zero = [0] /\ uval r = 1) /\
      Forall (fun x => 0 < x < uval (pk_n key) /\ Z.gcd x (uval (pk_n key)) <> 1) rejected /\
      inventory (z_blind_loop g fuel st key r0) = kept (zero ++ rev (uval r0 :: rejected)).
  Proof.
    induction fuel as [|f IH]; intros st key r0 r ir st' G Wn N1 H; [discriminate|].
    cbn [blind_loop z_blind_loop] in *. rewrite inv_own.
    destruct (rng_mod g st (uval (pk_n key))) as [[v|] st1] eqn:E; [|discriminate].
    pose proof G as [_ G2]. assert (Rv : 0 <= v < uval (pk_n key)) by (apply G2 in E; [exact E|lia]). cbv zeta in *.
    set (rr := if uis_zero (mkU v (uprec (pk_n key))) then u_one_with (n_bits_precision key)
               else mkU v (uprec (pk_n key))) in *.
    assert (Hrr : uprec rr = uprec (pk_n key) /\ uval rr = if v =? 0 then 1 else v).
    { unfold rr, uis_zero. cbn [uval]. destruct (v =? 0); [|split; reflexivity].
      unfold u_one_with, n_bits_precision. cbn [uval uprec].
      destruct Wn as (? & ? & ?). rewrite prec_for_id by auto. split; reflexivity. }
    assert (ER : outcome_of (if uis_zero (mkU v (uprec (pk_n key)))
                  then owning (Plain (Int (mkU v (uprec (pk_n key))))) (z_ret (u_one_with (n_bits_precision key)))
                  else z_ret (mkU v (uprec (pk_n key)))) = Ok rr) by (unfold rr; destruct (uis_zero _); reflexivity).
    assert (EI : inventory (if uis_zero (mkU v (uprec (pk_n key)))
                  then owning (Plain (Int (mkU v (uprec (pk_n key))))) (z_ret (u_one_with (n_bits_precision key)))
                  else z_ret (mkU v (uprec (pk_n key)))) = kept (if v =? 0 then [0] else [])).
    { unfold uis_zero. cbn [uval]. destruct (Z.eqb_spec v 0) as [->|]; reflexivity. }
    rewrite (inv_ok _ _ rr ER), EI. clear ER EI. destruct Hrr as (P & V).
    unfold uinv_mod in *. rewrite P, Z.eqb_refl in *.
    destruct (zinv (uval rr) (uval (pk_n key))) as [x|] eqn:EZ; cbn [bind] in H.
    - rewrite (inv_step _ _ _ eq_refl), inv_ret.
      assert (r = rr) as -> by congruence. exists (if v =? 0 then [0] else []), []. split.
      { destruct (v =? 0); [right|left; reflexivity]. split; [reflexivity|exact V]. }
      split; [constructor|]. rewrite app_nil_r. unfold kept. rewrite map_app. reflexivity.
    - rewrite (inv_step _ _ _ eq_refl).
      destruct (IH st1 key rr r ir st' G Wn N1 H) as (zero & rej & Z0 & Fr & I). rewrite I.
      assert (NG : Z.gcd (uval rr) (uval (pk_n key)) <> 1).
      { intros GG. destruct (zinv_unit _ _ N1 GG) as (y & Y). congruence. }
      destruct (Z.eqb_spec v 0) as [E0|E0].
      { exfalso. apply NG. rewrite V. apply Z.gcd_1_l. }
      exists zero, (uval rr :: rej). split; [exact Z0|]. split.
      { constructor; [|exact Fr]. split; [rewrite V; lia|exact NG]. }
      cbn [kept map app]. unfold kept. cbn [rev]. rewrite !map_app. cbn [map fate_of content_of]. rewrite !app_assoc. reflexivity.
  Qed.

  Lemma inv_blind fuel st k c b u : rng_ok g -> wf_pub k -> 1 < uval (pk_n k) -> uprec c = uprec (pk_n k) ->
    blind g fuel st k c (pk_params k) = Ok (b, u) ->
    let n := uval (pk_n k) in
    exists zero rejected r,
      (zero = [] \/ zero = [0] /\ r = 1) /\ Forall (fun x => 0 < x < n /\ Z.gcd x n <> 1) rejected /\
      0 < r < n /\ 0 <= uval u < n /\ (r * uval u) mod n = 1 /\
      let x := r ^ uval (pk_e k) mod n in
      b = mkU ((uval c * x) mod n) (uprec (pk_n k)) /\ uprec u = uprec (pk_n k) /\
      inventory (z_blind g fuel st k c (pk_params k)) =
        kept (n :: zero ++ rev (1 :: rejected)) ++ power_list n r (uval (pk_e k)) ++ kept [(uval c * x) mod n] ++
        [Wiped (Number x)] ++ kept [r].
  Proof.
    intros G W N1 Pc H n. pose proof W as (Wn & We & Wp & _).
    rewrite blind_ok in H by auto.
    destruct (blind_loop g fuel st k) as [[[r ir] st']| | |] eqn:L; try discriminate.
    assert (EB : b = mkU ((uval c * (uval r ^ uval (pk_e k) mod uval (pk_n k))) mod uval (pk_n k)) (uprec (pk_n k))
                 /\ ir = u) by (split; congruence). destruct EB as (EB & ->). clear H.
    destruct (blind_loop_ok g fuel st k r u st' G Wn N1 L) as (B1 & B2 & B3 & B4 & B5).
    destruct (inv_blind_loop fuel st k (u_one_with (n_bits_precision k)) r u st' G Wn N1 L) as (zero & rej & Z0 & Fr & I).
    assert (R0 : 0 < uval r < n).
    { unfold n. destruct (Z.eq_dec (uval r) 0) as [E|]; [|lia]. rewrite E, Z.mul_0_l, Zmod_0_l in B5. discriminate. }
    exists zero, rej, (uval r). split; [exact Z0|]. split; [exact Fr|]. split; [exact R0|]. split; [exact B4|].
    split; [exact B5|]. cbv zeta. split; [exact EB|]. split; [exact B2|].
    assert (Wr : wf_uint r) by (destruct Wn as (V & Q1 & Q2); split; [|rewrite B1; auto]; rewrite B1; lia).
    assert (E0 : 0 <= uval (pk_e k)) by (destruct We; lia).
    assert (L2 : uval r < 2 ^ uprec (pk_n k)) by (destruct Wn; lia).
    unfold z_blind. cbv zeta. rewrite Wp. cbn [mp_modulus].
    rewrite (inv_ok _ _ tt) by (rewrite zr_own, zr_lift; unfold ueqb; rewrite Z.eqb_refl; reflexivity).
    rewrite inv_own, inv_lift.
    rewrite (inv_ok _ _ (r, u, st')) by (rewrite zr_blind_loop; exact L).
    rewrite I, inv_own.
    pose proof (pow_mod_params_small r (pk_e k) (pk_n k) Wr Wn ltac:(lia) E0 L2) as PW.
    rewrite (inv_ok _ _ _ (eq_trans (zr_pow _ _ _) PW)), inv_pow by (auto; lia).
    set (x := uval r ^ uval (pk_e k) mod uval (pk_n k)) in *.
    pose proof (mul_mod_params_ok c (mkU x (uprec (pk_n k))) (pk_n k) Pc eq_refl) as MU. cbn [uval] in MU.
    rewrite (inv_ok _ _ (mkU ((uval c * x) mod uval (pk_n k)) (uprec (pk_n k)))) by (rewrite zr_own, zr_mul; exact MU).
    rewrite inv_own, inv_mul by auto. cbn [uval uprec]. unfold n_bits_precision. rewrite B2, Z.eqb_refl.
    unfold assert_. rewrite !(inv_step _ _ _ eq_refl), inv_ret.
    cbn [fate_of content_of uval kept map app]. unfold kept. cbn [map app]. fold n. rewrite <- !app_assoc. reflexivity.
  Qed.

  (** The raw operation: what it frees when it succeeds. *)
  Lemma inv_dec fuel rng k c m : (rng <> None -> rng_ok g) -> good_priv k -> wf_uint c ->
    uprec c = uprec (pk_n (sk_pub k)) -> rsa_decrypt g fuel rng k c = Ok m ->
    private_list rng k (uval c) (inventory (z_rsa_decrypt g fuel rng k c)).
  Proof.
    intros G K Wc Pc H. pose proof K as (W & Wd & _ & HV & Hprec & _). pose proof (good_gt1 k K) as N1.
    pose proof W as (Wn & We & Wp & _).
    assert (D64 : uprec (sk_d k) mod 64 = 0) by (destruct Wd as (_ & _ & ?); auto).
    rewrite rsa_decrypt_unfold in H. unfold z_rsa_decrypt. cbv zeta.
    destruct (uleb (pk_n (sk_pub k)) c) eqn:U; [discriminate|]. cbv zeta in H.
    unfold uleb in U. apply Z.leb_gt in U.
    set (n := uval (pk_n (sk_pub k))) in *. set (d := uval (sk_d k)) in *.
    assert (TAIL : forall c' ir, wf_uint c' -> uprec c' = uprec (sk_d k) -> uval c' < n ->
      (forall i, ir = Some i -> uprec i = uprec (pk_n (sk_pub k))) ->
      let m' := RSADP n d (uval c') in
      exists l0, private_power_list k (uval c') l0 /\
      inventory (let~ m := z_private_pow k c' in
                 owning (Plain (Int m))
                   (let~ m := z_lift (shorten m (mp_prec (pk_params (sk_pub k)))) in
                    match ir with
                    | Some ir => owning (Plain (Int ir)) (owning (Plain (Int m)) (z_unblind m ir (pk_params (sk_pub k))))
                    | None => z_ret m
                    end)) =
      l0 ++ match ir with Some i => kept [(m' * uval i) mod n; m'; uval i; m'] | None => kept [m'] end).
    { intros c' ir Wc' Pc' Lc' Hir m'. exists (inventory (z_private_pow k c')).
      split; [apply inv_private; auto|].
      destruct (private_pow_ok k c' K Wc' Pc' Lc') as (p & E & Hp). fold n d m' in E.
      rewrite (inv_ok _ _ _ (eq_trans (zr_private _ _) E)). f_equal. rewrite inv_own.
      rewrite Wp. unfold mp_prec. cbn [mp_modulus].
      pose proof Wn as (Hv & Q1 & Q2).
      assert (Hm : 0 <= m' < n) by (apply Z.mod_pos_bound; unfold n; lia).
      rewrite (inv_step _ _ (mkU m' (uprec (pk_n (sk_pub k))))).
      2:{ rewrite shorten_ok by (cbn; auto). cbn [uval]. rewrite Z.mod_small by (unfold n in Hm; lia). reflexivity. }
      destruct ir as [i|]; [|reflexivity]. specialize (Hir i eq_refl). rewrite !inv_own.
      unfold z_unblind, assert_, mp_prec. cbn [mp_modulus uprec]. rewrite Hir, Z.eqb_refl.
      rewrite !(inv_step _ _ _ eq_refl), inv_mul by auto. reflexivity. }
    destruct rng as [st|].
    - assert (G' : rng_ok g) by (apply G; discriminate).
      apply bind_ok in H. destruct H as ((c' & ir) & H1 & H).
      apply bind_ok in H1. destruct H1 as ((b & u) & H1 & H2).
      destruct (inv_blind fuel st (sk_pub k) c b u G' W N1 Pc H1)
        as (zero & rej & r & Z0 & Fr & R0 & I0 & RI & EB & Pu & IB). cbv zeta in EB, IB. fold n in Fr, R0, I0, RI, EB, IB.
      set (x := r ^ uval (pk_e (sk_pub k)) mod n) in *. set (b' := (uval c * x) mod n) in *.
      assert (Hb : 0 <= b' < n) by (apply Z.mod_pos_bound; unfold n; lia).
      assert (Wb : wf_uint b).
      { rewrite EB. destruct Wn as (? & ? & ?). apply wf_mk; auto. unfold n in *. lia. }
      assert (WI : widen b (uprec (sk_d k)) = Ok (mkU b' (uprec (sk_d k)))).
      { rewrite widen_ok; auto; rewrite EB; [reflexivity|exact Hprec]. }
      destruct (TAIL (mkU b' (uprec (sk_d k))) (Some u)) as (l0 & P0 & I).
      { replace b' with (uval b) by (rewrite EB; reflexivity). apply widen_wf; auto. rewrite EB. exact Hprec. }
      { reflexivity. } { cbn [uval]. lia. } { intros i Hi. congruence. }
      cbn [uval] in P0, I. unfold private_list. cbv zeta. fold n d.
      exists zero, rej, r, (uval u), l0. split; [exact Z0|]. split; [exact Fr|]. split; [exact R0|].
      split; [exact I0|]. split; [exact RI|]. fold x b'. split; [exact P0|].
      rewrite (inv_ok _ _ (mkU b' (uprec (sk_d k)), Some u)).
      2:{ zr. rewrite zr_blind, H1. cbn [bind]. zr. rewrite WI. reflexivity. }
      rewrite (inv_ok _ _ (b, u)) by (rewrite zr_blind; exact H1). rewrite IB.
      rewrite (inv_ok _ _ (mkU b' (uprec (sk_d k)))) by (zr; exact WI). rewrite inv_own, inv_lift, inv_ret.
      cbv beta iota. fold (z_private_pow k (mkU b' (uprec (sk_d k)))). etransitivity; [apply f_equal; exact I|].
      rewrite EB. cbn [fate_of content_of uval kept map app]. unfold kept. cbn [map app]. rewrite <- !app_assoc. reflexivity.
    - destruct (TAIL (mkU (uval c) (uprec (sk_d k))) None) as (l0 & P0 & I).
      { apply widen_wf; auto. rewrite Pc. exact Hprec. } { reflexivity. } { exact U. } { intros i Hi. discriminate. }
      cbn [uval] in P0, I. exists l0. split; [exact P0|]. fold n d.
      rewrite (inv_ok _ _ (mkU (uval c) (uprec (sk_d k)), None)).
      2:{ zr. rewrite widen_ok; auto. rewrite Pc. exact Hprec. }
      rewrite inv_bind, inv_lift. cbn [app]. rewrite zr_lift.
      rewrite widen_ok by (auto; rewrite Pc; exact Hprec). rewrite inv_ret. cbn [app].
      exact I.
  Qed.

  Lemma inv_check fuel rng k c m : (rng <> None -> rng_ok g) -> good_priv k -> wf_uint c ->
    uprec c = uprec (pk_n (sk_pub k)) -> rsa_decrypt_and_check g fuel k rng c = Ok m ->
    m = mkU (RSADP (uval (pk_n (sk_pub k))) (uval (sk_d k)) (uval c)) (uprec (pk_n (sk_pub k))) /\
    wf_uint m /\ checked_list rng k (uval c) (inventory (z_rsa_decrypt_and_check g fuel k rng c)).
  Proof.
    intros G K Wc Pc H. pose proof (good_pub k K) as W. pose proof (good_gt1 k K) as N1.
    pose proof W as (Wn & We & Wp & _).
    pose proof H as H'. unfold rsa_decrypt_and_check in H'. apply bind_ok in H'. destruct H' as (m' & D & H').
    apply bind_ok in H'. destruct H' as (ch & C & H'). destruct (negb (ueqb c ch)) eqn:Q; [discriminate|].
    assert (m' = m) as -> by congruence. clear H'.
    destruct (rsa_decrypt_prec g _ _ _ _ _ W D) as (Wm & Pm).
    assert (Em : m = mkU (RSADP (uval (pk_n (sk_pub k))) (uval (sk_d k)) (uval c)) (uprec (pk_n (sk_pub k)))).
    { assert (Lc : uval c < uval (pk_n (sk_pub k))).
      { rewrite rsa_decrypt_unfold in D. unfold uleb in D.
        destruct (Z.leb_spec (uval (pk_n (sk_pub k))) (uval c)); [discriminate|lia]. }
      destruct rng as [st|].
      - rewrite rsa_decrypt_blind in D by (auto; apply G; discriminate).
        destruct (blind_loop _ _ _ _); congruence.
      - rewrite rsa_decrypt_plain in D; auto; [congruence|]. rewrite Pc. apply K. }
    split; [exact Em|]. split; [exact Wm|].
    exists (inventory (z_rsa_decrypt g fuel rng k c)). split; [eapply inv_dec; eauto|].
    unfold z_rsa_decrypt_and_check.
    rewrite (inv_ok _ _ m) by (rewrite zr_dec; exact D). f_equal.
    rewrite inv_if_err.
    rewrite zr_bind, zr_enc, C. cbn [bind]. rewrite zr_own, Q, zr_ret, app_nil_r.
    rewrite (inv_ok _ _ ch) by (rewrite zr_enc; exact C). rewrite inv_own.
    unfold z_rsa_encrypt. rewrite Wp.
    assert (Vc : uval ch = uval c).
    { apply negb_false_iff in Q. unfold ueqb in Q. apply Z.eqb_eq in Q. auto. }
    rewrite inv_pow; auto; [|lia|destruct We; lia|destruct Wm as (V & _); rewrite Pm in V; lia].
    rewrite ?Q, inv_ret. cbn [app fate_of content_of]. rewrite Vc. rewrite Em. reflexivity.
  Qed.

  Lemma inv_z_pad u n : inventory (z_uint_to_zeroizing_be_pad u n) = wiped_twice (uprec u) (uval u).
  Proof.
    unfold z_uint_to_zeroizing_be_pad. rewrite !inv_own. unfold wiped_twice, octets_of. rewrite i2osp_be_bytes. reflexivity.
  Qed.
  Lemma inv_be_pad u n : inventory (z_uint_to_be_pad u n) =
    kept_texts [octets_of (uprec u) (uval u)] ++ kept [uval u].
  Proof. unfold z_uint_to_be_pad. rewrite !inv_own. unfold octets_of. rewrite i2osp_be_bytes. reflexivity. Qed.

  (** * Decryption *)

  Lemma inv_decrypt_with fuel rng k ct zu :
    (rng <> None -> rng_ok g) -> good_priv k ->
    8 * Z.of_nat (length ct) <= uprec (pk_n (sk_pub k)) -> os2ip ct < uval (pk_n (sk_pub k)) ->
    blinding_succeeds g (uval (pk_n (sk_pub k))) rng fuel ->
    let M := RSADP (uval (pk_n (sk_pub k))) (uval (sk_d k)) (os2ip ct) in
    exists l, checked_list rng k (os2ip ct) l /\
      inventory (z_decrypt_with g fuel rng k ct zu) =
      l ++ wiped_twice (uprec (pk_n (sk_pub k))) M ++ inventory (zu (i2osp M (key_size (sk_pub k)))) ++ kept [os2ip ct].
  Proof.
    intros G K L C B M. pose proof (good_pub k K) as W. pose proof W as (Wn & _).
    pose proof Wn as (Vn & P1 & P2).
    assert (F : from_be_slice ct (n_bits_precision (sk_pub k)) = Ok (mkU (os2ip ct) (uprec (pk_n (sk_pub k)))))
      by (apply from_be_slice_fits; auto).
    set (c := mkU (os2ip ct) (uprec (pk_n (sk_pub k)))) in *.
    assert (Wc : wf_uint c) by (apply os2ip_wf; auto).
    destruct (rsa_decrypt_and_check_good g fuel rng k c G K Wc eq_refl C) as (D & _). specialize (D B).
    change (uval c) with (os2ip ct) in D. fold M in D.
    pose proof (good_gt1 k K) as G1.
    assert (HM : 0 <= M < uval (pk_n (sk_pub k))) by (apply Z.mod_pos_bound; clear - G1; lia).
    assert (WM : wf_uint (mkU M (uprec (pk_n (sk_pub k))))) by (apply wf_mk; auto; clear - HM Vn; lia).
    destruct (inv_check fuel rng k c _ G K Wc eq_refl D) as (_ & _ & CL).
    exists (inventory (z_rsa_decrypt_and_check g fuel k rng c)). split; [exact CL|].
    assert (PD : uint_to_zeroizing_be_pad (mkU M (uprec (pk_n (sk_pub k)))) (key_size (sk_pub k))
                 = Ok (i2osp M (key_size (sk_pub k)))).
    { rewrite uint_to_zeroizing_be_pad_eq, i2osp_be_bytes. apply uint_to_be_pad_ok; auto.
      cbn [uval]. pose proof (key_n_lt _ W). lia. }
    unfold z_decrypt_with. cbv zeta. rewrite (inv_step _ _ _ F), inv_own.
    rewrite (inv_ok _ _ _ (eq_trans (zr_check _ _ _ _ _) D)).
    rewrite (inv_ok _ _ _ (eq_trans (zr_z_pad _ _) PD)), inv_z_pad. rewrite <- !app_assoc. reflexivity.
  Qed.

  (** * Signatures *)

  Lemma inv_sign_em fuel rng k em sig : (rng <> None -> rng_ok g) -> good_priv k ->
    outcome_of (z_sign_em g fuel rng k em) = Ok sig ->
    let S := RSADP (uval (pk_n (sk_pub k))) (uval (sk_d k)) (os2ip em) in
    exists l, checked_list rng k (os2ip em) l /\
      inventory (z_sign_em g fuel rng k em) =
      l ++ wiped_twice (uprec (pk_n (sk_pub k))) S ++ kept [os2ip em] ++ kept_texts [em].
  Proof.
    intros G K H S. pose proof (good_pub k K) as W. pose proof (good_gt1 k K) as G1.
    rewrite zr_sign_em in H. destruct (decrypt_core_length g fuel rng k em sig W H) as (L & F & V & E).
    pose proof W as (Wn & _). pose proof Wn as (_ & P1 & P2).
    assert (FB : from_be_slice em (n_bits_precision (sk_pub k)) = Ok (mkU (os2ip em) (uprec (pk_n (sk_pub k)))))
      by (apply from_be_slice_fits; auto).
    unfold decrypt_core in H. rewrite FB in H. cbn [bind] in H.
    apply bind_ok in H. destruct H as (s & D & P).
    set (c := mkU (os2ip em) (uprec (pk_n (sk_pub k)))) in *.
    assert (Wc : wf_uint c) by (apply os2ip_wf; auto).
    destruct (inv_check fuel rng k c s G K Wc eq_refl D) as (Es & _ & CL).
    exists (inventory (z_rsa_decrypt_and_check g fuel k rng c)). split; [exact CL|].
    unfold z_sign_em. cbv zeta. rewrite inv_own, (inv_step _ _ _ FB), inv_own.
    rewrite (inv_ok _ _ _ (eq_trans (zr_check _ _ _ _ _) D)), inv_z_pad, Es. rewrite <- !app_assoc. reflexivity.
  Qed.
End Rng.

(** * Mask generation *)

Lemma inv_mgf_loop h seed : (0 < h_size h)%nat -> forall fuel todo don c nb,
  (length todo <= fuel)%nat -> (length todo <= nb * h_size h)%nat -> (nb * h_size h < length todo + h_size h)%nat ->
  inventory (z_mgf1_xor_loop fuel (don ++ todo) (length don) (be_bytes 4 (Z.of_nat c)) (digest_new h) seed) =
  flat_map (fun i => let x := seed ++ i2osp (Z.of_nat i) 4 in kept_texts [h_fun h x; x]) (seq c nb).
Proof.
  intros Hh. induction fuel as [|f IH]; intros todo don c nb Hf Hn Hn2.
  - destruct todo; [|simpl in Hf; lia]. cbn [z_mgf1_xor_loop]. rewrite app_nil_r, Nat.leb_refl.
    destruct nb; [reflexivity|cbn [length] in Hn2; lia].
  - destruct todo as [|t todo].
    { cbn [z_mgf1_xor_loop]. rewrite app_nil_r, Nat.leb_refl. destruct nb; [reflexivity|cbn [length] in Hn2; lia]. }
    cbn [z_mgf1_xor_loop].
    destruct (Nat.leb_spec (length (don ++ t :: todo)) (length don)) as [H|_].
    { rewrite app_length in H; simpl in H; lia. }
    pose proof (mgf_input seed (Z.of_nat c)) as M. cbv zeta in M |- *.
    destruct (copy_into (vec x00 (length seed + 4)) 0 (length seed) seed) as [di| | |]; try discriminate.
    cbn [bind] in M. rewrite (inv_step _ _ _ eq_refl), (inv_step _ _ _ M).
    unfold digest_update. cbn [d_fn d_pending digest_new app].
    unfold digest_finalize_reset. cbn [d_fn d_pending].
    set (D := h_fun h (seed ++ be_bytes 4 (Z.of_nat c))).
    assert (LD : length D = h_size h) by apply h_len.
    rewrite xor_block_spec.
    destruct nb as [|nb]; [simpl in Hn; lia|].
    assert (exists td, td = t :: todo) as [td Etd] by eauto.
    assert (Lt : (0 < length td)%nat) by (rewrite Etd; cbn [length]; lia). rewrite <- Etd in *.
    rewrite inv_bind, !inv_own, inv_lift, !zr_own, zr_lift. cbv beta iota.
    rewrite inc_counter_be.
    replace (length don + Nat.min (length td) (length D))%nat
      with (length (don ++ xor_octets td D)) by (rewrite app_length, xor_octets_length; lia).
    rewrite app_assoc.
    replace (Z.of_nat c + 1) with (Z.of_nat (S c)) by lia.
    change (mkDigest h []) with (digest_new h).
    rewrite (IH _ _ _ nb).
    + cbn [seq flat_map app fate_of content_of]. cbv zeta. unfold D. rewrite i2osp_be_bytes. reflexivity.
    + rewrite skipn_length, LD. lia.
    + rewrite skipn_length, LD. simpl in Hn. lia.
    + rewrite skipn_length, LD. cbn [Nat.mul] in Hn2. lia.
Qed.

Lemma inv_mgf h out seed : (0 < h_size h)%nat -> Z.of_nat (length out) <= 2 ^ 32 ->
  inventory (z_mgf1_xor out (digest_new h) seed) = mgf_list (h_fun h) (h_size h) seed (length out).
Proof.
  intros Hh Hl. unfold z_mgf1_xor, assert_.
  destruct (Z.leb_spec (Z.of_nat (length out)) (2 ^ 32)); [|lia]. rewrite (inv_step _ _ _ eq_refl).
  change [x00; x00; x00; x00] with (be_bytes 4 (Z.of_nat 0)).
  pose proof (inv_mgf_loop h seed Hh (length out) out [] 0 ((length out + h_size h - 1) / h_size h)) as E.
  simpl app in E. change (length (@nil byte)) with 0%nat in E. apply E; auto.
  - apply div_ceil_enough; auto.
  - pose proof (Nat.div_mod (length out + h_size h - 1) (h_size h) ltac:(lia)).
    pose proof (Nat.mod_upper_bound (length out + h_size h - 1) (h_size h) ltac:(lia)). lia.
Qed.

(** * Encoding of messages *)

Ltac inv_done := rewrite (inv_step _ _ _ eq_refl).

Lemma inv_internal {R} (g : rng_ops R) r msg hd L k zf seed r' res : rng_ok g ->
  (length msg + 2 * h_size hd + 2 <= k)%nat -> rng_fill g r (h_size hd) = (Some seed, r') ->
  let DB := h_fun hd L ++ repeat x00 (k - length msg - 2 * h_size hd - 2) ++ x01 :: msg in
  outcome_of (zf seed DB) = Ok res ->
  inventory (z_oaep_encrypt_internal g r msg (h_fun hd L) (h_size hd) k zf) = inventory (zf seed DB).
Proof.
  intros Hg Hlen Er DB0 HZ. unfold z_oaep_encrypt_internal. set (hs := h_size hd) in *.
  destruct (Nat.ltb_spec k (length msg + 2 * hs + 2)) as [|_]; [lia|].
  set (np := (k - length msg - 2 * hs - 2)%nat) in *. cbv zeta.
  assert (LS : length seed = hs) by (apply (proj1 Hg) in Er; auto).
  set (m := let~ (head, payload) := z_lift (split_at (vec x00 k) 1) in _).
  assert (EQ : inventory m = inventory (zf seed DB0) /\ exists x, outcome_of m = Ok x).
  { unfold m. clear m.
    replace (vec x00 k) with (vec x00 (1 + (hs + (hs + (np + (1 + length msg)))))) by (f_equal; lia).
    rewrite (vec_app x00 1). rewrite split_at_app by apply vec_length.
    rewrite zr_bind, zr_lift. cbn [bind]. inv_done.
    rewrite vec_app. rewrite split_at_app by apply vec_length.
    rewrite zr_bind, zr_lift. cbn [bind]. inv_done.
    rewrite vec_length. rewrite Er.
    rewrite usub_ok by lia. rewrite zr_bind, zr_lift. cbn [bind]. inv_done.
    rewrite usub_ok by lia. rewrite zr_bind, zr_lift. cbn [bind]. inv_done.
    rewrite vec_app. rewrite <- (app_nil_l (vec x00 hs ++ _)).
    rewrite copy_into_app; [|reflexivity|rewrite vec_length, h_len; auto|rewrite h_len; auto].
    rewrite zr_bind, zr_lift. cbn [bind app]. inv_done.
    rewrite usub_ok by lia. rewrite zr_bind, zr_lift. cbn [bind]. inv_done.
    rewrite usub_ok by lia. rewrite zr_bind, zr_lift. cbn [bind]. inv_done.
    rewrite vec_app. rewrite (vec_app x00 1). change (vec x00 1) with [x00].
    rewrite (app_assoc (h_fun hd _)). cbn [app].
    rewrite set_idx_app.
    2:{ rewrite app_length, h_len, vec_length. fold hs. lia. }
    rewrite zr_bind, zr_lift. cbn [bind]. inv_done.
    replace ((h_fun hd L ++ vec x00 np) ++ x01 :: vec x00 (length msg))
      with (((h_fun hd L ++ vec x00 np) ++ [x01]) ++ vec x00 (length msg) ++ [])
      by (rewrite app_nil_r, <- !app_assoc; reflexivity).
    rewrite copy_into_app.
    2:{ rewrite !app_length, h_len, vec_length. fold hs. cbn [length]. lia. }
    2:{ apply vec_length. }
    2:{ rewrite !app_length, h_len, !vec_length. fold hs. cbn [length]. lia. }
    rewrite zr_bind, zr_lift. cbn [bind]. inv_done. rewrite app_nil_r.
    replace (((h_fun hd L ++ vec x00 np) ++ [x01]) ++ msg) with DB0
      by (unfold DB0; rewrite <- !app_assoc; reflexivity).
    rewrite zr_bind, inv_bind, HZ. cbn [bind]. destruct res as (s' & d'). rewrite inv_ret, app_nil_r.
    split; [reflexivity|]. eexists. reflexivity. }
  destruct EQ as (EQ & x & EX). rewrite inv_if_err, EX, app_nil_r. exact EQ.
Qed.

Lemma mask_ok hm seed db : (0 < h_size hm)%nat -> Z.of_nat (length seed) <= 2 ^ 32 -> Z.of_nat (length db) <= 2 ^ 32 ->
  let mdb := xor_octets db (mgf1 (h_fun hm) (h_size hm) seed (length db)) in
  (let zf := let~ (db, md) := z_mgf1_xor db (digest_new hm) seed in
             let~ (seed, _) := z_mgf1_xor seed md db in z_ret (seed, db) in
   outcome_of zf = Ok (xor_octets seed (mgf1 (h_fun hm) (h_size hm) mdb (length seed)), mdb) /\
   inventory zf = mgf_list (h_fun hm) (h_size hm) seed (length db) ++ mgf_list (h_fun hm) (h_size hm) mdb (length seed)) /\
  (let zf := let~ (db, md) := z_lift (mgf1_xor_digest db (digest_new hm) seed) in
             let~ (seed, _) := z_lift (mgf1_xor_digest seed md db) in z_ret (seed, db) in
   outcome_of zf = Ok (xor_octets seed (mgf1 (h_fun hm) (h_size hm) mdb (length seed)), mdb) /\
   inventory zf = []).
Proof.
  intros Hm Ls Ld mdb. cbv zeta. split.
  - rewrite zr_bind, zr_mgf, inv_bind, zr_mgf. rewrite mgf1_xor_spec by auto. cbn [bind]. fold mdb.
    rewrite zr_bind, zr_mgf, inv_bind, zr_mgf. rewrite mgf1_xor_spec by auto. cbn [bind]. rewrite inv_ret, zr_ret, !inv_mgf by auto.
    rewrite app_nil_r. split; reflexivity.
  - rewrite mgf1_xor_digest_spec by auto. rewrite zr_bind, zr_lift. cbn [bind]. inv_done. fold mdb.
    rewrite mgf1_xor_digest_spec by auto. rewrite zr_bind, zr_lift. cbn [bind]. inv_done. split; reflexivity.
Qed.

(** The encoders of OAEP, when they succeed. *)
Section OaepEncode.
  Context {R : Type} (g : rng_ops R).

  Lemma inv_oaep_encrypt hd hm st msg label k em : rng_ok g -> (0 < h_size hm)%nat -> Z.of_nat k <= 2 ^ 32 ->
    oaep_encrypt_digest g hd hm st msg label k = Ok em ->
    exists seed, length seed = h_size hd /\
      let L := label_bytes label in
      em = oaep_encode (h_fun hd) (h_size hd) (h_fun hm) (h_size hm) L seed msg k /\
      inventory (z_oaep_encrypt_digest g hd hm st msg label k) = kept_texts [L] /\
      inventory (z_oaep_encrypt g st msg (digest_new hd) (digest_new hm) label k) =
        mgf_list (h_fun hm) (h_size hm) seed (k - h_size hd - 1) ++
        mgf_list (h_fun hm) (h_size hm) (skipn (S (h_size hd)) em) (h_size hd) ++ kept_texts [h_fun hd L; L].
  Proof.
    intros G Hm K H. pose proof H as H'. rewrite oaep_encrypt_digest_spec in H' by auto.
    destruct (2 ^ 61 <=? _) eqn:E61; [discriminate|].
    destruct (Nat.ltb_spec k (length msg + 2 * h_size hd + 2)) as [|Hl]; [discriminate|].
    destruct (rng_fill g st (h_size hd)) as [[seed|] st'] eqn:Er; [|discriminate].
    assert (Ls : length seed = h_size hd) by (apply (proj1 G) in Er; auto).
    assert (Eem : em = oaep_encode (h_fun hd) (h_size hd) (h_fun hm) (h_size hm) (label_bytes label) seed msg k) by congruence.
    exists seed. split; [exact Ls|]. cbv zeta. split; [exact Eem|].
    set (DB := h_fun hd (label_bytes label) ++ repeat x00 (k - length msg - 2 * h_size hd - 2) ++ x01 :: msg).
    assert (LDB : length DB = (k - h_size hd - 1)%nat).
    { unfold DB. rewrite !app_length, h_len, repeat_length. cbn [length]. lia. }
    destruct (mask_ok hm seed DB Hm ltac:(lia) ltac:(lia)) as ((O1 & I1) & (O2 & I2)). cbv zeta in O1, I1, O2, I2.
    unfold z_oaep_encrypt_digest, z_oaep_encrypt, MAX_LABEL_LEN. cbv zeta.
    unfold digest_finalize_reset, digest_update, digest_oneshot, digest_output_size, digest_new. cbn [d_fn d_pending app].
    change (mkDigest hm []) with (digest_new hm). rewrite E61. rewrite !inv_own. split.
    - erewrite (inv_internal g st msg hd (label_bytes label) k _ seed st' _ G Hl Er); [|fold DB; exact O2].
      fold DB. etransitivity; [apply (f_equal (fun x => x ++ _)); exact I2|]. reflexivity.
    - erewrite (inv_internal g st msg hd (label_bytes label) k _ seed st' _ G Hl Er); [|fold DB; exact O1].
      fold DB. etransitivity; [apply (f_equal (fun x => (x ++ _) ++ _)); exact I1|].
      rewrite LDB, Ls, <- !app_assoc. do 2 f_equal.
      rewrite Eem. unfold oaep_encode. fold DB. cbn [skipn].
      rewrite skipn_app_exact; [reflexivity|].
      rewrite xor_octets_length, mgf1_length by auto. lia.
  Qed.
End OaepEncode.

(** * Decoding OAEP *)

(** [em] with the masks removed. *)
Lemma inv_oaep_decrypt hd hm em label k : (0 < h_size hm)%nat -> Z.of_nat k < 2 ^ 32 -> length em = k ->
  Z.of_nat (length (label_bytes label)) < 2 ^ 61 -> (11 <= k)%nat -> (2 * h_size hd + 2 <= k)%nat ->
  let ms := firstn (h_size hd) (tl em) in let mdb := skipn (h_size hd) (tl em) in
  let seed := xor_octets ms (mgf1 (h_fun hm) (h_size hm) mdb (h_size hd)) in
  let out := firstn 1 em ++ seed ++ xor_octets mdb (mgf1 (h_fun hm) (h_size hm) seed (k - h_size hd - 1)) in
  let L := label_bytes label in
  inventory (z_oaep_decrypt_digest hd hm em label k) = kept_texts [out; out; L] /\
  inventory (z_oaep_decrypt em (digest_new hd) (digest_new hm) label k) =
    mgf_list (h_fun hm) (h_size hm) mdb (h_size hd) ++ mgf_list (h_fun hm) (h_size hm) seed (k - h_size hd - 1) ++
    kept_texts [out; out; h_fun hd L; L].
Proof.
  intros Hm K Lem H61 K11 K2 ms mdb seed out L.
  destruct em as [|y em]; [cbn [length] in Lem; lia|]. cbn [tl] in ms, mdb. cbn [length] in Lem.
  assert (Em : em = ms ++ mdb) by (symmetry; apply firstn_skipn).
  assert (Lms : length ms = h_size hd) by (unfold ms; rewrite firstn_length; lia).
  assert (Lmdb : length mdb = (k - h_size hd - 1)%nat) by (unfold mdb; rewrite skipn_length; lia).
  assert (Lsd : length seed = h_size hd) by (unfold seed; rewrite xor_octets_length, mgf1_length by auto; lia).
  set (db := xor_octets mdb (mgf1 (h_fun hm) (h_size hm) seed (k - h_size hd - 1))) in *.
  assert (Ldb : length db = (k - h_size hd - 1)%nat) by (unfold db; rewrite xor_octets_length, mgf1_length by auto; lia).
  assert (INNER : forall zf, outcome_of (zf ms mdb) = Ok (seed, db) ->
    exists ix v, outcome_of (z_oaep_decrypt_inner (y :: em) (h_size hd) (h_fun hd L) k zf) = Ok (out, ix, v) /\
      inventory (z_oaep_decrypt_inner (y :: em) (h_size hd) (h_fun hd L) k zf) = inventory (zf ms mdb)).
  { intros zf Z. unfold z_oaep_decrypt_inner.
    destruct (Nat.ltb_spec k 11); [lia|]. destruct (Nat.ltb_spec k (h_size hd * 2 + 2)); [lia|].
    change (get_idx (y :: em) 0) with (Ok y). rewrite zr_bind, zr_lift. cbn [bind]. inv_done. cbv zeta.
    rewrite Em. change (y :: ms ++ mdb) with ([y] ++ ms ++ mdb).
    rewrite split_at_app by reflexivity. rewrite zr_bind, zr_lift. cbn [bind]. inv_done.
    rewrite split_at_app by auto. rewrite zr_bind, zr_lift. cbn [bind]. inv_done.
    rewrite zr_bind, inv_bind, Z. cbn [bind].
    assert (Lf : length (firstn (h_size hd) db) = h_size hd) by (rewrite firstn_length; lia).
    assert (SL : slice db 0 (h_size hd) = Ok (firstn (h_size hd) db)).
    { rewrite <- (firstn_skipn (h_size hd) db) at 1. rewrite <- (app_nil_l (firstn (h_size hd) db ++ _)).
      apply slice_app; [reflexivity|lia]. }
    rewrite SL, zr_bind, zr_lift. cbn [bind]. inv_done.
    assert (Lk : length (skipn (h_size hd) db) = (k - 2 * h_size hd - 1)%nat)
      by (rewrite skipn_length; lia).
    pose proof (oaep_scan_index (skipn (h_size hd) db) 0 true 0 false (Z.of_nat (k - 2 * h_size hd - 1))
                  ltac:(lia) ltac:(lia) ltac:(lia) ltac:(lia)) as HI.
    destruct (oaep_scan (skipn (h_size hd) db) 0 true 0 false) as [[lk idx] nz] eqn:ES.
    cbn [fst snd] in HI. unfold u32_add.
    destruct (Z.ltb_spec (idx + 2) (2 ^ 32)); [|lia]. rewrite zr_bind, zr_lift. cbn [bind]. inv_done.
    unfold as_u32. rewrite (Z.mod_small (Z.of_nat _)) by lia.
    destruct (Z.ltb_spec (idx + 2 + Z.of_nat (h_size hd * 2)) (2 ^ 32)); [|lia].
    rewrite zr_bind, zr_lift. cbn [bind]. inv_done.
    eexists; eexists. split; [reflexivity|]. rewrite inv_ret, app_nil_r. reflexivity. }
  assert (FIN : forall em' inner ix v, outcome_of inner = Ok (out, ix, v) ->
    inventory (z_oaep_finish em' inner) = inventory inner ++ kept_texts [out; out]).
  { intros em' inner ix v E. unfold z_oaep_finish. rewrite E, inv_own, inv_bind, E, inv_own, inv_lift.
    rewrite <- app_assoc. reflexivity. }
  assert (M1 : outcome_of (let~ (seed, md) := z_lift (mgf1_xor_digest ms (digest_new hm) mdb) in
              let~ (db, _) := z_lift (mgf1_xor_digest mdb md seed) in z_ret (seed, db)) = Ok (seed, db)).
  { rewrite mgf1_xor_digest_spec by (auto; lia). rewrite zr_bind, zr_lift. cbn [bind]. rewrite Lms. fold seed.
    rewrite mgf1_xor_digest_spec by (auto; lia). rewrite zr_bind, zr_lift. cbn [bind]. rewrite Lmdb. reflexivity. }
  assert (M2 : outcome_of (let~ (seed, md) := z_mgf1_xor ms (digest_new hm) mdb in
              let~ (db, _) := z_mgf1_xor mdb md seed in z_ret (seed, db)) = Ok (seed, db)).
  { rewrite zr_bind, zr_mgf, mgf1_xor_spec by (auto; lia). cbn [bind]. rewrite Lms. fold seed.
    rewrite zr_bind, zr_mgf, mgf1_xor_spec by (auto; lia). cbn [bind]. rewrite Lmdb. reflexivity. }
  unfold z_oaep_decrypt_digest, z_oaep_decrypt, MAX_LABEL_LEN. cbv zeta. fold L.
  unfold digest_finalize_reset, digest_update, digest_oneshot, digest_output_size, digest_new. cbn [d_fn d_pending app].
  change (mkDigest hm []) with (digest_new hm).
  destruct (Z.leb_spec (2 ^ 61) (Z.of_nat (length L))) as [X|_]; [unfold L in X; lia|]. rewrite !inv_own. split.
  - destruct (INNER (fun ms mdb => let~ (seed, md) := z_lift (mgf1_xor_digest ms (digest_new hm) mdb) in
              let~ (db, _) := z_lift (mgf1_xor_digest mdb md seed) in z_ret (seed, db)) M1) as (ix & v & O & I). rewrite (FIN _ _ _ _ O), I.
    rewrite mgf1_xor_digest_spec by (auto; lia). inv_done. cbv beta iota.
    rewrite mgf1_xor_digest_spec by (auto; rewrite ?Lms; fold seed; lia). inv_done. reflexivity.
  - destruct (INNER (fun ms mdb => let~ (seed, md) := z_mgf1_xor ms (digest_new hm) mdb in
              let~ (db, _) := z_mgf1_xor mdb md seed in z_ret (seed, db)) M2) as (ix & v & O & I). rewrite (FIN _ _ _ _ O), I.
    rewrite inv_bind, zr_mgf, mgf1_xor_spec by (auto; lia). rewrite inv_mgf by (auto; lia). rewrite Lms. fold seed.
    rewrite inv_bind, zr_mgf, mgf1_xor_spec by (auto; lia). rewrite inv_mgf by (auto; lia). rewrite Lmdb, inv_ret, app_nil_r.
    rewrite <- !app_assoc. reflexivity.
Qed.

(** * PSS encoding *)

Lemma inv_lift_nil {A B} (o : outcome A) (k : A -> holding B) :
  (forall a, inventory (k a) = []) -> inventory (zbind (z_lift o) k) = [].
Proof. intros H. rewrite inv_bind, inv_lift, zr_lift. destruct o; auto. cbn [app]. apply H. Qed.

Lemma inv_emsa hd mh em_bits salt em : (0 < h_size hd)%nat -> Z.of_nat (pss_em_len em_bits) <= 2 ^ 32 ->
  emsa_pss_encode_digest hd mh em_bits salt = Ok em ->
  let Hv := h_fun hd (repeat x00 8 ++ mh ++ salt) in
  inventory (z_emsa_pss_encode mh em_bits salt (digest_new hd)) =
    mgf_list (h_fun hd) (h_size hd) Hv (pss_em_len em_bits - h_size hd - 1) ++ kept_texts [Hv].
Proof.
  intros Hh Hk E Hv. rewrite emsa_pss_encode_digest_spec in E by auto.
  unfold z_emsa_pss_encode. cbv zeta. change pss_em_len with div_ceil8 in *.
  unfold digest_output_size. cbn [d_fn digest_new].
  pose proof (div_ceil8_spec em_bits) as Hem.
  set (em_len := div_ceil8 em_bits) in *. set (hl := h_size hd) in *. set (sl := length salt) in *.
  destruct (negb _); [discriminate|].
  destruct (Nat.ltb_spec em_len (hl + sl + 2)) as [|Hl]; [discriminate|]. clear E.
  set (np := (em_len - sl - hl - 2)%nat).
  replace (vec x00 em_len) with ((vec x00 np ++ x00 :: vec x00 sl) ++ vec x00 hl ++ [x00]).
  2:{ transitivity (vec x00 ((np + (1 + sl)) + (hl + 1))); [|f_equal; lia].
      rewrite !vec_app. reflexivity. }
  rewrite usub_ok by lia. inv_done. rewrite usub_ok by lia. inv_done.
  assert (Ldb : length (vec x00 np ++ x00 :: vec x00 sl) = (em_len - hl - 1)%nat).
  { rewrite app_length. cbn [length]. rewrite !vec_length. lia. }
  rewrite split_at_app by auto. inv_done.
  rewrite usub_ok by lia. inv_done. rewrite usub_ok by lia. inv_done.
  rewrite split_at_app by (rewrite vec_length; lia). inv_done.
  unfold digest_finalize_reset, digest_update, digest_new. cbn [d_fn d_pending app].
  replace ((vec x00 8 ++ mh) ++ salt) with (repeat x00 8 ++ mh ++ salt) by (rewrite app_assoc; reflexivity).
  fold Hv. rewrite inv_own. f_equal.
  rewrite vec_length. rewrite copy_into_full by (rewrite ?vec_length; unfold Hv; rewrite ?h_len; auto). inv_done.
  rewrite usub_ok by lia. inv_done. rewrite usub_ok by lia. inv_done.
  rewrite usub_ok by lia. inv_done.
  rewrite set_idx_app by (rewrite vec_length; lia). inv_done.
  rewrite usub_ok by lia. inv_done.
  replace (vec x00 np ++ x01 :: vec x00 sl) with ((vec x00 np ++ [x01]) ++ vec x00 sl ++ [])
    by (rewrite app_nil_r, <- app_assoc; reflexivity).
  rewrite copy_into_app.
  2:{ rewrite app_length, vec_length. cbn [length]. lia. }
  2:{ apply vec_length. }
  2:{ rewrite !app_length, !vec_length. cbn [length]. fold sl. lia. }
  inv_done. rewrite app_nil_r.
  set (DB := (vec x00 np ++ [x01]) ++ salt).
  assert (LDB : length DB = (em_len - hl - 1)%nat).
  { unfold DB. rewrite !app_length, vec_length. cbn [length]. fold sl. lia. }
  change (mkDigest hd []) with (digest_new hd).
  rewrite inv_bind, zr_mgf, mgf1_xor_spec by (auto; lia). rewrite inv_mgf by (auto; lia). rewrite LDB.
  match goal with |- _ ++ ?t = _ => assert (X : t = []) end.
  { repeat (apply inv_lift_nil; intros ?). reflexivity. }
  rewrite X. apply app_nil_r.
Qed.

(** * Encryption *)

Lemma inv_finish_encrypt k em : wf_pub k -> length em = key_size k ->
  let c := RSAEP (uval (pk_n k)) (uval (pk_e k)) (os2ip em) in
  inventory (z_finish_encrypt k em) =
    power_list (uval (pk_n k)) (os2ip em) (uval (pk_e k)) ++
    kept_texts [octets_of (uprec (pk_n k)) c] ++ kept [c; os2ip em] ++ [Wiped (Text em)].
Proof.
  intros W L c. destruct (key_size_facts k W) as (_ & K2 & _). pose proof (odd_pos_n k W) as Hn.
  pose proof W as (Wn & We & Hp & _). pose proof Wn as (Vn & P1 & P2).
  assert (Wm : wf_uint (mkU (os2ip em) (uprec (pk_n k)))) by (apply os2ip_wf; auto; rewrite L; auto).
  unfold z_finish_encrypt. rewrite inv_own, from_be_slice_key by auto. inv_done. rewrite inv_own.
  unfold z_rsa_encrypt. rewrite Hp.
  rewrite inv_bind, inv_pow; auto; [|destruct We; lia|apply Wm]. cbn [uval].
  assert (E : outcome_of (z_pow_mod_params (mkU (os2ip em) (uprec (pk_n k))) (pk_e k) (mkMP (pk_n k))) = Ok (mkU c (uprec (pk_n k)))).
  { fold (z_rsa_encrypt k (mkU (os2ip em) (uprec (pk_n k)))). rewrite <- Hp.
    change (outcome_of (z_rsa_encrypt k (mkU (os2ip em) (uprec (pk_n k)))) = Ok (mkU c (uprec (pk_n k)))).
    rewrite zr_enc. apply rsa_encrypt_small; auto. apply Wm. }
  rewrite E, inv_be_pad. cbn [uval uprec]. rewrite <- !app_assoc. reflexivity.
Qed.

(** * Export *)

Lemma inv_crt_exponent {A} d p (k : uint -> holding A) : wf_uint d -> wf_uint p -> 2 <= uval p -> uprec p <= uprec d ->
  let x := mkU (uval d mod (uval p - 1)) (uprec d) in
  inventory (z_crt_exponent d p k) =
    kept [uval x; 1; uval p] ++ inventory (k x) ++ [Wiped (Text (octets_of (uprec d) (uval x)))].
Proof.
  intros Wd Wp P2 PP x. destruct (crt_exponent_ok d p Wd Wp P2 PP) as (C & _). fold x in C.
  unfold crt_exponent in C. unfold z_crt_exponent.
  apply bind_ok in C. destruct C as (w & W & C). apply bind_ok in C. destruct C as (y & Y & C).
  apply bind_ok in C. destruct C as (u & U & C).
  assert (VW : uval w = uval p).
  { unfold widen in W. destruct (_ <=? _); [|discriminate]. injection W as <-. reflexivity. }
  match goal with |- inventory (zbind ?m _) = _ =>
    assert (X : inventory m = kept [uval x; 1; uval p] /\ outcome_of m = Ok x) end.
  { split.
    - rewrite (inv_step _ _ _ W), !inv_own, (inv_step _ _ _ Y), (inv_step _ _ _ U), (inv_step _ _ _ C), inv_own, inv_ret.
      cbn [kept map fate_of content_of app]. rewrite VW. reflexivity.
    - rewrite zr_bind, zr_lift, W. cbn [bind]. rewrite !zr_own, zr_bind, zr_lift, Y. cbn [bind].
      rewrite zr_bind, zr_lift, U. cbn [bind]. rewrite zr_bind, zr_lift, C. reflexivity. }
  destruct X as (X1 & X2). rewrite inv_bind, X1, X2, inv_own. unfold octets_of. rewrite i2osp_be_bytes. reflexivity.
Qed.

Lemma inv_export mx tl k p q doc : tl 0 [] = true -> mx < 2 ^ 32 ->
  wf_pub (sk_pub k) -> wf_uint (sk_d k) -> sk_primes k = [p; q] -> wf_uint p -> wf_uint q ->
  2 <= uval p -> 2 <= uval q -> uprec p <= uprec (sk_d k) -> uprec q <= uprec (sk_d k) ->
  outcome_of (z_to_pkcs8_der mx k) = Ok doc ->
  exists key c, decode_key_info mx tl doc = Ok (mkKI rsa_algorithm_id key) /\
    0 <= c < uval p /\ (c * uval q) mod uval p = 1 mod uval p /\
    let dp := uval (sk_d k) mod (uval p - 1) in let dq := uval (sk_d k) mod (uval q - 1) in
    let wiped u z := Wiped (Text (octets_of (uprec u) z)) in
    inventory (z_to_pkcs8_der mx k) =
      kept [dp; 1; uval p; dq; 1; uval q] ++ kept_texts [key] ++ [wiped p c] ++ kept [c] ++
      [wiped (sk_d k) dq; wiped (sk_d k) dp; wiped q (uval q); wiped p (uval p); wiped (sk_d k) (uval (sk_d k))] ++
      kept_texts [octets_of (uprec (pk_e (sk_pub k))) (uval (pk_e (sk_pub k)));
                  octets_of (uprec (pk_n (sk_pub k))) (uval (pk_n (sk_pub k)))].
Proof.
  intros T Hm W Wd EP Wp Wq P2 Q2 PP PQ H. pose proof H as H'.
  rewrite zr_to_pkcs8 in H'. unfold to_pkcs8_der in H'.
  destruct (crt_exponent_ok (sk_d k) p Wd Wp P2 PP) as (C1 & W1).
  destruct (crt_exponent_ok (sk_d k) q Wd Wq Q2 PQ) as (C2 & W2).
  apply bind_ok in H'. destruct H' as (s & S & H'). apply bind_ok in H'. destruct H' as (key & EK & H').
  apply bind_ok in H'. destruct H' as ([] & EG & ED).
  unfold private_to_pkcs1 in S. rewrite EP in S. cbn [length Nat.ltb Nat.leb get_idx nth_error bind] in S. cbv zeta in S.
  rewrite C1, C2 in S. cbn [bind] in S.
  apply bind_ok in S. destruct S as (oc & CC & S). destruct oc as [c|]; [|discriminate].
  apply bind_ok in S. destruct S as (u1 & U1 & S). apply bind_ok in S. destruct S as (u2 & U2 & S).
  apply bind_ok in S. destruct S as (u3 & U3 & S). apply bind_ok in S. destruct S as (u4 & U4 & S).
  apply bind_ok in S. destruct S as (u5 & U5 & S). apply bind_ok in S. destruct S as (u6 & U6 & S).
  apply bind_ok in S. destruct S as (u7 & U7 & S). apply bind_ok in S. destruct S as (u8 & U8 & S).
  assert (s = mkP1Priv false u1 u2 u3 u4 u5 u6 u7 u8) as -> by congruence. clear S.
  assert (X : uprec c = uprec p /\ 0 <= uval c < uval p /\ (uval c * uval q) mod uval p = 1 mod uval p).
  { unfold crt_coefficient in CC. rewrite EP in CC. cbn [get_idx nth_error bind] in CC. unfold uinv_mod in CC.
    destruct (_ =? _); [|discriminate]. destruct (zinv (uval q) (uval p)) as [z|] eqn:Z; [|discriminate].
    assert (c = mkU z (uprec p)) as -> by congruence. cbn [uval uprec].
    apply zinv_some in Z. destruct Z as (_ & Z1 & Z2). split; [reflexivity|]. split; [exact Z1|].
    rewrite Z.mul_comm. apply Z2. }
  exists key, (uval c).
  split; [apply key_info_doc; auto|]. split; [apply X|]. split; [apply X|]. cbv zeta.
  unfold z_to_pkcs8_der. rewrite EP. cbn [length Nat.ltb Nat.leb get_idx nth_error]. cbv zeta.
  rewrite !inv_own. rewrite (inv_step _ _ _ eq_refl), (inv_step _ _ _ eq_refl), !inv_own.
  rewrite inv_crt_exponent by assumption. rewrite inv_crt_exponent by assumption.
  rewrite (inv_step _ _ _ CC), !inv_own.
  rewrite (inv_step _ _ _ U1), (inv_step _ _ _ U2), (inv_step _ _ _ U3), (inv_step _ _ _ U4),
    (inv_step _ _ _ U5), (inv_step _ _ _ U6), (inv_step _ _ _ U7), (inv_step _ _ _ U8), (inv_step _ _ _ EK), inv_own,
    (inv_step _ _ _ EG), inv_lift.
  cbn [uval uprec kept kept_texts map app fate_of content_of]. unfold octets_of. rewrite !i2osp_be_bytes.
  unfold to_be_bytes. destruct X as (-> & _). reflexivity.
Qed.
