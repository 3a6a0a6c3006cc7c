(** Lemmas for PropParts.v: the raw operations on any implementor of the key traits. *)
From Coq Require Import ZArith List Bool Lia.
From Coq Require Import Init.Byte.
From Verif Require Import Base Bigint BytesLemmas SpecRFC SpecRng BigintLemmas MHash MRsa MGenerate MKey MApi MWrap MMisc MParts KeyDefs.
From Verif Require Import PRsa PHist.
Import ListNotations.
Local Open Scope Z_scope.

(** What the types of the accessors guarantee: big integers, and odd moduli in Montgomery
    parameters. *)
Definition wf_params (p : mparams) : Prop :=
  wf_uint (mp_modulus p) /\ Z.odd (mp_val p) = true.
Definition typed_parts (k : key_parts) : Prop :=
  wf_uint (kp_n k) /\ 0 < uval (kp_n k) /\ wf_uint (kp_e k) /\ wf_params (kp_params k) /\
  wf_uint (kp_d k) /\ Forall wf_uint (kp_primes k).

(** No CRT: a value is missing, or there are more than two primes. *)
Definition no_crt (k : key_parts) : Prop :=
  kp_dp k = None \/ kp_dq k = None \/ kp_qinv k = None \/ kp_p_params k = None \/
  kp_q_params k = None \/ (2 < length (kp_primes k))%nat.

Lemma params_pos p : wf_params p -> 0 < mp_val p.
Proof.
  intros ((V & _) & O). destruct (Z.eq_dec (mp_val p) 0) as [E|]; [rewrite E in O; discriminate|].
  unfold mp_val in *. lia.
Qed.

Lemma params_eta p : p = mkMP (mp_modulus p). Proof. destruct p; reflexivity. Qed.

Lemma encrypt_g k m : wf_params (kp_params k) -> wf_uint (kp_e k) -> wf_uint m ->
  rsa_encrypt_g k m =
  Ok (mkU (RSAEP (mp_val (kp_params k)) (uval (kp_e k)) (uval m mod 2 ^ mp_prec (kp_params k)))
          (mp_prec (kp_params k))).
Proof.
  intros W (E & _) M. pose proof (params_pos _ W) as P. destruct W as (W & _).
  unfold rsa_encrypt_g. rewrite (params_eta (kp_params k)) at 1.
  rewrite pow_mod_params_ok; auto. lia.
Qed.

Section G.
  Context {R : Type} (g : rng_ops R).

  Lemma blind_loop_g_inv fuel st k r ir st' :
    blind_loop_g g fuel st k = Ok (r, ir, st') -> uprec ir = uprec (kp_n k).
  Proof.
    revert st. induction fuel; intros st H; [discriminate|]. cbn [blind_loop_g] in H.
    destruct (rng_mod g st (uval (kp_n k))) as [[v|] s1]; [|discriminate]. cbv zeta in H.
    apply bind_ok in H. destruct H as (o & E & H). unfold uinv_mod in E.
    destruct (_ =? _); [|discriminate]. injection E as <-.
    destruct (zinv _ _); [injection H as <- <- <-; reflexivity|eauto].
  Qed.

  Lemma decrypt_g_out fuel rng k c m : wf_params (kp_params k) ->
    rsa_decrypt_g g fuel rng k c = Ok m ->
    wf_uint m /\ uprec m = mp_prec (kp_params k) /\ uval c < uval (kp_n k) /\
    (rng <> None -> uval (kp_n k) = mp_val (kp_params k) /\
                    uprec (kp_n k) = mp_prec (kp_params k) /\ kp_bits k = uprec (kp_n k) /\
                    uval m < uval (kp_n k)).
  Proof.
    intros W H. pose proof (params_pos _ W) as P. destruct W as (W & _). pose proof W as (V & P1 & P2).
    unfold rsa_decrypt_g, uleb in H. destruct (Z.leb_spec (uval (kp_n k)) (uval c)); [discriminate|].
    cbv zeta in H. apply bind_ok in H. destruct H as ((c' & ir) & HB & H).
    apply bind_ok in H. destruct H as (m' & _ & H).
    apply bind_ok in H. destruct H as (m'' & Hs & H).
    unfold shorten in Hs. destruct (_ <=? _); [|discriminate]. injection Hs as <-.
    rewrite prec_for_id in H by auto.
    destruct rng as [st|].
    - apply bind_ok in HB. destruct HB as ((b & u) & HB & H2). apply bind_ok in H2.
      destruct H2 as (c2 & _ & H2). injection H2 as <- <-.
      unfold blind_g in HB. apply bind_ok in HB. destruct HB as (x1 & E1 & HB).
      apply bind_ok in HB. destruct HB as (((r & ir) & st') & EL & HB).
      apply bind_ok in HB. destruct HB as (rp & _ & HB). apply bind_ok in HB. destruct HB as (bl & EB & HB).
      apply bind_ok in HB. destruct HB as (x2 & E2 & HB). apply bind_ok in HB. destruct HB as (x3 & E3 & HB).
      injection HB as -> ->. apply blind_loop_g_inv in EL.
      assert (A : forall b x, assert_ b = Ok x -> b = true) by (intros [] x; [auto|discriminate]).
      apply A in E1, E2, E3. unfold ueqb in E1. apply Z.eqb_eq in E1, E2, E3.
      rewrite (params_eta (kp_params k)) in EB. apply mul_mod_params_inv in EB; auto.
      destruct EB as (_ & _ & EB).
      unfold unblind in H. apply bind_ok in H. destruct H as (_ & _ & H).
      apply bind_ok in H. destruct H as (_ & _ & H).
      rewrite (params_eta (kp_params k)) in H. apply mul_mod_params_inv in H; auto.
      destruct H as (M1 & M2 & M3). split; [auto|]. split; [exact M3|]. split; [auto|]. intros _.
      unfold mp_val, mp_prec. split; [auto|]. split; [congruence|]. split; [congruence|]. lia.
    - apply bind_ok in HB. destruct HB as (c2 & _ & HB). injection HB as <- <-. injection H as <-.
      cbn [uval uprec]. split; [apply wf_mk; auto; apply Z.mod_pos_bound; apply Z.pow_pos_nonneg; unfold mp_prec; lia|].
      split; [reflexivity|]. split; [auto|]. congruence.
  Qed.

  Lemma check_g_out fuel rng k c m : wf_params (kp_params k) -> wf_uint (kp_e k) ->
    rsa_decrypt_and_check_g g fuel k rng c = Ok m ->
    RSAEP (mp_val (kp_params k)) (uval (kp_e k)) (uval m) = uval c /\ uval c < uval (kp_n k) /\
    wf_uint m /\ uprec m = mp_prec (kp_params k) /\ rsa_decrypt_g g fuel rng k c = Ok m.
  Proof.
    intros W E H. unfold rsa_decrypt_and_check_g in H. apply bind_ok in H. destruct H as (m' & Hd & H).
    apply bind_ok in H. destruct H as (chk & Hc & H).
    destruct (ueqb c chk) eqn:Eq; [|discriminate]. injection H as <-.
    destruct (decrypt_g_out _ _ _ _ _ W Hd) as (Wm & Pm & L & _).
    rewrite encrypt_g in Hc by auto. injection Hc as <-. unfold ueqb in Eq. cbn [uval] in Eq.
    apply Z.eqb_eq in Eq. pose proof Wm as (B & _). rewrite Z.mod_small in Eq by (rewrite <- Pm; exact B).
    auto.
  Qed.

  Lemma no_crt_pow {A} (k : key_parts) (x : A) (f : uint -> uint -> mform -> mparams -> mparams -> A) :
    no_crt k ->
    match kp_dp k, kp_dq k, kp_qinv k, kp_p_params k, kp_q_params k with
    | Some dp, Some dq, Some qinv, Some p_params, Some q_params =>
        if (2 <? length (kp_primes k))%nat then x else f dp dq qinv p_params q_params
    | _, _, _, _, _ => x
    end = x.
  Proof.
    intros N. destruct (kp_dp k) eqn:E1; [|reflexivity]. destruct (kp_dq k) eqn:E2; [|reflexivity].
    destruct (kp_qinv k) eqn:E3; [|reflexivity]. destruct (kp_p_params k) eqn:E4; [|reflexivity].
    destruct (kp_q_params k) eqn:E5; [|reflexivity].
    destruct (Nat.ltb_spec 2 (length (kp_primes k))); [reflexivity|].
    unfold no_crt in N. destruct N as [N|[N|[N|[N|[N|N]]]]]; congruence || lia.
  Qed.

  (** The generic operation on a key all of whose answers are there and fit together is the
      one of MRsa.v. *)
  Definition with_pre (k : key_parts) (pre : option precomp) : privkey :=
    mkPriv (mkPub (kp_n k) (kp_e k) (kp_params k)) (kp_d k) (kp_primes k) pre.

  Lemma blind_loop_same fuel st k pre : kp_bits k = uprec (kp_n k) ->
    blind_loop_g g fuel st k = blind_loop g fuel st (sk_pub (with_pre k pre)).
  Proof.
    intros B. revert st. induction fuel; intros st; [reflexivity|].
    cbn [blind_loop_g blind_loop]. cbn [with_pre sk_pub pk_n]. unfold n_bits_precision. cbn [pk_n].
    rewrite B. destruct (rng_mod g st (uval (kp_n k))) as [[v|] s1]; [|reflexivity]. cbv zeta.
    destruct (uinv_mod _ _) as [[ir|]| | |]; cbn [bind]; auto.
  Qed.

  Lemma blind_same fuel st k pre c np : kp_bits k = uprec (kp_n k) ->
    blind_g g fuel st k c np = blind g fuel st (sk_pub (with_pre k pre)) c np.
  Proof.
    intros B. unfold blind_g, blind. rewrite (blind_loop_same fuel st k pre B).
    cbn [with_pre sk_pub pk_n pk_e]. unfold n_bits_precision. cbn [pk_n]. rewrite B. reflexivity.
  Qed.

  Lemma crt_same c dp dq qi pp qp q : mp_eqb (mf_params qi) pp = true ->
    crt_pow_g c dp dq qi pp qp q = crt_pow c (mkPre dp dq qi pp qp) q.
  Proof.
    intros E. unfold crt_pow_g, crt_pow. cbn [pc_dp pc_dq pc_qinv pc_p_params pc_q_params].
    destruct (mf_new c pp) as [cp| | |] eqn:EN; cbn [bind]; auto.
    assert (Ep : mf_params cp = pp).
    { unfold mf_new in EN. destruct (_ =? _); [|discriminate]. injection EN as <-. reflexivity. } clear EN.
    destruct (mf_new c qp) as [cq| | |]; cbn [bind]; auto.
    destruct (mf_new _ pp) as [m2r| | |]; cbn [bind]; auto.
    unfold mf_sub, mf_pow. cbn [mf_params]. rewrite Ep, E. reflexivity.
  Qed.

  Lemma decrypt_same fuel rng k c pre : (rng <> None -> kp_bits k = uprec (kp_n k)) ->
    match pre with
    | Some pc => kp_dp k = Some (pc_dp pc) /\ kp_dq k = Some (pc_dq pc) /\
                 kp_qinv k = Some (pc_qinv pc) /\ kp_p_params k = Some (pc_p_params pc) /\
                 kp_q_params k = Some (pc_q_params pc) /\
                 mp_eqb (mf_params (pc_qinv pc)) (pc_p_params pc) = true
    | None => no_crt k
    end ->
    rsa_decrypt_g g fuel rng k c = rsa_decrypt g fuel rng (with_pre k pre) c.
  Proof.
    intros B H. unfold rsa_decrypt_g, rsa_decrypt.
    cbn [with_pre sk_pub sk_d sk_primes sk_pre pk_n pk_params].
    destruct (uleb _ _); [reflexivity|]. cbv zeta.
    match goal with |- bind ?a _ = bind ?b _ => assert (E : a = b) end.
    { destruct rng as [st|]; [|reflexivity]. rewrite (blind_same _ _ _ pre) by (apply B; discriminate).
      reflexivity. }
    rewrite E. clear E. match goal with |- bind ?a _ = _ => destruct a as [(c' & ir)| | |] end; cbn [bind]; auto.
    match goal with |- bind ?a _ = bind ?b _ => assert (E : a = b) end.
    { destruct pre as [pc|].
      - destruct H as (-> & -> & -> & -> & -> & Q). destruct (2 <? _)%nat; [reflexivity|].
        destruct (get_idx _ 0) as [p| | |]; cbn [bind]; auto.
        destruct (get_idx _ 1) as [q| | |]; cbn [bind]; auto.
        rewrite crt_same by exact Q. destruct pc; reflexivity.
      - exact (no_crt_pow k _ (fun dp dq qi pp qp => _) H). }
    rewrite E. reflexivity.
  Qed.

  Lemma check_same fuel rng k c pre :
    rsa_decrypt_g g fuel rng k c = rsa_decrypt g fuel rng (with_pre k pre) c ->
    rsa_decrypt_and_check_g g fuel k rng c = rsa_decrypt_and_check g fuel (with_pre k pre) rng c.
  Proof. intros E. unfold rsa_decrypt_and_check_g, rsa_decrypt_and_check. rewrite E. reflexivity. Qed.
End G.

Section Facts.
  Context {R : Type} (g : rng_ops R).

  Lemma range_g fuel rng k c : uval (kp_n k) <= uval c ->
    rsa_decrypt_g g fuel rng k c = Err Decryption /\
    rsa_decrypt_and_check_g g fuel k rng c = Err Decryption.
  Proof.
    intros H. assert (E : rsa_decrypt_g g fuel rng k c = Err Decryption).
    { unfold rsa_decrypt_g, uleb. destruct (Z.leb_spec (uval (kp_n k)) (uval c)); [reflexivity|lia]. }
    split; [exact E|]. unfold rsa_decrypt_and_check_g. rewrite E. reflexivity.
  Qed.

  Lemma incomplete_g fuel k c : typed_parts k -> no_crt k -> wf_uint c -> uval c < uval (kp_n k) ->
    rsa_decrypt_g g fuel None k c =
    if uprec c <=? uprec (kp_d k)
    then Ok (mkU (RSADP (mp_val (kp_params k)) (uval (kp_d k)) (uval c mod 2 ^ mp_prec (kp_params k)))
                 (mp_prec (kp_params k)))
    else Panic.
  Proof.
    intros (_ & _ & _ & W & D & _) N C L. pose proof (params_pos _ W) as P.
    destruct W as (W & _). pose proof W as (V & P1 & P2). pose proof D as (D0 & D1 & D2).
    unfold rsa_decrypt_g, uleb. destruct (Z.leb_spec (uval (kp_n k)) (uval c)); [lia|]. cbv zeta.
    destruct (Z.leb_spec (uprec c) (uprec (kp_d k))) as [Le|Gt].
    - rewrite widen_ok by auto. cbn [bind].
      pose proof (no_crt_pow k (pow_mod_params (mkU (uval c) (uprec (kp_d k))) (kp_d k) (kp_params k))
                    (fun dp dq qi pp qp => let* _p := get_idx (kp_primes k) 0 in
                       let* q := get_idx (kp_primes k) 1 in
                       crt_pow_g (mkU (uval c) (uprec (kp_d k))) dp dq qi pp qp q) N) as E.
      rewrite E. clear E. rewrite (params_eta (kp_params k)) at 1.
      rewrite pow_mod_params_ok; auto; [|apply widen_wf; auto|lia]. cbn [bind uval].
      assert (B : 0 <= (uval c mod 2 ^ mp_prec (kp_params k)) ^ uval (kp_d k) mod mp_val (kp_params k)
                  < mp_val (kp_params k)) by (apply Z.mod_pos_bound; exact P).
      rewrite shorten_ok; [|exact P1|exact P2|cbn [uprec]; unfold mp_prec; lia]. cbn [bind uval].
      f_equal. unfold RSADP. f_equal. apply Z.mod_small. unfold mp_val, mp_prec in *. lia.
    - unfold widen. destruct (Z.leb_spec (uprec c) (uprec (kp_d k))); [lia|]. reflexivity.
  Qed.

  Lemma few_primes_g fuel k c : wf_uint c -> wf_uint (kp_d k) ->
    uval c < uval (kp_n k) -> ~ no_crt k -> (length (kp_primes k) < 2)%nat ->
    rsa_decrypt_g g fuel None k c = Panic /\ rsa_decrypt_and_check_g g fuel k None c = Panic.
  Proof.
    intros C D L N S. assert (E : rsa_decrypt_g g fuel None k c = Panic).
    { unfold rsa_decrypt_g, uleb. destruct (Z.leb_spec (uval (kp_n k)) (uval c)); [lia|]. cbv zeta.
      destruct (widen c (uprec (kp_d k))) as [x| | |] eqn:E; cbn [bind]; auto;
        try (unfold widen in E; destruct (_ <=? _); discriminate).
      unfold no_crt in N. destruct (kp_dp k); [|tauto]. destruct (kp_dq k); [|tauto].
      destruct (kp_qinv k); [|tauto]. destruct (kp_p_params k); [|tauto]. destruct (kp_q_params k); [|tauto].
      destruct (Nat.ltb_spec 2 (length (kp_primes k))); [lia|].
      destruct (kp_primes k) as [|p [|q r]]; [reflexivity|reflexivity|cbn [length] in S; lia]. }
    split; [exact E|]. unfold rsa_decrypt_and_check_g. rewrite E. reflexivity.
  Qed.

  Lemma own_pre k pc : wf_uint (sk_d k) -> Forall wf_uint (sk_primes k) -> pre_consistent k ->
    sk_pre k = Some pc -> mp_eqb (mf_params (pc_qinv pc)) (pc_p_params pc) = true.
  Proof.
    intros D F C E. destruct (pre_consistent_inv k pc D F C E) as (p & q & rest & qi & _ & H).
    cbv zeta in H. destruct H as (_ & _ & _ & _ & _ & _ & ->). cbn [pc_qinv mf_params pc_p_params].
    unfold mp_eqb, ueqb. rewrite !Z.eqb_refl. reflexivity.
  Qed.

  Lemma with_pre_parts k : with_pre (parts_of k) (sk_pre k) = k.
  Proof. destruct k as [[n e pp] d ps pre]. reflexivity. Qed.

  Lemma own_g fuel rng k c : wf_uint (sk_d k) -> Forall wf_uint (sk_primes k) -> pre_consistent k ->
    rsa_decrypt_g g fuel rng (parts_of k) c = rsa_decrypt g fuel rng k c /\
    rsa_decrypt_and_check_g g fuel (parts_of k) rng c = rsa_decrypt_and_check g fuel k rng c.
  Proof.
    intros D F C.
    assert (E : rsa_decrypt_g g fuel rng (parts_of k) c = rsa_decrypt g fuel rng (with_pre (parts_of k) (sk_pre k)) c).
    { apply decrypt_same; [reflexivity|]. destruct (sk_pre k) as [pc|] eqn:Ep.
      - unfold parts_of. rewrite Ep. do 5 (split; [reflexivity|]). eapply own_pre; eauto.
      - left. unfold parts_of. rewrite Ep. reflexivity. }
    split; [rewrite E, with_pre_parts; reflexivity|].
    rewrite (check_same g fuel rng _ c _ E), with_pre_parts. reflexivity.
  Qed.

  (** Right numbers, any selection of the CRT values. *)
  Definition answers_for (k' : key_parts) (k : privkey) : Prop :=
    kp_n k' = priv_n k /\ kp_e k' = priv_e k /\ kp_params k' = pk_params (sk_pub k) /\
    kp_bits k' = uprec (priv_n k) /\ kp_d k' = priv_d k /\ kp_primes k' = priv_primes k /\
    (kp_dp k' = None \/ kp_dp k' = priv_dp k) /\ (kp_dq k' = None \/ kp_dq k' = priv_dq k) /\
    (kp_qinv k' = None \/ kp_qinv k' = priv_qinv k) /\
    (kp_p_params k' = None \/ kp_p_params k' = priv_p_params k) /\
    (kp_q_params k' = None \/ kp_q_params k' = priv_q_params k).

  Lemma selection_g fuel rng k' k c : good_priv k -> answers_for k' k -> wf_uint c ->
    rsa_decrypt_g g fuel rng k' c = rsa_decrypt g fuel rng k c /\
    rsa_decrypt_and_check_g g fuel k' rng c = rsa_decrypt_and_check g fuel k rng c.
  Proof.
    intros G (An & Ae & Ap & Ab & Ad & Aps & A1 & A2 & A3 & A4 & A5) C.
    pose proof G as (_ & D & F & _ & _ & Cn).
    assert (W : forall pre, with_pre k' pre = mkPriv (sk_pub k) (sk_d k) (sk_primes k) pre).
    { intros pre. unfold with_pre. rewrite An, Ae, Ap, Ad, Aps. destruct k as [[n e pp] d ps pr]. reflexivity. }
    assert (K : exists pre, rsa_decrypt_g g fuel rng k' c = rsa_decrypt g fuel rng (with_pre k' pre) c /\
                  rsa_decrypt g fuel rng (with_pre k' pre) c = rsa_decrypt g fuel rng k c).
    { destruct (kp_dp k') as [x1|] eqn:E1; [destruct (kp_dq k') as [x2|] eqn:E2;
        [destruct (kp_qinv k') as [x3|] eqn:E3; [destruct (kp_p_params k') as [x4|] eqn:E4;
          [destruct (kp_q_params k') as [x5|] eqn:E5|]|]|]|].
      1:{ exists (sk_pre k). split; [|rewrite W; destruct k; reflexivity].
          apply decrypt_same; [congruence|].
          destruct A1 as [A1|A1]; [discriminate|]. destruct A2 as [A2|A2]; [discriminate|].
          destruct A3 as [A3|A3]; [discriminate|]. destruct A4 as [A4|A4]; [discriminate|].
          destruct A5 as [A5|A5]; [discriminate|].
          unfold priv_dp, priv_dq, priv_qinv, priv_p_params, priv_q_params in *.
          destruct (sk_pre k) as [pc|] eqn:Ep; [|discriminate].
          rewrite E1, E2, E3, E4, E5. do 5 (split; [assumption|]). eapply own_pre; eauto. }
      all: exists None; split;
        [apply decrypt_same; [congruence|unfold no_crt; tauto]|];
        rewrite W; apply rsa_decrypt_same_crt; auto;
        destruct G as (G1 & G2 & G3 & G4 & G5 & G6); (split; [exact G1|]); (split; [exact G2|]);
        (split; [exact G3|]); (split; [exact G4|]); (split; [exact G5|left; reflexivity]). }
    destruct K as (pre & K1 & K2). split; [congruence|].
    rewrite (check_same g fuel rng _ c _ K1). unfold rsa_decrypt_and_check. rewrite K2, W. reflexivity.
  Qed.
End Facts.
