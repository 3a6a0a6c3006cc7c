(** Proofs that the CRT state of a key and the blinding generator never change the
    outcome of an operation (C08, C09), and that nothing below the API panics for
    well-formed keys (C39). *)
From Coq Require Import ZArith List Bool Lia Znumtheory.
From Coq Require Import Init.Byte.
From Verif Require Import Base Bigint BytesLemmas NumTheory SpecRFC BigintLemmas MHash MPad MMgf
  MPkcs1 MOaep MPss MRsa MKey MApi KeyDefs SpecRng SpecKey PPad PMgf PPkcs1 PRsa POaep PPss PApi PSig.
Import ListNotations.
Local Open Scope Z_scope.

Section H.
  Context {R : Type} (g : rng_ops R).

  Lemma mul_mod_params_inv a b N m :
    wf_uint N -> 0 < uval N -> mul_mod_params a b (mkMP N) = Ok m ->
    wf_uint m /\ uval m < uval N /\ uprec m = uprec N.
  Proof.
    intros (Hv & P1 & P2) Hn H. unfold mul_mod_params in H. apply bind_ok in H.
    destruct H as (l1 & El & H). apply bind_ok in H. destruct H as (r1 & Er & H). injection H as <-.
    unfold mf_new in El. destruct (_ =? _); [|discriminate]. injection El as <-.
    unfold mf_retrieve, mf_mul, mp_prec, mp_val. cbn [mf_params mf_res mp_modulus uval uprec].
    pose proof (Z.mod_pos_bound (uval a mod uval N * mf_res r1) (uval N) Hn).
    split; [apply wf_mk; auto; lia|]. split; [lia|reflexivity].
  Qed.

  (** Two good keys differing only in the presence of CRT values. *)
  Lemma rsa_decrypt_same_crt fuel rng k1 k2 c :
    good_priv k1 -> good_priv k2 -> sk_pub k1 = sk_pub k2 -> sk_d k1 = sk_d k2 ->
    sk_primes k1 = sk_primes k2 -> wf_uint c ->
    rsa_decrypt g fuel rng k1 c = rsa_decrypt g fuel rng k2 c.
  Proof.
    intros G1 G2 E1 E2 E3 Hc. rewrite !rsa_decrypt_unfold, E1, E2.
    unfold uleb. destruct (Z.leb_spec (uval (pk_n (sk_pub k2))) (uval c)) as [|Hcn]; auto. cbv zeta.
    pose proof (good_pub _ G2) as Hp. pose proof Hp as (Hn & _ & Hpar & _).
    pose proof (odd_pos_n _ Hp) as Hn0.
    assert (Hd : wf_uint (sk_d k2)) by apply G2. pose proof Hd as (_ & D1 & D2).
    assert (K : forall c', wf_uint c' -> uprec c' = uprec (sk_d k2) ->
              uval c' < uval (pk_n (sk_pub k2)) ->
              (let* m := private_pow k1 c' in shorten m (mp_prec (pk_params (sk_pub k2))))
              = (let* m := private_pow k2 c' in shorten m (mp_prec (pk_params (sk_pub k2))))).
    { intros c' W P V.
      destruct (private_pow_ok k1 c' G1) as (p1 & -> & L1); rewrite ?E1, ?E2; auto.
      destruct (private_pow_ok k2 c' G2) as (p2 & -> & L2); auto.
      rewrite E1 in L1. cbn [bind]. rewrite Hpar. unfold shorten, mp_prec. cbn [mp_modulus uprec uval].
      destruct (Z.leb_spec (uprec (pk_n (sk_pub k2))) p1); [|lia].
      destruct (Z.leb_spec (uprec (pk_n (sk_pub k2))) p2); [|lia]. rewrite ?E1, ?E2. reflexivity. }
    destruct rng as [st|].
    - destruct (blind g fuel st (sk_pub k2) c (pk_params (sk_pub k2))) as [[b u]| | |] eqn:Eb;
        cbn [bind]; auto.
      assert (B : wf_uint b /\ uval b < uval (pk_n (sk_pub k2)) /\ uprec b = uprec (pk_n (sk_pub k2))).
      { unfold blind in Eb. apply bind_ok in Eb. destruct Eb as (_ & _ & Eb). cbv zeta in Eb.
        apply bind_ok in Eb. destruct Eb as (((r & ir) & st') & _ & Eb).
        apply bind_ok in Eb. destruct Eb as (re & _ & Eb).
        apply bind_ok in Eb. destruct Eb as (bl & Em & Eb).
        apply bind_ok in Eb. destruct Eb as (_ & _ & Eb).
        apply bind_ok in Eb. destruct Eb as (_ & _ & Eb). injection Eb as <- <-.
        rewrite Hpar in Em. eapply mul_mod_params_inv; eauto. }
      destruct B as (B1 & B2 & B3).
      destruct (Z.le_gt_cases (uprec b) (uprec (sk_d k2))) as [Hle|Hgt].
      + rewrite widen_ok by auto. cbn [bind].
        specialize (K (mkU (uval b) (uprec (sk_d k2))) (widen_wf _ _ B1 Hle D2) eq_refl B2).
        destruct (private_pow k1 _); destruct (private_pow k2 _); cbn [bind] in K |- *;
          try rewrite K; auto; try (rewrite <- K; auto); try discriminate K; try congruence.
      + unfold widen. destruct (Z.leb_spec (uprec b) (uprec (sk_d k2))); [lia|]. reflexivity.
    - destruct (Z.le_gt_cases (uprec c) (uprec (sk_d k2))) as [Hle|Hgt].
      + rewrite widen_ok by auto. cbn [bind].
        specialize (K (mkU (uval c) (uprec (sk_d k2))) (widen_wf _ _ Hc Hle D2) eq_refl Hcn).
        destruct (private_pow k1 _); destruct (private_pow k2 _); cbn [bind] in K |- *;
          try rewrite K; auto; try (rewrite <- K; auto); try discriminate K; try congruence.
      + unfold widen. destruct (Z.leb_spec (uprec c) (uprec (sk_d k2))); [lia|]. reflexivity.
  Qed.

  Lemma decrypt_core_same_crt fuel rng k1 k2 ct :
    good_priv k1 -> good_priv k2 -> sk_pub k1 = sk_pub k2 -> sk_d k1 = sk_d k2 ->
    sk_primes k1 = sk_primes k2 ->
    decrypt_core g fuel rng k1 ct = decrypt_core g fuel rng k2 ct.
  Proof.
    intros G1 G2 E1 E2 E3. unfold decrypt_core. rewrite E1.
    destruct (from_be_slice ct (n_bits_precision (sk_pub k2))) as [c| | |] eqn:E; cbn [bind]; auto.
    pose proof (good_pub _ G2) as ((_ & P1 & P2) & _).
    assert (W : wf_uint c) by (eapply from_be_slice_wf; eauto).
    unfold rsa_decrypt_and_check. rewrite (rsa_decrypt_same_crt fuel rng k1 k2 c) by auto.
    rewrite E1. reflexivity.
  Qed.

  Lemma oaep_api_decrypt_gen fuel rng k ct dd dm label :
    oaep_api_decrypt g fuel rng k ct dd dm label
    = if negb (length ct =? key_size (sk_pub k))%nat then Err Decryption
      else let* em := decrypt_core g fuel rng k ct in
           oaep_decrypt em dd dm label (key_size (sk_pub k)).
  Proof.
    unfold oaep_api_decrypt, decrypt_core. destruct (negb _); auto.
    destruct (from_be_slice _ _); cbn [bind]; auto.
    destruct (rsa_decrypt_and_check _ _ _ _ _); cbn [bind]; auto.
  Qed.

  Lemma sign_pss_gen fuel rng k hashed salt dg :
    sign_pss_with_salt g fuel rng k hashed salt dg
    = let* em_bits := usub (Z.to_nat (ubits (pk_n (sk_pub k)))) 1 in
      let* (em, _) := emsa_pss_encode hashed em_bits salt dg in decrypt_core g fuel rng k em.
  Proof. reflexivity. Qed.

  Lemma scheme_decrypt_same_crt fuel rng k1 k2 p ct :
    good_priv k1 -> good_priv k2 -> sk_pub k1 = sk_pub k2 -> sk_d k1 = sk_d k2 ->
    sk_primes k1 = sk_primes k2 ->
    scheme_decrypt g fuel rng k1 p ct = scheme_decrypt g fuel rng k2 p ct.
  Proof.
    intros G1 G2 E1 E2 E3. destruct p as [|o]; cbn [scheme_decrypt].
    - rewrite !pkcs1v15_decrypt_core, E1. rewrite (decrypt_core_same_crt fuel rng k1 k2 ct) by auto.
      reflexivity.
    - rewrite !oaep_api_decrypt_gen, E1. rewrite (decrypt_core_same_crt fuel rng k1 k2 ct) by auto.
      reflexivity.
  Qed.

  Lemma scheme_sign_same_crt fuel rng k1 k2 s hashed :
    good_priv k1 -> good_priv k2 -> sk_pub k1 = sk_pub k2 -> sk_d k1 = sk_d k2 ->
    sk_primes k1 = sk_primes k2 ->
    scheme_sign g fuel rng k1 s hashed = scheme_sign g fuel rng k2 s hashed.
  Proof.
    intros G1 G2 E1 E2 E3. destruct s as [s|s]; cbn [scheme_sign].
    - destruct (check_hash_len s hashed); cbn [bind]; auto. rewrite !pkcs1v15_sign_core, E1.
      destruct (pkcs1v15_sign_pad _ _ _); cbn [bind]; auto. apply decrypt_core_same_crt; auto.
    - destruct rng as [st|]; auto. unfold pss_sign.
      destruct (rng_fill g st (ps_salt_len s)) as [[salt|] st']; auto.
      rewrite !sign_pss_gen, E1. destruct (usub _ _); cbn [bind]; auto.
      destruct (emsa_pss_encode _ _ _ _) as [[em ?]| | |]; cbn [bind]; auto.
      apply decrypt_core_same_crt; auto.
  Qed.

  (** * Blinding *)

  Lemma decrypt_core_blinded fuel st k ct :
    rng_ok g -> good_priv k ->
    (blinding_succeeds g (uval (pk_n (sk_pub k))) (Some st) fuel ->
       decrypt_core g fuel (Some st) k ct = decrypt_core g fuel None k ct) /\
    (blinding_fails g (uval (pk_n (sk_pub k))) (Some st) fuel ->
       decrypt_core g fuel (Some st) k ct
       = match decrypt_core g fuel None k ct with Err e => Err e | _ => Err Rng end) /\
    (blinding_undecided g (uval (pk_n (sk_pub k))) (Some st) fuel ->
       decrypt_core g fuel (Some st) k ct
       = match decrypt_core g fuel None k ct with Err e => Err e | _ => OutOfFuel end).
  Proof.
    intros Hg Hk. pose proof (good_pub _ Hk) as Hp.
    destruct (Z.le_gt_cases (8 * Z.of_nat (length ct)) (uprec (pk_n (sk_pub k)))) as [L|L].
    2:{ rewrite !decrypt_core_long by auto. auto. }
    destruct (Z.le_gt_cases (uval (pk_n (sk_pub k))) (os2ip ct)) as [V|V].
    { rewrite !decrypt_core_range by auto. auto. }
    assert (H1 : Some st <> None -> rng_ok g) by auto.
    assert (H2 : @None R <> None -> rng_ok g) by auto.
    destruct (decrypt_core_good g fuel (Some st) k ct H1 Hk L V) as (A & B & C).
    destruct (decrypt_core_good g fuel None k ct H2 Hk L V) as (A0 & _).
    rewrite (A0 I). auto.
  Qed.

  (** The outcome of an operation when the blinding generator fails: errors raised
      without the private operation stay, everything else becomes [Rng]. *)
  Lemma scheme_decrypt_blinded fuel st k p ct :
    rng_ok g -> good_priv k ->
    (blinding_succeeds g (uval (pk_n (sk_pub k))) (Some st) fuel ->
       scheme_decrypt g fuel (Some st) k p ct = scheme_decrypt g fuel None k p ct) /\
    (blinding_fails g (uval (pk_n (sk_pub k))) (Some st) fuel ->
       scheme_decrypt g fuel (Some st) k p ct = Err Rng \/
       (exists e, scheme_decrypt g fuel (Some st) k p ct = Err e
                  /\ scheme_decrypt g fuel None k p ct = Err e)).
  Proof.
    intros Hg Hk. destruct (decrypt_core_blinded fuel st k ct Hg Hk) as (A & B & _).
    destruct p as [|o]; cbn [scheme_decrypt].
    - rewrite !pkcs1v15_decrypt_core. split; intros H.
      + rewrite (A H). reflexivity.
      + rewrite (B H). destruct (check_public (sk_pub k)) as [|e| |] eqn:Ec; cbn [bind].
        * destruct (decrypt_core g fuel None k ct); cbn [bind]; eauto.
        * eauto.
        * unfold check_public, check_public_with_max_size, guard in Ec.
          repeat (destruct (_ : bool); cbn [bind] in Ec; try discriminate).
        * unfold check_public, check_public_with_max_size, guard in Ec.
          repeat (destruct (_ : bool); cbn [bind] in Ec; try discriminate).
    - rewrite !oaep_api_decrypt_gen. split; intros H.
      + rewrite (A H). reflexivity.
      + rewrite (B H). destruct (negb _); [eauto|].
        destruct (decrypt_core g fuel None k ct); cbn [bind]; eauto.
  Qed.

  Lemma pkcs1v15_sign_blinded fuel st k s hashed :
    rng_ok g -> good_priv k ->
    (blinding_succeeds g (uval (pk_n (sk_pub k))) (Some st) fuel ->
       private_sign_with_rng g fuel st k (SigPkcs1v15 s) hashed
       = private_sign g fuel k (SigPkcs1v15 s) hashed) /\
    (blinding_fails g (uval (pk_n (sk_pub k))) (Some st) fuel ->
       private_sign_with_rng g fuel st k (SigPkcs1v15 s) hashed = Err Rng \/
       (exists e, private_sign_with_rng g fuel st k (SigPkcs1v15 s) hashed = Err e
                  /\ private_sign g fuel k (SigPkcs1v15 s) hashed = Err e)).
  Proof.
    intros Hg Hk. unfold private_sign_with_rng, private_sign. cbn [scheme_sign].
    assert (C : check_hash_len s hashed = Ok tt \/ check_hash_len s hashed = Err InputNotHashed).
    { unfold check_hash_len, guard. destruct (p1_hash_len s); auto. destruct (_ =? _)%nat; auto. }
    destruct C as [-> | ->]; cbn [bind]; [|split; eauto].
    rewrite !pkcs1v15_sign_core.
    destruct (Nat.le_gt_cases (length (p1_prefix s ++ hashed) + 11) (key_size (sk_pub k))) as [L|L].
    2:{ rewrite sign_pad_err by auto. cbn [bind]. split; eauto. }
    rewrite sign_pad_ok by auto. cbn [bind].
    destruct (decrypt_core_blinded fuel st k (emsa_pkcs1 (p1_prefix s ++ hashed) (key_size (sk_pub k))) Hg Hk)
      as (A & B & _). split; intros H.
    - auto.
    - rewrite (B H). destruct (decrypt_core g fuel None k _); eauto.
  Qed.
End H.

(** * Sequences of precompute / clear_precomputed calls *)

Inductive crt_op := Precompute | ClearPrecomputed.
Definition crt_step (k : privkey) (o : crt_op) : outcome privkey :=
  match o with Precompute => precompute k | ClearPrecomputed => Ok (clear_precomputed k) end.
Fixpoint crt_run (k : privkey) (os : list crt_op) : outcome privkey :=
  match os with [] => Ok k | o :: r => let* k' := crt_step k o in crt_run k' r end.

Lemma crt_run_keeps os : forall k k', good_priv k -> crt_run k os = Ok k' ->
  good_priv k' /\ sk_pub k' = sk_pub k /\ sk_d k' = sk_d k /\ sk_primes k' = sk_primes k.
Proof.
  induction os as [|o os IH]; intros k k' Hk H; cbn [crt_run] in H.
  - injection H as <-. auto.
  - apply bind_ok in H. destruct H as (k1 & E & H).
    assert (good_priv k1 /\ sk_pub k1 = sk_pub k /\ sk_d k1 = sk_d k /\ sk_primes k1 = sk_primes k)
      as (G & A & B & C).
    { destruct o; cbn [crt_step] in E.
      - split; [eapply good_precompute; eauto|]. apply precompute_keeps; auto.
      - injection E as <-. split; [apply good_clear; auto|]. auto. }
    destruct (IH _ _ G H) as (G' & A' & B' & C'). rewrite <- A, <- B, <- C. auto.
Qed.

Lemma crt_run_total os : forall k, good_priv k -> primes_fit k -> exists k', crt_run k os = Ok k'.
Proof.
  induction os as [|o os IH]; intros k Hk Hf; cbn [crt_run]; eauto.
  destruct o; cbn [crt_step].
  - destruct (precompute_total k Hk Hf) as (k1 & E). rewrite E. cbn [bind].
    apply IH; [eapply good_precompute; eauto|].
    destruct (precompute_keeps _ _ E) as (_ & Ed & Ep). unfold primes_fit in *. rewrite Ed, Ep. auto.
  - cbn [bind]. apply IH; [apply good_clear; auto|]. auto.
Qed.

(** * No panic *)

Definition no_panic {A} (o : outcome A) : Prop := o <> Panic.

Lemma np_bind {A B} (o : outcome A) (f : A -> outcome B) :
  no_panic o -> (forall a, o = Ok a -> no_panic (f a)) -> no_panic (bind o f).
Proof.
  unfold no_panic. intros H1 H2. destruct o; cbn [bind]; auto; try discriminate.
Qed.

Lemma good_sane k : good_priv k -> sane_priv k.
Proof.
  intros Hk. pose proof (good_gt1 k Hk). destruct Hk as (A & B & C & D & E & F).
  repeat (split; auto). destruct D as (L & _). rewrite map_length in L. auto.
Qed.

Section NP.
  Context {R : Type} (g : rng_ops R).

  Lemma private_pow_np k c : sane_priv k -> wf_uint c -> uprec c = uprec (sk_d k) ->
    exists m, private_pow k c = Ok m /\ uprec (pk_n (sk_pub k)) <= uprec m.
  Proof.
    intros (Hp & Hd & HF & HL & H1 & Hpr & Hpre) Hc Ec.
    pose proof (odd_pos_n _ Hp) as Hn. pose proof Hp as (Wn & We & Hpar & _).
    unfold private_pow. rewrite Hpar.
    assert (exists m, pow_mod_params c (sk_d k) (mkMP (pk_n (sk_pub k))) = Ok m
                      /\ uprec (pk_n (sk_pub k)) <= uprec m) as P.
    { rewrite pow_mod_params_ok; auto; [|destruct Hd; lia]. eexists. split; [reflexivity|]. cbn [uprec]. lia. }
    destruct (sk_pre k) as [pc|] eqn:Ep; auto.
    destruct (2 <? length (sk_primes k))%nat; auto.
    destruct (pre_consistent_inv k pc Hd HF Hpre Ep) as (p & q & rest & qinv & EP & H).
    cbv zeta in H. destruct H as (A & B & C & D & F & G & ->). rewrite EP.
    cbn [get_idx nth_error bind]. unfold crt_pow, mf_new, mp_prec.
    cbn [pc_p_params pc_q_params mp_modulus uprec mf_retrieve mf_pow mf_params].
    rewrite Ec, Z.eqb_refl. cbn [bind mf_retrieve mf_pow mf_params mp_prec mp_modulus uprec].
    unfold mp_prec. cbn [mp_modulus uprec]. rewrite Z.eqb_refl.
    cbn [bind]. eexists. split; [reflexivity|].
    unfold uwrapping_add. cbn [uprec]. eapply Z.le_trans; [|apply Z.le_max_l]. exact Hpr.
  Qed.

  Lemma shorten_np m p : p <= uprec m -> 64 <= p -> p mod 64 = 0 ->
    exists m', shorten m p = Ok m' /\ uprec m' = p.
  Proof.
    intros H H1 H2. unfold shorten. destruct (Z.leb_spec p (uprec m)); [|lia].
    eexists. split; [reflexivity|]. cbn [uprec]. apply prec_for_id; auto.
  Qed.

  Lemma rsa_decrypt_np fuel rng k c :
    (rng <> None -> rng_ok g) ->
    sane_priv k -> wf_uint c -> uprec c = uprec (pk_n (sk_pub k)) ->
    no_panic (rsa_decrypt g fuel rng k c).
  Proof.
    intros Hg Hk Hc Ec. pose proof Hk as (Hp & Hd & _ & _ & H1 & Hpr & _).
    pose proof Hp as (Wn & We & Hpar & _). pose proof Wn as (Vn & N1 & N2).
    pose proof Hd as (_ & D1 & D2). pose proof (odd_pos_n _ Hp) as Hn.
    rewrite rsa_decrypt_unfold. destruct (uleb _ _); [discriminate|]. cbv zeta.
    destruct rng as [st|].
    - rewrite blind_ok by (auto; apply Hg; discriminate).
      destruct (blind_loop_cases g fuel st (sk_pub k) Wn) as [(((r & ir) & st') & E)|[E|E]];
        rewrite E; cbn [bind]; try discriminate.
      apply blind_loop_ok in E; auto; [|apply Hg; discriminate].
      destruct E as (_ & Eir & _ & Vir & _).
      set (b := mkU _ _).
      assert (Wb : wf_uint b).
      { unfold b. apply wf_mk; auto.
        pose proof (Z.mod_pos_bound (uval c * (uval r ^ uval (pk_e (sk_pub k)) mod uval (pk_n (sk_pub k))))
                      (uval (pk_n (sk_pub k))) Hn). lia. }
      assert (Hle : uprec b <= uprec (sk_d k)) by (cbn [b uprec]; auto).
      rewrite widen_ok by auto. cbn [bind].
      destruct (private_pow_np k (mkU (uval b) (uprec (sk_d k))) Hk (widen_wf _ _ Wb Hle D2) eq_refl)
        as (m & -> & Lm). cbn [bind]. rewrite Hpar. unfold mp_prec. cbn [mp_modulus].
      destruct (shorten_np m _ Lm N1 N2) as (m' & -> & Em). cbn [bind].
      unfold unblind, mp_prec. cbn [mp_modulus]. rewrite Em, Eir, Z.eqb_refl. cbn [assert_ bind].
      rewrite mul_mod_params_ok by auto. discriminate.
    - rewrite widen_ok by (auto; lia). cbn [bind].
      assert (Hle : uprec c <= uprec (sk_d k)) by lia.
      destruct (private_pow_np k (mkU (uval c) (uprec (sk_d k))) Hk (widen_wf _ _ Hc Hle D2) eq_refl)
        as (m & -> & Lm). cbn [bind]. rewrite Hpar. unfold mp_prec. cbn [mp_modulus].
      destruct (shorten_np m _ Lm N1 N2) as (m' & -> & Em). discriminate.
  Qed.

  Lemma rsa_decrypt_and_check_np fuel rng k c :
    (rng <> None -> rng_ok g) ->
    sane_priv k -> wf_uint c -> uprec c = uprec (pk_n (sk_pub k)) ->
    no_panic (rsa_decrypt_and_check g fuel k rng c).
  Proof.
    intros Hg Hk Hc Ec. unfold rsa_decrypt_and_check. apply np_bind; [apply rsa_decrypt_np; auto|].
    intros m Em. pose proof Hk as (Hp & _).
    destruct (rsa_decrypt_prec g _ _ _ _ _ Hp Em) as (Wm & Pm).
    rewrite rsa_encrypt_ok by auto. cbn [bind]. destruct (negb _); discriminate.
  Qed.

  Lemma uint_to_be_pad_np m len : wf_uint m -> no_panic (uint_to_zeroizing_be_pad m len).
  Proof.
    intros Wm. destruct (C21_lemma m len Wm) as [A B].
    destruct (Z.lt_ge_cases (uval m) (256 ^ Z.of_nat len)) as [H|H].
    - destruct (A H) as (X & _ & -> & _). discriminate.
    - destruct (B H) as (_ & ->). discriminate.
  Qed.

  Lemma decrypt_core_np fuel rng k ct :
    (rng <> None -> rng_ok g) -> sane_priv k -> no_panic (decrypt_core g fuel rng k ct).
  Proof.
    intros Hg Hk. pose proof Hk as (Hp & _). pose proof Hp as ((_ & P1 & P2) & _).
    unfold decrypt_core. apply np_bind.
    - unfold n_bits_precision. rewrite from_be_slice_spec by lia.
      destruct (_ && _); [discriminate|]. destruct (_ <? _); [discriminate|].
      destruct (_ <=? _); discriminate.
    - intros c Ec. apply from_be_slice_wf in Ec; auto. destruct Ec as (Wc & Pc).
      apply np_bind; [apply rsa_decrypt_and_check_np; auto|].
      intros m Em. apply rsa_decrypt_and_check_sound in Em; auto; [|destruct Wc as (? & _); lia].
      apply uint_to_be_pad_np, Em.
  Qed.

  Lemma decrypt_core_length fuel rng k ct em : wf_pub (sk_pub k) ->
    decrypt_core g fuel rng k ct = Ok em ->
    length em = key_size (sk_pub k) /\ 8 * Z.of_nat (length ct) <= uprec (pk_n (sk_pub k)) /\
    os2ip ct < uval (pk_n (sk_pub k)) /\
    RSAEP (uval (pk_n (sk_pub k))) (uval (pk_e (sk_pub k))) (os2ip em) = os2ip ct.
  Proof.
    intros Hp H. pose proof Hp as ((_ & P1 & P2) & _).
    destruct (Z.le_gt_cases (8 * Z.of_nat (length ct)) (uprec (pk_n (sk_pub k)))) as [L|L].
    2:{ rewrite decrypt_core_long in H by auto. discriminate. }
    unfold decrypt_core, n_bits_precision in H. rewrite from_be_slice_fits in H by auto. cbn [bind] in H.
    apply bind_ok in H. destruct H as (m & Em & H).
    apply rsa_decrypt_and_check_sound in Em; auto; [|cbn [uval]; apply os2ip_range].
    cbn [uval] in Em. destruct Em as (E1 & E2 & W & _).
    destruct (C21_lemma m (key_size (sk_pub k)) W) as [A B].
    destruct (Z.lt_ge_cases (uval m) (256 ^ Z.of_nat (key_size (sk_pub k)))) as [V|V].
    - destruct (A V) as (X & _ & EX & L1 & V1). rewrite EX in H. injection H as <-.
      rewrite V1. auto.
    - destruct (B V) as (_ & EX). rewrite EX in H. discriminate.
  Qed.

  Lemma check_public_np k : no_panic (check_public k).
  Proof.
    unfold check_public, check_public_with_max_size, no_panic.
    repeat (destruct (_ : bool); try discriminate).
  Qed.
End NP.

(** * No panic at the API *)

(** Scheme objects as their constructors (src/oaep.rs:70-134, src/pss.rs:56-85) build
    them: freshly created digests with non-empty output; the salt length is such that
    adding the hash length does not overflow [usize]. *)
Definition wf_padding (p : padding) : Prop :=
  match p with
  | PadPkcs1v15 => True
  | PadOaep o => exists hd hm, oa_digest o = digest_new hd /\ oa_mgf o = digest_new hm
                               /\ (0 < h_size hm)%nat
  end.
Definition wf_scheme (s : sig_scheme) : Prop :=
  match s with
  | SigPkcs1v15 _ => True
  | SigPss p => exists hd, ps_digest p = digest_new hd /\ (0 < h_size hd)%nat /\
                           Z.of_nat (h_size hd + ps_salt_len p + 2) < 2 ^ 64
  end.

Section NP2.
  Context {R : Type} (g : rng_ops R).

  Lemma oaep_decrypt_digest_np hd hm em label k :
    (0 < h_size hm)%nat -> Z.of_nat k < 2 ^ 32 -> length em = k ->
    no_panic (oaep_decrypt_digest hd hm em label k).
  Proof.
    intros Hm Hk L.
    destruct (Z.lt_ge_cases (Z.of_nat (length (label_bytes label))) (2 ^ 61)) as [H|H].
    - destruct (oaep_total hd hm label k em Hm Hk L H) as [(M & -> & _)| ->]; discriminate.
    - unfold oaep_decrypt_digest, MAX_LABEL_LEN.
      destruct (Z.leb_spec (2 ^ 61) (Z.of_nat (length (label_bytes label)))); [|lia]. discriminate.
  Qed.

  Lemma scheme_decrypt_np fuel rng k p ct :
    (rng <> None -> rng_ok g) -> sane_priv k -> uprec (pk_n (sk_pub k)) < 2 ^ 32 -> wf_padding p ->
    no_panic (scheme_decrypt g fuel rng k p ct).
  Proof.
    intros Hg Hk H32 Hp. pose proof Hk as (Hpub & _). pose proof (prec32_size _ Hpub H32) as Hs.
    destruct p as [|o]; cbn [scheme_decrypt].
    - rewrite pkcs1v15_decrypt_core. apply np_bind; [apply check_public_np|]. intros _ _.
      apply np_bind; [apply decrypt_core_np; auto|]. intros em Em.
      apply decrypt_core_length in Em; auto. destruct Em as (L & _).
      destruct (unpad_total (key_size (sk_pub k)) em) as [(m & ->)| ->]; auto; try discriminate. lia.
    - destruct Hp as (hd & hm & -> & -> & Hm). rewrite oaep_api_decrypt_dyn_core.
      destruct (negb _); [discriminate|].
      apply np_bind; [apply decrypt_core_np; auto|]. intros em Em.
      apply decrypt_core_length in Em; auto. destruct Em as (L & _).
      destruct (_ <=? _); [discriminate|]. apply oaep_decrypt_digest_np; auto. lia.
  Qed.

  Lemma scheme_sign_np fuel rng k s hashed :
    (rng <> None -> rng_ok g) -> sane_priv k -> uprec (pk_n (sk_pub k)) < 2 ^ 32 -> wf_scheme s ->
    no_panic (scheme_sign g fuel rng k s hashed).
  Proof.
    intros Hg Hk H32 Hs. pose proof Hk as (Hpub & _). pose proof (prec32_size _ Hpub H32) as Hsz.
    destruct s as [s|s]; cbn [scheme_sign].
    - apply np_bind.
      { unfold check_hash_len, guard. destruct (p1_hash_len s); [|discriminate].
        destruct (_ =? _)%nat; discriminate. }
      intros _ _. rewrite pkcs1v15_sign_core.
      destruct (Nat.le_gt_cases (length (p1_prefix s ++ hashed) + 11) (key_size (sk_pub k))) as [L|L].
      + rewrite sign_pad_ok by auto. cbn [bind]. apply decrypt_core_np; auto.
      + rewrite sign_pad_err by auto. discriminate.
    - destruct rng as [st|]; [|discriminate]. destruct Hs as (hd & -> & Hh & Hov).
      rewrite pss_sign_agree. unfold pss_sign_digest.
      destruct (rng_fill g st (ps_salt_len s)) as [[salt|] st']; [|discriminate].
      rewrite sign_pss_core. destruct (nbits_facts _ Hpub) as (B1 & _ & _ & B4 & _).
      rewrite usub_ok by auto. cbn [bind].
      rewrite emsa_pss_encode_digest_spec by (auto; lia).
      destruct (negb _); [discriminate|]. destruct (_ <? _)%nat; [discriminate|]. cbn [bind].
      apply decrypt_core_np; auto. intros _. apply Hg. discriminate.
  Qed.

  Lemma public_verify_np pk s hashed sig :
    wf_pub pk -> uprec (pk_n pk) < 2 ^ 32 -> wf_scheme s -> 8 * Z.of_nat (length sig) < 2 ^ 32 ->
    no_panic (public_verify pk s hashed sig).
  Proof.
    intros Hp H32 Hs Hl. destruct s as [s|s].
    - unfold public_verify. apply np_bind.
      { unfold check_hash_len, guard. destruct (p1_hash_len s); [|discriminate].
        destruct (_ =? _)%nat; discriminate. }
      intros _ _. rewrite sig_from_bytes_ok by auto. cbn [bind].
      destruct (pkcs1v15_verify_exact pk (p1_prefix s) hashed _ Hp (sig_uint_wf sig)) as [[-> _]|[-> _]];
        discriminate.
    - destruct Hs as (hd & E & Hh & Hov). destruct s as [bl dg sl]. cbn [ps_digest ps_salt_len] in *. subst dg.
      destruct (public_verify_pss_total hd bl pk hashed sl sig) as [[-> _]|[-> _]]; auto; discriminate.
  Qed.

  Lemma public_encrypt_np fuel st pk p msg :
    rng_ok g -> wf_pub pk -> wf_padding p ->
    no_panic (public_encrypt g fuel st pk p msg).
  Proof.
    intros Hg Hp Hw. destruct (check_public_spec pk Hp) as [[E Hu]|(err & E & _)].
    2:{ destruct p as [|o]; cbn [public_encrypt].
        - rewrite pkcs1v15_encrypt_core, E. discriminate.
        - unfold oaep_api_encrypt. rewrite E. discriminate. }
    destruct p as [|o]; cbn [public_encrypt].
    - destruct (pkcs1v15_encrypt_exact g fuel st pk msg Hg Hp Hu) as [A B]. cbv zeta in A, B.
      destruct (Nat.le_gt_cases (length msg + 11) (key_size pk)) as [L|L].
      + destruct (B L) as (B1 & B2 & B3).
        destruct (padding_trichotomy g Hg fuel st (key_size pk - length msg - 3)) as [(PS & H)|[H|H]].
        * rewrite (B1 PS H). discriminate.
        * rewrite (B2 H). discriminate.
        * rewrite (B3 H). discriminate.
      + rewrite (A L). discriminate.
    - destruct Hw as (hd & hm & -> & -> & Hm). rewrite oaep_api_encrypt_agree.
      rewrite oaep_api_encrypt_exact by auto.
      destruct (_ <=? _); [discriminate|]. destruct (_ <? _)%nat; [discriminate|].
      destruct (rng_fill g st (h_size hd)) as [[seed|] ?]; discriminate.
  Qed.
End NP2.

Lemma verify_long_panics pk s hashed sig :
  2 ^ 29 <= Z.of_nat (length sig) < 2 ^ 32 ->
  (match s with SigPkcs1v15 p => check_hash_len p hashed = Ok tt | SigPss _ => True end) ->
  public_verify pk s hashed sig = Panic.
Proof.
  intros H Hs. assert (E : sig_from_bytes sig = Panic).
  { unfold sig_from_bytes, len_bits_u32. rewrite Z.mod_small by lia.
    destruct (Z.ltb_spec (Z.of_nat (length sig) * 8) (2 ^ 32)); [lia|]. reflexivity. }
  destruct s as [p|p]; cbn [public_verify]; [rewrite Hs|]; cbn [bind]; rewrite E; reflexivity.
Qed.
