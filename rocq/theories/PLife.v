(** Lemmas for PropLife.v: every key that the library hands out. *)
From Coq Require Import ZArith Znumtheory List Bool Lia.
From Coq Require Import Init.Byte.
From Verif Require Import Base Bigint BytesLemmas NumTheory SpecRFC SpecRng SpecKey SpecGen SpecDer SpecSig SpecSerde SpecLife
  BigintLemmas MHash MPad MMgf MOaep MPkcs1 MPss MRsa MGenerate MKey MApi MWrap MDer MEncoding MSerde KeyDefs.
From Verif Require Import PPad PPkcs1 PPss PRsa PApi PSig PSign PKey PBuild PHist PGenerate PEncoding PCodec PWrapEnc PSerde PPub PExport PMisc PRecover PFloat.
Import ListNotations.
Local Open Scope Z_scope.

(** * The invariant *)

Definition life (k : privkey) : Prop :=
  wf_pub (sk_pub k) /\ wf_uint (sk_d k) /\ Forall wf_uint (sk_primes k) /\
  (2 <= length (sk_primes k))%nat /\ validate k = Ok tt /\ pre_consistent k /\ primes_fit k.

Lemma precompute_fit k : precompute k <> Panic -> sk_pre k = None -> primes_fit k.
Proof.
  unfold precompute, primes_fit. intros H E. rewrite E in H.
  destruct (sk_primes k) as [|p [|q r]]; cbn [get_idx nth_error bind] in H.
  - intros ? [].
  - intros x [<-|[]]. unfold widen in H.
    destruct (Z.leb_spec (uprec p) (uprec (sk_d k))); [auto|cbn [bind] in H; congruence].
  - intros x [<-|[<-|[]]].
    + unfold widen in H. destruct (Z.leb_spec (uprec p) (uprec (sk_d k))); [auto|cbn [bind] in H; congruence].
    + unfold widen in H. destruct (uprec p <=? uprec (sk_d k)); cbn [bind] in H; [|congruence].
      destruct (Z.leb_spec (uprec q) (uprec (sk_d k))); [auto|cbn [bind] in H; congruence].
Qed.

Lemma fit_of_fc n e d ps k : from_components n e d ps = Ok k -> (2 <= length ps)%nat -> primes_fit k.
Proof.
  intros H L. unfold from_components in H. apply bind_ok in H. destruct H as ([] & _ & H).
  destruct ps as [|p [|q r]]; cbn [length] in L; try lia. cbn [bind] in H.
  apply bind_ok in H. destruct H as ([] & _ & H).
  set (k0 := mkPriv _ _ _ _) in H.
  assert (F : primes_fit k0).
  { apply precompute_fit; [|reflexivity]. intros P. unfold try_precompute in H. rewrite P in H. discriminate. }
  destruct (try_precompute_ok _ _ H) as [E|E].
  - destruct (precompute_keeps _ _ E) as (_ & E2 & E3). unfold primes_fit in *. rewrite E2, E3. exact F.
  - rewrite E. exact F.
Qed.

Lemma life_components n e d ps k :
  wf_uint n -> wf_uint e -> wf_uint d -> Forall wf_uint ps -> Z.odd (uval n) = true ->
  from_components n e d ps = Ok k -> life k.
Proof.
  intros Wn We Wd WF O H.
  assert (L : (2 <= length ps)%nat).
  { destruct ps as [|p [|q r]]; cbn [length]; try lia.
    - exfalso. exact (c27_empty_never_ok n e d k Wn We Wd O H).
    - exfalso. unfold from_components in H. apply bind_ok in H. destruct H as ([] & _ & H). discriminate. }
  destruct (fc_ok _ _ _ _ _ Wn We Wd WF O L H) as (_ & V & E1 & E2 & E3 & PC).
  unfold life. rewrite E2, E3. split; [rewrite E1; apply mk_wf_pub; auto|].
  split; [auto|]. split; [auto|]. split; [auto|]. split; [auto|]. split; [auto|].
  eapply fit_of_fc; eauto.
Qed.

Lemma life_of_sane k n e d ps : from_components n e d ps = Ok k -> (2 <= length ps)%nat ->
  sane_priv k -> validate k = Ok tt -> life k.
Proof.
  intros H L (A & B & C & D & _ & _ & F) V. unfold life. split; [auto|]. split; [auto|]. split; [auto|].
  split; [auto|]. split; [auto|]. split; [auto|]. eapply fit_of_fc; eauto.
Qed.

Lemma life_p_q p q e k : wf_uint p -> wf_uint q -> wf_uint e -> from_p_q p q e = Ok k -> life k.
Proof.
  intros Wp Wq We H. destruct (c29_pq_result p q e k Wp Wq We H) as (_ & _ & _ & _ & _ & _ & V & S & _).
  unfold from_p_q in H. destruct (ueqb p q); [discriminate|].
  apply bind_ok in H. destruct H as (d & _ & H). apply bind_ok in H. destruct H as (n & _ & H).
  eapply life_of_sane; eauto.
Qed.

Lemma life_primes ps e k : Forall wf_uint ps -> wf_uint e -> from_primes ps e = Ok k -> life k.
Proof.
  intros WF We H. assert (L : (2 <= length ps)%nat).
  { unfold from_primes in H. destruct (Nat.ltb_spec (length ps) 2); [discriminate|auto]. }
  destruct (c29_primes_result ps e k L WF We H) as (_ & _ & _ & _ & _ & _ & V & S & _).
  unfold from_primes in H. destruct (_ <? _)%nat; [discriminate|]. destruct (has_duplicate ps); [discriminate|].
  apply bind_ok in H. destruct H as (n & _ & H). apply bind_ok in H. destruct H as (d & _ & H).
  eapply life_of_sane; eauto.
Qed.

Lemma life_new {R} (gp : prime_gen R) b fuel st e k : prime_source gp b -> 0 <= b < 2 ^ 32 -> wf_uint e ->
  private_new_with_exp gp fuel st b e = Ok k -> life k /\ good_priv k.
Proof.
  intros HP Hb We H.
  destruct (c30_valid gp b HP fuel st e k Hb We H)
    as (p & q & EP & _ & _ & _ & _ & _ & _ & _ & _ & _ & _ & _ & V & _ & G).
  split; [|exact G]. pose proof G as (A & B & C & _ & _ & F).
  unfold private_new_with_exp in H. apply bind_ok in H. destruct H as (c & HC & H).
  assert (L : length (kc_primes c) = 2%nat).
  { unfold generate_multi_prime_key_with_exp in HC.
    repeat (match type of HC with context [if ?x then _ else _] => destruct x; [discriminate|] end).
    eapply loop_length. exact HC. }
  unfold life. split; [auto|]. split; [auto|]. split; [auto|]. split; [rewrite EP; cbn; lia|].
  split; [auto|]. split; [auto|]. eapply fit_of_fc; [exact H|lia].
Qed.

(** Imported keys go through [from_components] as well. *)
Lemma fit_of_pkcs1 s k : private_from_pkcs1 s = Ok k -> primes_fit k.
Proof.
  unfold private_from_pkcs1. destruct (pp_multi s); [discriminate|]. intros H.
  do 8 (apply bind_ok in H; destruct H as (? & _ & H)).
  match type of H with map_err _ ?c = _ => destruct c as [k'| | |] eqn:E; try discriminate H end.
  cbn [map_err] in H. injection H as <-. eapply fit_of_fc; [exact E|cbn; lia].
Qed.

Lemma life_sane k : validate k = Ok tt -> sane_priv k -> primes_fit k -> life k.
Proof. intros V (A & B & C & D & _ & _ & F) P. unfold life. auto 10. Qed.

Lemma life_pkcs8 mx tl doc k : mx < 2 ^ 29 -> from_pkcs8_der mx tl doc = Ok k -> life k /\ sane_priv k.
Proof.
  intros M H. destruct (private_document mx M tl doc k H)
    as (ver & opt & v & d & p & q & dp & dq & qi & _ & _ & _ & X). cbv zeta in X.
  destruct X as (_ & _ & _ & V & S). split; [|exact S].
  apply life_sane; auto. unfold from_pkcs8_der in H.
  apply bind_ok in H. destruct H as (i & _ & H). unfold private_try_from in H.
  do 2 (apply bind_ok in H; destruct H as (? & _ & H)). eapply fit_of_pkcs1; eauto.
Qed.

Lemma life_pkcs1 mx doc k : mx < 2 ^ 29 -> from_pkcs1_der mx doc = Ok k -> life k /\ sane_priv k.
Proof.
  intros M H. destruct (pkcs1_document mx M doc k H) as (d & p & q & dp & dq & qi & X). cbv zeta in X.
  destruct X as (_ & _ & _ & V & S). split; [|exact S].
  apply life_sane; auto. unfold from_pkcs1_der in H.
  apply bind_ok in H. destruct H as (i & _ & H). unfold private_try_from in H.
  do 2 (apply bind_ok in H; destruct H as (? & _ & H)). eapply fit_of_pkcs1; eauto.
Qed.

Lemma life_serde mx tl human v k : mx < 2 ^ 29 -> de_private mx tl human v = Ok k -> life k /\ sane_priv k.
Proof.
  intros M H. apply de_via in H. destruct H as (b & _ & H). eapply life_pkcs8; eauto.
Qed.

Lemma visit_one_from {A} (de : sval -> outcome A) fields : forall acc x,
  visit_one de fields acc = Ok x -> acc = Some x \/ exists v, de v = Ok x.
Proof.
  induction fields as [|(f & v) fields IH]; intros acc x H; cbn [visit_one] in H.
  - destruct acc; [left|]; cbn [required] in H; [congruence|discriminate].
  - destruct (String.string_dec f _).
    + apply bind_ok in H. destruct H as (acc' & O & H). destruct acc as [y|]; [discriminate|].
      cbn [once] in O. apply bind_ok in O. destruct O as (y & D & O). injection O as <-.
      destruct (IH _ _ H) as [E|E]; [|auto]. injection E as ->. eauto.
    + eauto.
Qed.

Lemma visit_four_from {A} (de : sval -> outcome A) fields : forall acc x l,
  visit_four de fields acc = Ok (x, l) -> seen_inner _ acc = Some x \/ exists v, de v = Ok x.
Proof.
  induction fields as [|(f & v) fields IH]; intros [ai al ap am] x l H; cbn [visit_four seen_inner] in *.
  - apply bind_ok in H. destruct H as (i & Hi & H). apply bind_ok in H. destruct H as (? & _ & H).
    apply bind_ok in H. destruct H as (? & _ & H). injection H as <- _.
    destruct ai; cbn [required] in Hi; [injection Hi as ->; auto|discriminate].
  - destruct (String.string_dec f _); [|destruct (String.string_dec f _); [|destruct (String.string_dec f _);
      [|destruct (String.string_dec f _)]]];
      try (apply bind_ok in H; destruct H as (acc' & O & H)); apply IH in H; cbn [seen_inner] in H; auto.
    destruct H as [->|H]; [|auto]. destruct ai as [y|]; [discriminate|]. cbn [once] in O.
    apply bind_ok in O. destruct O as (y & D & O). injection O as <-. eauto.
Qed.

Lemma p1dk_from mx tl human v s : de_p1dk mx tl human v = Ok s ->
  exists v', de_private mx tl human v' = Ok (p1dk_inner s).
Proof.
  unfold de_p1dk. destruct v; try discriminate; intros H; apply bind_ok in H; destruct H as (i & Hi & H);
    injection H as <-; cbn [p1dk_inner].
  - destruct (visit_one_from _ _ _ _ Hi) as [E|E]; [discriminate|exact E].
  - unfold visit_seq_one in Hi. destruct fields; [discriminate|eauto].
Qed.

Lemma odk_from mx tl human v s : de_odk mx tl human v = Ok s ->
  exists v', de_private mx tl human v' = Ok (odk_inner s).
Proof.
  unfold de_odk. destruct v; try discriminate; intros H; apply bind_ok in H; destruct H as ((i & l) & Hi & H);
    injection H as <-; cbn [odk_inner].
  - destruct (visit_four_from _ _ _ _ _ Hi) as [E|E]; [discriminate|exact E].
  - unfold visit_seq_four in Hi. destruct fields as [|v vs]; [discriminate|].
    apply bind_ok in Hi. destruct Hi as (i' & D & Hi). destruct vs as [|l' [|p [|m r]]]; try discriminate.
    do 3 (apply bind_ok in Hi; destruct Hi as (? & _ & Hi)). injection Hi as -> _. eauto.
Qed.

Lemma life_clear k : life k -> life (clear_precomputed k).
Proof.
  intros (A & B & C & D & V & _ & F). unfold life. cbn [clear_precomputed sk_pub sk_d sk_primes].
  split; [auto|]. split; [auto|]. split; [auto|]. split; [auto|]. split; [exact V|].
  split; [left; reflexivity|exact F].
Qed.

Lemma validate_same k k' : sk_pub k' = sk_pub k -> sk_d k' = sk_d k -> sk_primes k' = sk_primes k ->
  validate k' = validate k.
Proof. intros E1 E2 E3. unfold validate. rewrite E1, E2, E3. reflexivity. Qed.

Lemma life_precompute k k' : life k -> precompute k = Ok k' -> life k'.
Proof.
  intros (A & B & C & D & V & P & F) H.
  destruct (precompute_keeps _ _ H) as (E1 & E2 & E3).
  unfold life, primes_fit. rewrite (validate_same k k' E1 E2 E3), E1, E2, E3.
  split; [auto|]. split; [auto|]. split; [auto|]. split; [auto|]. split; [auto|]. split; [|exact F].
  destruct (sk_pre k) eqn:Ep.
  - unfold precompute in H. rewrite Ep in H. injection H as <-. exact P.
  - right. replace (clear_precomputed k') with k; [exact H|].
    destruct k as [a b c w], k' as [a' b' c' w']. unfold clear_precomputed. cbn [sk_pub sk_d sk_primes sk_pre] in *. clear P H F. congruence.
Qed.

Lemma p1sk_new_inner hd oid k s : p1sk_new hd oid k = Ok s -> p1sk_inner s = k.
Proof. unfold p1sk_new. intros H. apply bind_ok in H. destruct H as (p & _ & H). injection H as <-. reflexivity. Qed.

Lemma obtained_life k : obtained k -> life k.
Proof.
  intros H. induction H.
  - exact (life_components n e d primes k H H0 H1 H2 H3 H4).
  - exact (life_p_q p q e k H H0 H1 H2).
  - eapply life_primes; eauto.
  - unfold private_new in H1. eapply (life_new gp b); eauto. exact wf_exp.
  - eapply (life_new gp b); eauto.
  - eapply life_pkcs8; eauto.
  - eapply life_pkcs1; eauto.
  - eapply life_serde; eauto.
  - unfold p1sk_random in H1. apply bind_ok in H1. destruct H1 as (k & K & H1). apply bind_ok in H1.
    destruct H1 as (? & _ & H1). injection H1 as <-. cbn [p1sk_inner]. unfold private_new in K.
    eapply (life_new gp b); eauto. exact wf_exp.
  - unfold p1sk_random_unprefixed in H1. apply bind_ok in H1. destruct H1 as (k & K & H1).
    injection H1 as <-. cbn [p1sk_inner]. unfold private_new in K.
    eapply (life_new gp b); eauto. exact wf_exp.
  - unfold pssk_random, pssk_random_with_salt_len in H1. apply bind_ok in H1. destruct H1 as (k & K & H1).
    injection H1 as <-. cbn [pssk_inner]. unfold private_new in K.
    eapply (life_new gp b); eauto. exact wf_exp.
  - unfold pssk_random_with_salt_len in H1. apply bind_ok in H1. destruct H1 as (k & K & H1).
    injection H1 as <-. cbn [pssk_inner]. unfold private_new in K.
    eapply (life_new gp b); eauto. exact wf_exp.
  - assert (M : mx < 2 ^ 32) by lia. apply (wrap_p1_ok mx M) in H0. destruct H0 as (k & K & N & _).
    rewrite (p1sk_new_inner _ _ _ _ N). eapply life_pkcs8; eauto.
  - rewrite wrap_pss in H0. apply bind_ok in H0. destruct H0 as (k & K & N). injection N as <-.
    eapply life_pkcs8; eauto.
  - apply de_via in H0. destruct H0 as (doc & _ & H0).
    assert (M : mx < 2 ^ 32) by lia. apply (wrap_p1_ok mx M) in H0. destruct H0 as (k & K & N & _).
    rewrite (p1sk_new_inner _ _ _ _ N). eapply life_pkcs8; eauto.
  - apply de_via in H0. destruct H0 as (doc & _ & H0).
    rewrite wrap_pss in H0. apply bind_ok in H0. destruct H0 as (k & K & N). injection N as <-.
    eapply life_pkcs8; eauto.
  - destruct (p1dk_from _ _ _ _ _ H0) as (v' & D). eapply life_serde; eauto.
  - destruct (odk_from _ _ _ _ _ H0) as (v' & D). eapply life_serde; eauto.
  - rewrite (p1sk_new_inner _ _ _ _ H0). auto.
  - auto.
  - auto.
  - auto.
  - auto.
  - eapply life_precompute; eauto.
  - apply life_clear; auto.
Qed.

Lemma life_good k : life k -> uprec (pk_n (sk_pub k)) <= uprec (sk_d k) ->
  Forall prime (map uval (sk_primes k)) -> NoDup (map uval (sk_primes k)) ->
  product (map uval (sk_primes k)) < 2 ^ uprec (pk_n (sk_pub k)) -> good_priv k.
Proof.
  intros (A & B & C & D & V & P & F) W HP HN HB. unfold good_priv.
  split; [auto|]. split; [auto|]. split; [auto|]. split; [|auto]. apply validate_valid; auto.
Qed.

Lemma life_facts k : life k ->
  let n := pk_n (sk_pub k) in let e := pk_e (sk_pub k) in
  public_usable (uval n) (uval e) (uprec n) /\
  product (map uval (sk_primes k)) mod 2 ^ uprec n = uval n /\
  Forall (fun p => 3 <= uval p /\ uprec p <= 2 * uprec (sk_d k) /\
                   (uval e * uval (sk_d k)) mod (uval p - 1) = 1) (sk_primes k).
Proof. intros (A & B & C & _ & V & _). apply validate_exact; auto. Qed.

Lemma life_sane_iff k : life k -> uprec (pk_n (sk_pub k)) <= uprec (sk_d k) -> sane_priv k.
Proof.
  intros L W. pose proof (life_facts k L) as (U & _). destruct L as (A & B & C & D & V & P & F).
  unfold sane_priv. split; [auto|]. split; [auto|]. split; [auto|]. split; [auto|].
  split; [destruct U as (_ & _ & _ & U1 & U2 & _); lia|]. auto.
Qed.

(** [precompute] cannot panic: the constructor already ran it. *)
Lemma life_precompute_settled k : life k -> settled (precompute k).
Proof.
  intros L. pose proof (life_facts k L) as (U & M & FA). destruct L as (A & B & C & D & V & P & F).
  destruct (sk_pre k) eqn:Ep; [unfold precompute; rewrite Ep; left; eauto|].
  destruct k as [pk d ps pre]. cbn [sk_pub sk_d sk_primes sk_pre] in *. subst pre.
  destruct pk as [n e mp]. destruct A as (Wn & We & Emp & Ho). cbn [pk_n pk_e pk_params] in *. subst mp.
  destruct (fc_validated n e d ps Wn We B C Ho D) as (_ & p & q & rest & EP & T).
  { split; [exact U|split; [exact M|exact FA]]. }
  unfold primes_fit in F. cbn [sk_primes sk_d] in F. rewrite EP in F.
  pose proof (F p ltac:(cbn; auto)) as Fp. pose proof (F q ltac:(cbn; auto)) as Fq.
  destruct T as [([X|X] & _)|(_ & _ & [(_ & k' & E & _)|(_ & T)])]; try lia.
  - left. eauto.
  - unfold try_precompute in T. destruct (precompute _) as [k'|er| |]; try discriminate; [left|right]; eauto.
Qed.

(** * d stored narrower than n *)

Section Narrow.
  Context {R : Type} (g : rng_ops R).

  Lemma rsa_decrypt_narrow fuel rng k c : (rng <> None -> rng_ok g) -> life k ->
    uprec (sk_d k) < uprec (pk_n (sk_pub k)) -> uprec c = uprec (pk_n (sk_pub k)) ->
    uval c < uval (pk_n (sk_pub k)) ->
    (blinding_succeeds g (uval (pk_n (sk_pub k))) rng fuel -> rsa_decrypt g fuel rng k c = Panic) /\
    forall m, rsa_decrypt g fuel rng k c <> Ok m.
  Proof.
    intros Hg L N Ec Hc. pose proof (life_facts k L) as (U & _). destruct L as (A & B & _).
    assert (H1 : 1 < uval (pk_n (sk_pub k))) by (destruct U as (_ & _ & _ & U1 & U2 & _); lia).
    assert (W : forall x, uprec x = uprec (pk_n (sk_pub k)) -> widen x (uprec (sk_d k)) = Panic).
    { intros x E. unfold widen. destruct (Z.leb_spec (uprec x) (uprec (sk_d k))); [lia|reflexivity]. }
    unfold rsa_decrypt, uleb. destruct (Z.leb_spec (uval (pk_n (sk_pub k))) (uval c)); [lia|]. cbv zeta.
    destruct rng as [st|].
    - rewrite blind_ok by (auto; apply Hg; discriminate).
      destruct (blind_loop_cases g fuel st (sk_pub k)) as [(((r & ir) & st') & E)|[E|E]];
        [apply A|rewrite E; cbn [bind]..].
      + rewrite W by reflexivity. split; [reflexivity|discriminate].
      + split; [|discriminate]. intros (j & J & S).
        destruct (blind_loop_usable g (sk_pub k) ltac:(apply A) H1 j st S fuel J) as (x & X). congruence.
      + split; [|discriminate]. intros (j & J & S).
        destruct (blind_loop_usable g (sk_pub k) ltac:(apply A) H1 j st S fuel J) as (x & X). congruence.
    - rewrite (W c Ec). cbn [bind]. split; [reflexivity|discriminate].
  Qed.

  Lemma core_narrow fuel rng k ct : (rng <> None -> rng_ok g) -> life k ->
    uprec (sk_d k) < uprec (pk_n (sk_pub k)) ->
    (8 * Z.of_nat (length ct) <= uprec (pk_n (sk_pub k)) -> os2ip ct < uval (pk_n (sk_pub k)) ->
     blinding_succeeds g (uval (pk_n (sk_pub k))) rng fuel -> decrypt_core g fuel rng k ct = Panic) /\
    forall m, decrypt_core g fuel rng k ct <> Ok m.
  Proof.
    intros Hg L N. pose proof L as (A & _).
    destruct (Z.le_gt_cases (8 * Z.of_nat (length ct)) (uprec (pk_n (sk_pub k)))) as [Lc|Lc].
    2:{ rewrite decrypt_core_long by auto. split; [lia|discriminate]. }
    destruct (Z.le_gt_cases (uval (pk_n (sk_pub k))) (os2ip ct)) as [V|V].
    { rewrite decrypt_core_range by auto. split; [lia|discriminate]. }
    pose proof A as ((_ & P1 & P2) & _).
    unfold decrypt_core, n_bits_precision. rewrite from_be_slice_fits by auto. cbn [bind].
    destruct (rsa_decrypt_narrow fuel rng k (mkU (os2ip ct) (uprec (pk_n (sk_pub k)))) Hg L N eq_refl V) as (X & Y).
    unfold rsa_decrypt_and_check. split.
    - intros _ _ S. rewrite (X S). reflexivity.
    - intros m. destruct (rsa_decrypt g fuel rng k _) as [y| | |]; cbn [bind]; try discriminate.
      exfalso. exact (Y y eq_refl).
  Qed.

  Lemma oaep_core (o : oaep_params) fuel rng k ct :
    scheme_decrypt g fuel rng k (PadOaep o) ct =
    if negb (length ct =? key_size (sk_pub k))%nat then Err Decryption
    else let* em := decrypt_core g fuel rng k ct in
         oaep_decrypt em (oa_digest o) (oa_mgf o) (oa_label o) (key_size (sk_pub k)).
  Proof.
    cbn [scheme_decrypt]. unfold oaep_api_decrypt, decrypt_core. destruct (negb _); auto.
    destruct (from_be_slice _ _); cbn [bind]; auto.
    destruct (rsa_decrypt_and_check _ _ _ _ _); cbn [bind]; auto.
  Qed.

  Lemma narrow_decrypt fuel rng k p ct : (rng <> None -> rng_ok g) -> life k ->
    uprec (sk_d k) < uprec (pk_n (sk_pub k)) ->
    (length ct = key_size (sk_pub k) -> os2ip ct < uval (pk_n (sk_pub k)) ->
     blinding_succeeds g (uval (pk_n (sk_pub k))) rng fuel -> scheme_decrypt g fuel rng k p ct = Panic) /\
    forall m, scheme_decrypt g fuel rng k p ct <> Ok m.
  Proof.
    intros Hg L N. destruct (core_narrow fuel rng k ct Hg L N) as (X & Y).
    pose proof (life_facts k L) as (U & _). pose proof L as (A & _).
    assert (C : check_public (sk_pub k) = Ok tt) by (apply check_public_ok; auto).
    split.
    - intros E V S. assert (F : 8 * Z.of_nat (length ct) <= uprec (pk_n (sk_pub k)))
        by (rewrite E; apply key_size_facts; auto).
      specialize (X F V S). destruct p as [|o].
      + cbn [scheme_decrypt]. rewrite pkcs1v15_decrypt_core, C. cbn [bind]. rewrite X. reflexivity.
      + rewrite oaep_core, E, Nat.eqb_refl. cbn [negb]. rewrite X. reflexivity.
    - intros m. destruct p as [|o].
      + cbn [scheme_decrypt]. rewrite pkcs1v15_decrypt_core, C. cbn [bind].
        destruct (decrypt_core g fuel rng k ct) as [y| | |]; cbn [bind]; try discriminate.
        exfalso. exact (Y y eq_refl).
      + rewrite oaep_core. destruct (negb _); [discriminate|].
        destruct (decrypt_core g fuel rng k ct) as [y| | |]; cbn [bind]; try discriminate.
        exfalso. exact (Y y eq_refl).
  Qed.

  Lemma narrow_sign fuel rng k s hashed sig : (rng <> None -> rng_ok g) -> life k ->
    uprec (sk_d k) < uprec (pk_n (sk_pub k)) -> scheme_sign g fuel rng k s hashed <> Ok sig.
  Proof.
    intros Hg L N. destruct s as [s|s]; cbn [scheme_sign].
    - destruct (check_hash_len s hashed); cbn [bind]; try discriminate. rewrite pkcs1v15_sign_core.
      destruct (pkcs1v15_sign_pad _ _ _) as [em| | |]; cbn [bind]; try discriminate.
      apply (core_narrow fuel rng k em Hg L N).
    - destruct rng as [st|]; [|discriminate]. unfold pss_sign.
      destruct (rng_fill g st (ps_salt_len s)) as [[salt|] st']; [|discriminate].
      unfold sign_pss_with_salt.
      destruct (usub _ _); cbn [bind]; try discriminate.
      destruct (emsa_pss_encode _ _ _ _) as [[em o]| | |]; cbn [bind]; try discriminate.
      apply (core_narrow fuel (if ps_blinded s then Some st' else None) k em); auto.
      intros _. apply Hg. discriminate.
  Qed.
End Narrow.

(** * Keys that are kept *)

Lemma same_ok {A} (a b : A) : @Ok A a = Ok b -> b = a.
Proof. congruence. Qed.

Lemma life_saved mx tl k doc k' : life k -> 2 ^ 21 <= mx < 2 ^ 29 -> uprec (sk_d k) <= 2 ^ 20 ->
  to_pkcs8_der mx k = Ok doc -> tl 0 [] = true -> from_pkcs8_der mx tl doc = Ok k' ->
  priv_eqb k' k = true.
Proof.
  intros L M D E1 T E2. pose proof (life_facts k L) as (U & _ & FA). destruct L as (A & B & C & Len & V & P & F).
  destruct (Nat.lt_ge_cases 2 (length (sk_primes k))) as [X|X];
    [rewrite export_multi_prime in E1 by auto; discriminate|].
  unfold primes_fit in F.
  destruct (sk_primes k) as [|p [|q [|]]] eqn:EP; cbn [length] in *; try lia.
  rewrite !Forall_cons_iff in C, FA. destruct C as (Wp & Wq & _). destruct FA as ((P3 & _) & (Q3 & _) & _).
  pose proof (F p ltac:(cbn; auto)) as Fp. pose proof (F q ltac:(cbn; auto)) as Fq.
  destruct (Z.eq_dec (uprec p) (uprec q)) as [W|W].
  2:{ rewrite (export_widths mx k p q) in E1; auto; [discriminate|lia|lia]. }
  destruct (Z.eq_dec (Z.gcd (uval p) (uval q)) 1) as [G|G].
  2:{ rewrite (export_not_coprime mx k p q) in E1; auto; [discriminate|lia|lia]. }
  destruct (export_round_trip mx tl k p q T ltac:(lia) A B D EP Wp Wq V Fp (eq_sym W) G)
    as (qi & _ & _ & Y1 & Y2 & Y3). cbv zeta in Y1, Y2, Y3.
  rewrite Y1 in E1. apply same_ok in E1. subst doc.
  match type of Y2 with ?c -> _ => assert (dec : c \/ ~ c) end.
  { destruct (Z.lt_ge_cases (uval (sk_d k)) (256 ^ octet_size (uval (pk_n (sk_pub k))))) as [?|?]; [|right; lia].
    destruct (Z.lt_ge_cases (uval p) (256 ^ octet_size (uval (pk_n (sk_pub k))))) as [?|?]; [|right; lia].
    destruct (Z.lt_ge_cases (uval q) (256 ^ octet_size (uval (pk_n (sk_pub k))))) as [?|?]; [left; auto|right; lia]. }
  destruct dec as [I|I].
  - destruct (Y2 I) as (k2 & Z1 & Z2 & _).
    rewrite Z1 in E2. apply same_ok in E2. subst k'. exact Z2.
  - rewrite (Y3 I) in E2. discriminate.
Qed.

Lemma eqb_refl_priv k : priv_eqb k k = true.
Proof. apply priv_eqb_spec. auto. Qed.
Lemma eqb_trans_priv a b c : priv_eqb a b = true -> priv_eqb b c = true -> priv_eqb a c = true.
Proof.
  intros H1 H2. apply priv_eqb_spec in H1, H2. apply priv_eqb_spec.
  destruct H1 as (? & ? & ? & ?), H2 as (? & ? & ? & ?). split; [congruence|]. split; [congruence|]. split; congruence.
Qed.

Lemma eqb_same k k' : sk_pub k' = sk_pub k -> sk_d k' = sk_d k -> sk_primes k' = sk_primes k -> priv_eqb k' k = true.
Proof. intros E1 E2 E3. apply priv_eqb_spec. rewrite E1, E2, E3. auto. Qed.

Definition wide (k : privkey) : Prop := uprec (pk_n (sk_pub k)) <= uprec (sk_d k).

Lemma kept_keeps k0 k : kept k0 k -> obtained k0 ->
  obtained k /\ priv_eqb k k0 = true /\ (wide k0 -> wide k).
Proof.
  intros H O. induction H.
  - split; [exact O|]. split; [apply eqb_refl_priv|auto].
  - destruct (IHkept) as (A & B & C). destruct (precompute_keeps _ _ H0) as (E1 & E2 & E3).
    split; [eapply ob_precompute; eauto|]. split; [eapply eqb_trans_priv; [apply eqb_same; eauto|exact B]|].
    unfold wide in *. rewrite E1, E2. exact C.
  - destruct (IHkept) as (A & B & C). split; [apply ob_clear; exact A|].
    split; [eapply eqb_trans_priv; [apply eqb_same; reflexivity|exact B]|exact C].
  - rewrite (p1sk_new_inner _ _ _ _ H0). auto.
  - auto.
  - destruct (IHkept) as (A & B & C). assert (M : mx < 2 ^ 29) by lia.
    split; [exact (ob_pkcs8 mx tl doc k' M H4)|]. split.
    + eapply eqb_trans_priv; [|exact B]. apply (life_saved mx tl k doc k'); auto. apply obtained_life, A.
    + intros _. destruct (life_pkcs8 mx tl doc k' M H4) as (_ & _ & _ & _ & _ & _ & S & _). exact S.
  - destruct (IHkept) as (A & B & C). assert (M : mx < 2 ^ 29) by lia.
    split; [exact (ob_serde mx tl human v k' M H4)|].
    unfold ser_private in H2. destruct (ser_via human _ (from_pkcs8_der mx tl) v H2) as (doc & D1 & _ & D2).
    assert (D3 : from_pkcs8_der mx tl doc = Ok k') by (rewrite <- D2; exact H4).
    split.
    + eapply eqb_trans_priv; [|exact B]. apply (life_saved mx tl k doc k'); auto. apply obtained_life, A.
    + intros _. destruct (life_pkcs8 mx tl doc k' M D3) as (_ & _ & _ & _ & _ & _ & S & _). exact S.
Qed.

Lemma kept_good k0 k : kept k0 k -> obtained k0 -> good_priv k0 -> good_priv k.
Proof.
  intros H O G. destruct (kept_keeps k0 k H O) as (A & B & C). pose proof G as (_ & _ & _ & V & W & _).
  pose proof (obtained_life k A) as (L1 & L2 & L3 & _ & _ & L6 & _).
  apply priv_eqb_spec in B. destruct B as (E1 & E2 & E3 & E4).
  unfold good_priv. split; [auto|]. split; [auto|]. split; [auto|]. rewrite E1, E2, E3, E4.
  split; [exact V|]. split; [exact (C W)|exact L6].
Qed.

(** Equal valid keys act alike on blocks no longer than the modulus, whatever their widths. *)
Section Alike.
  Context {R : Type} (g : rng_ops R).

  Lemma core_alike fuel rng a b ct : (rng <> None -> rng_ok g) -> good_priv a -> good_priv b ->
    priv_eqb a b = true -> (length ct <= key_size (sk_pub a))%nat ->
    decrypt_core g fuel rng a ct = decrypt_core g fuel rng b ct.
  Proof.
    intros Hg Ga Gb E L. pose proof (good_pub a Ga) as Wa. pose proof (good_pub b Gb) as Wb.
    apply priv_eqb_spec in E. destruct E as (En & _ & Ed & _).
    pose proof (key_size_value _ _ En) as Ks.
    destruct (key_size_facts _ Wa) as (_ & Fa & _). destruct (key_size_facts _ Wb) as (_ & Fb & _).
    assert (La : 8 * Z.of_nat (length ct) <= uprec (pk_n (sk_pub a))) by lia.
    assert (Lb : 8 * Z.of_nat (length ct) <= uprec (pk_n (sk_pub b))) by lia.
    destruct (Z.le_gt_cases (uval (pk_n (sk_pub a))) (os2ip ct)) as [V|V].
    - rewrite !decrypt_core_range; auto. rewrite <- En. exact V.
    - destruct (decrypt_core_good g fuel rng a ct Hg Ga La V) as (A1 & A2 & A3).
      rewrite En in V.
      destruct (decrypt_core_good g fuel rng b ct Hg Gb Lb V) as (B1 & B2 & B3).
      rewrite En, Ed, Ks in *.
      destruct (blinding_trichotomy g (uval (pk_n (sk_pub b))) rng fuel) as [T|[T|T]].
      + rewrite A1, B1; auto.
      + rewrite A2, B2; auto.
      + rewrite A3, B3; auto.
  Qed.

  Lemma decrypt_alike fuel rng a b p ct : (rng <> None -> rng_ok g) -> good_priv a -> good_priv b ->
    priv_eqb a b = true -> check_public (sk_pub a) = Ok tt -> check_public (sk_pub b) = Ok tt ->
    (length ct <= key_size (sk_pub a))%nat ->
    scheme_decrypt g fuel rng a p ct = scheme_decrypt g fuel rng b p ct.
  Proof.
    intros Hg Ga Gb E Ca Cb L. pose proof (core_alike fuel rng a b ct Hg Ga Gb E L) as C.
    apply priv_eqb_spec in E. destruct E as (En & _). pose proof (key_size_value _ _ En) as Ks.
    destruct p as [|o].
    - cbn [scheme_decrypt]. rewrite !pkcs1v15_decrypt_core, Ca, Cb, C, Ks. reflexivity.
    - rewrite !oaep_core, C, Ks. reflexivity.
  Qed.

  Lemma sign_alike fuel rng a b s hashed : (rng <> None -> rng_ok g) -> good_priv a -> good_priv b ->
    priv_eqb a b = true -> wf_scheme s -> uprec (pk_n (sk_pub b)) < 2 ^ 32 ->
    scheme_sign g fuel rng a s hashed = scheme_sign g fuel rng b s hashed.
  Proof.
    intros Hg Ga Gb E Hs H32. pose proof (good_pub a Ga) as Wa. pose proof (good_pub b Gb) as Wb.
    pose proof E as E'. apply priv_eqb_spec in E'. destruct E' as (En & _). pose proof (key_size_value _ _ En) as Ks.
    pose proof (prec32_size _ Wb H32) as Hsz.
    destruct s as [s|s]; cbn [scheme_sign].
    - destruct (check_hash_len s hashed); cbn [bind]; auto. rewrite !pkcs1v15_sign_core, Ks.
      destruct (pkcs1v15_sign_pad _ _ _) as [em| | |] eqn:Em; cbn [bind]; auto. apply core_alike; auto.
      apply sign_pad_spec in Em. destruct Em as (L & ->). rewrite emsa_pkcs1_length by auto. lia.
    - destruct rng as [st|]; auto. destruct Hs as (hd & -> & Hh & _).
      rewrite !pss_sign_agree. unfold pss_sign_digest.
      destruct (rng_fill g st (ps_salt_len s)) as [[salt|] st']; auto.
      rewrite !sign_pss_core. unfold ubits. rewrite En. fold (ubits (pk_n (sk_pub b))).
      destruct (nbits_facts _ Wb) as (B1 & _ & _ & B4 & _).
      rewrite usub_ok by auto. cbn [bind].
      rewrite emsa_pss_encode_digest_spec by (auto; lia).
      destruct (negb _); auto. destruct (Nat.ltb_spec (pss_em_len (Z.to_nat (ubits (pk_n (sk_pub b))) - 1)) (h_size hd + length salt + 2)); auto.
      cbn [bind]. apply core_alike; auto; [intros _; apply Hg; discriminate|].
      rewrite pss_encode_length by auto. lia.
  Qed.
End Alike.

(** * Public keys *)

Lemma obtained_public_facts pk : obtained_public pk ->
  wf_pub pk /\ public_usable (uval (pk_n pk)) (uval (pk_e pk)) (uprec (pk_n pk)).
Proof.
  assert (O : forall k, obtained k -> wf_pub (sk_pub k) /\
    public_usable (uval (pk_n (sk_pub k))) (uval (pk_e (sk_pub k))) (uprec (pk_n (sk_pub k)))).
  { intros k L. apply obtained_life in L. pose proof (life_facts k L) as (U & _). destruct L as (A & _). auto. }
  assert (D : forall mx doc pk, mx < 2 ^ 29 -> from_public_key_der mx doc = Ok pk -> wf_pub pk /\
    public_usable (uval (pk_n pk)) (uval (pk_e pk)) (uprec (pk_n pk))).
  { intros mx doc k M H. destruct (public_document mx M doc k H) as (_ & U & W & E & _). rewrite E. auto. }
  induction 1.
  - rewrite c25_new in H1. destruct (c25_exact n e 4096 H H0) as (A & B).
    pose proof (proj1 (c25_iff n e 4096 H H0) (ex_intro _ pk H1)) as X.
    destruct (A X) as (E & W). rewrite E in H1. injection H1 as <-. split; [exact W|exact X].
  - eauto.
  - destruct (pkcs1_public_document mx H doc pk H0) as (_ & U & W & E & _). rewrite E. auto.
  - unfold de_public in H0. apply de_via in H0. destruct H0 as (b & _ & H0). eauto.
  - apply O. auto.
  - apply O. auto.
  - unfold p1vk_new in H0. apply bind_ok in H0. destruct H0 as (? & _ & H0). injection H0 as <-. auto.
  - pose proof (p1sk_new_inner _ _ _ _ H0) as E. unfold p1sk_verifying_key. cbn. rewrite E. apply O. auto.
  - apply O. auto.
Qed.
