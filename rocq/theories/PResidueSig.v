(** Lemmas for PropResidueSig.v: what signing leaves in memory. *)
From Coq Require Import ZArith Znumtheory List Bool Lia.
From Coq Require Import Init.Byte.
From Verif Require Import Base Bigint BytesLemmas NumTheory SpecRFC BigintLemmas MHash MPad MMgf MPkcs1 MPss MRsa MKey
  MApi MResidue MResidueSig KeyDefs SpecRng SpecKey SpecResidue PPad PMgf PPkcs1 PPss PRsa PKey PApi PSig PHist PResidue.
Import ListNotations.
Local Open Scope Z_scope.

Lemma inj_ok {A} (a b : A) : @Ok A a = Ok b -> b = a.
Proof. congruence. Qed.

(** * Results *)

Lemma zr_emsa mh eb salt dg : outcome_of (z_emsa_pss_encode mh eb salt dg) = emsa_pss_encode mh eb salt dg.
Proof.
  unfold z_emsa_pss_encode, emsa_pss_encode. cbv zeta. destruct (negb _); [reflexivity|].
  destruct (_ <? _)%nat; [reflexivity|].
  zr_step. zr_step. zr_step. destruct a1 as (db & h). zr_step. zr_step. zr_step. destruct a3 as (h' & tail).
  destruct (digest_finalize_reset _) as (hashed & hash).
  do 7 zr_step. zr. rewrite zr_mgf. apply zbind_ext. intros (db' & hash'). zr_all.
Qed.

Section Rng.
  Context {R : Type} (g : rng_ops R).

  Lemma zr_sign_em fuel rng k em : outcome_of (z_sign_em g fuel rng k em) = decrypt_core g fuel rng k em.
  Proof.
    unfold z_sign_em, decrypt_core. zr_step. zr. rewrite zr_check. apply zbind_ext. intros s. apply zr_z_pad.
  Qed.

  Lemma zr_pss_sign fuel st bl k hashed sl dg :
    outcome_of (z_pss_sign g fuel st bl k hashed sl dg) = pss_sign g fuel st bl k hashed sl dg.
  Proof.
    unfold z_pss_sign, pss_sign. destruct (rng_fill g st sl) as [[salt|] st']; [|reflexivity].
    unfold z_sign_pss_with_salt, sign_pss_with_salt. cbv zeta. zr_step. zr. rewrite zr_emsa. apply zbind_ext.
    intros (em & o). apply zr_sign_em.
  Qed.
  Lemma zr_pss_sign_digest hd fuel st bl k hashed sl :
    outcome_of (z_pss_sign_digest g hd fuel st bl k hashed sl) = pss_sign_digest g hd fuel st bl k hashed sl.
  Proof.
    unfold z_pss_sign_digest, pss_sign_digest. destruct (rng_fill g st sl) as [[salt|] st']; [|reflexivity].
    unfold z_sign_pss_with_salt_digest, sign_pss_with_salt_digest. cbv zeta. zr_step. zr. apply zbind_ext.
    intros em. apply zr_sign_em.
  Qed.

  (** * No octets but the encoded message *)

  Lemma mul_no_octets l r p bs : In (Plain (Octets bs)) (heap (z_mul_mod_params l r p)) -> False.
  Proof. intros H. unfold z_mul_mod_params in H. lbi H; discriminate. Qed.

  Lemma blind_loop_no_octets bs fuel : forall st key r0,
    In (Plain (Octets bs)) (heap (z_blind_loop g fuel st key r0)) -> False.
  Proof.
    induction fuel as [|f IH]; intros st key r0 H; cbn [z_blind_loop] in H; [exact (heap_lift _ _ H)|].
    apply lb_own_inv in H. destruct H as [H|H]; [|discriminate].
    destruct (rng_mod g st (uval (pk_n key))) as [[v|] st']; [|exact (heap_lift _ _ H)].
    cbv zeta in H. apply lb_inv in H. destruct H as [H|(r & _ & H)].
    - destruct (uis_zero _); lbi H; discriminate.
    - apply lb_inv in H. destruct H as [H|(ir & _ & H)]; [exact (heap_lift _ _ H)|].
      destruct ir; [exact (heap_ret _ _ H)|eapply IH; exact H].
  Qed.

  Lemma blind_no_octets bs fuel st key c p :
    In (Plain (Octets bs)) (heap (z_blind g fuel st key c p)) -> False.
  Proof.
    intros H. unfold z_blind in H. cbv zeta in H.
    apply lb_inv in H. destruct H as [H|(? & _ & H)]; [lbi H; discriminate|].
    apply lb_inv in H. destruct H as [H|(((r & ir) & st') & _ & H)]; [exact (blind_loop_no_octets _ _ _ _ _ H)|].
    apply lb_own_inv in H. destruct H as [H|H]; [|discriminate].
    apply lb_inv in H. destruct H as [H|(rp & _ & H)]; [exact (pow_no_octets _ _ _ _ H)|].
    apply lb_inv in H. destruct H as [H|(b & _ & H)].
    - apply lb_own_inv in H. destruct H as [H|H]; [exact (mul_no_octets _ _ _ _ H)|discriminate].
    - lbi H.
  Qed.

  Lemma dec_no_octets bs fuel rng k c : In (Plain (Octets bs)) (heap (z_rsa_decrypt g fuel rng k c)) -> False.
  Proof.
    intros H. unfold z_rsa_decrypt in H. cbv zeta in H. destruct (uleb _ _); [exact (heap_lift _ _ H)|].
    apply lb_inv in H. destruct H as [H|((c' & ir) & _ & H)].
    { destruct rng as [st|].
      - apply lb_inv in H. destruct H as [H|((b & u) & _ & H)]; [exact (blind_no_octets _ _ _ _ _ _ H)|]. lbi H; discriminate.
      - lbi H. }
    apply lb_inv in H. destruct H as [H|(m & _ & H)].
    - assert (P : In (Plain (Octets bs)) (heap (owning (Plain (Int c')) (z_pow_mod_params c' (sk_d k) (pk_params (sk_pub k))))) -> False).
      { intros I. apply lb_own_inv in I. destruct I as [I|I]; [exact (pow_no_octets _ _ _ _ I)|discriminate]. }
      destruct (sk_pre k); [|exact (P H)]. destruct (2 <? _)%nat; [exact (P H)|].
      unfold z_crt_pow in H. lbi H; discriminate.
    - apply lb_own_inv in H. destruct H as [H|H]; [|discriminate].
      apply lb_inv in H. destruct H as [H|(m' & _ & H)]; [exact (heap_lift _ _ H)|].
      destruct ir; [|exact (heap_ret _ _ H)].
      apply lb_own_inv in H. destruct H as [H|H]; [|discriminate].
      apply lb_own_inv in H. destruct H as [H|H]; [|discriminate].
      unfold z_unblind in H. apply lb_inv in H. destruct H as [H|(? & _ & H)]; [exact (heap_lift _ _ H)|].
      apply lb_inv in H. destruct H as [H|(? & _ & H)]; [exact (heap_lift _ _ H)|].
      exact (mul_no_octets _ _ _ _ H).
  Qed.

  Lemma check_no_octets bs fuel rng k c :
    In (Plain (Octets bs)) (heap (z_rsa_decrypt_and_check g fuel k rng c)) -> False.
  Proof.
    intros H. unfold z_rsa_decrypt_and_check in H.
    apply lb_inv in H. destruct H as [H|(m & _ & H)]; [exact (dec_no_octets _ _ _ _ _ H)|].
    apply lb_own_err_inv in H. destruct H as [H|H]; [|discriminate].
    apply lb_inv in H. destruct H as [H|(ch & _ & H)]; [exact (pow_no_octets _ _ _ _ H)|].
    apply lb_own_inv in H. destruct H as [H|H]; [|discriminate].
    destruct (negb _); [exact (heap_lift _ _ H)|exact (heap_ret _ _ H)].
  Qed.

  Lemma sign_em_octets bs fuel rng k em : left_behind (z_sign_em g fuel rng k em) (Octets bs) -> bs = em.
  Proof.
    unfold left_behind, z_sign_em. intros H.
    apply lb_own_inv in H. destruct H as [H|H]; [exfalso|congruence].
    apply lb_inv in H. destruct H as [H|(i & _ & H)]; [exact (heap_lift _ _ H)|].
    apply lb_own_inv in H. destruct H as [H|H]; [|discriminate].
    apply lb_inv in H. destruct H as [H|(raw & _ & H)]; [exact (check_no_octets _ _ _ _ _ H)|].
    unfold z_uint_to_zeroizing_be_pad in H. lbi H; discriminate.
  Qed.
End Rng.

(** * Signatures *)

Section Signatures.
  Context {R : Type} (g : rng_ops R).

  (** What a successful signature leaves: no octets but the encoded message, which the
      signature opens to; the number of the signature, next to an erased copy of its octets. *)
  Definition signing_residue (k : privkey) (sig : list byte) (run : holding (list byte)) (also : list byte -> Prop)
    : Prop :=
    (forall bs, left_behind run (Octets bs) ->
       also bs \/ os2ip bs = RSAEP (uval (pk_n (sk_pub k))) (uval (pk_e (sk_pub k))) (os2ip sig)) /\
    left_integer run (os2ip sig) /\ exists bs, erased run (Octets bs) /\ os2ip bs = os2ip sig.

  Lemma sign_em_residue fuel rng k em sig : wf_pub (sk_pub k) ->
    outcome_of (z_sign_em g fuel rng k em) = Ok sig ->
    signing_residue k sig (z_sign_em g fuel rng k em) (fun _ => False).
  Proof.
    intros W H. rewrite zr_sign_em in H. destruct (decrypt_core_length g fuel rng k em sig W H) as (L & F & V & E).
    split; [intros bs I; right; apply sign_em_octets in I; subst bs; auto|].
    pose proof W as (Wn & _). pose proof Wn as (_ & P1 & P2).
    assert (FB : from_be_slice em (n_bits_precision (sk_pub k)) = Ok (mkU (os2ip em) (uprec (pk_n (sk_pub k)))))
      by (apply from_be_slice_fits; auto).
    unfold decrypt_core in H. rewrite FB in H. cbn [bind] in H.
    apply bind_ok in H. destruct H as (s & D & P).
    destruct (rsa_decrypt_and_check_sound g fuel rng k (mkU (os2ip em) (uprec (pk_n (sk_pub k)))) s W
      (proj1 (os2ip_range em)) D) as (_ & _ & Ws & Ps).
    assert (Vs : os2ip sig = uval s).
    { destruct (C21_lemma s (key_size (sk_pub k)) Ws) as [A B].
      destruct (Z.lt_ge_cases (uval s) (256 ^ Z.of_nat (key_size (sk_pub k)))) as [X|X].
      - destruct (A X) as (o & _ & EX & L1 & V1). rewrite EX in P. injection P as <-. exact V1.
      - destruct (B X) as (_ & EX). rewrite EX in P. discriminate. }
    rewrite Vs. split.
    - exists s. split; auto. unfold left_behind, z_sign_em. apply lb_own. eapply lb_bind_r; [exact FB|].
      apply lb_own, lb_bind_l. apply check_leaves; auto.
    - exists (to_be_bytes s). split; [|apply be_bytes_uint, Ws].
      unfold erased, z_sign_em. apply lb_own. eapply lb_bind_r; [exact FB|].
      apply lb_own. eapply lb_bind_r; [rewrite zr_check; exact D|]. apply lb_own, lb_here.
  Qed.

  Lemma residue_in k sig (run big : holding (list byte)) (also also' : list byte -> Prop) :
    signing_residue k sig run also ->
    (forall x, In x (heap run) -> In x (heap big)) ->
    (forall bs, left_behind big (Octets bs) -> also' bs \/ left_behind run (Octets bs)) ->
    (forall bs, also bs -> also' bs) ->
    signing_residue k sig big also'.
  Proof.
    intros (S1 & (u & U1 & U2) & (b & B1 & B2)) I O M. split; [|split].
    - intros bs H. destruct (O bs H) as [X|X]; auto. destruct (S1 bs X); auto.
    - exists u. split; auto. apply I, U1.
    - exists b. split; auto. apply I, B1.
  Qed.

  Lemma pkcs1v15_sign_residue fuel rng k prefix hashed sig : wf_pub (sk_pub k) ->
    outcome_of (z_pkcs1v15_sign g fuel rng k prefix hashed) = Ok sig ->
    signing_residue k sig (z_pkcs1v15_sign g fuel rng k prefix hashed) (fun _ => False).
  Proof.
    intros W H.
    change (z_pkcs1v15_sign g fuel rng k prefix hashed)
      with (let~ em := z_lift (pkcs1v15_sign_pad prefix hashed (key_size (sk_pub k))) in z_sign_em g fuel rng k em) in *.
    rewrite zr_bind, zr_lift in H. apply bind_ok in H. destruct H as (em & E & H).
    apply (residue_in k sig (z_sign_em g fuel rng k em) _ (fun _ => False)); auto.
    - apply sign_em_residue; auto.
    - intros x I. eapply lb_bind_r; [rewrite zr_lift; exact E|exact I].
    - intros bs I. right. apply lb_inv in I. destruct I as [I|(em' & E' & I)]; [destruct (heap_lift _ _ I)|].
      rewrite zr_lift in E'. assert (em' = em) as -> by congruence. exact I.
  Qed.

  Lemma pss_sign_digest_residue hd fuel st bl k hashed sl sig : wf_pub (sk_pub k) ->
    outcome_of (z_pss_sign_digest g hd fuel st bl k hashed sl) = Ok sig ->
    exists salt st', rng_fill g st sl = (Some salt, st') /\
    signing_residue k sig (z_pss_sign_digest g hd fuel st bl k hashed sl) (fun bs => bs = salt) /\
    left_behind (z_pss_sign_digest g hd fuel st bl k hashed sl) (Octets salt).
  Proof.
    intros W H. unfold z_pss_sign_digest in *. destruct (rng_fill g st sl) as [[salt|] st']; [|discriminate].
    exists salt, st'. split; [reflexivity|]. split; [|apply lb_here].
    rewrite zr_own in H. unfold z_sign_pss_with_salt_digest in *. cbv zeta in *.
    rewrite zr_bind, zr_lift in H. apply bind_ok in H. destruct H as (eb & B & H).
    rewrite zr_bind, zr_lift in H. apply bind_ok in H. destruct H as (em & E & H).
    apply (residue_in k sig (z_sign_em g fuel (if bl then Some st' else None) k em) _ (fun _ => False)).
    - apply sign_em_residue; auto.
    - intros x I. apply lb_own. eapply lb_bind_r; [rewrite zr_lift; exact B|].
      eapply lb_bind_r; [rewrite zr_lift; exact E|exact I].
    - intros bs I. apply lb_own_inv in I. destruct I as [I|I]; [right|left; congruence].
      apply lb_inv in I. destruct I as [I|(eb' & B' & I)]; [destruct (heap_lift _ _ I)|].
      rewrite zr_lift in B'. assert (eb' = eb) as -> by congruence.
      apply lb_inv in I. destruct I as [I|(em' & E' & I)]; [destruct (heap_lift _ _ I)|].
      rewrite zr_lift in E'. assert (em' = em) as -> by congruence. exact I.
    - intros bs [].
  Qed.

  (** ** With a digest chosen at run time *)

  Lemma mgf_loop_octets h seed bs fuel : forall out i c,
    In (Plain (Octets bs)) (heap (z_mgf1_xor_loop fuel out i (be_bytes 4 c) (digest_new h) seed)) ->
    exists ctr, length ctr = 4%nat /\ (bs = seed ++ ctr \/ bs = h_fun h (seed ++ ctr)).
  Proof.
    induction fuel as [|f IH]; intros out i c H; cbn [z_mgf1_xor_loop] in H;
      destruct (length out <=? i)%nat; try (destruct (heap_ret _ _ H)); try (destruct (heap_lift _ _ H)).
    cbv zeta in H. set (ctr := be_bytes 4 c) in *.
    assert (L4 : length ctr = 4%nat) by apply be_bytes_length.
    assert (V : vec x00 (length seed + 4) = [] ++ vec x00 (length seed) ++ vec x00 4) by apply vec_app.
    apply lb_inv in H. destruct H as [H|(di & D1 & H)]; [destruct (heap_lift _ _ H)|].
    rewrite zr_lift, V, copy_into_app in D1 by (auto; apply vec_length). apply inj_ok in D1. subst di.
    apply lb_inv in H. destruct H as [H|(di & D2 & H)]; [destruct (heap_lift _ _ H)|].
    rewrite zr_lift in D2. cbn [app] in D2. rewrite <- (app_nil_r (vec x00 4)) in D2.
    rewrite copy_into_app in D2 by (auto; rewrite app_nil_r, app_length; reflexivity).
    apply inj_ok in D2. subst di. rewrite app_nil_r in H.
    unfold digest_finalize_reset, digest_update, digest_new in H. cbn [d_fn d_pending app] in H.
    apply lb_inv in H. destruct H as [H|((o' & i') & _ & H)].
    - apply lb_own_inv in H. destruct H as [H|H].
      + apply lb_own_inv in H. destruct H as [H|H]; [destruct (heap_lift _ _ H)|].
        exists ctr. split; auto. right. congruence.
      + exists ctr. split; auto. left. congruence.
    - unfold ctr in H. rewrite inc_counter_be in H.
      eapply IH. exact H.
  Qed.

  Lemma mgf_octets h seed bs out :
    In (Plain (Octets bs)) (heap (z_mgf1_xor out (digest_new h) seed)) ->
    exists ctr, length ctr = 4%nat /\ (bs = seed ++ ctr \/ bs = h_fun h (seed ++ ctr)).
  Proof.
    intros H. unfold z_mgf1_xor in H. apply lb_inv in H. destruct H as [H|(? & _ & H)]; [destruct (heap_lift _ _ H)|].
    change [x00; x00; x00; x00] with (be_bytes 4 0) in H. eapply mgf_loop_octets; exact H.
  Qed.

  (** The hash of the salted message, and what mask generation makes of it. *)
  Definition pss_hash_octets (hd : hashfn) (hashed salt bs : list byte) : Prop :=
    let H := h_fun hd (repeat x00 8 ++ hashed ++ salt) in
    bs = H \/ exists ctr, length ctr = 4%nat /\ (bs = H ++ ctr \/ bs = h_fun hd (H ++ ctr)).

  Lemma copy_all (l src l' : list byte) : copy_into l 0 (length l) src = Ok l' -> l' = src.
  Proof.
    unfold copy_into. intros H. destruct (_ && _); [|discriminate]. apply inj_ok in H. subst l'.
    cbn [firstn app]. rewrite skipn_all, app_nil_r. reflexivity.
  Qed.

  Lemma emsa_octets hd mh eb salt bs :
    In (Plain (Octets bs)) (heap (z_emsa_pss_encode mh eb salt (digest_new hd))) -> pss_hash_octets hd mh salt bs.
  Proof.
    intros I. unfold z_emsa_pss_encode in I. cbv zeta in I. destruct (negb _); [destruct (heap_lift _ _ I)|].
    destruct (_ <? _)%nat; [destruct (heap_lift _ _ I)|].
    do 2 (apply lb_inv in I; destruct I as [I|(? & _ & I)]; [destruct (heap_lift _ _ I)|]).
    apply lb_inv in I. destruct I as [I|((db & h) & _ & I)]; [destruct (heap_lift _ _ I)|].
    do 2 (apply lb_inv in I; destruct I as [I|(? & _ & I)]; [destruct (heap_lift _ _ I)|]).
    apply lb_inv in I. destruct I as [I|((h' & tail) & _ & I)]; [destruct (heap_lift _ _ I)|].
    unfold digest_finalize_reset, digest_update, digest_new in I. cbn [d_fn d_pending] in I.
    change (vec x00 8) with (repeat x00 8) in I. rewrite app_nil_l, <- app_assoc in I.
    unfold pss_hash_octets. set (H := h_fun hd (repeat x00 8 ++ mh ++ salt)) in *.
    apply lb_own_inv in I. destruct I as [I|I]; [right|left; congruence].
    apply lb_inv in I. destruct I as [I|(h2 & C & I)]; [destruct (heap_lift _ _ I)|].
    rewrite zr_lift in C. apply copy_all in C. subst h2.
    do 6 (apply lb_inv in I; destruct I as [I|(? & _ & I)]; [destruct (heap_lift _ _ I)|]).
    apply lb_inv in I. destruct I as [I|((db' & hash') & _ & I)]; [exact (mgf_octets _ _ _ _ I)|].
    lbi I.
  Qed.

  Lemma pss_sign_residue hd fuel st bl k hashed sl sig : wf_pub (sk_pub k) ->
    outcome_of (z_pss_sign g fuel st bl k hashed sl (digest_new hd)) = Ok sig ->
    exists salt st', rng_fill g st sl = (Some salt, st') /\
    signing_residue k sig (z_pss_sign g fuel st bl k hashed sl (digest_new hd))
      (fun bs => bs = salt \/ pss_hash_octets hd hashed salt bs) /\
    left_behind (z_pss_sign g fuel st bl k hashed sl (digest_new hd)) (Octets salt).
  Proof.
    intros W H. unfold z_pss_sign in *. destruct (rng_fill g st sl) as [[salt|] st']; [|discriminate].
    exists salt, st'. split; [reflexivity|]. split; [|apply lb_here].
    rewrite zr_own in H. unfold z_sign_pss_with_salt in *. cbv zeta in *.
    rewrite zr_bind, zr_lift in H. apply bind_ok in H. destruct H as (eb & B & H).
    rewrite zr_bind in H. apply bind_ok in H. destruct H as ((em & o) & E & H).
    apply (residue_in k sig (z_sign_em g fuel (if bl then Some st' else None) k em) _ (fun _ => False)).
    - apply sign_em_residue; auto.
    - intros x I. apply lb_own. eapply lb_bind_r; [rewrite zr_lift; exact B|].
      eapply lb_bind_r; [exact E|exact I].
    - intros bs I. apply lb_own_inv in I. destruct I as [I|I]; [|left; left; congruence].
      apply lb_inv in I. destruct I as [I|(eb' & B' & I)]; [destruct (heap_lift _ _ I)|].
      apply lb_inv in I. destruct I as [I|((em' & o') & E' & I)]; [left; right; exact (emsa_octets _ _ _ _ _ I)|].
      right. rewrite zr_lift in B'. assert (eb' = eb) as -> by congruence.
      assert (em' = em) as -> by congruence. exact I.
    - intros bs [].
  Qed.

  (** * The halves of the CRT *)

  Lemma crt_leaves c pc q m : crt_pow c pc q = Ok m ->
    exists f, In (Plain (Form f)) (heap (z_crt_pow c pc q)) /\
      mf_res f = powm (uval c mod mp_val (pc_q_params pc)) (uval (pc_dq pc)) (mp_val (pc_q_params pc)).
  Proof.
    intros H. unfold crt_pow in H. apply bind_ok in H. destruct H as (cp & C1 & H). cbv zeta in H.
    apply bind_ok in H. destruct H as (cq & C2 & H).
    exists (mf_pow cq (pc_dq pc)). split.
    - unfold z_crt_pow. eapply lb_bind_r; [rewrite zr_lift; exact C1|]. apply lb_own. cbv zeta.
      eapply lb_bind_r; [rewrite zr_lift; exact C2|]. apply lb_own, lb_here.
    - unfold mf_new in C2. destruct (_ =? _); [|discriminate]. apply inj_ok in C2. subst cq. reflexivity.
  Qed.

  Lemma crt_leaves_input c pc q m : crt_pow c pc q = Ok m ->
    exists f, In (Plain (Form f)) (heap (z_crt_pow c pc q)) /\ mf_res f = uval c mod mp_val (pc_p_params pc).
  Proof.
    intros H. unfold crt_pow in H. apply bind_ok in H. destruct H as (cp & C1 & H).
    exists cp. split.
    - unfold z_crt_pow. eapply lb_bind_r; [rewrite zr_lift; exact C1|]. apply lb_here.
    - unfold mf_new in C1. destruct (_ =? _); [|discriminate]. apply inj_ok in C1. subst cp. reflexivity.
  Qed.

  Lemma dec_halves fuel rng k c m p q : (rng <> None -> rng_ok g) -> good_priv k -> wf_uint c ->
    uprec c = uprec (pk_n (sk_pub k)) -> sk_primes k = [p; q] -> sk_pre k <> None ->
    outcome_of (z_rsa_decrypt g fuel rng k c) = Ok m ->
    exists M f, left_integer (z_rsa_decrypt g fuel rng k c) M /\ (rng = None -> M = uval m) /\
      left_behind (z_rsa_decrypt g fuel rng k c) (Form f) /\ mf_res f = M mod uval q /\
      0 <= M < uval (pk_n (sk_pub k)) /\
    exists C f', (rng = None -> C = uval c) /\ (rng <> None -> left_integer (z_rsa_decrypt g fuel rng k c) C) /\
      left_behind (z_rsa_decrypt g fuel rng k c) (Form f') /\ mf_res f' = C mod uval p /\
      0 <= C < uval (pk_n (sk_pub k)).
  Proof.
    intros Hg G Wc Pc EP Epre H. rewrite zr_dec, rsa_decrypt_unfold in H.
    pose proof (good_pub k G) as W. pose proof (good_gt1 k G) as N1.
    destruct (uleb (pk_n (sk_pub k)) c) eqn:U; [discriminate|]. cbv zeta in H.
    apply bind_ok in H. destruct H as ((c' & ir) & H1 & H).
    apply bind_ok in H. destruct H as (m1 & Em1 & H). apply bind_ok in H. destruct H as (m2 & Em2 & H).
    unfold uleb in U. apply Z.leb_gt in U.
    pose proof G as (_ & Wd & WF & V & Pd & Cs). pose proof W as (Wn & _). pose proof Wn as (Vn & Q1 & Q2).
    pose proof Wd as (_ & D1 & D2).
    assert (X : wf_uint c' /\ uprec c' = uprec (sk_d k) /\ uval c' < uval (pk_n (sk_pub k)) /\ (rng = None -> ir = None) /\
      (rng = None -> uval c' = uval c) /\ (rng <> None -> left_integer (z_rsa_decrypt g fuel rng k c) (uval c'))).
    { destruct rng as [st|].
      - apply bind_ok in H1. destruct H1 as ((b & u) & B & H1). apply bind_ok in H1. destruct H1 as (c2 & B2 & E2).
        assert (c2 = c') as -> by congruence.
        assert (LI : In (Plain (Int b)) (heap (z_rsa_decrypt g fuel (Some st) k c))).
        { unfold z_rsa_decrypt. cbv zeta. unfold uleb. destruct (Z.leb_spec (uval (pk_n (sk_pub k))) (uval c)); [lia|].
          apply lb_bind_l. eapply lb_bind_r; [rewrite zr_blind; exact B|]. cbv beta iota. apply lb_bind_l. apply lb_here. }
        rewrite blind_ok in B by (auto; apply Hg; discriminate).
        destruct (blind_loop g fuel st (sk_pub k)) as [((r & i) & st')| | |]; try discriminate.
        assert (b = mkU ((uval c * (uval r ^ uval (pk_e (sk_pub k)) mod uval (pk_n (sk_pub k)))) mod uval (pk_n (sk_pub k)))
                        (uprec (pk_n (sk_pub k)))) as -> by congruence.
        pose proof (Z.mod_pos_bound (uval c * (uval r ^ uval (pk_e (sk_pub k)) mod uval (pk_n (sk_pub k))))
                      (uval (pk_n (sk_pub k))) ltac:(lia)) as MB.
        set (v := (uval c * (uval r ^ uval (pk_e (sk_pub k)) mod uval (pk_n (sk_pub k)))) mod uval (pk_n (sk_pub k))) in *.
        rewrite widen_ok in B2; auto; [|apply wf_mk; auto; lia]. apply inj_ok in B2. subst c'. cbn [uval uprec].
        split; [|split; [reflexivity|split; [lia|split; [discriminate|split; [discriminate|]]]]].
        2:{ intros _. eexists. split; [exact LI|]. reflexivity. }
        apply wf_mk; auto. pose proof (Z.pow_le_mono_r 2 _ _ ltac:(lia) Pd). lia.
      - apply bind_ok in H1. destruct H1 as (c2 & B2 & E2). assert (c2 = c' /\ ir = None) as (-> & ->) by (split; congruence).
        rewrite widen_ok in B2; auto; [|lia]. apply inj_ok in B2. subst c'. cbn [uval uprec].
        split; [|repeat (split; [auto|]); congruence]. destruct Wc as (Vc & _). apply wf_mk; auto. split; [lia|].
        pose proof (Z.pow_le_mono_r 2 _ _ ltac:(lia) Pd). lia. }
    destruct X as (Wc' & Pc' & Vc' & Ei & Ec & Lc).
    destruct (private_pow_ok k c' G Wc' Pc' Vc') as (pp & PP & _). rewrite PP in Em1. apply inj_ok in Em1.
    set (M := RSADP (uval (pk_n (sk_pub k))) (uval (sk_d k)) (uval c')) in *.
    assert (HM : 0 <= M < uval (pk_n (sk_pub k))) by (apply Z.mod_pos_bound; lia).
    assert (O1 : outcome_of match rng with
        | Some st => let~ (blinded, unblinder) := z_blind g fuel st (sk_pub k) c (pk_params (sk_pub k)) in
                     let~ c := owning (Plain (Int blinded)) (z_lift (widen blinded (uprec (sk_d k)))) in
                     z_ret (c, Some unblinder)
        | None => let~ c := z_lift (widen c (uprec (sk_d k))) in z_ret (c, None)
        end = Ok (c', ir)).
    { rewrite <- H1. destruct rng; zr; [rewrite zr_blind; apply zbind_ext; intros (b & u)|]; zr_all. }
    destruct (sk_pre k) as [pc|] eqn:Ep; [|contradiction].
    destruct (pre_consistent_inv k pc Wd WF Cs Ep) as (p0 & q0 & rest & qinv & EP0 & Z1). cbv zeta in Z1.
    destruct Z1 as (_ & _ & _ & Nq & _ & _ & Epc). rewrite EP in EP0. injection EP0 as <- <- <-.
    assert (PC : crt_pow c' pc q = Ok m1).
    { unfold private_pow in PP. rewrite Ep, EP in PP. cbn in PP. subst m1. exact PP. }
    assert (In2 : forall x, In x (heap (z_crt_pow c' pc q)) -> In x (heap (z_rsa_decrypt g fuel rng k c))).
    { intros x I. unfold z_rsa_decrypt. cbv zeta. unfold uleb. destruct (Z.leb_spec (uval (pk_n (sk_pub k))) (uval c)); [lia|].
      eapply lb_bind_r; [exact O1|]. cbv beta iota. apply lb_bind_l. rewrite Ep, EP. cbn [length Nat.ltb Nat.leb].
      eapply lb_bind_r; [reflexivity|]. eapply lb_bind_r; [reflexivity|]. exact I. }
    destruct (crt_leaves c' pc q m1 PC) as (f & F1 & F2).
    destruct (crt_leaves_input c' pc q m1 PC) as (f' & G1 & G2).
    exists M, f. split; [|split; [|split; [|split; [|split]]]].
    - exists m1. split; [|subst m1; reflexivity].
      unfold left_behind, z_rsa_decrypt. cbv zeta. unfold uleb. destruct (Z.leb_spec (uval (pk_n (sk_pub k))) (uval c)); [lia|].
      eapply lb_bind_r; [exact O1|]. cbv beta iota.
      eapply lb_bind_r; [|apply lb_here]. rewrite Ep, EP. cbn [length Nat.ltb Nat.leb].
      zr. cbn [get_idx nth_error bind]. zr. rewrite zr_crt. exact PC.
    - intros En. rewrite (Ei En) in H. rewrite H in Em2. clear In2 O1.
      assert (Pp : pp = uprec m1) by (subst m1; reflexivity).
      unfold shorten in Em2. destruct (_ <=? _); [|discriminate]. apply inj_ok in Em2. subst m.
      cbn [uval]. rewrite prec_for_id by (destruct W as (_ & _ & -> & _); auto).
      subst m1. cbn [uval]. symmetry. apply Z.mod_small.
      destruct W as (WN & _ & -> & _). unfold mp_prec. cbn [mp_modulus]. destruct WN as (WN & _). clear - WN HM. lia.
    - apply In2, F1.
    - pose proof V as (_ & VP & _ & Vp & Ve & Vd & Vc2). rewrite EP in VP, Vp, Vc2. cbn [map] in VP, Vp, Vc2.
      inversion VP as [|? ? Hp1 VP2]; subst. inversion VP2 as [|? ? Hq1 _]; subst.
      assert (Hq2 : 2 < uval q).
      { apply odd_prime_gt2; auto. apply (odd_factors [uval p; uval q]); [|cbn; auto]. rewrite <- Vp. apply W. }
      rewrite F2. cbn [pc_q_params pc_dq mp_modulus uval mp_val]. unfold mp_val. cbn [mp_modulus uval].
      rewrite powm_spec by (try lia; apply Z.mod_pos_bound; lia).
      rewrite (crt_pow_exp_odd (uval q) (uval c') (uval (sk_d k)) (uval (pk_e (sk_pub k)))); auto.
      2:{ apply Vc2. cbn. auto. }
      unfold M, RSADP. rewrite Vp. unfold product. cbn [fold_right]. rewrite Z.mul_1_r.
      pose proof (prime_ge_2 _ Hp1) as Hp2. symmetry.
      rewrite <- Zmod_div_mod; [reflexivity|clear - Hq2; lia|clear - Hq2 Hp2; nia|exists (uval p); ring].
    - exact HM.
    - exists (uval c'), f'. split; [exact Ec|]. split; [exact Lc|]. split; [apply In2, G1|].
      split; [rewrite G2, Epc; reflexivity|]. destruct Wc' as (Wc' & _). split; [apply Wc'|exact Vc'].
  Qed.

  (** The private-key operation inside a signature. *)
  Lemma sign_em_raw fuel rng k em sig : wf_pub (sk_pub k) ->
    outcome_of (z_sign_em g fuel rng k em) = Ok sig ->
    let c := mkU (os2ip em) (uprec (pk_n (sk_pub k))) in
    exists m, wf_uint c /\ outcome_of (z_rsa_decrypt g fuel rng k c) = Ok m /\ uval m = os2ip sig /\
      forall x, In x (heap (z_rsa_decrypt g fuel rng k c)) -> In x (heap (z_sign_em g fuel rng k em)).
  Proof.
    intros W H. cbv zeta. rewrite zr_sign_em in H.
    destruct (decrypt_core_length g fuel rng k em sig W H) as (L & F & V & E).
    pose proof W as (Wn & _). pose proof Wn as (_ & P1 & P2).
    assert (FB : from_be_slice em (n_bits_precision (sk_pub k)) = Ok (mkU (os2ip em) (uprec (pk_n (sk_pub k)))))
      by (apply from_be_slice_fits; auto).
    unfold decrypt_core in H. rewrite FB in H. cbn [bind] in H.
    apply bind_ok in H. destruct H as (s & D & P).
    destruct (rsa_decrypt_and_check_sound g fuel rng k (mkU (os2ip em) (uprec (pk_n (sk_pub k)))) s W
      (proj1 (os2ip_range em)) D) as (_ & _ & Ws & Ps).
    assert (Vs : os2ip sig = uval s).
    { destruct (C21_lemma s (key_size (sk_pub k)) Ws) as [A B].
      destruct (Z.lt_ge_cases (uval s) (256 ^ Z.of_nat (key_size (sk_pub k)))) as [X|X].
      - destruct (A X) as (o & _ & EX & L1 & V1). rewrite EX in P. injection P as <-. exact V1.
      - destruct (B X) as (_ & EX). rewrite EX in P. discriminate. }
    exists s. split; [|split; [|split; [auto|]]].
    - apply wf_mk; auto. destruct Wn as (Wn & _). pose proof (os2ip_range em).
      assert (uval (pk_n (sk_pub k)) < 2 ^ uprec (pk_n (sk_pub k))) by lia. lia.
    - rewrite zr_dec. unfold rsa_decrypt_and_check in D. apply bind_ok in D. destruct D as (m & D1 & D2).
      apply bind_ok in D2. destruct D2 as (ch & _ & D2). destruct (negb _); [discriminate|].
      apply inj_ok in D2. subst m. exact D1.
    - intros x I. unfold z_sign_em. apply lb_own. eapply lb_bind_r; [exact FB|].
      apply lb_own, lb_bind_l. unfold z_rsa_decrypt_and_check. apply lb_bind_l, I.
  Qed.

  Lemma pkcs1v15_sign_em fuel rng k prefix hashed sig :
    outcome_of (z_pkcs1v15_sign g fuel rng k prefix hashed) = Ok sig ->
    exists em, outcome_of (z_sign_em g fuel rng k em) = Ok sig /\
      forall x, In x (heap (z_sign_em g fuel rng k em)) -> In x (heap (z_pkcs1v15_sign g fuel rng k prefix hashed)).
  Proof.
    intros H.
    change (z_pkcs1v15_sign g fuel rng k prefix hashed)
      with (let~ em := z_lift (pkcs1v15_sign_pad prefix hashed (key_size (sk_pub k))) in z_sign_em g fuel rng k em) in *.
    rewrite zr_bind, zr_lift in H. apply bind_ok in H. destruct H as (em & E & H).
    exists em. split; [exact H|]. intros x I. eapply lb_bind_r; [rewrite zr_lift; exact E|exact I].
  Qed.

  Lemma pss_sign_digest_em hd fuel st bl k hashed sl sig :
    outcome_of (z_pss_sign_digest g hd fuel st bl k hashed sl) = Ok sig ->
    exists st' em, let rng := if bl then Some st' else None in
      outcome_of (z_sign_em g fuel rng k em) = Ok sig /\
      forall x, In x (heap (z_sign_em g fuel rng k em)) ->
                In x (heap (z_pss_sign_digest g hd fuel st bl k hashed sl)).
  Proof.
    intros H. unfold z_pss_sign_digest in *. destruct (rng_fill g st sl) as [[salt|] st']; [|discriminate].
    rewrite zr_own in H. unfold z_sign_pss_with_salt_digest in *. cbv zeta in *.
    rewrite zr_bind, zr_lift in H. apply bind_ok in H. destruct H as (eb & B & H).
    rewrite zr_bind, zr_lift in H. apply bind_ok in H. destruct H as (em & E & H).
    exists st', em. split; [exact H|]. intros x I. apply lb_own. eapply lb_bind_r; [rewrite zr_lift; exact B|].
    eapply lb_bind_r; [rewrite zr_lift; exact E|exact I].
  Qed.

  Lemma pss_sign_em hd fuel st bl k hashed sl sig :
    outcome_of (z_pss_sign g fuel st bl k hashed sl (digest_new hd)) = Ok sig ->
    exists st' em, let rng := if bl then Some st' else None in
      outcome_of (z_sign_em g fuel rng k em) = Ok sig /\
      forall x, In x (heap (z_sign_em g fuel rng k em)) ->
                In x (heap (z_pss_sign g fuel st bl k hashed sl (digest_new hd))).
  Proof.
    intros H. unfold z_pss_sign in *. destruct (rng_fill g st sl) as [[salt|] st']; [|discriminate].
    rewrite zr_own in H. unfold z_sign_pss_with_salt in *. cbv zeta in *.
    rewrite zr_bind, zr_lift in H. apply bind_ok in H. destruct H as (eb & B & H).
    rewrite zr_bind in H. apply bind_ok in H. destruct H as ((em & o) & E & H).
    exists st', em. split; [exact H|]. intros x I. apply lb_own. eapply lb_bind_r; [rewrite zr_lift; exact B|].
    eapply lb_bind_r; [exact E|exact I].
  Qed.
End Signatures.
