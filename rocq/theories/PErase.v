(** Lemmas for PropErase.v: all that secret-handling code erases. *)
From Coq Require Import ZArith Znumtheory List Bool Lia.
From Coq Require Import Init.Byte.
From Verif Require Import Base Bigint BytesLemmas NumTheory SpecRFC BigintLemmas MHash MPad MMgf MPkcs1 MOaep MPss MRsa MKey
  MApi MDer MEncoding MResidue MResidueSig KeyDefs SpecRng SpecKey SpecDer SpecResidue PPad PMgf PPkcs1 PPss PRsa POaep PKey PApi
  PEnc PSig PHist PEncoding PCodec PWrapEnc PResidue PResidueSig.
Import ListNotations.
Local Open Scope Z_scope.

Lemma erasures_app a b : erasures (a ++ b) = erasures a ++ erasures b.
Proof. induction a as [|[o|o] a IH]; cbn [app erasures]; auto. rewrite IH. reflexivity. Qed.

Lemma eo_bind {A B} (m : holding A) (k : A -> holding B) :
  erased_objects (zbind m k) =
  erased_objects m ++ match outcome_of m with Ok a => erased_objects (k a) | _ => [] end.
Proof.
  unfold erased_objects, heap, outcome_of, zbind. destruct (snd m) as [a| | |]; cbn [fst]; rewrite ?app_nil_r; auto.
  destruct (k a) as (t & r). cbn [fst]. apply erasures_app.
Qed.
Lemma eo_plain {A} o (m : holding A) : erased_objects (owning (Plain o) m) = erased_objects m.
Proof. unfold erased_objects, heap, owning. cbn [fst]. rewrite erasures_app. apply app_nil_r. Qed.
Lemma eo_erased {A} o (m : holding A) : erased_objects (owning (Erased o) m) = erased_objects m ++ [o].
Proof. unfold erased_objects, heap, owning. cbn [fst]. rewrite erasures_app. reflexivity. Qed.
Lemma eo_lift {A} (o : outcome A) : erased_objects (z_lift o) = [].
Proof. reflexivity. Qed.
Lemma eo_ret {A} (a : A) : erased_objects (z_ret a) = [].
Proof. reflexivity. Qed.
Lemma eo_if_err {A} f (m : holding A) : erased_objects (owning_if_err f m) =
  erased_objects m ++ match outcome_of m, f with Err _, Erased o => [o] | _, _ => [] end.
Proof.
  unfold owning_if_err, outcome_of. destruct (snd m) eqn:E; rewrite ?app_nil_r; auto.
  destruct f; [rewrite eo_plain, app_nil_r|rewrite eo_erased]; reflexivity.
Qed.
Lemma eo_lift_bind {A B} (o : outcome A) (k : A -> holding B) :
  erased_objects (zbind (z_lift o) k) = match o with Ok a => erased_objects (k a) | _ => [] end.
Proof. rewrite eo_bind, eo_lift, zr_lift. reflexivity. Qed.

Ltac eo := repeat first [rewrite eo_lift_bind | rewrite eo_plain | rewrite eo_lift | rewrite eo_ret].
(** every continuation erases nothing *)
Ltac eo_none := repeat (eo; try reflexivity; match goal with |- match ?o with _ => _ end = [] => destruct o end).

Lemma eo_reduce n p : erased_objects (z_reduce_vartime n p) = [].
Proof. unfold z_reduce_vartime. cbv zeta. eo_none. Qed.
Lemma eo_pow b e p : erased_objects (z_pow_mod_params b e p) = [].
Proof. unfold z_pow_mod_params. rewrite eo_bind, eo_reduce. cbn [app]. eo_none. Qed.
Lemma eo_mul l r p : erased_objects (z_mul_mod_params l r p) = [].
Proof. unfold z_mul_mod_params. eo_none. Qed.
Lemma eo_unblind m u p : erased_objects (z_unblind m u p) = [].
Proof. unfold z_unblind. eo_none. apply eo_mul. Qed.
Lemma eo_crt c pc q : erased_objects (z_crt_pow c pc q) = [].
Proof. unfold z_crt_pow. cbv zeta. eo_none. Qed.

Section Rng.
  Context {R : Type} (g : rng_ops R).

  Lemma eo_blind_loop fuel : forall st key r0, erased_objects (z_blind_loop g fuel st key r0) = [].
  Proof.
    induction fuel as [|f IH]; intros st key r0; cbn [z_blind_loop]; [reflexivity|]. rewrite eo_plain.
    destruct (rng_mod g st (uval (pk_n key))) as [[v|] st']; [|reflexivity]. cbv zeta. rewrite eo_bind.
    replace (erased_objects (if uis_zero (mkU v (uprec (pk_n key)))
      then owning (Plain (Int (mkU v (uprec (pk_n key))))) (z_ret (u_one_with (n_bits_precision key)))
      else z_ret (mkU v (uprec (pk_n key))))) with (@nil object)
      by (destruct (uis_zero _); reflexivity).
    cbn [app]. destruct (outcome_of _); auto. eo. destruct (uinv_mod _ _) as [[ir|]| | |]; eo; auto.
  Qed.

  Lemma eo_blind fuel st key c p : erased_objects (z_blind g fuel st key c p) =
    match assert_ (ueqb (pk_n key) (mp_modulus p)), blind_loop g fuel st key with
    | Ok _, Ok (r, _, _) => match pow_mod_params r (pk_e key) p with Ok rp => [Int rp] | _ => [] end
    | _, _ => []
    end.
  Proof.
    unfold z_blind. cbv zeta. rewrite eo_bind, eo_plain, eo_lift, zr_own, zr_lift. cbn [app].
    destruct (assert_ _); auto. rewrite eo_bind, eo_blind_loop, zr_blind_loop. cbn [app].
    destruct (blind_loop g fuel st key) as [((r & ir) & st')| | |]; auto. rewrite eo_plain, eo_bind, eo_pow, zr_pow.
    cbn [app]. destruct (pow_mod_params _ _ _) as [rp| | |]; auto.
    rewrite eo_bind, eo_erased, eo_mul. cbn [app]. destruct (outcome_of _); auto.
    rewrite eo_lift_bind. destruct (assert_ _); auto. rewrite eo_lift_bind. destruct (assert_ _); auto.
  Qed.

  Lemma eo_dec fuel rng k c : erased_objects (z_rsa_decrypt g fuel rng k c) =
    if uleb (pk_n (sk_pub k)) c then []
    else match rng with
         | Some st => erased_objects (z_blind g fuel st (sk_pub k) c (pk_params (sk_pub k)))
         | None => []
         end.
  Proof.
    unfold z_rsa_decrypt. cbv zeta. destruct (uleb _ _); [reflexivity|]. rewrite eo_bind.
    match goal with |- _ ++ ?t = _ => assert (T : t = []) end.
    { destruct (outcome_of _) as [(c' & ir)| | |]; auto. cbv beta iota. rewrite eo_bind.
      match goal with |- ?a ++ _ = _ => assert (X : a = []) end.
      { destruct (sk_pre k); [|rewrite eo_plain; apply eo_pow]. destruct (2 <? _)%nat; [rewrite eo_plain; apply eo_pow|].
        eo. destruct (get_idx _ _); auto. eo. destruct (get_idx _ _); auto. apply eo_crt. }
      rewrite X. cbn [app]. destruct (outcome_of _); auto. eo. destruct (shorten _ _); auto.
      destruct ir; eo; auto. apply eo_unblind. }
    rewrite T, app_nil_r. clear T. destruct rng as [st|]; [|eo_none].
    rewrite eo_bind. match goal with |- _ ++ ?t = _ => assert (X : t = []) end.
    { destruct (outcome_of _) as [(b & u)| | |]; auto. cbv beta iota. rewrite eo_bind. eo. cbn [app]. destruct (outcome_of _); reflexivity. }
    rewrite X. apply app_nil_r.
  Qed.

  Lemma eo_check fuel rng k c : erased_objects (z_rsa_decrypt_and_check g fuel k rng c)
    = erased_objects (z_rsa_decrypt g fuel rng k c).
  Proof.
    unfold z_rsa_decrypt_and_check. rewrite eo_bind.
    match goal with |- _ ++ ?t = _ => assert (X : t = []) end; [|rewrite X; apply app_nil_r].
    destruct (outcome_of _) as [m| | |]; auto. rewrite eo_if_err, eo_bind. unfold z_rsa_encrypt. rewrite eo_pow. cbn [app].
    match goal with |- ?a ++ _ = _ => assert (Y : a = []) end.
    { destruct (outcome_of _); auto. eo. destruct (negb _); reflexivity. }
    rewrite Y. clear Y. cbn [app]. destruct (outcome_of _); reflexivity.
  Qed.

  (** With a key that computes, what blinding erases. *)
  Lemma eo_dec_ok fuel rng k c m : (rng <> None -> rng_ok g) -> wf_pub (sk_pub k) -> 1 < uval (pk_n (sk_pub k)) ->
    rsa_decrypt g fuel rng k c = Ok m ->
    blinding_erased rng (uval (pk_n (sk_pub k))) (uval (pk_e (sk_pub k))) (uprec (pk_n (sk_pub k)))
      (erased_objects (z_rsa_decrypt g fuel rng k c)).
  Proof.
    intros G W N H. rewrite eo_dec. rewrite rsa_decrypt_unfold in H. destruct (uleb _ _); [discriminate|].
    cbv zeta in H. destruct rng as [st|]; [|reflexivity]. cbn [blinding_erased].
    apply bind_ok in H. destruct H as (x & H & _). apply bind_ok in H. destruct H as ((b & u) & H & _).
    rewrite eo_blind. unfold blind in H.
    apply bind_ok in H. destruct H as (a & A & H'). rewrite A. cbv zeta in H'.
    apply bind_ok in H'. destruct H' as (((r & ir) & st') & L & H'). rewrite L.
    apply bind_ok in H'. destruct H' as (rp & P & _). rewrite P.
    pose proof W as (Wn & We & Wp & _).
    destruct (blind_loop_ok g fuel st (sk_pub k) r ir st' (G ltac:(discriminate)) Wn N L) as (B1 & B2 & B3 & B4 & B5).
    exists (uval r), (uval ir). split; [exact B3|]. split; [exact B5|].
    rewrite Wp in P. rewrite pow_mod_params_small in P.
    - congruence.
    - destruct Wn as (V & Q1 & Q2). split; [|rewrite B1; auto]; rewrite B1; clear - V B3; lia.
    - exact Wn.
    - clear - N. lia.
    - destruct We as (V & _). clear - V. lia.
    - destruct Wn as (V & _). clear - V B3. lia.
  Qed.
End Rng.

(** * Padding and mask generation *)

Lemma eo_mgf_loop fuel : forall out i c dg seed, erased_objects (z_mgf1_xor_loop fuel out i c dg seed) = [].
Proof.
  induction fuel as [|f IH]; intros; cbn [z_mgf1_xor_loop]; destruct (length out <=? i)%nat; try reflexivity.
  cbv zeta. eo. destruct (copy_into _ _ _ _); auto. eo. destruct (copy_into _ _ _ _); auto.
  destruct (digest_finalize_reset _) as (o & dg'). rewrite eo_bind. eo. cbn [app].
  destruct (outcome_of _) as [(out' & i')| | |]; auto.
Qed.
Lemma eo_mgf out dg seed : erased_objects (z_mgf1_xor out dg seed) = [].
Proof. unfold z_mgf1_xor. eo. destruct (assert_ _); auto. apply eo_mgf_loop. Qed.

Lemma eo_be_pad u n : erased_objects (z_uint_to_be_pad u n) = [].
Proof. reflexivity. Qed.
Lemma eo_z_pad u n : erased_objects (z_uint_to_zeroizing_be_pad u n) = [Octets (to_be_bytes u); Int u].
Proof. reflexivity. Qed.

Lemma eo_oaep_inner em hs ph k zf : (forall s d, erased_objects (zf s d) = []) ->
  erased_objects (z_oaep_decrypt_inner em hs ph k zf) = [].
Proof.
  intros Z. unfold z_oaep_decrypt_inner. destruct (k <? 11)%nat; [reflexivity|]. destruct (k <? _)%nat; [reflexivity|].
  eo. destruct (get_idx _ _); auto. cbv zeta. eo. destruct (split_at _ _) as [(h & p)| | |]; auto.
  eo. destruct (split_at _ _) as [(s & d)| | |]; auto. rewrite eo_bind, Z. cbn [app].
  destruct (outcome_of _) as [(s' & d')| | |]; auto. eo. destruct (slice _ _ _); auto.
  destruct (oaep_scan _ _ _ _ _) as ((lk & ix) & nz). eo_none.
Qed.
Lemma eo_oaep_finish em inner : erased_objects (z_oaep_finish em inner) = erased_objects inner.
Proof.
  unfold z_oaep_finish. destruct (outcome_of inner) as [((out & ix) & v)| | |] eqn:E; rewrite eo_plain, eo_bind, E;
    rewrite ?app_nil_r; auto.
Qed.
Lemma eo_oaep_decrypt em dg dm label k : erased_objects (z_oaep_decrypt em dg dm label k) = [].
Proof.
  unfold z_oaep_decrypt. cbv zeta. eo. destruct (_ <=? _); [reflexivity|].
  destruct (digest_finalize_reset _) as (ph & dgr). eo. rewrite eo_oaep_finish. apply eo_oaep_inner. intros s d.
  rewrite eo_bind, eo_mgf. cbn [app]. destruct (outcome_of _) as [(a & b)| | |]; auto.
  rewrite eo_bind, eo_mgf. cbn [app]. destruct (outcome_of _) as [(a' & b')| | |]; auto.
Qed.
Lemma eo_oaep_decrypt_digest hd hm em label k : erased_objects (z_oaep_decrypt_digest hd hm em label k) = [].
Proof.
  unfold z_oaep_decrypt_digest. cbv zeta. eo. destruct (_ <=? _); [reflexivity|].
  rewrite eo_oaep_finish. apply eo_oaep_inner. intros s d.
  eo. destruct (mgf1_xor_digest _ _ _) as [(a & b)| | |]; auto. eo. destruct (mgf1_xor_digest _ _ _) as [(a' & b')| | |]; auto.
Qed.
Lemma eo_emsa mh eb salt dg : erased_objects (z_emsa_pss_encode mh eb salt dg) = [].
Proof.
  unfold z_emsa_pss_encode. cbv zeta. destruct (negb _); [reflexivity|]. destruct (_ <? _)%nat; [reflexivity|].
  eo. destruct (usub _ _); auto. eo. destruct (usub _ _); auto. eo. destruct (split_at _ _) as [(db & h)| | |]; auto.
  eo. destruct (usub _ _); auto. eo. destruct (usub _ _); auto. eo. destruct (split_at _ _) as [(h' & tl)| | |]; auto.
  destruct (digest_finalize_reset _) as (hh & hs). eo. destruct (copy_into _ _ _ _); auto.
  eo. destruct (usub _ _); auto. eo. destruct (usub _ _); auto. eo. destruct (usub _ _); auto.
  eo. destruct (set_idx _ _ _); auto. eo. destruct (usub _ _); auto. eo. destruct (copy_into _ _ _ _); auto.
  rewrite eo_bind, eo_mgf. cbn [app]. destruct (outcome_of _) as [(db' & hs')| | |]; auto. eo_none.
Qed.

Section Api.
  Context {R : Type} (g : rng_ops R).

  Lemma eo_decrypt_with fuel rng k ct zu c : (forall em, erased_objects (zu em) = []) ->
    from_be_slice ct (n_bits_precision (sk_pub k)) = Ok c ->
    erased_objects (z_decrypt_with g fuel rng k ct zu) =
    erased_objects (z_rsa_decrypt g fuel rng k c) ++
    match rsa_decrypt_and_check g fuel k rng c with Ok m => [Octets (to_be_bytes m); Int m] | _ => [] end.
  Proof.
    intros Z E. unfold z_decrypt_with. cbv zeta. rewrite eo_lift_bind, E, eo_plain, eo_bind, eo_check, zr_check. f_equal.
    destruct (rsa_decrypt_and_check _ _ _ _ _); auto. rewrite eo_bind, eo_z_pad, zr_z_pad.
    destruct (uint_to_zeroizing_be_pad _ _); rewrite ?Z; reflexivity.
  Qed.
  Lemma eo_sign_em fuel rng k em c : from_be_slice em (n_bits_precision (sk_pub k)) = Ok c ->
    erased_objects (z_sign_em g fuel rng k em) =
    erased_objects (z_rsa_decrypt g fuel rng k c) ++
    match rsa_decrypt_and_check g fuel k rng c with Ok m => [Octets (to_be_bytes m); Int m] | _ => [] end.
  Proof.
    intros E. unfold z_sign_em. cbv zeta. eo. rewrite E. rewrite eo_plain, eo_bind, eo_check, zr_check. reflexivity.
  Qed.

  (** * Whole calls *)

  Definition erases_private (rng : option R) (k : privkey) (z : Z) (run : holding (list byte)) : Prop :=
    exists B T, erased_objects run = B ++ T /\
      blinding_erased rng (uval (pk_n (sk_pub k))) (uval (pk_e (sk_pub k))) (uprec (pk_n (sk_pub k))) B /\
      twice z T.

  Lemma check_dec fuel rng k c m : rsa_decrypt_and_check g fuel k rng c = Ok m -> rsa_decrypt g fuel rng k c = Ok m.
  Proof.
    unfold rsa_decrypt_and_check. intros D. apply bind_ok in D. destruct D as (m' & D1 & D2).
    apply bind_ok in D2. destruct D2 as (ch & _ & D2). destruct (negb _); [discriminate|].
    apply inj_ok in D2. subst m'. exact D1.
  Qed.

  Lemma decrypt_with_erases fuel rng k ct zu : (forall em, erased_objects (zu em) = []) ->
    (rng <> None -> rng_ok g) -> good_priv k ->
    8 * Z.of_nat (length ct) <= uprec (pk_n (sk_pub k)) -> os2ip ct < uval (pk_n (sk_pub k)) ->
    blinding_succeeds g (uval (pk_n (sk_pub k))) rng fuel ->
    erases_private rng k (RSADP (uval (pk_n (sk_pub k))) (uval (sk_d k)) (os2ip ct)) (z_decrypt_with g fuel rng k ct zu).
  Proof.
    intros Z G K L C B. pose proof (good_pub k K) as W. pose proof W as (Wn & _).
    pose proof Wn as (Vn & P1 & P2).
    assert (F : from_be_slice ct (n_bits_precision (sk_pub k)) = Ok (mkU (os2ip ct) (uprec (pk_n (sk_pub k)))))
      by (apply from_be_slice_fits; auto).
    set (c := mkU (os2ip ct) (uprec (pk_n (sk_pub k)))) in *.
    assert (Wc : wf_uint c) by (apply os2ip_wf; auto).
    destruct (rsa_decrypt_and_check_good g fuel rng k c G K Wc eq_refl C) as (D & _). specialize (D B).
    change (uval c) with (os2ip ct) in D.
    set (M := RSADP (uval (pk_n (sk_pub k))) (uval (sk_d k)) (os2ip ct)) in *.
    pose proof (good_gt1 k K) as G1.
    assert (HM : 0 <= M < uval (pk_n (sk_pub k))) by (apply Z.mod_pos_bound; clear - G1; lia).
    assert (WM : wf_uint (mkU M (uprec (pk_n (sk_pub k))))) by (apply wf_mk; auto; clear - HM Vn; lia).
    exists (erased_objects (z_rsa_decrypt g fuel rng k c)), [Octets (to_be_bytes (mkU M (uprec (pk_n (sk_pub k))))); Int (mkU M (uprec (pk_n (sk_pub k))))].
    split; [rewrite (eo_decrypt_with fuel rng k ct zu c Z F), D; reflexivity|].
    split; [eapply eo_dec_ok; [exact G|exact W|exact G1|apply check_dec; exact D]|].
    eexists; eexists. split; [reflexivity|]. split; [|reflexivity]. apply (be_bytes_uint _ WM).
  Qed.

  Lemma sign_em_erases fuel rng k em sig : (rng <> None -> rng_ok g) -> good_priv k ->
    outcome_of (z_sign_em g fuel rng k em) = Ok sig ->
    erases_private rng k (os2ip sig) (z_sign_em g fuel rng k em).
  Proof.
    intros G K H. pose proof (good_pub k K) as W. pose proof (good_gt1 k K) as G1.
    rewrite zr_sign_em in H. destruct (decrypt_core_length g fuel rng k em sig W H) as (L & F & V & E).
    pose proof W as (Wn & _). pose proof Wn as (_ & P1 & P2).
    assert (FB : from_be_slice em (n_bits_precision (sk_pub k)) = Ok (mkU (os2ip em) (uprec (pk_n (sk_pub k)))))
      by (apply from_be_slice_fits; auto).
    unfold decrypt_core in H. rewrite FB in H. cbn [bind] in H.
    apply bind_ok in H. destruct H as (s & D & P).
    destruct (rsa_decrypt_and_check_sound g fuel rng k (mkU (os2ip em) (uprec (pk_n (sk_pub k)))) s W
      (proj1 (os2ip_range em)) D) as (_ & _ & Ws & Ps).
    assert (Vs : os2ip sig = uval s).
    { destruct (C21_lemma s (key_size (sk_pub k)) Ws) as [A B].
      destruct (Z.lt_ge_cases (uval s) (256 ^ Z.of_nat (key_size (sk_pub k)))) as [X|X].
      - destruct (A X) as (o & _ & EX & L1 & V1). rewrite EX in P. injection P as <-. exact V1.
      - destruct (B X) as (_ & EX). rewrite EX in P. discriminate. }
    eexists; eexists. split; [rewrite (eo_sign_em fuel rng k em _ FB), D; reflexivity|].
    split; [eapply eo_dec_ok; [exact G|exact W|exact G1|apply check_dec; exact D]|].
    exists (to_be_bytes s), s. rewrite Vs. split; [reflexivity|]. split; [apply be_bytes_uint, Ws|reflexivity].
  Qed.

  Lemma pkcs1v15_sign_erases fuel rng k prefix hashed sig : (rng <> None -> rng_ok g) -> good_priv k ->
    outcome_of (z_pkcs1v15_sign g fuel rng k prefix hashed) = Ok sig ->
    erases_private rng k (os2ip sig) (z_pkcs1v15_sign g fuel rng k prefix hashed).
  Proof.
    intros G K H.
    change (z_pkcs1v15_sign g fuel rng k prefix hashed)
      with (let~ em := z_lift (pkcs1v15_sign_pad prefix hashed (key_size (sk_pub k))) in z_sign_em g fuel rng k em) in *.
    rewrite zr_bind, zr_lift in H. apply bind_ok in H. destruct H as (em & E & H).
    unfold erases_private. rewrite eo_lift_bind, E. apply sign_em_erases; assumption.
  Qed.
  Lemma pss_sign_digest_erases hd fuel st st' (bl : bool) k hashed sl sig : rng_ok g -> good_priv k ->
    snd (rng_fill g st sl) = st' ->
    outcome_of (z_pss_sign_digest g hd fuel st bl k hashed sl) = Ok sig ->
    erases_private (if bl then Some st' else None) k (os2ip sig) (z_pss_sign_digest g hd fuel st bl k hashed sl).
  Proof.
    intros G K Es H. unfold z_pss_sign_digest in *. destruct (rng_fill g st sl) as [[salt|] st1]; [|discriminate].
    cbn [snd] in Es. subst st1.
    rewrite zr_own in H. unfold z_sign_pss_with_salt_digest in *. cbv zeta in *.
    rewrite zr_bind, zr_lift in H. apply bind_ok in H. destruct H as (eb & B & H).
    rewrite zr_bind, zr_lift in H. apply bind_ok in H. destruct H as (em & E & H).
    unfold erases_private. rewrite eo_plain, eo_lift_bind, B, eo_lift_bind, E. apply sign_em_erases; auto.
  Qed.
  Lemma pss_sign_erases hd fuel st st' (bl : bool) k hashed sl sig : rng_ok g -> good_priv k ->
    snd (rng_fill g st sl) = st' ->
    outcome_of (z_pss_sign g fuel st bl k hashed sl (digest_new hd)) = Ok sig ->
    erases_private (if bl then Some st' else None) k (os2ip sig) (z_pss_sign g fuel st bl k hashed sl (digest_new hd)).
  Proof.
    intros G K Es H. unfold z_pss_sign in *. destruct (rng_fill g st sl) as [[salt|] st1]; [|discriminate].
    cbn [snd] in Es. subst st1.
    rewrite zr_own in H. unfold z_sign_pss_with_salt in *. cbv zeta in *.
    rewrite zr_bind, zr_lift in H. apply bind_ok in H. destruct H as (eb & B & H).
    rewrite zr_bind in H. apply bind_ok in H. destruct H as ((em & o) & E & H).
    unfold erases_private. rewrite eo_plain, eo_lift_bind, B, eo_bind, eo_emsa, E. cbn [app]. apply sign_em_erases; auto.
  Qed.

  (** Encryption *)
  Lemma eo_finish_encrypt k em : erased_objects (z_finish_encrypt k em) = [Octets em].
  Proof.
    unfold z_finish_encrypt. rewrite eo_erased. eo.
    destruct (from_be_slice _ _); auto. eo. rewrite eo_bind. unfold z_rsa_encrypt. rewrite eo_pow. cbn [app].
    destruct (outcome_of _); auto.
  Qed.
  Lemma eo_pad fuel r msg k : erased_objects (z_pkcs1v15_encrypt_pad g fuel r msg k) =
    if (k <? length msg + 11)%nat then [] else
    match pkcs1v15_encrypt_pad g fuel r msg k with Err _ => [Octets (repeat x00 k)] | _ => [] end.
  Proof.
    unfold z_pkcs1v15_encrypt_pad. destruct (_ <? _)%nat; [reflexivity|]. rewrite eo_if_err, eo_lift, zr_lift. reflexivity.
  Qed.
  Lemma eo_oaep_internal r msg ph hs k zf : (forall s d, erased_objects (zf s d) = []) ->
    erased_objects (z_oaep_encrypt_internal g r msg ph hs k zf) =
    if (k <? length msg + 2 * hs + 2)%nat then [] else
    match outcome_of (z_oaep_encrypt_internal g r msg ph hs k zf) with Err _ => [Octets (repeat x00 k)] | _ => [] end.
  Proof.
    intros Z. unfold z_oaep_encrypt_internal. destruct (_ <? _)%nat; [reflexivity|]. cbv zeta.
    rewrite eo_if_err, zr_own_err. match goal with |- ?a ++ _ = _ => assert (X : a = []) end; [|rewrite X; reflexivity].
    eo. destruct (split_at _ _) as [(h & p)| | |]; auto. eo. destruct (split_at _ _) as [(s & d)| | |]; auto.
    destruct (rng_fill g r (length s)) as [[sd|] r']; [|reflexivity].
    do 7 (eo; match goal with |- match ?o with _ => _ end = [] => destruct o; auto end).
    rewrite eo_bind, Z. cbn [app]. destruct (outcome_of _) as [(? & ?)| | |]; auto.
  Qed.

  Lemma erased_in {A} (run : holding A) o : erased run o <-> In o (erased_objects run).
  Proof.
    unfold erased, erased_objects. induction (heap run) as [|[x|x] h IH]; cbn [In erasures]; [tauto| |].
    - rewrite <- IH. split; [intros [?|?]; [discriminate|auto]|auto].
    - rewrite <- IH. split; intros [H|H]; auto; left; congruence.
  Qed.

  Lemma eo_oaep_encrypt r msg dg dm label k : erased_objects (z_oaep_encrypt g r msg dg dm label k) =
    match outcome_of (z_oaep_encrypt g r msg dg dm label k) with
    | Err _ => if orb (MAX_LABEL_LEN <=? Z.of_nat (length (label_bytes label)))
                      (k <? length msg + 2 * digest_output_size dg + 2)%nat then [] else [Octets (repeat x00 k)]
    | _ => []
    end.
  Proof.
    unfold z_oaep_encrypt. cbv zeta. rewrite eo_plain, zr_own. destruct (_ <=? _); [reflexivity|].
    destruct (digest_finalize_reset _) as (ph & dgr). rewrite eo_plain, zr_own. cbn [orb]. rewrite eo_oaep_internal.
    - destruct (_ <? _)%nat; destruct (outcome_of _); reflexivity.
    - intros s d. rewrite eo_bind, eo_mgf. cbn [app]. destruct (outcome_of _) as [(a & b)| | |]; auto.
      rewrite eo_bind, eo_mgf. cbn [app]. destruct (outcome_of _) as [(a' & b')| | |]; auto.
  Qed.
  Lemma eo_oaep_encrypt_digest hd hm r msg label k : erased_objects (z_oaep_encrypt_digest g hd hm r msg label k) =
    match outcome_of (z_oaep_encrypt_digest g hd hm r msg label k) with
    | Err _ => if orb (MAX_LABEL_LEN <=? Z.of_nat (length (label_bytes label)))
                      (k <? length msg + 2 * h_size hd + 2)%nat then [] else [Octets (repeat x00 k)]
    | _ => []
    end.
  Proof.
    unfold z_oaep_encrypt_digest. cbv zeta. rewrite eo_plain, zr_own. destruct (_ <=? _); [reflexivity|].
    cbn [orb]. rewrite eo_oaep_internal.
    - destruct (_ <? _)%nat; destruct (outcome_of _); reflexivity.
    - intros s d. eo. destruct (mgf1_xor_digest _ _ _) as [(a & b)| | |]; auto. eo.
      destruct (mgf1_xor_digest _ _ _) as [(a' & b')| | |]; auto.
  Qed.

  (** A call that pads and encrypts erases one buffer at most; a successful one the encoded message. *)
  Lemma encrypt_erases (pad : holding (list byte)) k :
    (forall em, outcome_of pad = Ok em -> erased_objects pad = []) ->
    (erased_objects pad = [] \/ erased_objects pad = [Octets (repeat x00 (key_size k))]) ->
    let run := let~ _ := z_lift (check_public k) in let~ em := pad in z_finish_encrypt k em in
    (forall em, outcome_of pad = Ok em -> exists ct, outcome_of (z_finish_encrypt k em) = Ok ct) ->
    (forall ct em, outcome_of run = Ok ct -> erased run (Octets em) -> erased_objects run = [Octets em]) /\
    ((forall ct, outcome_of run <> Ok ct) -> erased_objects run = [] \/ erased_objects run = [Octets (repeat x00 (key_size k))]).
  Proof.
    intros P1 P2 run F.
    assert (E : erased_objects run = match check_public k with
      | Ok _ => erased_objects pad ++ match outcome_of pad with Ok em => [Octets em] | _ => [] end | _ => [] end).
    { unfold run. rewrite eo_lift_bind. destruct (check_public k); auto. rewrite eo_bind.
      destruct (outcome_of pad); auto. rewrite eo_finish_encrypt. reflexivity. }
    assert (O : outcome_of run = bind (check_public k) (fun _ => bind (outcome_of pad) (fun em => outcome_of (z_finish_encrypt k em)))).
    { unfold run. rewrite zr_bind, zr_lift. destruct (check_public k); auto. cbn [bind]. apply zr_bind. }
    clearbody run. split.
    - intros ct em H I. apply erased_in in I. rewrite O in H. apply bind_ok in H. destruct H as (u & C & H).
      apply bind_ok in H. destruct H as (em' & P & H). pose proof (P1 _ P) as P3. rewrite C, P, P3 in E. cbn [app] in E. rewrite E in *.
      destruct I as [I|[]]. rewrite I. reflexivity.
    - intros N. rewrite E. destruct (check_public k) eqn:C; auto. destruct (outcome_of pad) as [em| | |] eqn:P; rewrite ?app_nil_r; auto.
      destruct (F em eq_refl) as (ct & X). exfalso. apply (N ct). rewrite O. cbn [bind]. exact X.
  Qed.
End Api.

(** * Export *)

Section Export.
  Variable mx : Z.

  Lemma eo_crt_exponent {A} d p (k : uint -> holding A) x : crt_exponent d p = Ok x ->
    erased_objects (z_crt_exponent d p k) = erased_objects (k x) ++ [Octets (to_be_bytes x)].
  Proof.
    intros H. unfold crt_exponent in H. unfold z_crt_exponent.
    apply bind_ok in H. destruct H as (w & W & H). apply bind_ok in H. destruct H as (y & Y & H).
    apply bind_ok in H. destruct H as (u & U & H).
    match goal with |- erased_objects (zbind ?m _) = _ => assert (X : erased_objects m = [] /\ outcome_of m = Ok x) end.
    { split.
      - rewrite eo_lift_bind, W, !eo_plain, eo_lift_bind, Y, eo_lift_bind, U, eo_lift_bind, H. reflexivity.
      - rewrite zr_bind, zr_lift, W. cbn [bind]. rewrite !zr_own, zr_bind, zr_lift, Y. cbn [bind].
        rewrite zr_bind, zr_lift, U. cbn [bind]. rewrite zr_bind, zr_lift, H. reflexivity. }
    destruct X as (X1 & X2). rewrite eo_bind, X1, X2. apply eo_erased.
  Qed.

  Lemma export_erases k p q doc :
    wf_uint (sk_d k) -> sk_primes k = [p; q] -> wf_uint p -> wf_uint q ->
    2 <= uval p -> 2 <= uval q -> uprec p <= uprec (sk_d k) -> uprec q <= uprec (sk_d k) ->
    outcome_of (z_to_pkcs8_der mx k) = Ok doc ->
    exists c, wf_uint c /\ (uval c * uval q) mod uval p = 1 mod uval p /\
      erased_objects (z_to_pkcs8_der mx k) =
      map (fun u => Octets (to_be_bytes u))
        [c; mkU (uval (sk_d k) mod (uval q - 1)) (uprec (sk_d k)); mkU (uval (sk_d k) mod (uval p - 1)) (uprec (sk_d k));
         q; p; sk_d k].
  Proof.
    intros Wd EP Wp Wq P2 Q2 PP PQ H. pose proof H as H'.
    rewrite zr_to_pkcs8 in H'. unfold to_pkcs8_der in H'.
    destruct (crt_exponent_ok (sk_d k) p Wd Wp P2 PP) as (C1 & W1).
    destruct (crt_exponent_ok (sk_d k) q Wd Wq Q2 PQ) as (C2 & W2).
    apply bind_ok in H'. destruct H' as (s & S & _).
    unfold private_to_pkcs1 in S. rewrite EP in S. cbn [length Nat.ltb Nat.leb get_idx nth_error bind] in S. cbv zeta in S.
    rewrite C1, C2 in S. cbn [bind] in S.
    apply bind_ok in S. destruct S as (oc & CC & S). destruct oc as [c|]; [|discriminate]. clear H S.
    exists c.
    assert (X : wf_uint c /\ (uval c * uval q) mod uval p = 1 mod uval p).
    { unfold crt_coefficient in CC. rewrite EP in CC. cbn [get_idx nth_error bind] in CC. unfold uinv_mod in CC.
      destruct (_ =? _); [|discriminate]. destruct (zinv (uval q) (uval p)) as [z|] eqn:Z; [|discriminate].
      assert (c = mkU z (uprec p)) as -> by congruence. cbn [uval].
      apply zinv_some in Z. destruct Z as (_ & Z1 & Z2). split; [|rewrite Z.mul_comm; apply Z2].
      destruct Wp as (V & V2). split; [|exact V2]. cbn [uval uprec]. clear - Z1 V. lia. }
    split; [apply X|]. split; [apply X|].
    unfold z_to_pkcs8_der. rewrite EP. cbn [length Nat.ltb Nat.leb get_idx nth_error]. cbv zeta.
    eo. rewrite eo_erased. eo. rewrite !eo_erased. rewrite (eo_crt_exponent _ _ _ _ C1), (eo_crt_exponent _ _ _ _ C2).
    rewrite eo_lift_bind, CC. rewrite eo_plain, eo_erased.
    match goal with |- (((((?a ++ _) ++ _) ++ _) ++ _) ++ _) ++ _ = _ => assert (Y : a = []) by eo_none end.
    rewrite Y. reflexivity.
  Qed.
End Export.
