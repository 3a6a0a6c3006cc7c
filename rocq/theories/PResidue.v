(** Lemmas about the memory given back by the secret-handling code. *)
From Coq Require Import ZArith List Bool Lia.
From Coq Require Import Init.Byte.
From Verif Require Import Base Bigint BytesLemmas NumTheory SpecRFC BigintLemmas MHash MPad MMgf MPkcs1 MOaep MRsa MKey
  MApi MDer MEncoding MResidue KeyDefs SpecRng SpecKey SpecDer SpecResidue PPad PMgf PPkcs1 PRsa POaep PKey PApi PEnc PDer
  PEncoding PCodec PWrapEnc.
Import ListNotations.
Local Open Scope Z_scope.

(** * The results are those of the plain model *)

Lemma zr_bind {A B} (m : holding A) (k : A -> holding B) :
  outcome_of (zbind m k) = bind (outcome_of m) (fun a => outcome_of (k a)).
Proof. unfold outcome_of, zbind. destruct (snd m); cbn; auto. destruct (k a); reflexivity. Qed.
Lemma zr_own {A} f (m : holding A) : outcome_of (owning f m) = outcome_of m.
Proof. reflexivity. Qed.
Lemma zr_own_err {A} f (m : holding A) : outcome_of (owning_if_err f m) = outcome_of m.
Proof. unfold owning_if_err, outcome_of. destruct (snd m) eqn:E; rewrite ?E; auto. Qed.
Lemma zr_lift {A} (o : outcome A) : outcome_of (z_lift o) = o.
Proof. reflexivity. Qed.
Lemma zr_ret {A} (a : A) : outcome_of (z_ret a) = Ok a.
Proof. reflexivity. Qed.

Lemma zbind_ext {A B} (o : outcome A) (f f' : A -> outcome B) :
  (forall a, f a = f' a) -> bind o f = bind o f'.
Proof. intros H. destruct o; cbn; auto. Qed.

Ltac zr :=
  repeat (first [rewrite zr_bind | rewrite zr_own | rewrite zr_own_err | rewrite zr_lift | rewrite zr_ret]; cbn [bind]).
(** both sides start with the same step *)
Ltac zr_step := zr; first [reflexivity | apply zbind_ext; intros].
Ltac zr_all := repeat (zr_step; cbv beta iota zeta).

Lemma zr_be_pad u n : outcome_of (z_uint_to_be_pad u n) = uint_to_be_pad u n.
Proof. reflexivity. Qed.
Lemma zr_z_pad u n : outcome_of (z_uint_to_zeroizing_be_pad u n) = uint_to_zeroizing_be_pad u n.
Proof. reflexivity. Qed.
Lemma zr_reduce n p : outcome_of (z_reduce_vartime n p) = reduce_vartime n p.
Proof. unfold z_reduce_vartime, reduce_vartime. cbv zeta. zr_all. Qed.
Lemma zr_pow b e p : outcome_of (z_pow_mod_params b e p) = pow_mod_params b e p.
Proof. unfold z_pow_mod_params, pow_mod_params. zr. rewrite zr_reduce. zr_all. Qed.
Lemma zr_mul l r p : outcome_of (z_mul_mod_params l r p) = mul_mod_params l r p.
Proof. unfold z_mul_mod_params, mul_mod_params. zr_all. Qed.
Lemma zr_enc k m : outcome_of (z_rsa_encrypt k m) = rsa_encrypt k m.
Proof. apply zr_pow. Qed.
Lemma zr_unblind m u p : outcome_of (z_unblind m u p) = unblind m u p.
Proof. unfold z_unblind, unblind. zr_step. zr_step. apply zr_mul. Qed.
Lemma zr_crt c pc q : outcome_of (z_crt_pow c pc q) = crt_pow c pc q.
Proof. unfold z_crt_pow, crt_pow. cbv zeta. zr_all. Qed.

Section Rng.
  Context {R : Type} (g : rng_ops R).

  Lemma zr_blind_loop fuel : forall st key r0,
    outcome_of (z_blind_loop g fuel st key r0) = blind_loop g fuel st key.
  Proof.
    induction fuel as [|f IH]; intros st key r0; cbn [z_blind_loop blind_loop]; [reflexivity|].
    rewrite zr_own. destruct (rng_mod g st (uval (pk_n key))) as [[v|] st']; [|reflexivity].
    cbv zeta. zr. destruct (uis_zero (mkU v (uprec (pk_n key)))); zr; apply zbind_ext;
      intros [ir|]; zr; auto.
  Qed.
  Lemma zr_blind fuel st key c p : outcome_of (z_blind g fuel st key c p) = blind g fuel st key c p.
  Proof.
    unfold z_blind, blind. cbv zeta. zr_step. zr. rewrite zr_blind_loop. apply zbind_ext.
    intros ((r & ir) & st'). zr. rewrite zr_pow. apply zbind_ext. intros rp. zr. rewrite zr_mul.
    apply zbind_ext. intros b. zr_all.
  Qed.
  Lemma zr_dec fuel rng k c : outcome_of (z_rsa_decrypt g fuel rng k c) = rsa_decrypt g fuel rng k c.
  Proof.
    unfold z_rsa_decrypt, rsa_decrypt. cbv zeta. destruct (uleb _ _); [reflexivity|]. zr.
    assert (E : outcome_of match rng with
        | Some st => let~ (blinded, unblinder) := z_blind g fuel st (sk_pub k) c (pk_params (sk_pub k)) in
                     let~ c := owning (Plain (Int blinded)) (z_lift (widen blinded (uprec (sk_d k)))) in
                     z_ret (c, Some unblinder)
        | None => let~ c := z_lift (widen c (uprec (sk_d k))) in z_ret (c, None)
        end = match rng with
        | Some st => let* (blinded, unblinder) := blind g fuel st (sk_pub k) c (pk_params (sk_pub k)) in
                     let* c := widen blinded (uprec (sk_d k)) in Ok (c, Some unblinder)
        | None => let* c := widen c (uprec (sk_d k)) in Ok (c, None)
        end).
    { destruct rng; zr; [rewrite zr_blind; apply zbind_ext; intros (b & u)|]; zr_all. }
    rewrite E. apply zbind_ext. intros (c' & ir). zr.
    assert (E2 : forall x, outcome_of (owning (Plain (Int c')) (z_pow_mod_params c' x (pk_params (sk_pub k))))
                 = pow_mod_params c' x (pk_params (sk_pub k))) by (intros; rewrite zr_own; apply zr_pow).
    match goal with |- bind ?a _ = bind ?b _ => assert (EM : a = b) end.
    { destruct (sk_pre k); [|apply E2]. destruct (2 <? length (sk_primes k))%nat; [apply E2|].
      zr_step. zr_step. apply zr_crt. }
    rewrite EM. apply zbind_ext. intros m. zr_step. destruct ir; zr; auto. apply zr_unblind.
  Qed.
  Lemma zr_check fuel rng k c :
    outcome_of (z_rsa_decrypt_and_check g fuel k rng c) = rsa_decrypt_and_check g fuel k rng c.
  Proof.
    unfold z_rsa_decrypt_and_check, rsa_decrypt_and_check. zr. rewrite zr_dec. apply zbind_ext. intros m.
    zr. rewrite zr_enc. apply zbind_ext. intros ch. zr. destruct (negb _); reflexivity.
  Qed.

  Lemma zr_mgf_loop fuel : forall out i c dg seed,
    outcome_of (z_mgf1_xor_loop fuel out i c dg seed) = mgf1_xor_loop fuel out i c dg seed.
  Proof.
    induction fuel as [|f IH]; intros; cbn [z_mgf1_xor_loop mgf1_xor_loop];
      destruct (length out <=? i)%nat; try reflexivity.
    cbv zeta. zr_step. zr_step. destruct (digest_finalize_reset _) as (o & dg'). zr.
    apply zbind_ext. intros (out' & i'). apply IH.
  Qed.
  Lemma zr_mgf out dg seed : outcome_of (z_mgf1_xor out dg seed) = mgf1_xor out dg seed.
  Proof. unfold z_mgf1_xor, mgf1_xor. zr_step. apply zr_mgf_loop. Qed.

  Lemma zr_oaep_internal r msg ph hs k zf f :
    (forall s d, outcome_of (zf s d) = f s d) ->
    outcome_of (z_oaep_encrypt_internal g r msg ph hs k zf) = oaep_encrypt_internal g r msg ph hs k f.
  Proof.
    intros H. unfold z_oaep_encrypt_internal, oaep_encrypt_internal.
    destruct (k <? _)%nat; [reflexivity|]. cbv zeta. zr. apply zbind_ext. intros (h & p). zr.
    apply zbind_ext. intros (s & d). destruct (rng_fill g r (length s)) as [[sd|] r']; [|reflexivity].
    do 7 zr_step. zr. rewrite H. apply zbind_ext. intros (? & ?). reflexivity.
  Qed.
  Lemma zr_oaep_encrypt r msg dg dm label k :
    outcome_of (z_oaep_encrypt g r msg dg dm label k) = oaep_encrypt g r msg dg dm label k.
  Proof.
    unfold z_oaep_encrypt, oaep_encrypt. cbv zeta. zr. destruct (_ <=? _); [reflexivity|].
    destruct (digest_finalize_reset _) as (ph & dgr). zr. apply zr_oaep_internal. intros s d. zr.
    rewrite zr_mgf. apply zbind_ext. intros (d' & md). zr. rewrite zr_mgf. apply zbind_ext. intros (s' & md'). reflexivity.
  Qed.
  Lemma zr_oaep_encrypt_digest hd hm r msg label k :
    outcome_of (z_oaep_encrypt_digest g hd hm r msg label k) = oaep_encrypt_digest g hd hm r msg label k.
  Proof.
    unfold z_oaep_encrypt_digest, oaep_encrypt_digest. cbv zeta. zr. destruct (_ <=? _); [reflexivity|].
    apply zr_oaep_internal. intros s d. zr. apply zbind_ext. intros (d' & md). zr.
    apply zbind_ext. intros (s' & md'). reflexivity.
  Qed.
End Rng.

Lemma zr_oaep_inner em hs ph k zf f :
  (forall s d, outcome_of (zf s d) = f s d) ->
  outcome_of (z_oaep_decrypt_inner em hs ph k zf) = oaep_decrypt_inner em hs ph k f.
Proof.
  intros H. unfold z_oaep_decrypt_inner, oaep_decrypt_inner.
  destruct (k <? 11)%nat; [reflexivity|]. destruct (k <? _)%nat; [reflexivity|].
  zr_step. cbv zeta. zr. apply zbind_ext. intros (h & p). zr. apply zbind_ext. intros (s & d). zr. rewrite H.
  apply zbind_ext. intros (s' & d'). zr_step. destruct (oaep_scan _ _ _ _ _) as ((lk & ix) & nz). zr_all.
Qed.

Lemma zr_finish em inner :
  outcome_of (z_oaep_finish em inner) =
  let* (out, index, valid) := outcome_of inner in
  if valid then slice_from out (Z.to_nat index) else Err Decryption.
Proof.
  unfold z_oaep_finish. destruct (outcome_of inner) as [((out & ix) & v)| | |] eqn:E; zr; rewrite E; reflexivity.
Qed.

Lemma zr_oaep_decrypt em dg dm label k :
  outcome_of (z_oaep_decrypt em dg dm label k) = oaep_decrypt em dg dm label k.
Proof.
  unfold z_oaep_decrypt, oaep_decrypt. cbv zeta. zr. destruct (_ <=? _); [reflexivity|].
  destruct (digest_finalize_reset _) as (ph & dgr). zr. rewrite zr_finish.
  erewrite zr_oaep_inner; [reflexivity|]. intros s d. zr.
  rewrite zr_mgf. apply zbind_ext. intros (d' & md). zr. rewrite zr_mgf. apply zbind_ext. intros (s' & md'). reflexivity.
Qed.
Lemma zr_oaep_decrypt_digest hd hm em label k :
  outcome_of (z_oaep_decrypt_digest hd hm em label k) = oaep_decrypt_digest hd hm em label k.
Proof.
  unfold z_oaep_decrypt_digest, oaep_decrypt_digest. cbv zeta. zr. destruct (_ <=? _); [reflexivity|].
  rewrite zr_finish. erewrite zr_oaep_inner; [reflexivity|]. intros s d. zr.
  apply zbind_ext. intros (d' & md). zr. apply zbind_ext. intros (s' & md'). reflexivity.
Qed.

Section Api.
  Context {R : Type} (g : rng_ops R).

  Lemma zr_pad fuel r msg k : outcome_of (z_pkcs1v15_encrypt_pad g fuel r msg k) = pkcs1v15_encrypt_pad g fuel r msg k.
  Proof.
    unfold z_pkcs1v15_encrypt_pad. destruct (k <? _)%nat eqn:E; zr; auto.
    unfold pkcs1v15_encrypt_pad. rewrite E. reflexivity.
  Qed.
  Lemma zr_finish_encrypt k em : outcome_of (z_finish_encrypt k em) =
    let* int := from_be_slice em (n_bits_precision k) in
    let* c := rsa_encrypt k int in uint_to_be_pad c (key_size k).
  Proof.
    unfold z_finish_encrypt. zr. apply zbind_ext. intros i. zr. rewrite zr_enc. apply zbind_ext. intros c. apply zr_be_pad.
  Qed.
  Lemma zr_pkcs1v15_encrypt fuel r k msg :
    outcome_of (z_pkcs1v15_encrypt g fuel r k msg) = pkcs1v15_encrypt g fuel r k msg.
  Proof.
    unfold z_pkcs1v15_encrypt, pkcs1v15_encrypt. zr_step. zr. rewrite zr_pad. apply zbind_ext. intros em.
    apply zr_finish_encrypt.
  Qed.
  Lemma zr_oaep_api_encrypt r k msg dg dm label :
    outcome_of (z_oaep_api_encrypt g r k msg dg dm label) = oaep_api_encrypt g r k msg dg dm label.
  Proof.
    unfold z_oaep_api_encrypt, oaep_api_encrypt. zr_step. zr. rewrite zr_oaep_encrypt. apply zbind_ext. intros em.
    apply zr_finish_encrypt.
  Qed.
  Lemma zr_oaep_api_encrypt_digest hd hm r k msg label :
    outcome_of (z_oaep_api_encrypt_digest g hd hm r k msg label) = oaep_api_encrypt_digest g hd hm r k msg label.
  Proof.
    unfold z_oaep_api_encrypt_digest, oaep_api_encrypt_digest. zr_step. zr. rewrite zr_oaep_encrypt_digest.
    apply zbind_ext. intros em. apply zr_finish_encrypt.
  Qed.
  Lemma zr_decrypt_with fuel rng k ct zu u :
    (forall em, outcome_of (zu em) = u em) ->
    outcome_of (z_decrypt_with g fuel rng k ct zu) =
    let* c := from_be_slice ct (n_bits_precision (sk_pub k)) in
    let* em := rsa_decrypt_and_check g fuel k rng c in
    let* em := uint_to_zeroizing_be_pad em (key_size (sk_pub k)) in u em.
  Proof.
    intros H. unfold z_decrypt_with. cbv zeta. zr_step. zr. rewrite zr_check. apply zbind_ext. intros em. zr.
    rewrite zr_z_pad. apply zbind_ext. intros em'. apply H.
  Qed.
  Lemma zr_pkcs1v15_decrypt fuel rng k ct :
    outcome_of (z_pkcs1v15_decrypt g fuel rng k ct) = pkcs1v15_decrypt g fuel rng k ct.
  Proof.
    unfold z_pkcs1v15_decrypt, pkcs1v15_decrypt. cbv zeta. zr_step. apply zr_decrypt_with. reflexivity.
  Qed.
  Lemma zr_oaep_api_decrypt fuel rng k ct dg dm label :
    outcome_of (z_oaep_api_decrypt g fuel rng k ct dg dm label) = oaep_api_decrypt g fuel rng k ct dg dm label.
  Proof.
    unfold z_oaep_api_decrypt, oaep_api_decrypt. cbv zeta. destruct (negb _); [reflexivity|].
    apply zr_decrypt_with. intros em. apply zr_oaep_decrypt.
  Qed.
  Lemma zr_oaep_api_decrypt_digest hd hm fuel rng k ct label :
    outcome_of (z_oaep_api_decrypt_digest g hd hm fuel rng k ct label)
    = oaep_api_decrypt_digest g hd hm fuel rng k ct label.
  Proof.
    unfold z_oaep_api_decrypt_digest, oaep_api_decrypt_digest. cbv zeta. zr_step. destruct (negb _); [reflexivity|].
    apply zr_decrypt_with. intros em. apply zr_oaep_decrypt_digest.
  Qed.
  Lemma zr_pkcs1v15_sign fuel rng k prefix hashed :
    outcome_of (z_pkcs1v15_sign g fuel rng k prefix hashed) = pkcs1v15_sign g fuel rng k prefix hashed.
  Proof.
    unfold z_pkcs1v15_sign, pkcs1v15_sign. cbv zeta. zr_step. zr_step. zr. rewrite zr_check. apply zbind_ext.
    intros s. apply zr_z_pad.
  Qed.
End Api.

Lemma zr_to_pkcs8 mx k : outcome_of (z_to_pkcs8_der mx k) = to_pkcs8_der mx k.
Proof.
  assert (BB : forall A B C (o : outcome A) (f : A -> outcome B) (h : B -> outcome C),
    bind (bind o f) h = bind o (fun a => bind (f a) h)) by (intros; destruct o; reflexivity).
  unfold z_to_pkcs8_der, to_pkcs8_der, private_to_pkcs1, z_crt_exponent, crt_exponent.
  destruct (2 <? _)%nat; [reflexivity|]. cbv zeta.
  do 10 (zr; rewrite ?BB; apply zbind_ext; intro). zr. rewrite ?BB.
  apply zbind_ext. intros [cf|]; [|reflexivity].
  repeat (zr; rewrite ?BB; first [reflexivity | apply zbind_ext; intro]).
Qed.

(** * Membership in what is given back *)

Lemma lb_bind_l {A B} (m : holding A) (k : A -> holding B) x : In x (heap m) -> In x (heap (zbind m k)).
Proof.
  unfold heap, zbind. intros H. destruct (snd m); cbn [fst]; auto.
  destruct (k a) as (t & r). cbn [fst]. apply in_app_iff. auto.
Qed.
Lemma lb_bind_r {A B} (m : holding A) (k : A -> holding B) a x :
  outcome_of m = Ok a -> In x (heap (k a)) -> In x (heap (zbind m k)).
Proof.
  unfold heap, outcome_of, zbind. intros -> H.
  destruct (k a) as (t & r). cbn [fst] in *. apply in_app_iff. auto.
Qed.
Lemma lb_inv {A B} (m : holding A) (k : A -> holding B) x : In x (heap (zbind m k)) ->
  In x (heap m) \/ exists a, outcome_of m = Ok a /\ In x (heap (k a)).
Proof.
  unfold heap, outcome_of, zbind. destruct (snd m) as [a| | |]; cbn [fst]; auto.
  destruct (k a) as (t & r) eqn:E. cbn [fst]. rewrite in_app_iff. intros [H|H]; auto.
  right. exists a. rewrite E. auto.
Qed.
Lemma lb_own {A} f (m : holding A) x : In x (heap m) -> In x (heap (owning f m)).
Proof. unfold heap, owning. cbn [fst]. rewrite in_app_iff. auto. Qed.
Lemma lb_here {A} f (m : holding A) : In f (heap (owning f m)).
Proof. unfold heap, owning. cbn [fst]. rewrite in_app_iff. simpl. auto. Qed.
Lemma lb_own_inv {A} f (m : holding A) x : In x (heap (owning f m)) -> In x (heap m) \/ x = f.
Proof. unfold heap, owning. cbn [fst]. rewrite in_app_iff. simpl. intuition. Qed.
Lemma lb_own_err {A} f (m : holding A) x : In x (heap m) -> In x (heap (owning_if_err f m)).
Proof. unfold owning_if_err. destruct (snd m); auto. apply lb_own. Qed.
Lemma lb_own_err_inv {A} f (m : holding A) x : In x (heap (owning_if_err f m)) -> In x (heap m) \/ x = f.
Proof. unfold owning_if_err. destruct (snd m); auto. apply lb_own_inv. Qed.

(** * The RSA operations *)

Lemma pow_leaves b e p r : wf_uint b -> uprec b = uprec (mp_modulus p) ->
  pow_mod_params b e p = Ok r ->
  In (Plain (Int b)) (heap (z_pow_mod_params b e p)).
Proof.
  intros W E H. unfold z_pow_mod_params. apply lb_bind_l. unfold z_reduce_vartime. cbv zeta. apply lb_own.
  rewrite E, Z.ltb_irrefl, Z.eqb_refl. eapply lb_bind_r; [reflexivity|]. apply lb_here.
Qed.
Lemma pow_leaves_power b e p r : pow_mod_params b e p = Ok r ->
  exists f, In (Plain (Form f)) (heap (z_pow_mod_params b e p)) /\ mf_retrieve f = r.
Proof.
  intros H. pose proof H as H'. unfold pow_mod_params in H'. apply bind_ok in H'. destruct H' as (f & F & X).
  exists (mf_pow f e). split; [|congruence]. unfold z_pow_mod_params.
  eapply lb_bind_r; [rewrite zr_reduce; exact F|]. apply lb_own, lb_here.
Qed.

Lemma be_bytes_uint u : wf_uint u -> os2ip (to_be_bytes u) = uval u.
Proof.
  intros ((H0 & H1) & H2 & H3). unfold to_be_bytes. rewrite os2ip_be_bytes.
  apply Z.mod_small. split; auto.
  assert (2 ^ uprec u <= 256 ^ Z.of_nat (Z.to_nat (uprec u / 8))); [|lia].
  rewrite pow256_2 by lia. apply Z.pow_le_mono_r; [lia|].
  pose proof (Z.div_mod (uprec u) 64 ltac:(lia)). pose proof (Z.div_mod (uprec u) 8 ltac:(lia)).
  pose proof (Z.mod_pos_bound (uprec u) 8 ltac:(lia)).
  rewrite Z2Nat.id by (apply Z.div_pos; lia). lia.
Qed.

Section Rng2.
  Context {R : Type} (g : rng_ops R).

  Lemma check_leaves fuel k rng c m : wf_pub (sk_pub k) ->
    rsa_decrypt_and_check g fuel k rng c = Ok m ->
    In (Plain (Int m)) (heap (z_rsa_decrypt_and_check g fuel k rng c)).
  Proof.
    intros W H. pose proof H as H'. unfold rsa_decrypt_and_check in H'.
    apply bind_ok in H'. destruct H' as (m' & D & H'). apply bind_ok in H'. destruct H' as (ch & C & H').
    assert (m' = m) as -> by (destruct (negb _); congruence).
    destruct (rsa_decrypt_prec g _ _ _ _ _ W D) as (Wm & Pm).
    unfold z_rsa_decrypt_and_check. eapply lb_bind_r; [rewrite zr_dec; exact D|].
    apply lb_own_err, lb_bind_l. unfold z_rsa_encrypt. eapply pow_leaves; [exact Wm| |exact C].
    destruct W as (_ & _ & -> & _). exact Pm.
  Qed.

  (** What blinding leaves. *)
  Lemma blind_leaves fuel st key c p b u : wf_pub key -> p = pk_params key -> rng_ok g -> 1 < uval (pk_n key) ->
    uprec c = uprec (pk_n key) ->
    blind g fuel st key c p = Ok (b, u) ->
    exists r, 0 <= r < uval (pk_n key) /\ (r * uval u) mod uval (pk_n key) = 1 /\
      uval b = uval c * r ^ uval (pk_e key) mod uval (pk_n key) /\
      let x := r ^ uval (pk_e key) mod uval (pk_n key) in
      left_integer (z_blind g fuel st key c p) r /\
      erased_integer (z_blind g fuel st key c p) x /\
      exists f, left_behind (z_blind g fuel st key c p) (Form f) /\ mf_res f = x.
  Proof.
    intros W -> G N Pc H. pose proof H as H'. unfold blind in H'.
    apply bind_ok in H'. destruct H' as ([] & A & H'). cbv zeta in H'.
    apply bind_ok in H'. destruct H' as (((r & ir) & st') & L & H').
    apply bind_ok in H'. destruct H' as (rp & P & H').
    apply bind_ok in H'. destruct H' as (bl & M & H').
    apply bind_ok in H'. destruct H' as ([] & A1 & H').
    apply bind_ok in H'. destruct H' as ([] & A2 & H').
    assert (bl = b /\ ir = u) as (-> & ->) by (split; congruence).
    pose proof W as (Wn & We & Wp & _).
    destruct (blind_loop_ok g fuel st key r u st' G Wn N L) as (B1 & B2 & B3 & B4 & B5).
    exists (uval r). split; [exact B3|]. split; [exact B5|].
    assert (Wr : wf_uint r) by (destruct Wn as (V & Q1 & Q2); split; [|rewrite B1; auto]; rewrite B1; lia).
    assert (Erp : rp = mkU (uval r ^ uval (pk_e key) mod uval (pk_n key)) (uprec (pk_n key))).
    { pose proof P as P'. rewrite Wp in P'. rewrite pow_mod_params_small in P'; auto.
      - congruence.
      - destruct Wn as (V & _). lia.
      - destruct We as (V & _). lia.
      - destruct Wn as (V & _). lia. }
    split.
    { rewrite Wp in M. rewrite mul_mod_params_ok in M; [|exact Pc|rewrite Erp; reflexivity].
      assert (b = mkU (uval c * uval rp mod uval (pk_n key)) (uprec (pk_n key))) as -> by congruence.
      rewrite Erp. cbn [uval]. rewrite Zmult_mod_idemp_r. reflexivity. }
    cbv zeta.
    assert (K : forall x, In x (heap (owning (Plain (Int r))
       (let~ rpowe := z_pow_mod_params r (pk_e key) (pk_params key) in
        let~ blinded := owning (Erased (Int rpowe)) (z_mul_mod_params c rpowe (pk_params key)) in
        let~ _ := z_lift (assert_ (uprec blinded =? n_bits_precision key)) in
        let~ _ := z_lift (assert_ (uprec u =? n_bits_precision key)) in z_ret (blinded, u)))) ->
      In x (heap (z_blind g fuel st key c (pk_params key)))).
    { intros x I. unfold z_blind. cbv zeta. eapply lb_bind_r; [rewrite zr_own, zr_lift; exact A|].
      eapply lb_bind_r; [rewrite zr_blind_loop; exact L|]. exact I. }
    split; [|split].
    - exists r. split; auto. apply K, lb_here.
    - exists rp. split; [|rewrite Erp; reflexivity]. apply K, lb_own.
      eapply lb_bind_r; [rewrite zr_pow; exact P|]. apply lb_bind_l, lb_here.
    - destruct (pow_leaves_power _ _ _ _ P) as (f & I & F). exists f. split.
      + apply K, lb_own, lb_bind_l. exact I.
      + rewrite Erp in F. unfold mf_retrieve in F. congruence.
  Qed.

  Lemma dec_blind_in fuel st k c x : uleb (pk_n (sk_pub k)) c = false ->
    In x (heap (z_blind g fuel st (sk_pub k) c (pk_params (sk_pub k)))) ->
    In x (heap (z_rsa_decrypt g fuel (Some st) k c)).
  Proof.
    intros U I. unfold z_rsa_decrypt. cbv zeta. rewrite U. apply lb_bind_l, lb_bind_l. exact I.
  Qed.

  Lemma decrypt_with_in fuel rng k ct zu c x : from_be_slice ct (n_bits_precision (sk_pub k)) = Ok c ->
    In x (heap (z_rsa_decrypt_and_check g fuel k rng c)) ->
    In x (heap (z_decrypt_with g fuel rng k ct zu)).
  Proof.
    intros C I. unfold z_decrypt_with. cbv zeta. eapply lb_bind_r; [exact C|]. apply lb_own, lb_bind_l. exact I.
  Qed.
  Lemma decrypt_with_pad fuel rng k ct zu c m x : from_be_slice ct (n_bits_precision (sk_pub k)) = Ok c ->
    rsa_decrypt_and_check g fuel k rng c = Ok m ->
    In x (heap (z_uint_to_zeroizing_be_pad m (key_size (sk_pub k)))) ->
    In x (heap (z_decrypt_with g fuel rng k ct zu)).
  Proof.
    intros C D I. unfold z_decrypt_with. cbv zeta. eapply lb_bind_r; [exact C|].
    apply lb_own. eapply lb_bind_r; [rewrite zr_check; exact D|]. apply lb_bind_l. exact I.
  Qed.
  Lemma decrypt_with_unpad fuel rng k ct zu c m em x : from_be_slice ct (n_bits_precision (sk_pub k)) = Ok c ->
    rsa_decrypt_and_check g fuel k rng c = Ok m ->
    uint_to_zeroizing_be_pad m (key_size (sk_pub k)) = Ok em ->
    In x (heap (zu em)) -> In x (heap (z_decrypt_with g fuel rng k ct zu)).
  Proof.
    intros C D P I. unfold z_decrypt_with. cbv zeta. eapply lb_bind_r; [exact C|].
    apply lb_own. eapply lb_bind_r; [rewrite zr_check; exact D|].
    eapply lb_bind_r; [rewrite zr_z_pad; exact P|]. exact I.
  Qed.

  (** The integer that was decrypted, and the block, whatever follows. *)
  Lemma decrypt_with_residue fuel rng k ct zu :
    (rng <> None -> rng_ok g) -> good_priv k ->
    8 * Z.of_nat (length ct) <= uprec (pk_n (sk_pub k)) -> os2ip ct < uval (pk_n (sk_pub k)) ->
    blinding_succeeds g (uval (pk_n (sk_pub k))) rng fuel ->
    let run := z_decrypt_with g fuel rng k ct zu in
    let M := RSADP (uval (pk_n (sk_pub k))) (uval (sk_d k)) (os2ip ct) in
    left_integer run M /\ erased_integer run M /\
    (exists bs, erased run (Octets bs) /\ os2ip bs = M) /\
    (forall x, In x (heap (zu (i2osp M (key_size (sk_pub k))))) -> In x (heap run)).
  Proof.
    intros G K L C B. cbv zeta. pose proof (good_pub k K) as W. pose proof W as (Wn & _).
    pose proof Wn as (Vn & P1 & P2).
    assert (F : from_be_slice ct (n_bits_precision (sk_pub k)) = Ok (mkU (os2ip ct) (uprec (pk_n (sk_pub k)))))
      by (apply from_be_slice_fits; auto).
    set (c := mkU (os2ip ct) (uprec (pk_n (sk_pub k)))) in *.
    assert (Wc : wf_uint c) by (apply os2ip_wf; auto).
    destruct (rsa_decrypt_and_check_good g fuel rng k c G K Wc eq_refl C) as (D & _). specialize (D B).
    change (uval c) with (os2ip ct) in D.
    set (M := RSADP (uval (pk_n (sk_pub k))) (uval (sk_d k)) (os2ip ct)) in *.
    pose proof (good_gt1 k K) as G1.
    assert (HM : 0 <= M < uval (pk_n (sk_pub k))) by (apply Z.mod_pos_bound; lia).
    assert (WM : wf_uint (mkU M (uprec (pk_n (sk_pub k))))) by (apply wf_mk; auto; lia).
    assert (PD : uint_to_zeroizing_be_pad (mkU M (uprec (pk_n (sk_pub k)))) (key_size (sk_pub k))
                 = Ok (i2osp M (key_size (sk_pub k)))).
    { rewrite uint_to_zeroizing_be_pad_eq, i2osp_be_bytes. apply uint_to_be_pad_ok; auto.
      cbn [uval]. pose proof (key_n_lt _ W). lia. }
    split; [|split; [|split]].
    - eexists. split; [eapply decrypt_with_in; [exact F|]; eapply check_leaves; [exact W|exact D]|reflexivity].
    - eexists. split; [eapply decrypt_with_pad; [exact F|exact D|]; apply lb_here|reflexivity].
    - eexists. split; [eapply decrypt_with_pad; [exact F|exact D|]; apply lb_own, lb_here|].
      rewrite be_bytes_uint by auto. reflexivity.
    - intros x I. eapply decrypt_with_unpad; [exact F|exact D|exact PD|exact I].
  Qed.
End Rng2.

(** * Plaintexts *)

Lemma slice_from_suffix {A} (l : list A) i r : slice_from l i = Ok r -> exists pre, l = pre ++ r.
Proof.
  unfold slice_from. destruct (_ <=? _)%nat; [|discriminate]. intros E.
  exists (firstn i l). assert (r = skipn i l) as -> by congruence. symmetry. apply firstn_skipn.
Qed.

Lemma unpad_leaves em k msg : pkcs1v15_encrypt_unpad em k = Ok msg ->
  exists pre, em = pre ++ msg.
Proof.
  unfold pkcs1v15_encrypt_unpad. intros H. apply bind_ok in H. destruct H as (((v & out) & ix) & D & H).
  destruct v; [|discriminate]. apply slice_from_suffix in H.
  unfold pkcs1_decrypt_inner in D. destruct (k <? 11)%nat; [discriminate|].
  apply bind_ok in D. destruct D as (b0 & _ & D). apply bind_ok in D. destruct D as (b1 & _ & D). cbv zeta in D.
  destruct (find_zero _ _ _ _) as (lk & ix'). apply bind_ok in D. destruct D as (t & _ & D).
  apply bind_ok in D. destruct D as (t' & _ & D). apply bind_ok in D. destruct D as (i1 & _ & D).
  assert (em = out) as -> by congruence. exact H.
Qed.

Lemma finish_leaves em inner msg : outcome_of (z_oaep_finish em inner) = Ok msg ->
  exists pre, In (Plain (Octets (pre ++ msg))) (heap (z_oaep_finish em inner)).
Proof.
  intros H. rewrite zr_finish in H. apply bind_ok in H. destruct H as (((out & ix) & v) & E & H).
  destruct v; [|discriminate]. apply slice_from_suffix in H. destruct H as (pre & ->). exists pre.
  unfold z_oaep_finish. rewrite E. apply lb_here.
Qed.

Lemma oaep_leaves em dg dm label k msg : outcome_of (z_oaep_decrypt em dg dm label k) = Ok msg ->
  exists pre, In (Plain (Octets (pre ++ msg))) (heap (z_oaep_decrypt em dg dm label k)).
Proof.
  unfold z_oaep_decrypt. cbv zeta. rewrite zr_own. destruct (_ <=? _); [discriminate|].
  destruct (digest_finalize_reset _) as (ph & dgr). rewrite zr_own. intros H. apply finish_leaves in H.
  destruct H as (pre & H). exists pre. apply lb_own, lb_own. exact H.
Qed.
Lemma oaep_leaves_digest hd hm em label k msg : outcome_of (z_oaep_decrypt_digest hd hm em label k) = Ok msg ->
  exists pre, In (Plain (Octets (pre ++ msg))) (heap (z_oaep_decrypt_digest hd hm em label k)).
Proof.
  unfold z_oaep_decrypt_digest. cbv zeta. rewrite zr_own. destruct (_ <=? _); [discriminate|].
  intros H. apply finish_leaves in H. destruct H as (pre & H). exists pre. apply lb_own. exact H.
Qed.

Section Plaintexts.
  Context {R : Type} (g : rng_ops R).

  Lemma decrypt_with_leaves fuel rng k ct zu msg :
    (forall em msg, outcome_of (zu em) = Ok msg -> exists pre, In (Plain (Octets (pre ++ msg))) (heap (zu em))) ->
    outcome_of (z_decrypt_with g fuel rng k ct zu) = Ok msg ->
    exists pre, In (Plain (Octets (pre ++ msg))) (heap (z_decrypt_with g fuel rng k ct zu)).
  Proof.
    intros U H. rewrite (zr_decrypt_with g fuel rng k ct zu (fun em => outcome_of (zu em))) in H by auto.
    apply bind_ok in H. destruct H as (c & C & H). apply bind_ok in H. destruct H as (m & D & H).
    apply bind_ok in H. destruct H as (em & P & H). apply U in H. destruct H as (pre & H). exists pre.
    eapply decrypt_with_unpad; eauto.
  Qed.

  Lemma pkcs1v15_plaintext fuel rng k ct msg :
    outcome_of (z_pkcs1v15_decrypt g fuel rng k ct) = Ok msg ->
    exists pre, left_behind (z_pkcs1v15_decrypt g fuel rng k ct) (Octets (pre ++ msg)).
  Proof.
    intros H. unfold z_pkcs1v15_decrypt in *. rewrite zr_bind, zr_lift in H. apply bind_ok in H.
    destruct H as ([] & C & H). apply decrypt_with_leaves in H.
    - destruct H as (pre & H). exists pre. eapply lb_bind_r; [exact C|exact H].
    - intros em m E. apply unpad_leaves in E. destruct E as (pre & ->). exists pre. apply lb_here.
  Qed.
  Lemma oaep_plaintext fuel rng k ct dg dm label msg :
    outcome_of (z_oaep_api_decrypt g fuel rng k ct dg dm label) = Ok msg ->
    exists pre, left_behind (z_oaep_api_decrypt g fuel rng k ct dg dm label) (Octets (pre ++ msg)).
  Proof.
    intros H. unfold z_oaep_api_decrypt in *. destruct (negb _); [discriminate|].
    apply decrypt_with_leaves in H; auto. intros em m E. apply oaep_leaves in E. exact E.
  Qed.
  Lemma oaep_plaintext_digest hd hm fuel rng k ct label msg :
    outcome_of (z_oaep_api_decrypt_digest g hd hm fuel rng k ct label) = Ok msg ->
    exists pre, left_behind (z_oaep_api_decrypt_digest g hd hm fuel rng k ct label) (Octets (pre ++ msg)).
  Proof.
    intros H. unfold z_oaep_api_decrypt_digest in *. rewrite zr_bind, zr_lift in H. apply bind_ok in H.
    destruct H as ([] & C & H). destruct (negb _) eqn:N; [discriminate|].
    apply decrypt_with_leaves in H.
    - destruct H as (pre & H). exists pre. eapply lb_bind_r; [exact C|]. exact H.
    - intros em m E. apply oaep_leaves_digest in E. exact E.
  Qed.

  Lemma usable_check k : good_priv k -> usable_key (sk_pub k) -> check_public (sk_pub k) = Ok tt.
  Proof. intros K U. apply check_public_ok; auto. apply good_pub; auto. Qed.

  Lemma pkcs1v15_block fuel rng k ct :
    (rng <> None -> rng_ok g) -> good_priv k -> usable_key (sk_pub k) ->
    8 * Z.of_nat (length ct) <= uprec (pk_n (sk_pub k)) -> os2ip ct < uval (pk_n (sk_pub k)) ->
    blinding_succeeds g (uval (pk_n (sk_pub k))) rng fuel ->
    let run := z_pkcs1v15_decrypt g fuel rng k ct in
    let M := RSADP (uval (pk_n (sk_pub k))) (uval (sk_d k)) (os2ip ct) in
    left_behind run (Octets (i2osp M (key_size (sk_pub k)))) /\
    left_integer run M /\ erased_integer run M /\ exists bs, erased run (Octets bs) /\ os2ip bs = M.
  Proof.
    intros G K U L C B. cbv zeta.
    destruct (decrypt_with_residue g fuel rng k ct
      (fun em => z_pkcs1v15_encrypt_unpad em (key_size (sk_pub k))) G K L C B) as ((u1 & A1 & A2) & (u2 & B1 & B2) & (bs & C1 & C2) & D).
    assert (I : forall x, In x (heap (z_decrypt_with g fuel rng k ct
       (fun em => z_pkcs1v15_encrypt_unpad em (key_size (sk_pub k))))) -> In x (heap (z_pkcs1v15_decrypt g fuel rng k ct))).
    { intros x X. unfold z_pkcs1v15_decrypt. eapply lb_bind_r; [|exact X]. apply usable_check; auto. }
    split; [apply I, D, lb_here|]. split; [exists u1; split; auto; apply I, A1|].
    split; [exists u2; split; auto; apply I, B1|]. exists bs. split; auto. apply I, C1.
  Qed.
  Lemma oaep_block fuel rng k ct dg dm label :
    (rng <> None -> rng_ok g) -> good_priv k ->
    length ct = key_size (sk_pub k) -> os2ip ct < uval (pk_n (sk_pub k)) ->
    blinding_succeeds g (uval (pk_n (sk_pub k))) rng fuel ->
    let run := z_oaep_api_decrypt g fuel rng k ct dg dm label in
    let M := RSADP (uval (pk_n (sk_pub k))) (uval (sk_d k)) (os2ip ct) in
    left_integer run M /\ erased_integer run M /\ exists bs, erased run (Octets bs) /\ os2ip bs = M.
  Proof.
    intros G K L C B. cbv zeta. pose proof (good_pub k K) as W. destruct (key_size_facts _ W) as (_ & L2 & _).
    rewrite <- L in L2. unfold z_oaep_api_decrypt. rewrite L, Nat.eqb_refl. cbn [negb].
    destruct (decrypt_with_residue g fuel rng k ct
      (fun em => z_oaep_decrypt em dg dm label (key_size (sk_pub k))) G K L2 C B) as (X1 & X2 & X3 & _). auto.
  Qed.
  Lemma oaep_block_digest hd hm fuel rng k ct label :
    (rng <> None -> rng_ok g) -> good_priv k -> usable_key (sk_pub k) ->
    length ct = key_size (sk_pub k) -> os2ip ct < uval (pk_n (sk_pub k)) ->
    blinding_succeeds g (uval (pk_n (sk_pub k))) rng fuel ->
    let run := z_oaep_api_decrypt_digest g hd hm fuel rng k ct label in
    let M := RSADP (uval (pk_n (sk_pub k))) (uval (sk_d k)) (os2ip ct) in
    left_integer run M /\ erased_integer run M /\ exists bs, erased run (Octets bs) /\ os2ip bs = M.
  Proof.
    intros G K U L C B. cbv zeta. pose proof (good_pub k K) as W. destruct (key_size_facts _ W) as (_ & L2 & _).
    rewrite <- L in L2.
    destruct (decrypt_with_residue g fuel rng k ct
      (fun em => z_oaep_decrypt_digest hd hm em label (key_size (sk_pub k))) G K L2 C B)
      as ((u1 & A1 & A2) & (u2 & B1 & B2) & (bs & C1 & C2) & D).
    assert (I : forall x, In x (heap (z_decrypt_with g fuel rng k ct
       (fun em => z_oaep_decrypt_digest hd hm em label (key_size (sk_pub k))))) ->
       In x (heap (z_oaep_api_decrypt_digest g hd hm fuel rng k ct label))).
    { intros x X. unfold z_oaep_api_decrypt_digest. eapply lb_bind_r; [apply usable_check; auto|].
      rewrite L, Nat.eqb_refl. cbn [negb]. exact X. }
    split; [exists u1; split; auto; apply I, A1|].
    split; [exists u2; split; auto; apply I, B1|]. exists bs. split; auto. apply I, C1.
  Qed.

  (** Blinding, inside any decryption. *)
  Lemma raw_blinding fuel st k c m : rng_ok g -> good_priv k -> wf_uint c ->
    uprec c = uprec (pk_n (sk_pub k)) ->
    outcome_of (z_rsa_decrypt g fuel (Some st) k c) = Ok m ->
    let run := z_rsa_decrypt g fuel (Some st) k c in
    let n := uval (pk_n (sk_pub k)) in
    exists r ri, 0 <= r < n /\ (r * ri) mod n = 1 /\
      left_integer run r /\ left_integer run ri /\
      left_integer run (uval c * r ^ uval (pk_e (sk_pub k)) mod n) /\
      erased_integer run (r ^ uval (pk_e (sk_pub k)) mod n) /\
      exists f, left_behind run (Form f) /\ mf_res f = r ^ uval (pk_e (sk_pub k)) mod n.
  Proof.
    intros G K Wc Pc H. cbv zeta. pose proof (good_pub k K) as W. pose proof (good_gt1 k K) as N1.
    rewrite zr_dec in H. rewrite rsa_decrypt_unfold in H.
    destruct (uleb (pk_n (sk_pub k)) c) eqn:U; [discriminate|]. cbv zeta in H.
    apply bind_ok in H. destruct H as ((c' & ir) & H1 & H).
    apply bind_ok in H1. destruct H1 as ((b & u) & H1 & H2).
    apply bind_ok in H2. destruct H2 as (c2 & H2 & E2).
    assert (c' = c2 /\ ir = Some u) as (-> & ->) by (split; congruence). clear E2.
    destruct (blind_leaves g fuel st (sk_pub k) c _ b u W eq_refl G N1 Pc H1) as (r & R1 & R2 & EB & R3 & R4 & R5).
    exists r, (uval u). split; [exact R1|]. split; [exact R2|].
    apply bind_ok in H. destruct H as (m1 & Em1 & H). apply bind_ok in H. destruct H as (m2 & Em2 & H).
    assert (I : forall x, In x (heap (z_blind g fuel st (sk_pub k) c (pk_params (sk_pub k)))) ->
                          In x (heap (z_rsa_decrypt g fuel (Some st) k c)))
      by (intros; apply dec_blind_in; auto).
    split. { destruct R3 as (x & X1 & X2). exists x. split; auto. apply I, X1. }
    split.
    { exists u. split; auto. unfold z_rsa_decrypt. cbv zeta. rewrite U.
      eapply lb_bind_r.
      { rewrite zr_bind, zr_blind, H1. cbn [bind]. rewrite zr_bind, zr_own, zr_lift, H2. reflexivity. }
      cbv beta iota.
      assert (E : forall x, outcome_of (owning (Plain (Int c2)) (z_pow_mod_params c2 x (pk_params (sk_pub k))))
                 = pow_mod_params c2 x (pk_params (sk_pub k))) by (intros; rewrite zr_own; apply zr_pow).
      eapply lb_bind_r.
      { etransitivity; [|exact Em1]. unfold private_pow.
        destruct (sk_pre k); [|apply E]. destruct (2 <? length (sk_primes k))%nat; [apply E|].
        zr_step. zr_step. apply zr_crt. }
      apply lb_own. eapply lb_bind_r; [exact Em2|]. apply lb_here. }
    split. { exists b. split; [|exact EB]. unfold z_rsa_decrypt. cbv zeta. rewrite U.
      apply lb_bind_l. eapply lb_bind_r; [rewrite zr_blind; exact H1|]. apply lb_bind_l, lb_here. }
    split. { destruct R4 as (x & X1 & X2). exists x. split; auto. apply I, X1. }
    destruct R5 as (f & F1 & F2). exists f. split; auto. apply I, F1.
  Qed.
End Plaintexts.

(** * Encryption *)

Lemma heap_lift {A} (o : outcome A) x : In x (heap (z_lift o)) -> False.
Proof. intros []. Qed.
Lemma heap_ret {A} (a : A) x : In x (heap (z_ret a)) -> False.
Proof. intros []. Qed.

Lemma lb_own_err_ok {A} f (m : holding A) a x : outcome_of m = Ok a ->
  In x (heap (owning_if_err f m)) -> In x (heap m).
Proof. unfold owning_if_err, outcome_of. intros ->. auto. Qed.

Ltac lbi H :=
  repeat first
    [ exfalso; exact (heap_lift _ _ H)
    | exfalso; exact (heap_ret _ _ H)
    | apply lb_inv in H; destruct H as [H|(? & _ & H)]
    | apply lb_own_inv in H; destruct H as [H|H] ].

Lemma pow_no_octets b e p bs : In (Plain (Octets bs)) (heap (z_pow_mod_params b e p)) -> False.
Proof. intros H. unfold z_pow_mod_params, z_reduce_vartime in H. cbv zeta in H. lbi H; discriminate. Qed.

Lemma finish_in k em : wf_pub k -> length em = key_size k ->
  erased (z_finish_encrypt k em) (Octets em) /\ left_integer (z_finish_encrypt k em) (os2ip em).
Proof.
  intros W L. split; [apply lb_here|]. eexists. split.
  - unfold left_behind, z_finish_encrypt. apply lb_own. eapply lb_bind_r; [apply from_be_slice_key; auto|]. apply lb_here.
  - reflexivity.
Qed.

Lemma finish_octets k em bs : wf_pub k -> length em = key_size k ->
  left_behind (z_finish_encrypt k em) (Octets bs) ->
  exists ct, outcome_of (z_finish_encrypt k em) = Ok ct /\ os2ip bs = os2ip ct.
Proof.
  intros W L H. rewrite zr_finish_encrypt.
  pose proof (encrypt_core_ok k em W L) as E. unfold encrypt_core in E. rewrite E. eexists. split; [reflexivity|].
  unfold left_behind, z_finish_encrypt in H.
  apply lb_own_inv in H. destruct H as [H|H]; [|discriminate].
  apply lb_inv in H. destruct H as [H|(int & F & H)]; [destruct H|].
  apply lb_own_inv in H. destruct H as [H|H]; [|discriminate].
  apply lb_inv in H. destruct H as [H|(c & C & H)]; [exfalso; exact (pow_no_octets _ _ _ _ H)|].
  unfold z_uint_to_be_pad in H. lbi H; [|discriminate].
  assert (bs = to_be_bytes c) as -> by congruence. clear H.
  rewrite zr_enc in C. rewrite zr_lift in F. rewrite F in E. cbn [bind] in E. rewrite C in E. cbn [bind] in E.
  pose proof (odd_pos_n k W) as N. pose proof W as ((V & P1 & P2) & _).
  destruct (key_size_facts k W) as (_ & H2 & _).
  rewrite from_be_slice_key in F by auto. assert (int = mkU (os2ip em) (uprec (pk_n k))) as -> by congruence.
  assert (Wi : wf_uint (mkU (os2ip em) (uprec (pk_n k)))) by (apply os2ip_wf; auto; rewrite L; auto).
  rewrite rsa_encrypt_small in C; auto; [|apply Wi]. cbn [uval] in C.
  pose proof (RSAEP_range (uval (pk_n k)) (uval (pk_e k)) (os2ip em) N) as X.
  pose proof (key_n_lt k W).
  rewrite os2ip_i2osp by lia.
  assert (c = mkU (RSAEP (uval (pk_n k)) (uval (pk_e k)) (os2ip em)) (uprec (pk_n k))) as -> by congruence.
  rewrite be_bytes_uint; [reflexivity|]. apply wf_mk; auto. lia.
Qed.

Lemma copy_into_len {A} (l : list A) i j src l' : copy_into l i j src = Ok l' -> length l' = length l.
Proof.
  unfold copy_into. destruct (Nat.leb_spec i j); [|intros; discriminate].
  destruct (Nat.leb_spec j (length l)); [|intros; discriminate].
  cbn [andb]. destruct (Nat.eqb_spec (j - i) (length src)); [|intros; discriminate]. intros E.
  assert (l' = firstn i l ++ src ++ skipn j l) as -> by congruence.
  rewrite !app_length, firstn_length, skipn_length. lia.
Qed.
Lemma set_idx_len {A} (l : list A) i x l' : set_idx l i x = Ok l' -> length l' = length l.
Proof.
  unfold set_idx. destruct (Nat.ltb_spec i (length l)); [|intros; discriminate]. intros E.
  assert (l' = firstn i l ++ x :: skipn (S i) l) as -> by congruence.
  rewrite app_length, firstn_length. cbn [length]. rewrite skipn_length. lia.
Qed.

Section Encryption.
  Context {R : Type} (g : rng_ops R).

  Lemma pkcs1v15_encrypt_residue fuel st k msg ct : rng_ok g -> wf_pub k ->
    let run := z_pkcs1v15_encrypt g fuel st k msg in
    outcome_of run = Ok ct ->
    exists em, is_eme_pkcs1 (key_size k) em msg /\
      os2ip ct = RSAEP (uval (pk_n k)) (uval (pk_e k)) (os2ip em) /\
      erased run (Octets em) /\ left_integer run (os2ip em).
  Proof.
    intros G W. cbv zeta. intros H. rewrite zr_pkcs1v15_encrypt in H. pose proof H as H'.
    rewrite pkcs1v15_encrypt_core in H. apply bind_ok in H. destruct H as ([] & C & H).
    apply bind_ok in H. destruct H as (em & P & H). exists em.
    pose proof P as Q. apply encrypt_pad_ok in Q; auto. split; auto.
    pose proof Q as (L & _). rewrite encrypt_core_ok in H by auto.
    assert (ct = i2osp (RSAEP (uval (pk_n k)) (uval (pk_e k)) (os2ip em)) (key_size k)) as -> by congruence.
    pose proof (RSAEP_range (uval (pk_n k)) (uval (pk_e k)) (os2ip em) (odd_pos_n k W)). pose proof (key_n_lt k W).
    split; [apply os2ip_i2osp; lia|].
    destruct (finish_in k em W L) as (F1 & u & F2 & F3).
    assert (I : forall x, In x (heap (z_finish_encrypt k em)) -> In x (heap (z_pkcs1v15_encrypt g fuel st k msg))).
    { intros x X. unfold z_pkcs1v15_encrypt. eapply lb_bind_r; [exact C|].
      eapply lb_bind_r; [rewrite zr_pad; exact P|]. exact X. }
    split; [apply I, F1|]. exists u. split; auto. apply I, F2.
  Qed.

  Lemma pkcs1v15_encrypt_octets fuel st k msg bs : rng_ok g -> wf_pub k ->
    let run := z_pkcs1v15_encrypt g fuel st k msg in
    left_behind run (Octets bs) -> exists ct, outcome_of run = Ok ct /\ os2ip bs = os2ip ct.
  Proof.
    intros G W. cbv zeta. intros H. unfold left_behind, z_pkcs1v15_encrypt in H.
    apply lb_inv in H. destruct H as [H|(u & C & H)]; [destruct H|].
    apply lb_inv in H. destruct H as [H|(em & P & H)].
    - unfold z_pkcs1v15_encrypt_pad in H. destruct (_ <? _)%nat; [destruct H|].
      apply lb_own_err_inv in H. destruct H as [H|H]; [destruct H|discriminate].
    - rewrite zr_pad in P. pose proof P as Q. apply encrypt_pad_ok in Q; auto. destruct Q as (L & _).
      destruct (finish_octets k em bs W L H) as (ct & E1 & E2). exists ct. split; auto.
      unfold z_pkcs1v15_encrypt. rewrite zr_bind, zr_lift. rewrite zr_lift in C. rewrite C. cbn [bind].
      rewrite zr_bind, zr_pad, P. cbn [bind]. exact E1.
  Qed.

  Lemma oaep_digest_len hd hm st msg label k em : rng_ok g -> (0 < h_size hm)%nat -> Z.of_nat k <= 2 ^ 32 ->
    oaep_encrypt_digest g hd hm st msg label k = Ok em ->
    is_eme_oaep (h_fun hd) (h_size hd) (h_fun hm) (h_size hm) (label_bytes label) k em msg /\ length em = k.
  Proof.
    intros G Hm Hk H. rewrite oaep_encrypt_digest_spec in H by auto. destruct (_ <=? _); [discriminate|].
    destruct (Nat.ltb_spec k (length msg + 2 * h_size hd + 2)); [discriminate|].
    destruct (rng_fill g st (h_size hd)) as [[seed|] st'] eqn:Er; [|discriminate].
    apply (proj1 G) in Er.
    assert (em = oaep_encode (h_fun hd) (h_size hd) (h_fun hm) (h_size hm) (label_bytes label) seed msg k) as -> by congruence.
    split; [exists seed; auto|]. apply oaep_encode_length; auto.
  Qed.

  Lemma oaep_encrypt_digest_residue hd hm st k msg label ct : rng_ok g -> (0 < h_size hm)%nat -> wf_pub k ->
    uprec (pk_n k) < 2 ^ 32 ->
    let run := z_oaep_api_encrypt_digest g hd hm st k msg label in
    outcome_of run = Ok ct ->
    exists em, is_eme_oaep (h_fun hd) (h_size hd) (h_fun hm) (h_size hm) (label_bytes label) (key_size k) em msg /\
      os2ip ct = RSAEP (uval (pk_n k)) (uval (pk_e k)) (os2ip em) /\
      erased run (Octets em) /\ left_integer run (os2ip em).
  Proof.
    intros G Hm W K32. cbv zeta. intros H. rewrite zr_oaep_api_encrypt_digest in H.
    rewrite oaep_api_encrypt_core in H. apply bind_ok in H. destruct H as ([] & C & H).
    apply bind_ok in H. destruct H as (em & P & H). exists em.
    destruct (key_size_facts k W) as (_ & K8 & _).
    destruct (oaep_digest_len hd hm st msg label (key_size k) em G Hm ltac:(lia) P) as (Q & L). split; auto.
    rewrite encrypt_core_ok in H by auto.
    assert (ct = i2osp (RSAEP (uval (pk_n k)) (uval (pk_e k)) (os2ip em)) (key_size k)) as -> by congruence.
    pose proof (RSAEP_range (uval (pk_n k)) (uval (pk_e k)) (os2ip em) (odd_pos_n k W)). pose proof (key_n_lt k W).
    split; [apply os2ip_i2osp; lia|].
    destruct (finish_in k em W L) as (F1 & u & F2 & F3).
    assert (I : forall x, In x (heap (z_finish_encrypt k em)) -> In x (heap (z_oaep_api_encrypt_digest g hd hm st k msg label))).
    { intros x X. unfold z_oaep_api_encrypt_digest. eapply lb_bind_r; [exact C|].
      eapply lb_bind_r; [rewrite zr_oaep_encrypt_digest; exact P|]. exact X. }
    split; [apply I, F1|]. exists u. split; auto. apply I, F2.
  Qed.

  Lemma oaep_encrypt_residue hd hm st k msg label ct : rng_ok g -> (0 < h_size hm)%nat -> wf_pub k ->
    uprec (pk_n k) < 2 ^ 32 ->
    let run := z_oaep_api_encrypt g st k msg (digest_new hd) (digest_new hm) label in
    outcome_of run = Ok ct ->
    exists em, is_eme_oaep (h_fun hd) (h_size hd) (h_fun hm) (h_size hm) (label_bytes label) (key_size k) em msg /\
      os2ip ct = RSAEP (uval (pk_n k)) (uval (pk_e k)) (os2ip em) /\
      erased run (Octets em) /\ left_integer run (os2ip em).
  Proof.
    intros G Hm W K32. cbv zeta. intros H. rewrite zr_oaep_api_encrypt, oaep_api_encrypt_agree in H.
    rewrite oaep_api_encrypt_core in H. apply bind_ok in H. destruct H as ([] & C & H).
    apply bind_ok in H. destruct H as (em & P & H). exists em.
    destruct (key_size_facts k W) as (_ & K8 & _).
    destruct (oaep_digest_len hd hm st msg label (key_size k) em G Hm ltac:(lia) P) as (Q & L). split; auto.
    rewrite encrypt_core_ok in H by auto.
    assert (ct = i2osp (RSAEP (uval (pk_n k)) (uval (pk_e k)) (os2ip em)) (key_size k)) as -> by congruence.
    pose proof (RSAEP_range (uval (pk_n k)) (uval (pk_e k)) (os2ip em) (odd_pos_n k W)). pose proof (key_n_lt k W).
    split; [apply os2ip_i2osp; lia|].
    destruct (finish_in k em W L) as (F1 & u & F2 & F3).
    assert (I : forall x, In x (heap (z_finish_encrypt k em)) ->
                          In x (heap (z_oaep_api_encrypt g st k msg (digest_new hd) (digest_new hm) label))).
    { intros x X. unfold z_oaep_api_encrypt. eapply lb_bind_r; [exact C|].
      eapply lb_bind_r; [rewrite zr_oaep_encrypt, oaep_encrypt_agree; exact P|]. exact X. }
    split; [apply I, F1|]. exists u. split; auto. apply I, F2.
  Qed.

  (** Octets inside [encrypt_internal] come from the mask generation. *)
  Lemma internal_heap r msg ph hs k zf bs :
    (forall s d, heap (zf s d) = []) ->
    In (Plain (Octets bs)) (heap (z_oaep_encrypt_internal g r msg ph hs k zf)) -> False.
  Proof.
    intros Z H. unfold z_oaep_encrypt_internal in H. destruct (_ <? _)%nat; [destruct H|]. cbv zeta in H.
    apply lb_own_err_inv in H. destruct H as [H|H]; [|discriminate].
    apply lb_inv in H. destruct H as [H|(hp & _ & H)]; [destruct H|]. destruct hp as (hd & pl).
    apply lb_inv in H. destruct H as [H|(sd & _ & H)]; [destruct H|]. destruct sd as (sd & db).
    destruct (rng_fill _ _ _) as [[s|] st']; [|destruct H].
    do 7 (apply lb_inv in H; destruct H as [H|(? & _ & H)]; [destruct H|]).
    apply lb_inv in H. destruct H as [H|(sd' & _ & H)]; [rewrite Z in H; destruct H|].
    destruct sd'. destruct H.
  Qed.

  Lemma oaep_encrypt_octets hd hm st k msg label bs : rng_ok g -> (0 < h_size hm)%nat -> wf_pub k ->
    uprec (pk_n k) < 2 ^ 32 ->
    let run := z_oaep_api_encrypt_digest g hd hm st k msg label in
    left_behind run (Octets bs) ->
    bs = label_bytes label \/ exists ct, outcome_of run = Ok ct /\ os2ip bs = os2ip ct.
  Proof.
    intros G Hm W K32. cbv zeta. intros H. unfold left_behind, z_oaep_api_encrypt_digest in H.
    apply lb_inv in H. destruct H as [H|(u & C & H)]; [destruct H|].
    apply lb_inv in H. destruct H as [H|(em & P & H)].
    - left. unfold z_oaep_encrypt_digest in H. cbv zeta in H. apply lb_own_inv in H.
      destruct H as [H|H]; [|congruence]. destruct (_ <=? _); [destruct H|].
      exfalso. apply internal_heap in H; auto. intros s d.
      unfold zbind, z_lift, z_ret, heap. cbn [snd fst].
      destruct (mgf1_xor_digest d (digest_new hm) s) as [[d' md]| | |]; try reflexivity. cbn [snd fst].
      destruct (mgf1_xor_digest s md d') as [[s' md']| | |]; reflexivity.
    - right. rewrite zr_oaep_encrypt_digest in P.
      destruct (key_size_facts k W) as (_ & K8 & _).
      destruct (oaep_digest_len hd hm st msg label (key_size k) em G Hm ltac:(lia) P) as (_ & L).
      destruct (finish_octets k em bs W L H) as (ct & E1 & E2). exists ct. split; auto.
      unfold z_oaep_api_encrypt_digest. rewrite zr_bind, zr_lift. rewrite zr_lift in C. rewrite C. cbn [bind].
      rewrite zr_bind, zr_oaep_encrypt_digest, P. cbn [bind]. exact E1.
  Qed.

  (** ** With digests chosen at run time: the inputs of the mask generation *)

  Lemma mgf_leaves out dg seed : (0 < length out)%nat -> Z.of_nat (length out) <= 2 ^ 32 ->
    In (Plain (Octets (seed ++ [x00; x00; x00; x00]))) (heap (z_mgf1_xor out dg seed)).
  Proof.
    intros L1 L2. unfold z_mgf1_xor. eapply lb_bind_r; [rewrite zr_lift; unfold assert_; destruct (Z.leb_spec (Z.of_nat (length out)) (2 ^ 32)); [reflexivity|lia]|].
    destruct (length out) as [|f] eqn:E; [lia|]. cbn [z_mgf1_xor_loop]. rewrite E. cbn [Nat.leb]. cbv zeta.
    assert (V : vec x00 (length seed + 4) = [] ++ vec x00 (length seed) ++ vec x00 4) by apply vec_app.
    eapply lb_bind_r.
    { rewrite zr_lift, V. apply copy_into_app; auto. apply vec_length. }
    eapply lb_bind_r.
    { rewrite zr_lift. cbn [app]. replace (seed ++ vec x00 4) with (seed ++ vec x00 4 ++ []) by (rewrite app_nil_r; auto).
      apply copy_into_app; auto. rewrite app_nil_r, app_length. reflexivity. }
    rewrite app_nil_r. destruct (digest_finalize_reset _) as (dout & dgr). apply lb_bind_l, lb_here.
  Qed.

  Lemma internal_ok r msg ph hs k zf em :
    outcome_of (z_oaep_encrypt_internal g r msg ph hs k zf) = Ok em ->
    exists seed r' db s' db', rng_fill g r hs = (Some seed, r') /\ length db = (k - 1 - hs)%nat /\ (hs < length db)%nat /\
      outcome_of (zf seed db) = Ok (s', db') /\ em = x00 :: s' ++ db' /\
      forall x, In x (heap (zf seed db)) -> In x (heap (z_oaep_encrypt_internal g r msg ph hs k zf)).
  Proof.
    unfold z_oaep_encrypt_internal. destruct (Nat.ltb_spec k (length msg + 2 * hs + 2)) as [|Hl]; [discriminate|].
    cbv zeta. rewrite zr_own_err. intros H.
    assert (Vk : vec x00 k = [x00] ++ vec x00 (k - 1)) by (replace k with (1 + (k - 1))%nat at 1 by lia; apply vec_app).
    assert (Vp : vec x00 (k - 1) = vec x00 hs ++ vec x00 (k - 1 - hs))
      by (replace (k - 1)%nat with (hs + (k - 1 - hs))%nat at 1 by lia; apply vec_app).
    assert (S1 : split_at (vec x00 k) 1 = Ok ([x00], vec x00 (k - 1))) by (rewrite Vk; apply split_at_app; auto).
    assert (S2 : split_at (vec x00 (k - 1)) hs = Ok (vec x00 hs, vec x00 (k - 1 - hs))) by (rewrite Vp; apply split_at_app, vec_length).
    rewrite zr_bind, zr_lift, S1 in H. cbn [bind] in H. rewrite zr_bind, zr_lift, S2 in H. cbn [bind] in H.
    rewrite vec_length in H.
    destruct (rng_fill g r hs) as [[seed|] r'] eqn:Er; [|discriminate].
    rewrite zr_bind, zr_lift in H. apply bind_ok in H. destruct H as (l1 & E1 & H).
    rewrite zr_bind, zr_lift in H. apply bind_ok in H. destruct H as (l2 & E2 & H).
    rewrite zr_bind, zr_lift in H. apply bind_ok in H. destruct H as (db1 & E3 & H).
    rewrite zr_bind, zr_lift in H. apply bind_ok in H. destruct H as (ps & E4 & H).
    rewrite zr_bind, zr_lift in H. apply bind_ok in H. destruct H as (ps1 & E5 & H).
    rewrite zr_bind, zr_lift in H. apply bind_ok in H. destruct H as (db2 & E6 & H).
    rewrite zr_bind, zr_lift in H. apply bind_ok in H. destruct H as (db3 & E7 & H).
    rewrite zr_bind in H. apply bind_ok in H. destruct H as ((s' & db') & E8 & H).
    exists seed, r', db3, s', db'. split; auto.
    assert (Ld : length db3 = (k - 1 - hs)%nat).
    { rewrite (copy_into_len _ _ _ _ _ E7), (set_idx_len _ _ _ _ E6), (copy_into_len _ _ _ _ _ E3).
      apply vec_length. }
    split; auto. split; [lia|]. split; auto. split; [rewrite zr_ret in H; cbn [app] in H; congruence|].
    intros x X. apply lb_own_err. eapply lb_bind_r; [exact S1|]. cbv beta iota.
    eapply lb_bind_r; [exact S2|]. cbv beta iota. rewrite vec_length, Er.
    do 7 (eapply lb_bind_r; [eassumption|]). apply lb_bind_l. exact X.
  Qed.

  Lemma oaep_encrypt_dynamic hd hm st k msg label ct : rng_ok g -> (0 < h_size hd)%nat -> (0 < h_size hm)%nat ->
    wf_pub k -> uprec (pk_n k) < 2 ^ 32 ->
    let run := z_oaep_api_encrypt g st k msg (digest_new hd) (digest_new hm) label in
    outcome_of run = Ok ct ->
    exists seed mdb n, length seed = h_size hd /\
      left_behind run (Octets (seed ++ [x00; x00; x00; x00])) /\
      left_behind run (Octets (mdb ++ [x00; x00; x00; x00])) /\
      xor_octets mdb (mgf1 (h_fun hm) (h_size hm) seed (length mdb))
      = h_fun hd (label_bytes label) ++ repeat x00 n ++ x01 :: msg.
  Proof.
    intros G Hd Hm W K32. cbv zeta. intros H.
    unfold z_oaep_api_encrypt in *. rewrite zr_bind, zr_lift in H. apply bind_ok in H. destruct H as ([] & C & H).
    rewrite zr_bind in H. apply bind_ok in H. destruct H as (em & P & H). clear H.
    destruct (key_size_facts k W) as (_ & K8 & _).
    pose proof P as P'. rewrite zr_oaep_encrypt, oaep_encrypt_agree in P'.
    rewrite oaep_encrypt_digest_spec in P' by (auto; lia).
    destruct (2 ^ 61 <=? _) eqn:E61; [discriminate|].
    destruct (Nat.ltb_spec (key_size k) (length msg + 2 * h_size hd + 2)) as [|Hl]; [discriminate|].
    destruct (rng_fill g st (h_size hd)) as [[seed|] st'] eqn:Er; [|discriminate].
    assert (Ls : length seed = h_size hd) by (apply (proj1 G) in Er; auto).
    assert (Eem : em = oaep_encode (h_fun hd) (h_size hd) (h_fun hm) (h_size hm) (label_bytes label) seed msg (key_size k)) by congruence.
    clear P'. unfold z_oaep_encrypt in P. cbv zeta in P. rewrite zr_own in P. unfold MAX_LABEL_LEN in P. rewrite E61 in P.
    destruct (digest_finalize_reset (digest_update (digest_new hd) (label_bytes label))) as (ph & dgr) eqn:Ed.
    rewrite zr_own in P. cbn [digest_output_size d_fn digest_new] in P.
    destruct (internal_ok _ _ _ _ _ _ _ P) as (seed0 & r0 & db & s' & db' & Er0 & Ldb & Hdb & Z & Eem' & In0).
    change (digest_output_size (digest_new hd)) with (h_size hd) in *.
    rewrite Er in Er0. assert (seed0 = seed) as -> by congruence. clear Er0.
    rewrite zr_bind, zr_mgf in Z. apply bind_ok in Z. destruct Z as ((d1 & md) & Z1 & Z).
    rewrite mgf1_xor_spec in Z1 by (auto; lia).
    assert (d1 = xor_octets db (mgf1 (h_fun hm) (h_size hm) seed (length db)) /\ md = digest_new hm) as (Ed1 & ->) by (split; congruence).
    rewrite zr_bind, zr_mgf in Z. apply bind_ok in Z. destruct Z as ((s1 & md') & Z2 & Z).
    rewrite mgf1_xor_spec in Z2 by (auto; lia). rewrite zr_ret in Z.
    assert (s1 = s' /\ d1 = db') as (-> & ->) by (split; congruence).
    assert (Ls' : length s' = h_size hd).
    { assert (s' = xor_octets seed (mgf1 (h_fun hm) (h_size hm) db' (length seed))) as -> by congruence.
      rewrite xor_octets_length, mgf1_length by auto. lia. }
    assert (Ldb' : length db' = length db) by (rewrite Ed1, xor_octets_length, mgf1_length; auto; lia).
    rewrite Eem in Eem'. unfold oaep_encode in Eem'. apply (f_equal (@tl byte)) in Eem'. cbn [tl] in Eem'.
    set (DB := h_fun hd (label_bytes label) ++ repeat x00 (key_size k - length msg - 2 * h_size hd - 2) ++ x01 :: msg) in *.
    assert (LDB : length DB = (key_size k - h_size hd - 1)%nat).
    { unfold DB. rewrite !app_length, h_len, repeat_length. cbn [length]. lia. }
    set (mdb := xor_octets DB (mgf1 (h_fun hm) (h_size hm) seed (key_size k - h_size hd - 1))) in *.
    assert (Lm : length mdb = length DB) by (unfold mdb; rewrite xor_octets_length, mgf1_length by auto; lia).
    assert (db' = mdb) as ->.
    { apply app_inj_len_r in Eem'; [destruct Eem'; auto|lia]. }
    exists seed, mdb, (key_size k - length msg - 2 * h_size hd - 2)%nat. split; auto.
    assert (I : forall x, In x (heap (let~ (db0, md) := z_mgf1_xor db (digest_new hm) seed in
                 let~ (seed0, _) := z_mgf1_xor seed md db0 in z_ret (seed0, db0))) ->
       In x (heap (let~ _ := z_lift (check_public k) in
         let~ em := z_oaep_encrypt g st msg (digest_new hd) (digest_new hm) label (key_size k) in z_finish_encrypt k em))).
    { intros x X. eapply lb_bind_r; [exact C|]. apply lb_bind_l. unfold z_oaep_encrypt. cbv zeta.
      apply lb_own. unfold MAX_LABEL_LEN. rewrite E61, Ed. apply lb_own, In0, X. }
    split; [apply I, lb_bind_l, mgf_leaves; lia|]. split.
    - apply I. eapply lb_bind_r; [rewrite zr_mgf, mgf1_xor_spec by (auto; lia); reflexivity|]. cbv beta iota.
      rewrite <- Ed1. apply lb_bind_l, mgf_leaves; lia.
    - rewrite Lm, LDB. transitivity DB; [|reflexivity]. unfold mdb. apply xor_octets_invol. rewrite mgf1_length by auto. rewrite LDB. apply le_n.
  Qed.
End Encryption.

(** * PKCS#8 export *)

Section Export.
  Variable mx : Z.

  Lemma key_info_doc tl key doc : tl 0 [] = true -> mx < 2 ^ 32 ->
    encode_key_info mx (mkKI rsa_algorithm_id key) = Ok doc ->
    decode_key_info mx tl doc = Ok (mkKI rsa_algorithm_id key).
  Proof.
    intros T Hm H. unfold encode_key_info, encode_alg_id, encode_uint in H. cbn [ki_alg ki_key alg_oid alg_params rsa_algorithm_id any_null any_tag any_value] in H.
    apply bind_ok in H. destruct H as (v & V & H).
    apply bind_ok in H. destruct H as (al & A & H).
    apply bind_ok in A. destruct A as (o & A1 & A). apply bind_ok in A. destruct A as (nl & A2 & A).
    apply bind_ok in H. destruct H as (ky & Y & H).
    apply encode_tlv_inv in V; auto. apply encode_tlv_inv in A; auto. apply encode_tlv_inv in A1; auto.
    apply encode_tlv_inv in A2; auto. apply encode_tlv_inv in Y; auto. apply encode_tlv_inv in H; auto.
    destruct V as (-> & _). destruct A as (-> & _). destruct A1 as (-> & _). destruct A2 as (-> & _). destruct Y as (-> & _).
    destruct H as (-> & F).
    pose proof (decode_info_ok mx Hm tl 0 rsa_algorithm_id rsa_AlgorithmIdentifier key [] (or_introl (conj eq_refl eq_refl)) (or_introl eq_refl) T) as D.
    rewrite plain_key in D. unfold PrivateKeyInfo, rsa_AlgorithmIdentifier in D. cbn [der map concat] in D. rewrite !app_nil_r in D.
    apply D. exact F.
  Qed.

  Lemma crt_exp_in {A} d p (k : uint -> holding A) x : wf_uint d -> wf_uint p -> 2 <= uval p -> uprec p <= uprec d ->
    let r := mkU (uval d mod (uval p - 1)) (uprec d) in
    let run := z_crt_exponent d p k in
    left_integer run (uval p) /\ left_behind run (Int r) /\ erased run (Octets (to_be_bytes r)) /\
    (In x (heap (k r)) -> In x (heap run)).
  Proof.
    intros Wd Wp H2 HP. cbv zeta. pose proof Wd as (D1 & D2 & D3). unfold z_crt_exponent.
    assert (E1 : widen p (uprec d) = Ok (mkU (uval p) (uprec d))) by (apply widen_ok; auto).
    assert (E2 : usub_big (mkU (uval p) (uprec d)) (u_of_u64 1) = Ok (mkU (uval p - 1) (uprec d))).
    { unfold usub_big. cbn [uval uprec u_of_u64]. destruct (Z.leb_spec 1 (uval p)); [|lia]. rewrite Z.max_l by lia. reflexivity. }
    assert (E3 : assert_ (negb (uis_zero (mkU (uval p - 1) (uprec d)))) = Ok tt).
    { unfold assert_, uis_zero. cbn [uval]. destruct (Z.eqb_spec (uval p - 1) 0); [lia|]. reflexivity. }
    assert (E4 : urem d (mkU (uval p - 1) (uprec d)) = Ok (mkU (uval d mod (uval p - 1)) (uprec d))).
    { unfold urem. cbn [uval uprec]. destruct (Z.eqb_spec (uval p - 1) 0); [lia|]. reflexivity. }
    set (r := mkU (uval d mod (uval p - 1)) (uprec d)) in *.
    split; [|split; [|split]].
    - exists (mkU (uval p) (uprec d)). split; [|reflexivity]. apply lb_bind_l. eapply lb_bind_r; [exact E1|]. apply lb_here.
    - apply lb_bind_l. eapply lb_bind_r; [exact E1|]. apply lb_own, lb_own.
      eapply lb_bind_r; [exact E2|]. eapply lb_bind_r; [exact E3|]. eapply lb_bind_r; [exact E4|]. apply lb_here.
    - eapply lb_bind_r; [|apply lb_here]. rewrite zr_bind, zr_lift, E1. cbn [bind]. rewrite !zr_own, zr_bind, zr_lift, E2. cbn [bind].
      rewrite zr_bind, zr_lift, E3. cbn [bind]. rewrite zr_bind, zr_lift, E4. reflexivity.
    - intros I. eapply lb_bind_r; [|apply lb_own, I]. rewrite zr_bind, zr_lift, E1. cbn [bind]. rewrite !zr_own, zr_bind, zr_lift, E2. cbn [bind].
      rewrite zr_bind, zr_lift, E3. cbn [bind]. rewrite zr_bind, zr_lift, E4. reflexivity.
  Qed.

  (** Everything freed by a successful export of a two-prime key. *)
  Lemma export_residue tl k p q doc : tl 0 [] = true -> mx < 2 ^ 32 ->
    wf_pub (sk_pub k) -> wf_uint (sk_d k) -> sk_primes k = [p; q] -> wf_uint p -> wf_uint q ->
    2 <= uval p -> 2 <= uval q -> uprec p <= uprec (sk_d k) -> uprec q <= uprec (sk_d k) ->
    let run := z_to_pkcs8_der mx k in
    let dp := uval (sk_d k) mod (uval p - 1) in
    let dq := uval (sk_d k) mod (uval q - 1) in
    outcome_of run = Ok doc ->
    (exists key, decode_key_info mx tl doc = Ok (mkKI rsa_algorithm_id key) /\ left_behind run (Octets key)) /\
    left_integer run (uval p) /\ left_integer run (uval q) /\ left_integer run dp /\ left_integer run dq /\
    (exists c, left_integer run c /\ (c * uval q) mod uval p = 1 mod uval p) /\
    (forall z, In z [uval (sk_d k); uval p; uval q; dp; dq] -> exists bs, erased run (Octets bs) /\ os2ip bs = z).
  Proof.
    intros T Hm W Wd EP Wp Wq P2 Q2 PP PQ. cbv zeta. intros H. pose proof H as H'.
    rewrite zr_to_pkcs8 in H'. unfold to_pkcs8_der in H'.
    destruct (crt_exponent_ok (sk_d k) p Wd Wp P2 PP) as (C1 & W1).
    destruct (crt_exponent_ok (sk_d k) q Wd Wq Q2 PQ) as (C2 & W2).
    apply bind_ok in H'. destruct H' as (s & S & H'). apply bind_ok in H'. destruct H' as (key & EK & H').
    apply bind_ok in H'. destruct H' as ([] & EG & ED).
    unfold private_to_pkcs1 in S. rewrite EP in S. cbn [length Nat.ltb Nat.leb get_idx nth_error bind] in S. cbv zeta in S.
    rewrite C1, C2 in S. cbn [bind] in S.
    apply bind_ok in S. destruct S as (oc & CC & S). destruct oc as [c|]; [|discriminate].
    apply bind_ok in S. destruct S as (u1 & U1 & S). apply bind_ok in S. destruct S as (u2 & U2 & S).
    apply bind_ok in S. destruct S as (u3 & U3 & S). apply bind_ok in S. destruct S as (u4 & U4 & S).
    apply bind_ok in S. destruct S as (u5 & U5 & S). apply bind_ok in S. destruct S as (u6 & U6 & S).
    apply bind_ok in S. destruct S as (u7 & U7 & S). apply bind_ok in S. destruct S as (u8 & U8 & S).
    assert (s = mkP1Priv false u1 u2 u3 u4 u5 u6 u7 u8) as -> by congruence. clear S.
    unfold z_to_pkcs8_der. rewrite EP. cbn [length Nat.ltb Nat.leb get_idx nth_error]. cbv zeta.
    set (dp := mkU (uval (sk_d k) mod (uval p - 1)) (uprec (sk_d k))) in *.
    set (dq := mkU (uval (sk_d k) mod (uval q - 1)) (uprec (sk_d k))) in *.
    match goal with |- context [owning (Plain (Octets (to_be_bytes (pk_n (sk_pub k))))) ?m] => set (rest := m) end.
    eassert (I0 : forall x, In x (heap (z_crt_exponent (sk_d k) p ?[f1])) ->
      In x (heap (owning (Plain (Octets (to_be_bytes (pk_n (sk_pub k))))) rest))).
    { intros x I. unfold rest. do 3 apply lb_own. eapply lb_bind_r; [reflexivity|]. eapply lb_bind_r; [reflexivity|].
      do 2 apply lb_own. exact I. }
    match type of I0 with context [z_crt_exponent (sk_d k) p ?f] => set (f1 := f) in * end.
    assert (O0 : forall x, In x [Erased (Octets (to_be_bytes p)); Erased (Octets (to_be_bytes q)); Erased (Octets (to_be_bytes (sk_d k)))] ->
      In x (heap (owning (Plain (Octets (to_be_bytes (pk_n (sk_pub k))))) rest))).
    { intros x I. unfold rest. apply lb_own, lb_own.
      destruct I as [<-|[<-|[<-|[]]]]; [| |apply lb_here];
        apply lb_own; (eapply lb_bind_r; [reflexivity|]); (eapply lb_bind_r; [reflexivity|]); [apply lb_here|apply lb_own, lb_here]. }
    set (run := owning (Plain (Octets (to_be_bytes (pk_n (sk_pub k))))) rest) in *.
    pose proof (fun x => crt_exp_in (sk_d k) p f1 x Wd Wp P2 PP) as X1. cbv zeta in X1. fold dp in X1.
    assert (I1 : forall x, In x (heap (f1 dp)) -> In x (heap run)) by (intros x I; apply I0, X1, I).
    unfold f1 in I1.
    match type of I1 with context [z_crt_exponent (sk_d k) q ?f] => set (f2 := f) in * end.
    pose proof (fun x => crt_exp_in (sk_d k) q f2 x Wd Wq Q2 PQ) as X2. cbv zeta in X2. fold dq in X2.
    assert (I2 : forall x, In x (heap (f2 dq)) -> In x (heap run)) by (intros x I; apply I1, X2, I).
    assert (I3 : forall x, x = Plain (Int c) \/ x = Plain (Octets key) -> In x (heap run)).
    { intros x I. apply I2. unfold f2. eapply lb_bind_r; [exact CC|]. cbv beta iota.
      destruct I as [-> | ->]; [apply lb_here|]. apply lb_own, lb_own.
      eapply lb_bind_r; [exact U1|]. eapply lb_bind_r; [exact U2|]. eapply lb_bind_r; [exact U3|]. eapply lb_bind_r; [exact U4|].
      eapply lb_bind_r; [exact U5|]. eapply lb_bind_r; [exact U6|]. eapply lb_bind_r; [exact U7|]. eapply lb_bind_r; [exact U8|].
      eapply lb_bind_r; [exact EK|]. apply lb_here. }
    split; [exists key; split; [apply key_info_doc; auto|apply I3; auto]|].
    destruct (X1 (Plain (Int p))) as ((pw & Y1 & Y1') & Y2 & Y3 & _).
    destruct (X2 (Plain (Int p))) as ((qw & Y4 & Y4') & Y5 & Y6 & _).
    split; [exists pw; split; auto; apply I0, Y1|]. split; [exists qw; split; auto; apply I1, Y4|].
    split; [exists dp; split; auto; apply I0, Y2|]. split; [exists dq; split; auto; apply I1, Y5|].
    split.
    { exists (uval c). split; [exists c; split; auto; apply I3; auto|].
      unfold crt_coefficient in CC. rewrite EP in CC. cbn [get_idx nth_error bind] in CC. unfold uinv_mod in CC.
      destruct (_ =? _); [|discriminate]. destruct (zinv (uval q) (uval p)) as [z|] eqn:Z; [|discriminate].
      assert (c = mkU z (uprec p)) as -> by congruence. cbn [uval].
      apply zinv_some in Z. rewrite Z.mul_comm. apply Z. }
    intros z I. destruct I as [<-|[<-|[<-|[<-|[<-|[]]]]]].
    - exists (to_be_bytes (sk_d k)). split; [apply O0; simpl; auto|]. apply be_bytes_uint; auto.
    - exists (to_be_bytes p). split; [apply O0; simpl; auto|]. apply be_bytes_uint; auto.
    - exists (to_be_bytes q). split; [apply O0; simpl; auto|]. apply be_bytes_uint; auto.
    - eexists. split; [apply I0, Y3|]. apply be_bytes_uint; auto.
    - eexists. split; [apply I1, Y6|]. apply be_bytes_uint; auto.
  Qed.
End Export.
