(** Lemmas about the traced model: it computes what the plain model computes, and a
    small relational logic for "two runs leave the same trace". *)
From Coq Require Import ZArith List Bool Lia.
From Coq Require Import Init.Byte.
From Verif Require Import Base Bigint MHash MPad MMgf MPkcs1 MOaep MRsa MKey MApi MLeak.
Import ListNotations.
Local Open Scope Z_scope.

(** * The results are those of the plain model *)

Lemma res_bind {A B} (m : leaky A) (k : A -> leaky B) :
  result (lbind m k) = bind (result m) (fun a => result (k a)).
Proof.
  unfold result, lbind. destruct (snd m); cbn; auto. destruct (k a); reflexivity.
Qed.

Lemma bind_ext {A B} (o : outcome A) (f f' : A -> outcome B) :
  (forall a, o = Ok a -> f a = f' a) -> bind o f = bind o f'.
Proof. destruct o; cbn; auto. Qed.

Lemma rf_bind {A B} (m : leaky A) (k : A -> leaky B) o f :
  result m = o -> (forall a, o = Ok a -> result (k a) = f a) ->
  result (lbind m k) = bind o f.
Proof. intros <- H. rewrite res_bind. apply bind_ext. auto. Qed.

Lemma rf_val {A B} (m : leaky A) (k : A -> leaky B) a o :
  result m = Ok a -> result (k a) = o -> result (lbind m k) = o.
Proof. intros H <-. rewrite res_bind, H. reflexivity. Qed.

Ltac rf_prim := first [reflexivity | eassumption].
(** one bind on both sides, or a bind on the left that cannot fail *)
Ltac rf1 :=
  match goal with
  | |- result (lbind (l_if _) _) = _ => eapply rf_val; [reflexivity|]
  | |- result (lbind (l_vec _ _) _) = _ => eapply rf_val; [reflexivity|]
  | |- result (lbind (l_update _ _) _) = _ => eapply rf_val; [reflexivity|]
  | |- result (lbind (l_ct_eq _ _) _) = _ => eapply rf_val; [reflexivity|]
  | |- result (lbind (l_to_vec _) _) = _ => eapply rf_val; [reflexivity|]
  | |- result (lbind (l_finalize_reset _) _) = _ => eapply rf_val; [reflexivity|cbn iota beta]
  | |- result (lbind (l_oneshot _ _) _) = _ => eapply rf_val; [reflexivity|]
  | |- result (lbind (emit _ (Ok _)) _) = _ => eapply rf_val; [reflexivity|]
  | |- result (lbind (l_op _ _ (Ok _)) _) = _ => eapply rf_val; [reflexivity|]
  | |- result (lbind (l_cmp _ _ _) _) = _ => eapply rf_val; [reflexivity|]
  | |- result (lbind (l_mf_pow _ _) _) = _ => eapply rf_val; [reflexivity|]
  | |- result (lbind (l_mf_mul _ _) _) = _ => eapply rf_val; [reflexivity|]
  | |- result (lbind (l_mf_sub _ _) _) = _ => eapply rf_val; [reflexivity|]
  | |- result (lbind (l_mf_retrieve _) _) = _ => eapply rf_val; [reflexivity|]
  | |- result (lbind (l_wrapping_mul _ _) _) = _ => eapply rf_val; [reflexivity|]
  | |- result (lbind _ _) = bind _ _ => eapply rf_bind; [rf_prim|intros]
  end.

Lemma rf_copy_into {A} (l : list A) a b src : result (l_copy_into l a b src) = copy_into l a b src.
Proof. reflexivity. Qed.
Lemma rf_from_be bs bits : result (l_from_be_slice bs bits) = from_be_slice bs bits.
Proof. reflexivity. Qed.

Lemma rf_left_pad input k : result (l_left_pad input k) = left_pad input k.
Proof.
  unfold l_left_pad, left_pad. rf1. destruct (k <? length input)%nat; [reflexivity|].
  rf1. rf1. reflexivity.
Qed.

Lemma rf_be_pad u k : result (l_uint_to_be_pad u k) = uint_to_be_pad u k.
Proof.
  unfold l_uint_to_be_pad, uint_to_be_pad. rf1. rf1. rf1. apply rf_left_pad.
Qed.
Lemma rf_zeroizing_pad u k : result (l_uint_to_be_pad u k) = uint_to_zeroizing_be_pad u k.
Proof. apply rf_be_pad. Qed.

Section Rng.
  Context {R : Type} (g : rng_ops R).

  Lemma rf_refill fuel : forall r, result (l_refill g fuel r) = refill g fuel r.
  Proof.
    induction fuel as [|f IH]; intros r; cbn [l_refill refill]; [reflexivity|].
    rewrite res_bind. unfold l_fill, emit, result at 1. cbn [snd].
    destruct (rng_fill g r 1) as [[bs|] r']; [|reflexivity]. cbn [bind].
    rf1. rf1. destruct (byte_eqb a x00); [apply IH|reflexivity].
  Qed.

  Lemma rf_nz_loop fuel data : forall r, result (l_nz_loop g fuel r data) = nz_loop g fuel r data.
  Proof.
    induction data as [|el rest IH]; intros r; cbn [l_nz_loop nz_loop]; [reflexivity|].
    rf1. eapply rf_bind.
    { destruct (byte_eqb el x00); [apply rf_refill|reflexivity]. }
    intros [el' r'] _. eapply rf_bind; [apply IH|]. intros [rest' r''] _. reflexivity.
  Qed.

  Lemma rf_encrypt_pad fuel r msg k :
    result (l_pkcs1v15_encrypt_pad g fuel r msg k) = pkcs1v15_encrypt_pad g fuel r msg k.
  Proof.
    unfold l_pkcs1v15_encrypt_pad, pkcs1v15_encrypt_pad. rf1.
    destruct (k <? length msg + 11)%nat; [reflexivity|]. cbv zeta.
    rf1. rf1. rf1. rf1. rf1. eapply rf_bind.
    { unfold l_non_zero_random_bytes, non_zero_random_bytes. rewrite res_bind.
      unfold l_fill, emit, result at 1. cbn [snd].
      destruct (rng_fill g r a2) as [[bs|] r']; [|reflexivity]. cbn [bind]. apply rf_nz_loop. }
    intros [ps r'] _. rf1. rf1. reflexivity.
  Qed.
End Rng.

Lemma rf_find_zero l : forall i len looking index,
  result (l_find_zero l i len looking index) = Ok (find_zero l (Z.of_nat i) looking index).
Proof.
  induction l as [|el rest IH]; intros; cbn [l_find_zero find_zero]; [reflexivity|].
  rf1. rewrite IH. unfold ct_select. rewrite Nat2Z.inj_succ. unfold Z.succ. reflexivity.
Qed.

Lemma rf_pkcs1_inner em k : result (l_pkcs1_decrypt_inner em k) = pkcs1_decrypt_inner em k.
Proof.
  unfold l_pkcs1_decrypt_inner, pkcs1_decrypt_inner. rf1.
  destruct (k <? 11)%nat; [reflexivity|]. rf1. rf1. cbv zeta.
  eapply rf_val; [apply rf_find_zero|]. change (Z.of_nat 2) with 2.
  destruct (find_zero (skipn 2 em) 2 true 0) as [looking index].
  rf1. rf1. rf1. reflexivity.
Qed.

Lemma rf_pkcs1_unpad em k : result (l_pkcs1v15_encrypt_unpad em k) = pkcs1v15_encrypt_unpad em k.
Proof.
  unfold l_pkcs1v15_encrypt_unpad, pkcs1v15_encrypt_unpad. eapply rf_bind; [apply rf_pkcs1_inner|].
  intros [[valid out] index] _. rf1. destruct valid; [|reflexivity].
  rewrite res_bind. unfold l_slice_from, l_to_vec, emit, result. cbn [snd].
  destruct (slice_from out (Z.to_nat index)); reflexivity.
Qed.

Lemma rf_sign_pad prefix hashed k :
  result (l_pkcs1v15_sign_pad prefix hashed k) = pkcs1v15_sign_pad prefix hashed k.
Proof.
  unfold l_pkcs1v15_sign_pad, pkcs1v15_sign_pad. cbv zeta. rf1.
  destruct (k <? length prefix + length hashed + 11)%nat; [reflexivity|].
  rf1. rf1. rf1. rf1. rf1. rf1. rf1. rf1. reflexivity.
Qed.

Lemma rf_inc_counter_from i : forall c, result (l_inc_counter_from i c) = Ok (inc_counter_from i c).
Proof.
  induction i as [|i IH]; intros c; cbn [l_inc_counter_from inc_counter_from]; [reflexivity|].
  cbv zeta. rf1. rf1. destruct (byte_eqb (byte_succ (nth i c x00)) x00); [apply IH|reflexivity].
Qed.

Lemma rf_xor_block d : forall out i j len,
  result (l_xor_block out i d j len) = xor_block out i d.
Proof.
  induction d as [|x rest IH]; intros; cbn [l_xor_block xor_block]; [reflexivity|].
  rf1. rf1. destruct (length out <=? i)%nat; [reflexivity|]. rf1. rf1. rf1. apply IH.
Qed.

Lemma rf_mgf_loop fuel : forall out i c dg seed,
  result (l_mgf1_xor_loop fuel out i c dg seed) = mgf1_xor_loop fuel out i c dg seed.
Proof.
  induction fuel as [|f IH]; intros; cbn [l_mgf1_xor_loop mgf1_xor_loop];
    rf1; destruct (length out <=? i)%nat; try reflexivity.
  cbv zeta. rf1. rf1. rf1. rf1. unfold digest_finalize_reset at 1. rf1.
  unfold digest_finalize_reset. eapply rf_bind; [apply rf_xor_block|]. intros [out' i'] _.
  eapply rf_val; [apply rf_inc_counter_from|]. apply IH.
Qed.

Lemma rf_mgf out dg seed : result (l_mgf1_xor out dg seed) = mgf1_xor out dg seed.
Proof. unfold l_mgf1_xor, mgf1_xor. rf1. apply rf_mgf_loop. Qed.

Lemma rf_mgf_digest_loop fuel : forall out i c dg seed,
  result (l_mgf1_xor_digest_loop fuel out i c dg seed) = mgf1_xor_digest_loop fuel out i c dg seed.
Proof.
  induction fuel as [|f IH]; intros; cbn [l_mgf1_xor_digest_loop mgf1_xor_digest_loop];
    rf1; destruct (length out <=? i)%nat; try reflexivity.
  cbv zeta. rf1. rf1. unfold digest_finalize_reset at 1. rf1.
  unfold digest_finalize_reset. eapply rf_bind; [apply rf_xor_block|]. intros [out' i'] _.
  eapply rf_val; [apply rf_inc_counter_from|]. apply IH.
Qed.

Lemma rf_mgf_digest out dg seed : result (l_mgf1_xor_digest out dg seed) = mgf1_xor_digest out dg seed.
Proof. unfold l_mgf1_xor_digest, mgf1_xor_digest. rf1. apply rf_mgf_digest_loop. Qed.

Lemma rf_oaep_scan l : forall pos len i looking index nz,
  result (l_oaep_scan l pos len i looking index nz) = Ok (oaep_scan l i looking index nz).
Proof.
  induction l as [|el rest IH]; intros; cbn [l_oaep_scan oaep_scan]; [reflexivity|].
  rf1. rewrite IH. unfold ct_select. reflexivity.
Qed.

Lemma rf_oaep_inner em hs ph k lmgf mgf :
  (forall s d, result (lmgf s d) = mgf s d) ->
  result (l_oaep_decrypt_inner em hs ph k lmgf) = oaep_decrypt_inner em hs ph k mgf.
Proof.
  intros H. unfold l_oaep_decrypt_inner, oaep_decrypt_inner. rf1.
  destruct (k <? 11)%nat; [reflexivity|]. rf1.
  destruct (k <? hs * 2 + 2)%nat; [reflexivity|]. rf1. cbv zeta.
  eapply rf_bind; [reflexivity|]. intros [head payload] _.
  eapply rf_bind; [reflexivity|]. intros [seed db] _.
  eapply rf_bind; [apply H|]. intros [seed' db'] _. rf1. rf1.
  eapply rf_val; [apply rf_oaep_scan|].
  destruct (oaep_scan (skipn hs db') 0 true 0 false) as [[looking index] nz].
  rf1. rf1. rf1. reflexivity.
Qed.

Lemma rf_oaep_finish r :
  result (l_oaep_finish r)
  = let '(out, index, valid) := r in
    if valid then slice_from out (Z.to_nat index) else Err Decryption.
Proof.
  destruct r as [[out index] valid]. unfold l_oaep_finish. rf1.
  destruct valid; cbn [negb]; [|reflexivity].
  eapply rf_val; [reflexivity|]. rewrite res_bind.
  unfold l_slice_from, l_to_vec, emit, result. cbn [snd].
  destruct (slice_from out (Z.to_nat index)); reflexivity.
Qed.

Lemma rf_oaep_decrypt em dg mg label k :
  result (l_oaep_decrypt em dg mg label k) = oaep_decrypt em dg mg label k.
Proof.
  unfold l_oaep_decrypt, oaep_decrypt. cbv zeta. rf1.
  destruct (MAX_LABEL_LEN <=? Z.of_nat (length (label_bytes label))); [reflexivity|].
  rf1. unfold digest_finalize_reset at 1. rf1. unfold digest_finalize_reset.
  eapply rf_bind.
  { apply rf_oaep_inner. intros s d. eapply rf_bind; [apply rf_mgf|]. intros [s' md] _.
    eapply rf_bind; [apply rf_mgf|]. intros [d' md'] _. reflexivity. }
  intros [[out index] valid] _. apply (rf_oaep_finish (out, index, valid)).
Qed.

Lemma rf_oaep_decrypt_digest hd hm em label k :
  result (l_oaep_decrypt_digest hd hm em label k) = oaep_decrypt_digest hd hm em label k.
Proof.
  unfold l_oaep_decrypt_digest, oaep_decrypt_digest. cbv zeta. rf1.
  destruct (MAX_LABEL_LEN <=? Z.of_nat (length (label_bytes label))); [reflexivity|].
  rf1. eapply rf_bind.
  { apply rf_oaep_inner. intros s d. eapply rf_bind; [apply rf_mgf_digest|]. intros [s' md] _.
    eapply rf_bind; [apply rf_mgf_digest|]. intros [d' md'] _. reflexivity. }
  intros [[out index] valid] _. apply (rf_oaep_finish (out, index, valid)).
Qed.

Lemma rf_reduce n p : result (l_reduce_vartime n p) = reduce_vartime n p.
Proof.
  unfold l_reduce_vartime, reduce_vartime. cbv zeta. rf1. rf1. eapply rf_bind.
  { destruct (uprec n <? uprec (mp_modulus p)), (uprec n =? uprec (mp_modulus p)); reflexivity. }
  intros n' _. rf1. rf1. reflexivity.
Qed.

Lemma rf_pow b e p : result (l_pow_mod_params b e p) = pow_mod_params b e p.
Proof.
  unfold l_pow_mod_params, pow_mod_params. eapply rf_bind; [apply rf_reduce|].
  intros f _. rf1. reflexivity.
Qed.

Lemma rf_mul a b p : result (l_mul_mod_params a b p) = mul_mod_params a b p.
Proof. unfold l_mul_mod_params, mul_mod_params. rf1. rf1. rf1. reflexivity. Qed.

Lemma rf_encrypt k m : result (l_rsa_encrypt k m) = rsa_encrypt k m.
Proof. apply rf_pow. Qed.

Lemma rf_unblind m u p : result (l_unblind m u p) = unblind m u p.
Proof. unfold l_unblind, unblind. rf1. rf1. apply rf_mul. Qed.

Section Rng2.
  Context {R : Type} (g : rng_ops R).

  Lemma rf_blind_loop fuel : forall st key, result (l_blind_loop g fuel st key) = blind_loop g fuel st key.
  Proof.
    induction fuel as [|f IH]; intros st key; cbn [l_blind_loop blind_loop]; [reflexivity|].
    rewrite res_bind. unfold l_random_mod, emit, result at 1. cbn [snd].
    destruct (rng_mod g st (uval (pk_n key))) as [[v|] st']; [|reflexivity]. cbn [bind].
    rf1. rf1. cbv zeta. rf1. rf1. destruct a; [reflexivity|apply IH].
  Qed.

  Lemma rf_blind fuel st key c p : result (l_blind g fuel st key c p) = blind g fuel st key c p.
  Proof.
    unfold l_blind, blind. cbv zeta. rf1. eapply rf_bind; [apply rf_blind_loop|].
    intros [[r ir] st'] _. eapply rf_bind; [apply rf_pow|]. intros rpowe _.
    eapply rf_bind; [apply rf_mul|]. intros bl _. rf1. rf1. reflexivity.
  Qed.

  Lemma rf_crt c pc q : result (l_crt_pow c pc q) = crt_pow c pc q.
  Proof.
    unfold l_crt_pow, crt_pow. cbv zeta. rf1. rf1. rf1. rf1. rf1. rf1. rf1. rf1. rf1. rf1.
    reflexivity.
  Qed.

  Lemma rf_rsa_decrypt fuel rng k c : result (l_rsa_decrypt g fuel rng k c) = rsa_decrypt g fuel rng k c.
  Proof.
    unfold l_rsa_decrypt, rsa_decrypt. cbv zeta. rf1. rf1.
    destruct (uleb (pk_n (sk_pub k)) c); [reflexivity|]. rf1. eapply rf_bind.
    { destruct rng as [st|].
      - eapply rf_bind; [apply rf_blind|]. intros [b u] _. rf1. reflexivity.
      - rf1. reflexivity. }
    intros [c' ir] _. rf1. eapply rf_bind.
    { destruct (sk_pre k) as [pc|]; [|apply rf_pow]. rf1.
      destruct (2 <? length (sk_primes k))%nat; [apply rf_pow|]. rf1. rf1. apply rf_crt. }
    intros m _. rf1. rf1. destruct ir; [apply rf_unblind|reflexivity].
  Qed.

  Lemma rf_rsa_check fuel k rng c :
    result (l_rsa_decrypt_and_check g fuel k rng c) = rsa_decrypt_and_check g fuel k rng c.
  Proof.
    unfold l_rsa_decrypt_and_check, rsa_decrypt_and_check.
    eapply rf_bind; [apply rf_rsa_decrypt|]. intros m _.
    eapply rf_bind; [apply rf_encrypt|]. intros ch _. rf1. rf1.
    destruct (negb (ueqb c ch)); reflexivity.
  Qed.

  Lemma rf_pkcs1_encrypt fuel rng pk msg :
    result (l_pkcs1v15_encrypt g fuel rng pk msg) = pkcs1v15_encrypt g fuel rng pk msg.
  Proof.
    unfold l_pkcs1v15_encrypt, pkcs1v15_encrypt. eapply rf_bind; [reflexivity|]. intros _ _.
    eapply rf_bind; [apply rf_encrypt_pad|]. intros em _.
    eapply rf_bind; [apply rf_from_be|]. intros i _.
    eapply rf_bind; [apply rf_encrypt|]. intros c _. apply rf_be_pad.
  Qed.

  Lemma rf_pkcs1_decrypt fuel rng k ct :
    result (l_pkcs1v15_decrypt g fuel rng k ct) = pkcs1v15_decrypt g fuel rng k ct.
  Proof.
    unfold l_pkcs1v15_decrypt, pkcs1v15_decrypt. cbv zeta.
    eapply rf_bind; [reflexivity|]. intros _ _. eapply rf_bind; [reflexivity|]. intros c _.
    eapply rf_bind; [apply rf_rsa_check|]. intros m _.
    eapply rf_bind; [apply rf_zeroizing_pad|]. intros em _. apply rf_pkcs1_unpad.
  Qed.

  Lemma rf_pkcs1_sign fuel rng k prefix hashed :
    result (l_pkcs1v15_sign g fuel rng k prefix hashed) = pkcs1v15_sign g fuel rng k prefix hashed.
  Proof.
    unfold l_pkcs1v15_sign, pkcs1v15_sign. cbv zeta.
    eapply rf_bind; [apply rf_sign_pad|]. intros em _.
    eapply rf_bind; [apply rf_from_be|]. intros i _.
    eapply rf_bind; [apply rf_rsa_check|]. intros s _. apply rf_zeroizing_pad.
  Qed.

  Lemma rf_oaep_api fuel rng k ct dg mg label :
    result (l_oaep_api_decrypt g fuel rng k ct dg mg label)
    = oaep_api_decrypt g fuel rng k ct dg mg label.
  Proof.
    unfold l_oaep_api_decrypt, oaep_api_decrypt. cbv zeta. rf1.
    destruct (negb (length ct =? key_size (sk_pub k))%nat); [reflexivity|].
    eapply rf_bind; [reflexivity|]. intros c _.
    eapply rf_bind; [apply rf_rsa_check|]. intros m _.
    eapply rf_bind; [apply rf_zeroizing_pad|]. intros em _. apply rf_oaep_decrypt.
  Qed.

  Lemma rf_oaep_api_digest hd hm fuel rng k ct label :
    result (l_oaep_api_decrypt_digest g hd hm fuel rng k ct label)
    = oaep_api_decrypt_digest g hd hm fuel rng k ct label.
  Proof.
    unfold l_oaep_api_decrypt_digest, oaep_api_decrypt_digest. cbv zeta.
    eapply rf_bind; [reflexivity|]. intros _ _. rf1.
    destruct (negb (length ct =? key_size (sk_pub k))%nat); [reflexivity|].
    eapply rf_bind; [reflexivity|]. intros c _.
    eapply rf_bind; [apply rf_rsa_check|]. intros m _.
    eapply rf_bind; [apply rf_zeroizing_pad|]. intros em _. apply rf_oaep_decrypt_digest.
  Qed.
End Rng2.

Lemma rf_precompute k : result (l_precompute k) = precompute k.
Proof.
  unfold l_precompute, precompute. rf1. destruct (sk_pre k); [reflexivity|]. cbv zeta.
  rf1. rf1. rf1. rf1. rf1. rf1. rf1. rf1. rf1. rf1. rf1. rf1. rf1. rf1. rf1.
  destruct (mf_invert _) eqn:E; [|reflexivity]. rf1. reflexivity.
Qed.
