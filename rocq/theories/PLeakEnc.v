(** OAEP encryption and PSS signing: same results as the plain functions, and traces. *)
From Coq Require Import ZArith List Bool Lia.
From Coq Require Import Init.Byte.
From Verif Require Import Base Bigint BigintLemmas BytesLemmas MHash MPad MMgf MPkcs1 MOaep MPss MRsa
  MKey MApi MLeak MLeakEnc PLeak PLeakRel SpecRFC SpecRng SpecLeak KeyDefs PPad PRsa PPkcs1 POaep PPss
  PApi PSig PLeakApi.
Import ListNotations.
Local Open Scope Z_scope.

(** * Same results *)

Section Refine1.
  Context {R : Type} (g : rng_ops R).

  Lemma rf_oaep_encrypt_internal r msg ph hs k lmgf mgf :
    (forall s d, result (lmgf s d) = mgf s d) ->
    result (l_oaep_encrypt_internal g r msg ph hs k lmgf) = oaep_encrypt_internal g r msg ph hs k mgf.
  Proof.
    intros H. unfold l_oaep_encrypt_internal, oaep_encrypt_internal. rf1.
    destruct (k <? length msg + 2 * hs + 2)%nat; [reflexivity|]. cbv zeta. rf1.
    eapply rf_bind; [reflexivity|]. intros [head payload] _.
    eapply rf_bind; [reflexivity|]. intros [seed db] _.
    rewrite res_bind. unfold l_fill, emit, result at 1. cbn [snd].
    destruct (rng_fill g r (length seed)) as [[s|] r']; [|reflexivity]. cbn [bind].
    rf1. rf1. eapply rf_bind; [apply rf_copy_into|]. intros. rf1. rf1. rf1.
    eapply rf_bind; [apply rf_copy_into|]. intros.
    eapply rf_bind; [apply H|]. intros [s1 d1] _. reflexivity.
  Qed.

  Lemma rf_oaep_encrypt r msg dg mg label k :
    result (l_oaep_encrypt g r msg dg mg label k) = oaep_encrypt g r msg dg mg label k.
  Proof.
    unfold l_oaep_encrypt, oaep_encrypt. cbv zeta. rf1.
    destruct (MAX_LABEL_LEN <=? Z.of_nat (length (label_bytes label))); [reflexivity|].
    rf1. unfold digest_finalize_reset at 1. rf1. unfold digest_finalize_reset.
    apply rf_oaep_encrypt_internal. intros s d.
    eapply rf_bind; [apply rf_mgf|]. intros [d' md] _.
    eapply rf_bind; [apply rf_mgf|]. intros [s' md'] _. reflexivity.
  Qed.

  Lemma rf_oaep_encrypt_digest hd hm r msg label k :
    result (l_oaep_encrypt_digest g hd hm r msg label k) = oaep_encrypt_digest g hd hm r msg label k.
  Proof.
    unfold l_oaep_encrypt_digest, oaep_encrypt_digest. cbv zeta. rf1.
    destruct (MAX_LABEL_LEN <=? Z.of_nat (length (label_bytes label))); [reflexivity|].
    rf1. apply rf_oaep_encrypt_internal. intros s d.
    eapply rf_bind; [apply rf_mgf_digest|]. intros [d' md] _.
    eapply rf_bind; [apply rf_mgf_digest|]. intros [s' md'] _. reflexivity.
  Qed.
End Refine1.

Lemma rf_pss_encode mh eb salt dg :
  result (l_emsa_pss_encode mh eb salt dg) = emsa_pss_encode mh eb salt dg.
Proof.
  unfold l_emsa_pss_encode, emsa_pss_encode. cbv zeta. rf1.
  destruct (negb (length mh =? digest_output_size dg)%nat); [reflexivity|]. rf1.
  destruct (div_ceil8 eb <? digest_output_size dg + length salt + 2)%nat; [reflexivity|].
  rf1. rf1. rf1. eapply rf_bind; [reflexivity|]. intros [db h] _. rf1. rf1.
  eapply rf_bind; [reflexivity|]. intros [h1 tl] _. rf1. rf1. rf1.
  unfold digest_finalize_reset at 1. rf1. unfold digest_finalize_reset.
  eapply rf_bind; [apply rf_copy_into|]. intros. rf1. rf1. rf1. rf1. rf1.
  eapply rf_bind; [apply rf_copy_into|]. intros.
  eapply rf_bind; [apply rf_mgf|]. intros [db1 md] _. rf1. rf1. rf1. rf1. rf1. rf1. reflexivity.
Qed.

Lemma rf_pss_encode_digest hd mh eb salt :
  result (l_emsa_pss_encode_digest hd mh eb salt) = emsa_pss_encode_digest hd mh eb salt.
Proof.
  unfold l_emsa_pss_encode_digest, emsa_pss_encode_digest. cbv zeta. rf1.
  destruct (negb (length mh =? h_size hd)%nat); [reflexivity|]. rf1.
  destruct (div_ceil8 eb <? h_size hd + length salt + 2)%nat; [reflexivity|].
  rf1. rf1. rf1. eapply rf_bind; [reflexivity|]. intros [db h] _. rf1. rf1.
  eapply rf_bind; [reflexivity|]. intros [h1 tl] _. rf1. rf1. rf1.
  unfold digest_finalize_reset at 1. rf1. unfold digest_finalize_reset.
  eapply rf_bind; [apply rf_copy_into|]. intros. rf1. rf1. rf1. rf1. rf1.
  eapply rf_bind; [apply rf_copy_into|]. intros.
  eapply rf_bind; [apply rf_mgf_digest|]. intros [db1 md] _. rf1. rf1. rf1. rf1. rf1. reflexivity.
Qed.

Section Refine2.
  Context {R : Type} (g : rng_ops R).

  Lemma rf_oaep_api_encrypt rng pk msg dg mg label :
    result (l_oaep_api_encrypt g rng pk msg dg mg label) = oaep_api_encrypt g rng pk msg dg mg label.
  Proof.
    unfold l_oaep_api_encrypt, oaep_api_encrypt. eapply rf_bind; [reflexivity|]. intros _ _.
    eapply rf_bind; [apply rf_oaep_encrypt|]. intros em _.
    eapply rf_bind; [apply rf_from_be|]. intros i _.
    eapply rf_bind; [apply rf_encrypt|]. intros c _. apply rf_be_pad.
  Qed.

  Lemma rf_oaep_api_encrypt_digest hd hm rng pk msg label :
    result (l_oaep_api_encrypt_digest g hd hm rng pk msg label)
    = oaep_api_encrypt_digest g hd hm rng pk msg label.
  Proof.
    unfold l_oaep_api_encrypt_digest, oaep_api_encrypt_digest. eapply rf_bind; [reflexivity|]. intros _ _.
    eapply rf_bind; [apply rf_oaep_encrypt_digest|]. intros em _.
    eapply rf_bind; [apply rf_from_be|]. intros i _.
    eapply rf_bind; [apply rf_encrypt|]. intros c _. apply rf_be_pad.
  Qed.

  Lemma rf_sign_pss fuel rng k hashed salt dg :
    result (l_sign_pss_with_salt g fuel rng k hashed salt dg) = sign_pss_with_salt g fuel rng k hashed salt dg.
  Proof.
    unfold l_sign_pss_with_salt, sign_pss_with_salt. cbv zeta. eapply rf_bind; [reflexivity|]. intros eb _.
    eapply rf_bind; [apply rf_pss_encode|]. intros [em md] _.
    eapply rf_bind; [apply rf_from_be|]. intros i _.
    eapply rf_bind; [apply rf_rsa_check|]. intros s _. apply rf_zeroizing_pad.
  Qed.

  Lemma rf_sign_pss_digest hd fuel rng k hashed salt :
    result (l_sign_pss_with_salt_digest g hd fuel rng k hashed salt)
    = sign_pss_with_salt_digest g hd fuel rng k hashed salt.
  Proof.
    unfold l_sign_pss_with_salt_digest, sign_pss_with_salt_digest. cbv zeta.
    eapply rf_bind; [reflexivity|]. intros eb _.
    eapply rf_bind; [apply rf_pss_encode_digest|]. intros em _.
    eapply rf_bind; [apply rf_from_be|]. intros i _.
    eapply rf_bind; [apply rf_rsa_check|]. intros s _. apply rf_zeroizing_pad.
  Qed.

  Lemma rf_pss_sign fuel rng bl k hashed sl dg :
    result (l_pss_sign g fuel rng bl k hashed sl dg) = pss_sign g fuel rng bl k hashed sl dg.
  Proof.
    unfold l_pss_sign, pss_sign. rf1. rewrite res_bind. unfold l_fill, emit, result at 1. cbn [snd].
    destruct (rng_fill g rng sl) as [[s|] r']; [|reflexivity]. cbn [bind]. rf1. apply rf_sign_pss.
  Qed.

  Lemma rf_pss_sign_digest hd fuel rng bl k hashed sl :
    result (l_pss_sign_digest g hd fuel rng bl k hashed sl) = pss_sign_digest g hd fuel rng bl k hashed sl.
  Proof.
    unfold l_pss_sign_digest, pss_sign_digest. rf1. rewrite res_bind.
    unfold l_fill, emit, result at 1. cbn [snd].
    destruct (rng_fill g rng sl) as [[s|] r']; [|reflexivity]. cbn [bind]. rf1. apply rf_sign_pss_digest.
  Qed.
End Refine2.

(** * Traces *)

Lemma lmgf_dyn_enc mg : lmgf_oblivious (fun seed db =>
  let! (db, md) := l_mgf1_xor db mg seed in
  let! (seed, _) := l_mgf1_xor seed md db in lret (seed, db)).
Proof.
  intros s s' d d' Hs Hd.
  eapply ag_bind; [apply ag_mgf; [exact Hd|split; reflexivity|exact Hs]|].
  intros [d1 m1] [d1' m1'] (A & B & C). cbn [fst snd] in *.
  eapply ag_bind; [apply ag_mgf; [exact Hs|exact C|unfold same_len; congruence]|].
  intros [s1 m2] [s1' m2'] (A2 & B2 & C2). cbn [fst snd] in *. apply ag_ret. cbn [fst snd]. auto.
Qed.

Lemma lmgf_digest_enc hm : lmgf_oblivious (fun seed db =>
  let! (db, md) := l_mgf1_xor_digest db (digest_new hm) seed in
  let! (seed, _) := l_mgf1_xor_digest seed md db in lret (seed, db)).
Proof.
  intros s s' d d' Hs Hd.
  eapply ag_bind; [apply ag_mgf_digest; [exact Hd|split; reflexivity|exact Hs]|].
  intros [d1 m1] [d1' m1'] (A & B & C). cbn [fst snd] in *.
  eapply ag_bind; [apply ag_mgf_digest; [exact Hs|exact C|unfold same_len; congruence]|].
  intros [s1 m2] [s1' m2'] (A2 & B2 & C2). cbn [fst snd] in *. apply ag_ret. cbn [fst snd]. auto.
Qed.

Section Traces.
  Context {R : Type} (g : rng_ops R).

  Lemma ag_fill st st' n : rng_ok g -> fills_alike g st st' n ->
    agree (fun x y => length (fst x) = n /\ length (fst y) = n) (l_fill g st n) (l_fill g st' n).
  Proof.
    intros Hg H. unfold l_fill. apply ag_emit. unfold fills_alike in H.
    destruct (rng_fill g st n) as [[s|] r] eqn:E, (rng_fill g st' n) as [[s'|] r'] eqn:E';
      cbn [fst] in *; auto.
    - split; eapply (proj1 Hg); eauto.
    - destruct H as [_ H]. specialize (H eq_refl). discriminate.
    - destruct H as [H _]. specialize (H eq_refl). discriminate.
  Qed.

  Lemma ag_oaep_encrypt_internal st st' msg msg' ph hs k mgf :
    rng_ok g -> lmgf_oblivious mgf -> length msg = length msg' -> fills_alike g st st' hs ->
    agree (fun a b => length a = k /\ length b = k)
      (l_oaep_encrypt_internal g st msg ph hs k mgf) (l_oaep_encrypt_internal g st' msg' ph hs k mgf).
  Proof.
    intros Hg Hm L Hf. unfold l_oaep_encrypt_internal. rewrite <- L. apply ag_branch.
    destruct (Nat.ltb_spec k (length msg + 2 * hs + 2)) as [|Hk]; [apply ag_err|].
    eapply (ag_bind (fun a b => a = b /\ length a = k)).
    { apply ag_emit. split; [reflexivity|]. unfold vec. apply repeat_length. }
    intros em ? (<- & Le).
    eapply ag_bind; [apply ag_split; reflexivity|]. intros [hd pl] [hd' pl']. cbn [fst snd].
    intros (A1 & A2 & A3 & A4).
    eapply ag_bind; [apply ag_split; unfold same_len; congruence|]. intros [sd db] [sd' db']. cbn [fst snd].
    intros (B1 & B2 & B3 & B4). rewrite B1, B2.
    eapply ag_bind.
    { apply ag_fill; auto. }
    intros [s1 r1] [s1' r1']. cbn [fst snd]. intros (C1 & C2).
    apply ag_same. intros x _. apply ag_same. intros y _.
    eapply ag_bind; [apply ag_copy; [unfold same_len; congruence|reflexivity]|]. intros d1 d1' (D1 & D2).
    apply ag_same. intros z _. apply ag_same. intros w _.
    eapply ag_bind; [apply ag_set; unfold same_len; congruence|]. intros d2 d2' (E1 & E2).
    replace (length d2') with (length d2) by congruence.
    eapply ag_bind; [apply ag_copy; [unfold same_len; congruence|exact L]|]. intros d3 d3' (F1 & F2).
    eapply ag_bind; [apply Hm; unfold same_len; congruence|]. intros [s2 d4] [s2' d4']. cbn [fst snd].
    intros (G1 & G2 & G3 & G4). apply ag_ret. rewrite !app_length. lia.
  Qed.

  Lemma ag_oaep_encrypt st st' msg msg' dg mg label k :
    rng_ok g -> length msg = length msg' -> fills_alike g st st' (digest_output_size dg) ->
    agree (fun a b => length a = k /\ length b = k)
      (l_oaep_encrypt g st msg dg mg label k) (l_oaep_encrypt g st' msg' dg mg label k).
  Proof.
    intros Hg L Hf. unfold l_oaep_encrypt. cbv zeta. apply ag_branch.
    destruct (MAX_LABEL_LEN <=? Z.of_nat (length (label_bytes label))); [apply ag_err|].
    apply ag_same. intros d1 _. apply ag_same. intros [ph d2] _.
    apply ag_oaep_encrypt_internal; auto. apply lmgf_dyn_enc.
  Qed.

  Lemma ag_oaep_encrypt_digest hd hm st st' msg msg' label k :
    rng_ok g -> length msg = length msg' -> fills_alike g st st' (h_size hd) ->
    agree (fun a b => length a = k /\ length b = k)
      (l_oaep_encrypt_digest g hd hm st msg label k) (l_oaep_encrypt_digest g hd hm st' msg' label k).
  Proof.
    intros Hg L Hf. unfold l_oaep_encrypt_digest. cbv zeta. apply ag_branch.
    destruct (MAX_LABEL_LEN <=? Z.of_nat (length (label_bytes label))); [apply ag_err|].
    apply ag_same. intros ph _.
    apply ag_oaep_encrypt_internal; auto. apply lmgf_digest_enc.
  Qed.

  Lemma oaep_api_encrypt_trace st st' k msg msg' dg mg label :
    rng_ok g -> wf_pub k -> length msg = length msg' -> fills_alike g st st' (digest_output_size dg) ->
    zeros_of (oaep_api_encrypt g st k msg dg mg label) = zeros_of (oaep_api_encrypt g st' k msg' dg mg label) ->
    trace (l_oaep_api_encrypt g st k msg dg mg label) = trace (l_oaep_api_encrypt g st' k msg' dg mg label).
  Proof.
    intros Hg Hp L Hf Sa. rewrite <- !rf_oaep_api_encrypt in Sa. revert Sa. unfold l_oaep_api_encrypt.
    apply same_prefix_zeros. intros _ _.
    apply bind_zeros with (1 := ag_oaep_encrypt st st' msg msg' dg mg label (key_size k) Hg L Hf).
    intros em em' (E & E') _ _. apply encrypt_core_trace; auto.
  Qed.

  Lemma oaep_api_encrypt_digest_trace hd hm st st' k msg msg' label :
    rng_ok g -> wf_pub k -> length msg = length msg' -> fills_alike g st st' (h_size hd) ->
    zeros_of (oaep_api_encrypt_digest g hd hm st k msg label)
    = zeros_of (oaep_api_encrypt_digest g hd hm st' k msg' label) ->
    trace (l_oaep_api_encrypt_digest g hd hm st k msg label)
    = trace (l_oaep_api_encrypt_digest g hd hm st' k msg' label).
  Proof.
    intros Hg Hp L Hf Sa. rewrite <- !rf_oaep_api_encrypt_digest in Sa. revert Sa.
    unfold l_oaep_api_encrypt_digest.
    apply same_prefix_zeros. intros _ _.
    apply bind_zeros with (1 := ag_oaep_encrypt_digest hd hm st st' msg msg' label (key_size k) Hg L Hf).
    intros em em' (E & E') _ _. apply encrypt_core_trace; auto.
  Qed.
End Traces.

Lemma ag_final_len d d' n : same_dg d d' -> h_size (d_fn d) = n ->
  agree (fun x y => length (fst x) = n /\ length (fst y) = n /\ snd x = snd y)
        (l_finalize_reset d) (l_finalize_reset d').
Proof.
  intros (E & L) <-. unfold l_finalize_reset. rewrite L. apply ag_emit.
  unfold digest_finalize_reset. cbn [fst snd]. rewrite !h_len, E. auto.
Qed.

Lemma ag_pss_encode mh mh' eb salt salt' dg :
  length mh = length mh' -> length salt = length salt' ->
  agree (fun x y => length (fst x) = length (fst y)) (l_emsa_pss_encode mh eb salt dg)
        (l_emsa_pss_encode mh' eb salt' dg).
Proof.
  intros Lm Ls. unfold l_emsa_pss_encode. cbv zeta. rewrite <- Lm, <- Ls. apply ag_branch.
  destruct (negb (length mh =? digest_output_size dg)%nat); [apply ag_err|]. apply ag_branch.
  destruct (div_ceil8 eb <? digest_output_size dg + length salt + 2)%nat; [apply ag_err|].
  apply ag_same. intros em _. apply ag_same. intros x1 _. apply ag_same. intros x2 _.
  apply ag_same. intros [db h] _. apply ag_same. intros x3 _. apply ag_same. intros x4 _.
  apply ag_same. intros [h1 tl] _. apply ag_same. intros d1 _.
  eapply ag_bind; [apply ag_update; [split; reflexivity|exact Lm]|]. intros d2 d2' D2.
  eapply ag_bind; [apply ag_update; [exact D2|exact Ls]|]. intros d3 d3' D3.
  eapply ag_bind; [apply ag_final; exact D3|]. intros [hh d4] [hh' d4']. cbn [fst snd]. intros (Lh & <-).
  eapply ag_bind; [apply ag_copy; [reflexivity|exact Lh]|]. intros h2 h2' (H1 & H2).
  apply ag_same. intros x5 _. apply ag_same. intros x6 _. apply ag_same. intros x7 _.
  apply ag_same. intros db1 _. apply ag_same. intros x8 _.
  eapply ag_bind; [apply ag_copy; [reflexivity|exact Ls]|]. intros db2 db2' (E1 & E2).
  eapply ag_bind; [apply ag_mgf; [unfold same_len; congruence|split; reflexivity|unfold same_len; congruence]|].
  intros [db3 d5] [db3' d5'] (F1 & F2 & F3). cbn [fst snd] in *.
  apply ag_same. intros x9 _. apply ag_same. intros x10 _.
  eapply ag_bind; [apply ag_get; unfold same_len; congruence|]. intros b b' _.
  eapply ag_bind; [apply ag_set; unfold same_len; congruence|]. intros db4 db4' (G1 & G2).
  apply ag_same. intros x11 _.
  eapply ag_bind; [apply ag_set; unfold same_len; rewrite !app_length; congruence|].
  intros em2 em2' (I1 & I2). apply ag_ret. cbn [fst]. congruence.
Qed.

Lemma ag_pss_encode_digest hd mh mh' eb salt salt' :
  length mh = length mh' -> length salt = length salt' ->
  agree (@same_len byte) (l_emsa_pss_encode_digest hd mh eb salt) (l_emsa_pss_encode_digest hd mh' eb salt').
Proof.
  intros Lm Ls. unfold l_emsa_pss_encode_digest. cbv zeta. rewrite <- Lm, <- Ls. apply ag_branch.
  destruct (negb (length mh =? h_size hd)%nat); [apply ag_err|]. apply ag_branch.
  destruct (div_ceil8 eb <? h_size hd + length salt + 2)%nat; [apply ag_err|].
  apply ag_same. intros em _. apply ag_same. intros x1 _. apply ag_same. intros x2 _.
  apply ag_same. intros [db h] _. apply ag_same. intros x3 _. apply ag_same. intros x4 _.
  apply ag_same. intros [h1 tl] _. apply ag_same. intros d1 _.
  eapply ag_bind; [apply ag_update; [split; reflexivity|exact Lm]|]. intros d2 d2' D2.
  eapply ag_bind; [apply ag_update; [exact D2|exact Ls]|]. intros d3 d3' D3.
  eapply ag_bind; [apply ag_final; exact D3|]. intros [hh d4] [hh' d4']. cbn [fst snd]. intros (Lh & <-).
  eapply ag_bind; [apply ag_copy; [reflexivity|exact Lh]|]. intros h2 h2' (H1 & H2).
  apply ag_same. intros x5 _. apply ag_same. intros x6 _. apply ag_same. intros x7 _.
  apply ag_same. intros db1 _. apply ag_same. intros x8 _.
  eapply ag_bind; [apply ag_copy; [reflexivity|exact Ls]|]. intros db2 db2' (E1 & E2).
  eapply ag_bind; [apply ag_mgf_digest; [unfold same_len; congruence|split; reflexivity|unfold same_len; congruence]|].
  intros [db3 d5] [db3' d5'] (F1 & F2 & F3). cbn [fst snd] in *.
  apply ag_same. intros x9 _. apply ag_same. intros x10 _.
  eapply ag_bind; [apply ag_get; unfold same_len; congruence|]. intros b b' _.
  eapply ag_bind; [apply ag_set; unfold same_len; congruence|]. intros db4 db4' (G1 & G2).
  apply ag_same. intros x11 _.
  eapply ag_weaken; [|apply ag_set; unfold same_len; rewrite !app_length; congruence].
  cbn beta. unfold same_len. rewrite !app_length. intros ? ? (I1 & I2). congruence.
Qed.

Section TracesSign.
  Context {R : Type} (g : rng_ops R).

  Lemma sign_pss_digest_trace hd fuel rng k k' hashed hashed' salt salt' :
    (rng <> None -> rng_ok g) -> (0 < h_size hd)%nat -> good_priv k -> good_priv k' -> same_shape k k' ->
    uprec (pk_n (sk_pub k)) < 2 ^ 32 -> length hashed = length hashed' -> length salt = length salt' ->
    zeros_of (sign_pss_with_salt_digest g hd fuel rng k hashed salt)
    = zeros_of (sign_pss_with_salt_digest g hd fuel rng k' hashed' salt') ->
    trace (l_sign_pss_with_salt_digest g hd fuel rng k hashed salt)
    = trace (l_sign_pss_with_salt_digest g hd fuel rng k' hashed' salt').
  Proof.
    intros Hr Hh Hk Hk' Hs H32 L1 L2 Sa. rewrite <- !rf_sign_pss_digest in Sa. revert Sa.
    unfold l_sign_pss_with_salt_digest. cbv zeta. rewrite <- (proj1 Hs). pose proof (good_pub _ Hk) as Hp.
    destruct (nbits_facts _ Hp) as (B1 & B2 & B3 & B4 & B5).
    pose proof (prec32_size _ Hp H32) as Hz.
    apply same_prefix_zeros. intros eb Eb.
    apply bind_zeros with (1 := ag_pss_encode_digest hd hashed hashed' eb salt salt' L1 L2).
    intros em em' _ E E'. rewrite rf_pss_encode_digest in E, E'.
    unfold l_public, result in Eb. cbn [snd] in Eb. rewrite usub_ok in Eb by auto. injection Eb as <-.
    rewrite emsa_pss_encode_digest_spec in E, E' by (auto; lia).
    destruct (negb (length hashed =? h_size hd)%nat); [discriminate|].
    destruct (negb (length hashed' =? h_size hd)%nat); [discriminate|].
    destruct (Nat.ltb_spec (pss_em_len (Z.to_nat (ubits (pk_n (sk_pub k))) - 1)) (h_size hd + length salt + 2));
      [discriminate|].
    destruct (Nat.ltb_spec (pss_em_len (Z.to_nat (ubits (pk_n (sk_pub k))) - 1)) (h_size hd + length salt' + 2));
      [discriminate|].
    assert (X : em = pss_encode (h_fun hd) (h_size hd) hashed salt (Z.to_nat (ubits (pk_n (sk_pub k))) - 1)) by congruence.
    assert (X' : em' = pss_encode (h_fun hd) (h_size hd) hashed' salt' (Z.to_nat (ubits (pk_n (sk_pub k))) - 1)) by congruence.
    clear E E'. subst em em'.
    apply sign_core_trace; auto; rewrite ?pss_encode_length by auto; auto.
    - pose proof (pss_encode_value hd hashed salt (Z.to_nat (ubits (pk_n (sk_pub k))) - 1) Hh ltac:(auto)). lia.
    - pose proof (pss_encode_value hd hashed' salt' (Z.to_nat (ubits (pk_n (sk_pub k))) - 1) Hh ltac:(auto)). lia.
  Qed.

  Lemma sign_pss_trace hd fuel rng k k' hashed hashed' salt salt' :
    (rng <> None -> rng_ok g) -> (0 < h_size hd)%nat -> good_priv k -> good_priv k' -> same_shape k k' ->
    uprec (pk_n (sk_pub k)) < 2 ^ 32 -> length hashed = length hashed' -> length salt = length salt' ->
    zeros_of (sign_pss_with_salt g fuel rng k hashed salt (digest_new hd))
    = zeros_of (sign_pss_with_salt g fuel rng k' hashed' salt' (digest_new hd)) ->
    trace (l_sign_pss_with_salt g fuel rng k hashed salt (digest_new hd))
    = trace (l_sign_pss_with_salt g fuel rng k' hashed' salt' (digest_new hd)).
  Proof.
    intros Hr Hh Hk Hk' Hs H32 L1 L2 Sa. rewrite <- !rf_sign_pss in Sa. revert Sa.
    unfold l_sign_pss_with_salt. cbv zeta. rewrite <- (proj1 Hs). pose proof (good_pub _ Hk) as Hp.
    destruct (nbits_facts _ Hp) as (B1 & B2 & B3 & B4 & B5).
    pose proof (prec32_size _ Hp H32) as Hz.
    apply same_prefix_zeros. intros eb Eb.
    apply bind_zeros with (1 := ag_pss_encode hashed hashed' eb salt salt' (digest_new hd) L1 L2).
    intros [em md] [em' md'] _ E E'. rewrite rf_pss_encode in E, E'.
    unfold l_public, result in Eb. cbn [snd] in Eb. rewrite usub_ok in Eb by auto. injection Eb as <-.
    rewrite emsa_pss_encode_agree in E, E'.
    rewrite emsa_pss_encode_digest_spec in E, E' by (auto; lia).
    destruct (negb (length hashed =? h_size hd)%nat); [discriminate|].
    destruct (negb (length hashed' =? h_size hd)%nat); [discriminate|].
    destruct (Nat.ltb_spec (pss_em_len (Z.to_nat (ubits (pk_n (sk_pub k))) - 1)) (h_size hd + length salt + 2));
      [discriminate|].
    destruct (Nat.ltb_spec (pss_em_len (Z.to_nat (ubits (pk_n (sk_pub k))) - 1)) (h_size hd + length salt' + 2));
      [discriminate|].
    cbn [bind] in E, E'.
    assert (X : em = pss_encode (h_fun hd) (h_size hd) hashed salt (Z.to_nat (ubits (pk_n (sk_pub k))) - 1)) by congruence.
    assert (X' : em' = pss_encode (h_fun hd) (h_size hd) hashed' salt' (Z.to_nat (ubits (pk_n (sk_pub k))) - 1)) by congruence.
    clear E E'. subst em em'.
    apply sign_core_trace; auto; rewrite ?pss_encode_length by auto; auto.
    - pose proof (pss_encode_value hd hashed salt (Z.to_nat (ubits (pk_n (sk_pub k))) - 1) Hh ltac:(auto)). lia.
    - pose proof (pss_encode_value hd hashed' salt' (Z.to_nat (ubits (pk_n (sk_pub k))) - 1) Hh ltac:(auto)). lia.
  Qed.

  Lemma pss_sign_digest_trace hd fuel rng bl k k' hashed hashed' sl :
    rng_ok g -> (0 < h_size hd)%nat -> good_priv k -> good_priv k' -> same_shape k k' ->
    uprec (pk_n (sk_pub k)) < 2 ^ 32 -> length hashed = length hashed' ->
    zeros_of (pss_sign_digest g hd fuel rng bl k hashed sl)
    = zeros_of (pss_sign_digest g hd fuel rng bl k' hashed' sl) ->
    trace (l_pss_sign_digest g hd fuel rng bl k hashed sl)
    = trace (l_pss_sign_digest g hd fuel rng bl k' hashed' sl).
  Proof.
    intros Hg Hh Hk Hk' Hs H32 L1 Sa. rewrite <- !rf_pss_sign_digest in Sa. revert Sa.
    unfold l_pss_sign_digest.
    apply same_prefix_zeros. intros _ _. apply same_prefix_zeros. intros [salt rng'] _.
    apply same_prefix_zeros. intros _ _. rewrite !rf_sign_pss_digest.
    apply sign_pss_digest_trace; auto.
  Qed.

  Lemma pss_sign_trace hd fuel rng bl k k' hashed hashed' sl :
    rng_ok g -> (0 < h_size hd)%nat -> good_priv k -> good_priv k' -> same_shape k k' ->
    uprec (pk_n (sk_pub k)) < 2 ^ 32 -> length hashed = length hashed' ->
    zeros_of (pss_sign g fuel rng bl k hashed sl (digest_new hd))
    = zeros_of (pss_sign g fuel rng bl k' hashed' sl (digest_new hd)) ->
    trace (l_pss_sign g fuel rng bl k hashed sl (digest_new hd))
    = trace (l_pss_sign g fuel rng bl k' hashed' sl (digest_new hd)).
  Proof.
    intros Hg Hh Hk Hk' Hs H32 L1 Sa. rewrite <- !rf_pss_sign in Sa. revert Sa.
    unfold l_pss_sign.
    apply same_prefix_zeros. intros _ _. apply same_prefix_zeros. intros [salt rng'] _.
    apply same_prefix_zeros. intros _ _. rewrite !rf_sign_pss.
    apply sign_pss_trace; auto.
  Qed.
End TracesSign.
