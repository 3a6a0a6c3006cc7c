(** Statements about the raw operations assembled for PropRsa.v. *)
From Coq Require Import ZArith List Bool Lia.
From Coq Require Import Init.Byte.
From Verif Require Import Base Bigint BytesLemmas BigintLemmas NumTheory SpecRFC SpecRng SpecKey MHash
  MPad MPkcs1 MOaep MPss MRsa MKey MApi KeyDefs PPad PPkcs1 PRsa POaep PPss PApi PSig PHist.
Import ListNotations.
Local Open Scope Z_scope.

Section Raw.
  Context {R : Type} (g : rng_ops R).

  Lemma private_is_power fuel rng k c :
    (rng <> None -> rng_ok g) -> good_priv k -> wf_uint c -> uprec c = uprec (pk_n (sk_pub k)) ->
    uval c < uval (pk_n (sk_pub k)) -> blinding_succeeds g (uval (pk_n (sk_pub k))) rng fuel ->
    exists m, rsa_decrypt g fuel rng k c = Ok m /\ rsa_decrypt_and_check g fuel k rng c = Ok m /\
      uval m = RSADP (uval (pk_n (sk_pub k))) (uval (sk_d k)) (uval c) /\
      uprec m = uprec (pk_n (sk_pub k)).
  Proof.
    intros Hg Hk Hc Ec Hn Hb. destruct (rsa_decrypt_good g fuel rng k c Hg Hk Hc Ec Hn) as (A & _).
    destruct (rsa_decrypt_and_check_good g fuel rng k c Hg Hk Hc Ec Hn) as (B & _).
    eexists. split; [exact (A Hb)|]. split; [exact (B Hb)|]. auto.
  Qed.

  Lemma decrypt_encrypt fuel rng k m :
    (rng <> None -> rng_ok g) -> good_priv k -> wf_uint m -> uprec m = uprec (pk_n (sk_pub k)) ->
    uval m < uval (pk_n (sk_pub k)) -> blinding_succeeds g (uval (pk_n (sk_pub k))) rng fuel ->
    (let* c := rsa_encrypt (sk_pub k) m in rsa_decrypt g fuel rng k c) = Ok m.
  Proof.
    intros Hg Hk Hm Em Hn Hb. pose proof (good_pub k Hk) as Hp. pose proof (odd_pos_n _ Hp) as H0.
    pose proof Hp as ((Hv & P1 & P2) & _).
    rewrite rsa_encrypt_small by (auto; lia). cbn [bind].
    pose proof (RSAEP_range (uval (pk_n (sk_pub k))) (uval (pk_e (sk_pub k))) (uval m) H0) as Rg.
    destruct (rsa_decrypt_good g fuel rng k
                (mkU (RSAEP (uval (pk_n (sk_pub k))) (uval (pk_e (sk_pub k))) (uval m))
                     (uprec (pk_n (sk_pub k)))) Hg Hk) as (A & _); auto.
    - apply wf_mk; auto. lia.
    - cbn [uval]. lia.
    - rewrite (A Hb). cbn [uval]. destruct Hk as (_ & _ & _ & HV & _).
      rewrite (rsa_dec_enc _ _ _ _ _ HV) by (destruct Hm; lia).
      rewrite <- Em. destruct m; reflexivity.
  Qed.

  Lemma encrypt_decrypt fuel rng k c :
    (rng <> None -> rng_ok g) -> good_priv k -> wf_uint c -> uprec c = uprec (pk_n (sk_pub k)) ->
    uval c < uval (pk_n (sk_pub k)) -> blinding_succeeds g (uval (pk_n (sk_pub k))) rng fuel ->
    (let* m := rsa_decrypt g fuel rng k c in rsa_encrypt (sk_pub k) m) = Ok c.
  Proof.
    intros Hg Hk Hc Ec Hn Hb.
    destruct (rsa_decrypt_good g fuel rng k c Hg Hk Hc Ec Hn) as (A & _). rewrite (A Hb). cbn [bind].
    rewrite rsa_encrypt_of_dec; auto; [|destruct Hc; lia]. rewrite <- Ec. destruct c; reflexivity.
  Qed.

  Lemma history (ops : list crt_op) k k' :
    good_priv k -> crt_run k ops = Ok k' ->
    (forall fuel rng c, wf_uint c -> rsa_decrypt g fuel rng k' c = rsa_decrypt g fuel rng k c) /\
    (forall fuel rng p ct, scheme_decrypt g fuel rng k' p ct = scheme_decrypt g fuel rng k p ct) /\
    (forall fuel rng s h, scheme_sign g fuel rng k' s h = scheme_sign g fuel rng k s h).
  Proof.
    intros Hk H. apply crt_run_keeps in H; auto. destruct H as (Hk' & A & B & C).
    split; [|split]; intros.
    - apply rsa_decrypt_same_crt; auto.
    - apply scheme_decrypt_same_crt; auto.
    - apply scheme_sign_same_crt; auto.
  Qed.

  Lemma raw_range fuel rng k c :
    uval (pk_n (sk_pub k)) <= uval c ->
    rsa_decrypt g fuel rng k c = Err Decryption /\ rsa_decrypt_and_check g fuel k rng c = Err Decryption.
  Proof. intros H. split; [apply rsa_decrypt_range|apply rsa_decrypt_and_check_range]; auto. Qed.

  Lemma blinding_raw fuel st k c :
    rng_ok g -> good_priv k -> wf_uint c -> uprec c = uprec (pk_n (sk_pub k)) ->
    (blinding_succeeds g (uval (pk_n (sk_pub k))) (Some st) fuel ->
       rsa_decrypt g fuel (Some st) k c = rsa_decrypt g fuel None k c) /\
    (blinding_fails g (uval (pk_n (sk_pub k))) (Some st) fuel ->
       uval c < uval (pk_n (sk_pub k)) -> rsa_decrypt g fuel (Some st) k c = Err Rng) /\
    (blinding_succeeds g (uval (pk_n (sk_pub k))) (Some st) fuel \/
     blinding_fails g (uval (pk_n (sk_pub k))) (Some st) fuel \/
     blinding_undecided g (uval (pk_n (sk_pub k))) (Some st) fuel).
  Proof.
    intros Hg Hk Hc Ec. split; [|split].
    - intros Hb. destruct (Z.lt_ge_cases (uval c) (uval (pk_n (sk_pub k)))) as [L|L].
      + destruct (rsa_decrypt_good g fuel (Some st) k c (fun _ => Hg) Hk Hc Ec L) as (A & _).
        destruct (rsa_decrypt_good g fuel None k c (fun _ => Hg) Hk Hc Ec L) as (B & _).
        rewrite (A Hb), (B I). reflexivity.
      + rewrite !rsa_decrypt_range by auto. reflexivity.
    - intros Hb L. destruct (rsa_decrypt_good g fuel (Some st) k c (fun _ => Hg) Hk Hc Ec L) as (_ & A & _).
      auto.
    - apply blinding_trichotomy.
  Qed.

  Lemma released_signatures fuel rng k s hashed sig :
    wf_pub (sk_pub k) -> uprec (pk_n (sk_pub k)) < 2 ^ 32 -> wf_scheme s ->
    scheme_sign g fuel rng k s hashed = Ok sig ->
    let n := uval (pk_n (sk_pub k)) in let e := uval (pk_e (sk_pub k)) in
    let K := key_size (sk_pub k) in
    length sig = K /\
    match s with
    | SigPkcs1v15 p => RSAEP n e (os2ip sig) = os2ip (emsa_pkcs1 (p1_prefix p ++ hashed) K)
    | SigPss p => exists salt hd, ps_digest p = digest_new hd /\
        RSAEP n e (os2ip sig)
        = os2ip (pss_encode (h_fun hd) (h_size hd) hashed salt (Z.to_nat (ubits (pk_n (sk_pub k))) - 1))
    end.
  Proof.
    intros Hp H32 Hw H n e K. destruct s as [p|p]; cbn [scheme_sign] in H.
    - apply bind_ok in H. destruct H as (_ & _ & H). rewrite pkcs1v15_sign_core in H.
      apply bind_ok in H. destruct H as (em & Ep & H).
      apply sign_pad_spec in Ep. destruct Ep as [_ ->].
      apply decrypt_core_length in H; auto. tauto.
    - destruct rng as [st|]; [|discriminate]. destruct Hw as (hd & Ed & Hh & Hov). rewrite Ed in H.
      rewrite pss_sign_agree in H. unfold pss_sign_digest in H.
      destruct (rng_fill g st (ps_salt_len p)) as [[salt|] st']; [|discriminate].
      rewrite sign_pss_core in H. destruct (nbits_facts _ Hp) as (B1 & _ & _ & B4 & _).
      pose proof (prec32_size _ Hp H32).
      rewrite usub_ok in H by auto. cbn [bind] in H.
      rewrite emsa_pss_encode_digest_spec in H by (auto; lia).
      destruct (negb _); [discriminate|]. destruct (_ <? _)%nat; [discriminate|]. cbn [bind] in H.
      apply decrypt_core_length in H; auto. destruct H as (A & _ & _ & B).
      split; auto. exists salt, hd. auto.
  Qed.

  Lemma schemes_range fuel rng k p ct :
    wf_pub (sk_pub k) -> uval (pk_n (sk_pub k)) <= os2ip ct ->
    exists e, scheme_decrypt g fuel rng k p ct = Err e /\
      (8 * Z.of_nat (length ct) <= uprec (pk_n (sk_pub k)) -> check_public (sk_pub k) = Ok tt ->
       e = Decryption).
  Proof.
    intros Hp Hr.
    assert (D : exists e, decrypt_core g fuel rng k ct = Err e /\
              (8 * Z.of_nat (length ct) <= uprec (pk_n (sk_pub k)) -> e = Decryption)).
    { destruct (Z.le_gt_cases (8 * Z.of_nat (length ct)) (uprec (pk_n (sk_pub k)))).
      - rewrite decrypt_core_range by auto. eauto.
      - rewrite decrypt_core_long by auto. eexists. split; [reflexivity|]. lia. }
    destruct D as (e & De & He). destruct p as [|o]; cbn [scheme_decrypt].
    - rewrite pkcs1v15_decrypt_core, De.
      destruct (check_public_spec _ Hp) as [[E _]|(err & E & _)]; rewrite E; cbn [bind].
      + eauto.
      + eexists. split; [reflexivity|]. discriminate.
    - rewrite oaep_api_decrypt_gen, De. destruct (negb _); cbn [bind]; eauto.
  Qed.

  Lemma encrypt_length fuel st pk p msg ct :
    rng_ok g -> wf_pub pk -> wf_padding p -> public_encrypt g fuel st pk p msg = Ok ct ->
    is_octet_len (uval (pk_n pk)) (length ct) /\ 0 <= os2ip ct < uval (pk_n pk).
  Proof.
    intros Hg Hp Hw H. pose proof (odd_pos_n _ Hp) as Hn. pose proof (key_n_lt _ Hp) as Kn.
    assert (exists em, ct = i2osp (RSAEP (uval (pk_n pk)) (uval (pk_e pk)) (os2ip em)) (key_size pk))
      as (em & ->).
    { destruct p as [|o]; cbn [public_encrypt] in H.
      - apply pkcs1v15_encrypt_inv in H; auto. destruct H as (_ & em & _ & ->). eauto.
      - destruct Hw as (hd & hm & E1 & E2 & Hm). rewrite E1, E2, oaep_api_encrypt_agree in H.
        apply oaep_api_encrypt_inv in H; auto. destruct H as (_ & _ & em & _ & ->). eauto. }
    pose proof (RSAEP_range (uval (pk_n pk)) (uval (pk_e pk)) (os2ip em) Hn).
    rewrite i2osp_length, os2ip_i2osp by lia. split; auto. apply key_size_octets; auto.
  Qed.

  Lemma sign_length fuel rng k s hashed sig :
    (rng <> None -> rng_ok g) -> good_priv k -> uprec (pk_n (sk_pub k)) < 2 ^ 32 -> wf_scheme s ->
    scheme_sign g fuel rng k s hashed = Ok sig ->
    is_octet_len (uval (pk_n (sk_pub k))) (length sig) /\ 0 <= os2ip sig < uval (pk_n (sk_pub k)).
  Proof.
    intros Hg Hk H32 Hw H. pose proof (good_pub k Hk) as Hp.
    pose proof (odd_pos_n _ Hp) as Hn. pose proof (key_n_lt _ Hp) as Kn.
    assert (C : forall em rng', (rng' <> None -> rng_ok g) -> decrypt_core g fuel rng' k em = Ok sig ->
              exists c, sig = i2osp (RSADP (uval (pk_n (sk_pub k))) (uval (sk_d k)) c) (key_size (sk_pub k))).
    { intros em rng' Hr D. pose proof D as D2. apply decrypt_core_length in D2; auto.
      destruct D2 as (_ & L1 & L2 & _).
      destruct (decrypt_core_good g fuel rng' k em Hr Hk L1 L2) as (A & B & E).
      destruct (blinding_trichotomy g (uval (pk_n (sk_pub k))) rng' fuel) as [X|[X|X]].
      - rewrite (A X) in D. injection D as <-. eauto.
      - rewrite (B X) in D. discriminate.
      - rewrite (E X) in D. discriminate. }
    assert (exists c, sig = i2osp (RSADP (uval (pk_n (sk_pub k))) (uval (sk_d k)) c) (key_size (sk_pub k)))
      as (c & ->).
    { destruct s as [p|p]; cbn [scheme_sign] in H.
      - apply bind_ok in H. destruct H as (_ & _ & H). rewrite pkcs1v15_sign_core in H.
        apply bind_ok in H. destruct H as (em & Ep & H). eauto.
      - destruct rng as [st|]; [|discriminate]. destruct Hw as (hd & Ed & Hh & Hov). rewrite Ed in H.
        rewrite pss_sign_agree in H. unfold pss_sign_digest in H.
        destruct (rng_fill g st (ps_salt_len p)) as [[salt|] st']; [|discriminate].
        rewrite sign_pss_core in H. apply bind_ok in H. destruct H as (eb & _ & H).
        apply bind_ok in H. destruct H as (em & _ & H). eapply C; [|exact H].
        intros _; apply Hg; discriminate. }
    pose proof (RSADP_range (uval (pk_n (sk_pub k))) (uval (sk_d k)) c Hn).
    rewrite i2osp_length, os2ip_i2osp by lia. split; auto. apply key_size_octets; auto.
  Qed.
End Raw.

Lemma permutation_lemma n e d ps :
  valid_rsa_key n e d ps ->
  (forall m, 0 <= m < n -> 0 <= RSAEP n e m < n) /\
  (forall m1 m2, 0 <= m1 < n -> 0 <= m2 < n -> RSAEP n e m1 = RSAEP n e m2 -> m1 = m2) /\
  (forall c, 0 <= c < n -> exists m, 0 <= m < n /\ RSAEP n e m = c) /\
  (forall m, 0 <= m < n -> RSADP n d (RSAEP n e m) = m).
Proof.
  intros HV. split; [|split; [|split]].
  - intros m Hm. apply RSAEP_range. lia.
  - intros m1 m2 H1 H2 E. rewrite <- (rsa_dec_enc _ _ _ _ m1 HV), <- (rsa_dec_enc _ _ _ _ m2 HV) by auto.
    congruence.
  - intros c Hc. exists (RSADP n d c). split; [apply RSADP_range; lia|]. apply (rsa_enc_dec _ _ _ _ _ HV); auto.
  - intros m Hm. apply (rsa_dec_enc _ _ _ _ _ HV); auto.
Qed.

Lemma raw_injective k m1 m2 c :
  good_priv k -> wf_uint m1 -> wf_uint m2 ->
  uval m1 < uval (pk_n (sk_pub k)) -> uval m2 < uval (pk_n (sk_pub k)) ->
  rsa_encrypt (sk_pub k) m1 = Ok c -> rsa_encrypt (sk_pub k) m2 = Ok c -> uval m1 = uval m2.
Proof.
  intros Hk W1 W2 L1 L2 E1 E2. pose proof (good_pub k Hk) as Hp.
  pose proof Hp as ((Hv & _) & _).
  rewrite rsa_encrypt_small in E1 by (auto; lia). rewrite rsa_encrypt_small in E2 by (auto; lia).
  destruct Hk as (_ & _ & _ & HV & _). destruct (permutation_lemma _ _ _ _ HV) as (_ & I & _).
  apply I; [destruct W1; lia|destruct W2; lia|]. congruence.
Qed.

Lemma paddings_injective k em1 em2 :
  good_priv k -> length em1 = key_size (sk_pub k) -> length em2 = key_size (sk_pub k) ->
  os2ip em1 < uval (pk_n (sk_pub k)) -> os2ip em2 < uval (pk_n (sk_pub k)) ->
  encrypt_core (sk_pub k) em1 = encrypt_core (sk_pub k) em2 -> em1 = em2.
Proof.
  intros Hk L1 L2 V1 V2 E. pose proof (good_pub k Hk) as Hp.
  pose proof (odd_pos_n _ Hp) as Hn. pose proof (key_n_lt _ Hp) as Kn.
  rewrite !encrypt_core_ok in E by auto. injection E as E.
  pose proof (RSAEP_range (uval (pk_n (sk_pub k))) (uval (pk_e (sk_pub k))) (os2ip em1) Hn).
  pose proof (RSAEP_range (uval (pk_n (sk_pub k))) (uval (pk_e (sk_pub k))) (os2ip em2) Hn).
  apply i2osp_inj in E; try lia. 
  destruct Hk as (_ & _ & _ & HV & _). destruct (permutation_lemma _ _ _ _ HV) as (_ & I & _).
  pose proof (os2ip_range em1). pose proof (os2ip_range em2).
  apply os2ip_inj; [congruence|]. apply I; auto; lia.
Qed.
