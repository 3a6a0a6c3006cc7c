(** Lemmas for PropMisc.v. *)
From Coq Require Import ZArith List Bool Lia.
From Coq Require Import Init.Byte.
From Verif Require Import Base Bigint BytesLemmas NumTheory SpecRFC SpecRng SpecSig SpecKey BigintLemmas MHash MPad MMgf
  MPkcs1 MOaep MPss MRsa MKey MApi MWrap KeyDefs.
From Verif Require Import PPad PPkcs1 POaep PPss PRsa PApi PSig PEnc PHist PPub PSign PRaw.
Import ListNotations.
Local Open Scope Z_scope.

(** * C10: released plaintexts *)

Section Released.
  Context {R : Type} (g : rng_ops R).

  Lemma released_pkcs1 fuel rng k ct msg :
    wf_pub (sk_pub k) -> pkcs1v15_decrypt g fuel rng k ct = Ok msg ->
    exists em, is_eme_pkcs1 (key_size (sk_pub k)) em msg /\
      RSAEP (uval (pk_n (sk_pub k))) (uval (pk_e (sk_pub k))) (os2ip em) = os2ip ct.
  Proof.
    intros W H. rewrite pkcs1v15_decrypt_core in H.
    apply bind_ok in H. destruct H as ([] & C & H). apply check_public_ok in C; auto.
    pose proof (usable_size _ W C) as Hs.
    apply bind_ok in H. destruct H as (em & E & H).
    apply decrypt_core_length in E; auto. destruct E as (L & _ & _ & E).
    exists em. split; auto. apply C05_lemma in H; auto. lia.
  Qed.

  Lemma released_oaep_digest fuel rng k ct hd hm label msg :
    wf_pub (sk_pub k) -> uprec (pk_n (sk_pub k)) < 2 ^ 32 -> (0 < h_size hm)%nat ->
    (let* em := decrypt_core g fuel rng k ct in
     oaep_decrypt_digest hd hm em label (key_size (sk_pub k))) = Ok msg ->
    exists em, is_eme_oaep (h_fun hd) (h_size hd) (h_fun hm) (h_size hm) (label_bytes label)
                 (key_size (sk_pub k)) em msg /\
      RSAEP (uval (pk_n (sk_pub k))) (uval (pk_e (sk_pub k))) (os2ip em) = os2ip ct.
  Proof.
    intros W H32 Hm H. pose proof (prec32_size _ W H32) as Hs.
    apply bind_ok in H. destruct H as (em & E & H).
    assert (Hl : Z.of_nat (length (label_bytes label)) < 2 ^ 61).
    { unfold oaep_decrypt_digest in H. change MAX_LABEL_LEN with (2 ^ 61) in H.
      destruct (Z.leb_spec (2 ^ 61) (Z.of_nat (length (label_bytes label)))); [discriminate|lia]. }
    assert (H11 : (11 <= key_size (sk_pub k))%nat).
    { unfold oaep_decrypt_digest, oaep_decrypt_inner in H. destruct (_ <=? _); [discriminate|].
      destruct (Nat.ltb_spec (key_size (sk_pub k)) 11); [discriminate|lia]. }
    apply decrypt_core_length in E; auto. destruct E as (L & _ & _ & E).
    exists em. split; auto. apply oaep_exact in H; auto. lia.
  Qed.

  Lemma released_oaep fuel rng k ct hd hm label msg :
    wf_pub (sk_pub k) -> uprec (pk_n (sk_pub k)) < 2 ^ 32 -> (0 < h_size hm)%nat ->
    oaep_api_decrypt g fuel rng k ct (digest_new hd) (digest_new hm) label = Ok msg \/
    oaep_api_decrypt_digest g hd hm fuel rng k ct label = Ok msg ->
    length ct = key_size (sk_pub k) /\
    exists em, is_eme_oaep (h_fun hd) (h_size hd) (h_fun hm) (h_size hm) (label_bytes label)
                 (key_size (sk_pub k)) em msg /\
      RSAEP (uval (pk_n (sk_pub k))) (uval (pk_e (sk_pub k))) (os2ip em) = os2ip ct.
  Proof.
    intros W H32 Hm [H|H].
    - rewrite oaep_api_decrypt_dyn_core in H.
      destruct (Nat.eqb_spec (length ct) (key_size (sk_pub k))); cbn [negb] in H; [|discriminate].
      split; auto. apply released_oaep_digest with fuel rng; auto.
      destruct (Z.leb_spec (2 ^ 61) (Z.of_nat (length (label_bytes label)))); [|exact H].
      apply bind_ok in H. destruct H as (em & _ & H). discriminate.
    - rewrite oaep_api_decrypt_core in H. apply bind_ok in H. destruct H as (u & _ & H).
      destruct (Nat.eqb_spec (length ct) (key_size (sk_pub k))); cbn [negb] in H; [|discriminate].
      split; auto. apply released_oaep_digest with fuel rng; auto.
  Qed.
End Released.

(** * C25: keys the check refuses *)

Lemma check_public_err pk : wf_pub pk -> ~ usable_key pk ->
  check_public pk = Err (if 4096 <? uprec (pk_n pk) then ModulusTooLarge
                         else if uval (pk_n pk) <=? uval (pk_e pk) then InvalidModulus
                         else if Z.even (uval (pk_e pk)) then InvalidExponent
                         else if uval (pk_e pk) <? 2 then PublicExponentTooSmall
                         else PublicExponentTooLarge).
Proof.
  intros (Hn & He & _ & O) N. unfold check_public, check_public_with_max_size, MAX_SIZE.
  destruct (Z.ltb_spec 4096 (uprec (pk_n pk))); [reflexivity|].
  unfold uleb, uis_even, uis_zero, ultb, u_of_u64, MIN_PUB_EXPONENT, MAX_PUB_EXPONENT. cbn [uval].
  destruct (Z.leb_spec (uval (pk_n pk)) (uval (pk_e pk))); [reflexivity|].
  cbn [orb]. rewrite <- Z.negb_odd, O. cbn [negb orb].
  destruct (Z.eqb_spec (uval (pk_n pk)) 0) as [Z0|]; [rewrite Z0 in O; discriminate|].
  destruct (Z.even (uval (pk_e pk))) eqn:Ee; [reflexivity|].
  destruct (Z.ltb_spec (uval (pk_e pk)) 2); [reflexivity|].
  destruct (Z.ltb_spec (2 ^ 33 - 1) (uval (pk_e pk))) as [L|L]; [reflexivity|].
  exfalso. apply N. unfold usable_key, public_usable, public_acceptable.
  rewrite <- (Z.negb_even (uval (pk_e pk))), Ee. repeat split; auto; lia.
Qed.

(** * C72: equal keys *)

Section Equal.
  Context {R : Type} (g : rng_ops R).

  Lemma eq_n a b : pub_eqb a b = true -> uprec (pk_n a) = uprec (pk_n b) ->
    pk_n a = pk_n b /\ uval (pk_e a) = uval (pk_e b).
  Proof.
    intros E P. apply pub_eqb_spec in E. destruct E as (E & Ee). split; auto. apply uint_eq; auto.
  Qed.

  Lemma eq_size a b : pk_n a = pk_n b -> key_size a = key_size b /\ n_bits_precision a = n_bits_precision b.
  Proof. intros E. unfold key_size, n_bits_precision. rewrite E. auto. Qed.

  Lemma eq_check a b : pk_n a = pk_n b -> uval (pk_e a) = uval (pk_e b) -> check_public a = check_public b.
  Proof.
    intros E Ee. unfold check_public, check_public_with_max_size, uleb, uis_even, ultb. rewrite E, Ee.
    reflexivity.
  Qed.

  Lemma eq_encrypt a b m : wf_pub a -> wf_pub b -> pk_n a = pk_n b -> uval (pk_e a) = uval (pk_e b) ->
    rsa_encrypt a m = rsa_encrypt b m.
  Proof.
    intros (_ & _ & Pa & _) (_ & _ & Pb & _) E Ee. unfold rsa_encrypt, pow_mod_params, mf_pow.
    rewrite Pa, Pb, E, Ee. reflexivity.
  Qed.

  Lemma eq_public_encrypt a b fuel st p msg : wf_pub a -> wf_pub b ->
    pub_eqb a b = true -> uprec (pk_n a) = uprec (pk_n b) ->
    public_encrypt g fuel st a p msg = public_encrypt g fuel st b p msg.
  Proof.
    intros Wa Wb E P. destruct (eq_n a b E P) as (En & Ee). destruct (eq_size a b En) as (Ks & Np).
    destruct p as [|o]; unfold public_encrypt, pkcs1v15_encrypt, oaep_api_encrypt;
      rewrite (eq_check a b En Ee), Ks, Np; destruct (check_public b); cbn [bind]; auto;
      (destruct (pkcs1v15_encrypt_pad _ _ _ _ _) || destruct (oaep_encrypt _ _ _ _ _ _ _)); cbn [bind]; auto;
      destruct (from_be_slice _ _); cbn [bind]; auto; rewrite (eq_encrypt a b) by auto; reflexivity.
  Qed.

  Lemma eq_public_verify a b s hashed sig : wf_pub a -> wf_pub b ->
    pub_eqb a b = true -> uprec (pk_n a) = uprec (pk_n b) ->
    public_verify a s hashed sig = public_verify b s hashed sig.
  Proof.
    intros Wa Wb E P. destruct (eq_n a b E P) as (En & Ee). destruct (eq_size a b En) as (Ks & Np).
    destruct s as [s|s]; cbn [public_verify].
    - destruct (check_hash_len s hashed); cbn [bind]; auto. destruct (sig_from_bytes sig); cbn [bind]; auto.
      unfold pkcs1v15_verify. rewrite En, Ks, Np. destruct (_ || _); auto.
      rewrite (eq_encrypt a b) by auto. reflexivity.
    - destruct (sig_from_bytes sig); cbn [bind]; auto.
      unfold pss_verify. rewrite En, Ks. destruct (negb _); auto.
      rewrite (eq_encrypt a b) by auto. reflexivity.
  Qed.

  Lemma eq_core a b fuel rng ct : (rng <> None -> rng_ok g) -> good_priv a -> good_priv b ->
    pk_n (sk_pub a) = pk_n (sk_pub b) -> uval (sk_d a) = uval (sk_d b) ->
    decrypt_core g fuel rng a ct = decrypt_core g fuel rng b ct.
  Proof.
    intros Hg Ga Gb En Ed. pose proof (good_pub a Ga) as Wa. pose proof (good_pub b Gb) as Wb.
    destruct (eq_size _ _ En) as (Ks & _).
    destruct (Z.le_gt_cases (8 * Z.of_nat (length ct)) (uprec (pk_n (sk_pub a)))) as [L|L].
    2:{ rewrite !decrypt_core_long; auto. rewrite <- En. exact L. }
    destruct (Z.le_gt_cases (uval (pk_n (sk_pub a))) (os2ip ct)) as [V|V].
    - rewrite !decrypt_core_range; auto; rewrite <- En; auto.
    - destruct (decrypt_core_good g fuel rng a ct Hg Ga L V) as (A1 & A2 & A3).
      rewrite En in L, V.
      destruct (decrypt_core_good g fuel rng b ct Hg Gb L V) as (B1 & B2 & B3).
      rewrite En, Ed, Ks in *.
      destruct (blinding_trichotomy g (uval (pk_n (sk_pub b))) rng fuel) as [T|[T|T]].
      + rewrite A1, B1; auto.
      + rewrite A2, B2; auto.
      + rewrite A3, B3; auto.
  Qed.

  Lemma priv_eq a b : priv_eqb a b = true -> uprec (pk_n (sk_pub a)) = uprec (pk_n (sk_pub b)) ->
    pk_n (sk_pub a) = pk_n (sk_pub b) /\ uval (pk_e (sk_pub a)) = uval (pk_e (sk_pub b)) /\
    uval (sk_d a) = uval (sk_d b).
  Proof.
    intros E P. apply priv_eqb_spec in E. destruct E as (E1 & E2 & E3 & _).
    split; [apply uint_eq; auto|auto].
  Qed.

  Lemma eq_scheme_decrypt a b fuel rng p ct : (rng <> None -> rng_ok g) -> good_priv a -> good_priv b ->
    priv_eqb a b = true -> uprec (pk_n (sk_pub a)) = uprec (pk_n (sk_pub b)) ->
    scheme_decrypt g fuel rng a p ct = scheme_decrypt g fuel rng b p ct.
  Proof.
    intros Hg Ga Gb E P. destruct (priv_eq a b E P) as (En & Ee & Ed). destruct (eq_size _ _ En) as (Ks & Np).
    pose proof (eq_core a b fuel rng ct Hg Ga Gb En Ed) as C.
    destruct p as [|o]; cbn [scheme_decrypt].
    - rewrite !pkcs1v15_decrypt_core, (eq_check _ _ En Ee), C, Ks. reflexivity.
    - unfold oaep_api_decrypt. rewrite Ks.
      destruct (negb _); auto. unfold decrypt_core in C. rewrite Ks in C.
      assert (X : forall k (f : list byte -> outcome (list byte)),
        (let* c := from_be_slice ct (n_bits_precision (sk_pub k)) in
         let* em := rsa_decrypt_and_check g fuel k rng c in
         let* em := uint_to_zeroizing_be_pad em (key_size (sk_pub b)) in f em) =
        (let* x := (let* c := from_be_slice ct (n_bits_precision (sk_pub k)) in
         let* em := rsa_decrypt_and_check g fuel k rng c in
         uint_to_zeroizing_be_pad em (key_size (sk_pub b))) in f x)).
      { clear C. intros. destruct (from_be_slice _ _) as [c0| | |]; cbn [bind]; auto.
        destruct (rsa_decrypt_and_check g fuel k rng c0); cbn [bind]; auto. }
      rewrite (X a), (X b), C. reflexivity.
  Qed.

  Lemma eq_scheme_sign a b fuel rng s hashed : (rng <> None -> rng_ok g) -> good_priv a -> good_priv b ->
    priv_eqb a b = true -> uprec (pk_n (sk_pub a)) = uprec (pk_n (sk_pub b)) ->
    scheme_sign g fuel rng a s hashed = scheme_sign g fuel rng b s hashed.
  Proof.
    intros Hg Ga Gb E P. destruct (priv_eq a b E P) as (En & Ee & Ed). destruct (eq_size _ _ En) as (Ks & Np).
    destruct s as [s|s]; cbn [scheme_sign].
    - destruct (check_hash_len s hashed); cbn [bind]; auto. rewrite !pkcs1v15_sign_core, Ks.
      destruct (pkcs1v15_sign_pad _ _ _); cbn [bind]; auto. apply eq_core; auto.
    - destruct rng as [st|]; auto. unfold pss_sign.
      destruct (rng_fill g st (ps_salt_len s)) as [[salt|] st']; auto.
      unfold sign_pss_with_salt. rewrite En.
      destruct (usub _ _); cbn [bind]; auto. destruct (emsa_pss_encode _ _ _ _) as [[em o]| | |]; cbn [bind]; auto.
      apply (eq_core a b fuel (if ps_blinded s then Some st' else None) em); auto.
      intros _. apply Hg. discriminate.
  Qed.
End Equal.

(** * C77: no randomness without a generator *)

Lemma no_rng_raw {R1 R2} (g1 : rng_ops R1) (g2 : rng_ops R2) f1 f2 k c :
  rsa_decrypt g1 f1 None k c = rsa_decrypt g2 f2 None k c /\
  rsa_decrypt_and_check g1 f1 k None c = rsa_decrypt_and_check g2 f2 k None c.
Proof. split; reflexivity. Qed.

Lemma no_rng_decrypt {R1 R2} (g1 : rng_ops R1) (g2 : rng_ops R2) f1 f2 k p ct :
  private_decrypt g1 f1 k p ct = private_decrypt g2 f2 k p ct.
Proof. destruct p; reflexivity. Qed.

Lemma no_rng_sign {R1 R2} (g1 : rng_ops R1) (g2 : rng_ops R2) f1 f2 k s h :
  private_sign g1 f1 k s h = private_sign g2 f2 k s h.
Proof. destruct s; reflexivity. Qed.

(** * C78: what the random octets are used for *)

Lemma oaep_seed_only {R1 R2} (g1 : rng_ops R1) (g2 : rng_ops R2) f1 f2 st1 st2 pk o msg :
  fst (rng_fill g1 st1 (digest_output_size (oa_digest o))) =
  fst (rng_fill g2 st2 (digest_output_size (oa_digest o))) ->
  public_encrypt g1 f1 st1 pk (PadOaep o) msg = public_encrypt g2 f2 st2 pk (PadOaep o) msg.
Proof.
  intros E. cbn [public_encrypt]. unfold oaep_api_encrypt.
  destruct (check_public pk); cbn [bind]; auto.
  replace (oaep_encrypt g1 st1 msg (oa_digest o) (oa_mgf o) (oa_label o) (key_size pk))
    with (oaep_encrypt g2 st2 msg (oa_digest o) (oa_mgf o) (oa_label o) (key_size pk)); auto.
  unfold oaep_encrypt. destruct (MAX_LABEL_LEN <=? _); auto.
  unfold digest_finalize_reset. cbn [d_fn digest_update d_pending].
  unfold oaep_encrypt_internal.
  destruct (Nat.ltb_spec (key_size pk) (length msg + 2 * digest_output_size (oa_digest o) + 2)) as [L|L]; auto.
  unfold split_at. rewrite vec_length. destruct (Nat.leb_spec 1 (key_size pk)); [|lia]. cbn [bind].
  rewrite skipn_length, vec_length.
  destruct (Nat.leb_spec (digest_output_size (oa_digest o)) (key_size pk - 1)); [|lia]. cbn [bind].
  rewrite firstn_length, skipn_length, vec_length.
  replace (Nat.min (digest_output_size (oa_digest o)) (key_size pk - 1))
    with (digest_output_size (oa_digest o)) by lia.
  destruct (rng_fill g1 st1 _) as [s1 r1]. destruct (rng_fill g2 st2 _) as [s2 r2]. cbn [fst] in E. subst s2.
  reflexivity.
Qed.

Lemma pss_salt_only {R1 R2} (g1 : rng_ops R1) (g2 : rng_ops R2) f1 f2 st1 st2 k s h :
  ps_blinded s = false ->
  fst (rng_fill g1 st1 (ps_salt_len s)) = fst (rng_fill g2 st2 (ps_salt_len s)) ->
  private_sign_with_rng g1 f1 st1 k (SigPss s) h = private_sign_with_rng g2 f2 st2 k (SigPss s) h.
Proof.
  intros B E. unfold private_sign_with_rng. cbn [scheme_sign]. unfold pss_sign.
  destruct (rng_fill g1 st1 _) as [s1 r1]. destruct (rng_fill g2 st2 _) as [s2 r2]. cbn [fst] in E. subst s2.
  destruct s1; auto. rewrite B. reflexivity.
Qed.

Lemma pkcs1_padding_only {R1 R2} (g1 : rng_ops R1) (g2 : rng_ops R2) f1 f2 st1 st2 pk msg PS :
  rng_ok g1 -> rng_ok g2 ->
  padding_gives g1 f1 st1 (key_size pk - length msg - 3) PS ->
  padding_gives g2 f2 st2 (key_size pk - length msg - 3) PS ->
  public_encrypt g1 f1 st1 pk PadPkcs1v15 msg = public_encrypt g2 f2 st2 pk PadPkcs1v15 msg.
Proof.
  intros H1 H2 P1 P2. cbn [public_encrypt]. unfold pkcs1v15_encrypt.
  destruct (check_public pk); cbn [bind]; auto.
  destruct (Nat.le_gt_cases (length msg + 11) (key_size pk)) as [L|L].
  - destruct (encrypt_pad_exact g1 f1 st1 msg (key_size pk) H1) as (_ & A).
    destruct (encrypt_pad_exact g2 f2 st2 msg (key_size pk) H2) as (_ & B).
    destruct (A L) as (A' & _). destruct (B L) as (B' & _).
    rewrite (A' PS P1), (B' PS P2). reflexivity.
  - destruct (encrypt_pad_exact g1 f1 st1 msg (key_size pk) H1) as (A & _).
    destruct (encrypt_pad_exact g2 f2 st2 msg (key_size pk) H2) as (B & _).
    rewrite A, B by auto. reflexivity.
Qed.

(** * C73: the raw operations are multiplicative *)

Lemma pow_mod_mult n e a b : 0 < n -> 0 <= e ->
  (a * b mod n) ^ e mod n = ((a ^ e mod n) * (b ^ e mod n)) mod n.
Proof.
  intros Hn He. rewrite pow_mod_base by auto. rewrite Z.pow_mul_l, <- Zmult_mod. reflexivity.
Qed.

Lemma prod_wf k a b : wf_pub k -> wf_uint (mkU (a * b mod uval (pk_n k)) (uprec (pk_n k))) /\
  (a * b) mod uval (pk_n k) < uval (pk_n k).
Proof.
  intros W. pose proof (odd_pos_n k W). pose proof W as ((V & P & M) & _).
  pose proof (Z.mod_pos_bound (a * b) (uval (pk_n k)) ltac:(lia)).
  split; [apply wf_mk; auto|]; lia.
Qed.

Lemma public_mult k m1 m2 c1 c2 :
  wf_pub k -> wf_uint m1 -> wf_uint m2 -> uprec m1 = uprec (pk_n k) -> uprec m2 = uprec (pk_n k) ->
  rsa_encrypt k m1 = Ok c1 -> rsa_encrypt k m2 = Ok c2 ->
  rsa_encrypt k (mkU (uval m1 * uval m2 mod uval (pk_n k)) (uprec (pk_n k)))
  = Ok (mkU (uval c1 * uval c2 mod uval (pk_n k)) (uprec (pk_n k))).
Proof.
  intros W W1 W2 P1 P2 E1 E2. pose proof (odd_pos_n k W) as Hn. destruct (prod_wf k (uval m1) (uval m2) W) as (Wp & Lp).
  assert (B : forall m, wf_uint m -> uprec m = uprec (pk_n k) -> uval m < 2 ^ uprec (pk_n k)).
  { intros m (V & _) <-. lia. }
  rewrite rsa_encrypt_small in E1, E2 |- * by auto.
  injection E1 as <-. injection E2 as <-. cbn [uval]. unfold RSAEP.
  rewrite pow_mod_mult; auto. destruct W as (_ & (V & _) & _). lia.
Qed.

Lemma private_mult {R} (g : rng_ops R) fuel rng k c1 c2 m1 m2 :
  (rng <> None -> rng_ok g) -> good_priv k -> wf_uint c1 -> wf_uint c2 ->
  uprec c1 = uprec (pk_n (sk_pub k)) -> uprec c2 = uprec (pk_n (sk_pub k)) ->
  uval c1 < uval (pk_n (sk_pub k)) -> uval c2 < uval (pk_n (sk_pub k)) ->
  rsa_decrypt g fuel rng k c1 = Ok m1 -> rsa_decrypt g fuel rng k c2 = Ok m2 ->
  rsa_decrypt g fuel rng k (mkU (uval c1 * uval c2 mod uval (pk_n (sk_pub k))) (uprec (pk_n (sk_pub k))))
  = Ok (mkU (uval m1 * uval m2 mod uval (pk_n (sk_pub k))) (uprec (pk_n (sk_pub k)))).
Proof.
  intros Hg G W1 W2 P1 P2 L1 L2 E1 E2. pose proof (good_pub k G) as W.
  pose proof (odd_pos_n _ W) as Hn. destruct (prod_wf _ (uval c1) (uval c2) W) as (Wp & Lp).
  destruct (rsa_decrypt_good g fuel rng k c1 Hg G W1 P1 L1) as (A1 & A2 & A3).
  destruct (rsa_decrypt_good g fuel rng k c2 Hg G W2 P2 L2) as (B1 & B2 & B3).
  destruct (rsa_decrypt_good g fuel rng k _ Hg G Wp eq_refl Lp) as (C1 & C2 & C3).
  destruct (blinding_trichotomy g (uval (pk_n (sk_pub k))) rng fuel) as [T|[T|T]].
  - rewrite A1 in E1 by auto. rewrite B1 in E2 by auto. rewrite C1 by auto.
    injection E1 as <-. injection E2 as <-. cbn [uval]. unfold RSADP. rewrite pow_mod_mult; auto.
    destruct G as (_ & (V & _) & _). lia.
  - rewrite A2 in E1 by auto. discriminate.
  - rewrite A3 in E1 by auto. discriminate.
Qed.

(** The blind signature protocol: the signer sees only [em * r^e]. *)
Lemma blind_signature {R} (g : rng_ops R) fuel rng k em r ri :
  (rng <> None -> rng_ok g) -> good_priv k -> wf_uint em -> uprec em = uprec (pk_n (sk_pub k)) ->
  uval em < uval (pk_n (sk_pub k)) -> 0 <= r -> (r * ri) mod uval (pk_n (sk_pub k)) = 1 ->
  blinding_succeeds g (uval (pk_n (sk_pub k))) rng fuel ->
  let n := uval (pk_n (sk_pub k)) in let e := uval (pk_e (sk_pub k)) in
  exists s, rsa_decrypt_and_check g fuel k rng
              (mkU (uval em * RSAEP n e r mod n) (uprec (pk_n (sk_pub k)))) = Ok s /\
    rsa_decrypt_and_check g fuel k rng em = Ok (mkU (uval s * ri mod n) (uprec (pk_n (sk_pub k)))).
Proof.
  intros Hg G We Pe Le Hr Hi Bl n e. pose proof (good_pub k G) as W. pose proof (odd_pos_n _ W) as Hn.
  destruct (prod_wf _ (uval em) (RSAEP n e r) W) as (Wp & Lp). fold n in Wp, Lp.
  destruct (rsa_decrypt_and_check_good g fuel rng k _ Hg G Wp eq_refl Lp) as (A & _).
  destruct (rsa_decrypt_and_check_good g fuel rng k em Hg G We Pe Le) as (B & _).
  rewrite A, B by auto. eexists. split; [reflexivity|]. cbn [uval]. f_equal. f_equal.
  fold n. unfold RSADP.
  assert (D0 : 0 <= uval (sk_d k)) by (destruct G as (_ & (V & _) & _); lia).
  rewrite pow_mod_mult by auto.
  assert (X : (RSAEP n e r) ^ uval (sk_d k) mod n = r mod n).
  { pose proof G as (_ & (Vd & _) & _ & HV & _). fold n e in HV.
    assert (E0 : 0 <= e) by (destruct W as (_ & (V & _) & _); unfold e; lia).
    unfold RSAEP. rewrite pow_mod_base by auto. rewrite <- Z.pow_mul_r by lia.
    apply (rsa_id n e (uval (sk_d k)) _ r HV). }
  rewrite X. rewrite Zmult_mod_idemp_l.
  fold n in Hi.
  replace (uval em ^ uval (sk_d k) mod n * (r mod n) * ri)
    with ((r mod n) * ri * (uval em ^ uval (sk_d k) mod n)) by ring.
  assert (Y : ((r mod n) * ri) mod n = 1) by (rewrite Zmult_mod_idemp_l; exact Hi).
  rewrite Zmult_mod, Y, Z.mul_1_l, !Zmod_mod. reflexivity.
Qed.
