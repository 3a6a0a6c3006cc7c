(** Lemmas for C93: accepted inputs are the ones that can be produced. *)
From Coq Require Import ZArith List Bool Lia.
From Coq Require Import Init.Byte.
From Verif Require Import Base Bigint BytesLemmas BigintLemmas SpecRFC SpecRng SpecSig SpecKey SpecBlind MHash MPkcs1 MOaep
  MPss MRsa MKey MApi MWrap KeyDefs.
From Verif Require Import PPad PPkcs1 POaep PPss PRsa PApi PSig PEnc PHist PPub PSign PWrap PUniform PUniform2.
Import ListNotations.
Local Open Scope Z_scope.

Section Dec.
  Context {R : Type} (g : rng_ops R).

  Lemma ct_of_block k ct em : good_priv k -> os2ip ct < uval (pk_n (sk_pub k)) ->
    let n := uval (pk_n (sk_pub k)) in
    em = i2osp (RSADP n (uval (sk_d k)) (os2ip ct)) (key_size (sk_pub k)) ->
    RSAEP n (uval (pk_e (sk_pub k))) (os2ip em) = os2ip ct.
  Proof.
    intros Hk L n ->. pose proof (good_pub k Hk) as Hp. pose proof (key_n_lt _ Hp) as Kn.
    pose proof (odd_pos_n _ Hp) as Hn. pose proof Hk as (_ & _ & _ & HV & _).
    assert (0 <= RSADP n (uval (sk_d k)) (os2ip ct) < n) by (apply Z.mod_pos_bound; unfold n; lia).
    pose proof (os2ip_range ct). rewrite os2ip_i2osp by (unfold n in *; lia).
    apply (rsa_enc_dec _ _ _ _ _ HV). unfold n. lia.
  Qed.

  Lemma tape_padding f PS w : Forall (fun b => b <> x00) PS -> length PS = w -> padding_gives tape f PS w PS.
  Proof.
    intros F L. exists PS, [], []. split.
    - cbn [rng_fill tape]. rewrite <- L. rewrite Nat.leb_refl, firstn_all, skipn_all. reflexivity.
    - clear L. induction F; constructor; auto.
  Qed.

  Lemma accept_pkcs1v15 fuel rng k ct msg : (rng <> None -> rng_ok g) -> good_priv k -> usable_key (sk_pub k) ->
    blinding_succeeds g (uval (pk_n (sk_pub k))) rng fuel ->
    scheme_decrypt g fuel rng k PadPkcs1v15 ct = Ok msg <->
    8 * Z.of_nat (length ct) <= uprec (pk_n (sk_pub k)) /\
    exists f t ct', public_encrypt tape f t (sk_pub k) PadPkcs1v15 msg = Ok ct' /\ os2ip ct' = os2ip ct.
  Proof.
    intros Hr Hk Hu B. pose proof (good_pub k Hk) as Hp. cbn [scheme_decrypt].
    destruct (pkcs1v15_decrypt_exact g fuel rng k ct Hr Hk Hu) as (D1 & D2 & D3).
    split.
    - intros H. destruct (Z.lt_ge_cases (uprec (pk_n (sk_pub k))) (8 * Z.of_nat (length ct))) as [X|X].
      { rewrite (D1 X) in H. discriminate. }
      split; [lia|]. destruct (Z.lt_ge_cases (os2ip ct) (uval (pk_n (sk_pub k)))) as [Y|Y].
      2:{ rewrite (D2 X Y) in H. discriminate. }
      destruct (D3 X Y) as (D4 & _). destruct (D4 B) as (D5 & _). apply D5 in H.
      destruct H as (L & PS & E & P8 & F).
      assert (LP : (length PS + length msg + 3 = key_size (sk_pub k))%nat).
      { rewrite E in L. rewrite eme_pkcs1_length in L. lia. }
      destruct (pkcs1v15_encrypt_exact tape 0 PS (sk_pub k) msg tape_ok Hp Hu) as (_ & A).
      destruct (A ltac:(lia)) as (A1 & _).
      exists 0%nat, PS. eexists. split; [exact (A1 PS (tape_padding 0 PS (key_size (sk_pub k) - length msg - 3) F ltac:(lia)))|].
      symmetry in E. pose proof (ct_of_block k ct _ Hk Y E) as V. cbv zeta in V. rewrite V.
      pose proof (os2ip_range ct). pose proof (key_n_lt _ Hp). apply os2ip_i2osp. lia.
    - intros (X & f & t & ct' & E & V).
      assert (Y : os2ip ct < uval (pk_n (sk_pub k))).
      { rewrite <- V. pose proof (c01_no_wrong_plaintext tape tape f 0 t None k msg ct' tape_ok ltac:(congruence) Hk E) as (D & _).
        specialize (D I). cbn [scheme_decrypt] in D.
        destruct (Z.lt_ge_cases (os2ip ct') (uval (pk_n (sk_pub k)))) as [Y|Y]; auto.
        destruct (pkcs1v15_decrypt_exact tape 0 None k ct' ltac:(congruence) Hk Hu) as (G1 & G2 & _).
        destruct (Z.lt_ge_cases (uprec (pk_n (sk_pub k))) (8 * Z.of_nat (length ct'))) as [Z1|Z1].
        - rewrite (G1 Z1) in D. discriminate.
        - rewrite (G2 Z1 Y) in D. discriminate. }
      destruct (D3 X Y) as (D4 & _). destruct (D4 B) as (D5 & _). apply D5. rewrite <- V.
      pose proof (c01_no_wrong_plaintext tape tape f 0 t None k msg ct' tape_ok ltac:(congruence) Hk E) as (D & _).
      specialize (D I). cbn [scheme_decrypt] in D.
      destruct (pkcs1v15_decrypt_exact tape 0 None k ct' ltac:(congruence) Hk Hu) as (G1 & _ & G3).
      destruct (Z.lt_ge_cases (uprec (pk_n (sk_pub k))) (8 * Z.of_nat (length ct'))) as [Z1|Z1].
      { rewrite (G1 Z1) in D. discriminate. }
      destruct (G3 Z1 ltac:(lia)) as (G4 & _). destruct (G4 I) as (G5 & _). apply G5, D.
  Qed.

  Lemma accept_oaep fuel rng k ct msg hd hm label : (rng <> None -> rng_ok g) -> good_priv k -> usable_key (sk_pub k) ->
    (0 < h_size hm)%nat -> (11 <= key_size (sk_pub k))%nat -> Z.of_nat (length (label_bytes label)) < 2 ^ 61 ->
    blinding_succeeds g (uval (pk_n (sk_pub k))) rng fuel ->
    let o := PadOaep (mkOaep (digest_new hd) (digest_new hm) label) in
    scheme_decrypt g fuel rng k o ct = Ok msg <-> exists f t, public_encrypt tape f t (sk_pub k) o msg = Ok ct.
  Proof.
    intros Hr Hk Hu Hm K11 HL B o. pose proof (good_pub k Hk) as Hp. unfold o. cbn [scheme_decrypt public_encrypt oa_digest oa_mgf oa_label].
    assert (H32 : uprec (pk_n (sk_pub k)) < 2 ^ 32) by (destruct Hu as (X & _); clear - X; lia).
    split.
    - intros H. destruct (oaep_api_decrypt_exact g fuel rng k ct hd hm label Hr Hm Hk H32 K11 HL) as (D1 & D2 & D3).
      destruct (Nat.eq_dec (length ct) (key_size (sk_pub k))) as [L|L]; [|rewrite (D1 L) in H; discriminate].
      destruct (Z.lt_ge_cases (os2ip ct) (uval (pk_n (sk_pub k)))) as [Y|Y]; [|rewrite (D2 L Y) in H; discriminate].
      destruct (D3 L Y) as (D4 & _). destruct (D4 B) as (D5 & _). apply D5 in H.
      destruct H as (seed & Ls & LM & E). exists 0%nat, seed.
      rewrite oaep_api_encrypt_agree, oaep_api_encrypt_exact by (auto using tape_ok).
      destruct (Z.leb_spec (2 ^ 61) (Z.of_nat (length (label_bytes label)))); [lia|].
      destruct (Nat.ltb_spec (key_size (sk_pub k)) (length msg + 2 * h_size hd + 2)); [lia|].
      cbn [rng_fill tape]. rewrite <- Ls, Nat.leb_refl, firstn_all. rewrite Ls.
      symmetry in E. pose proof (ct_of_block k ct _ Hk Y E) as V. cbv zeta in V. rewrite V.
      rewrite <- L, i2osp_os2ip by reflexivity. reflexivity.
    - intros (f & t & E).
      rewrite oaep_api_encrypt_agree in E.
      pose proof (oaep_round_trip tape g fuel t rng k hd hm label msg ct tape_ok Hr Hm Hk K11 E B) as X.
      exact X || exact (proj1 X) || exact (proj2 X).
  Qed.
End Dec.

(** * Signatures *)

Lemma ok_inj {A} (a b : A) : @Ok A a = Ok b -> a = b.
Proof. congruence. Qed.

Lemma octets_eq (a b : list byte) : length a = length b -> os2ip a = os2ip b -> a = b.
Proof. intros L V. rewrite <- (i2osp_os2ip a _ eq_refl), <- (i2osp_os2ip b _ eq_refl), L, V. reflexivity. Qed.

Lemma sig_of_value k em sig : good_priv k -> length sig = key_size (sk_pub k) ->
  let n := uval (pk_n (sk_pub k)) in
  os2ip sig < n -> os2ip em = RSAEP n (uval (pk_e (sk_pub k))) (os2ip sig) ->
  i2osp (RSADP n (uval (sk_d k)) (os2ip em)) (key_size (sk_pub k)) = sig.
Proof.
  intros Hk L n V E. pose proof Hk as (_ & _ & _ & HV & _). pose proof (os2ip_range sig).
  rewrite E. unfold n. rewrite (rsa_dec_enc _ _ _ _ _ HV) by (unfold n in V; lia).
  rewrite <- L. apply i2osp_os2ip. reflexivity.
Qed.

Lemma accept_pkcs1v15_sig {R} (g : rng_ops R) fuel rng k s hashed sig :
  (rng <> None -> rng_ok g) -> good_priv k -> uprec (pk_n (sk_pub k)) < 2 ^ 32 ->
  stored_minimally (pk_n (sk_pub k)) -> length sig = key_size (sk_pub k) ->
  blinding_succeeds g (uval (pk_n (sk_pub k))) rng fuel ->
  public_verify (sk_pub k) (SigPkcs1v15 s) hashed sig = Ok tt <->
  scheme_sign g fuel rng k (SigPkcs1v15 s) hashed = Ok sig.
Proof.
  intros Hr Hk H32 M L B. pose proof (good_pub k Hk) as Hp. pose proof Hk as (_ & _ & _ & HV & _).
  assert (D : hash_len_ok s hashed \/ ~ hash_len_ok s hashed).
  { unfold hash_len_ok. destruct (p1_hash_len s); auto. lia. }
  destruct D as [D|D].
  2:{ assert (L8 : 8 * Z.of_nat (length sig) < 2 ^ 32) by (rewrite L; apply len_32; auto).
      destruct (public_verify_pkcs1_exact (sk_pub k) s hashed sig Hp L8) as [A _]. rewrite (A D).
      split; [discriminate|]. intros H. exfalso. cbn [scheme_sign] in H.
      unfold hash_len_ok in D. unfold check_hash_len in H. destruct (p1_hash_len s) as [l|]; [|apply D; exact I].
      unfold guard in H. destruct (Nat.eqb_spec (length hashed) l) as [X|X]; [contradiction|]. discriminate. }
  destruct (c13_rfc (sk_pub k) s hashed sig Hp H32 M L D) as (C & _). rewrite C.
  destruct (pkcs1v15_sign_exact g fuel rng k (p1_prefix s) hashed Hr Hk) as [S1 S2].
  cbn [scheme_sign]. rewrite check_hash_len_ok by auto. cbn [bind].
  split.
  - intros (_ & V & EM & LE & E & (LT & X)). subst EM.
    destruct (S2 LT) as (S3 & _). rewrite (S3 B). f_equal. apply sig_of_value; auto.
  - intros H. destruct (Nat.lt_ge_cases (key_size (sk_pub k)) (length (p1_prefix s ++ hashed) + 11)) as [X|X].
    { rewrite (S1 X) in H. discriminate. }
    destruct (S2 ltac:(lia)) as (S3 & _). rewrite (S3 B) in H. apply ok_inj in H.
    destruct (sig_value_accepts k (p1_prefix s ++ hashed) Hk X) as (_ & V & E & _). rewrite H in V, E.
    assert (LE : length (emsa_pkcs1 (p1_prefix s ++ hashed) (key_size (sk_pub k))) = key_size (sk_pub k)).
    { unfold emsa_pkcs1. cbn [length]. rewrite app_length, repeat_length. cbn [length]. lia. }
    split; [exact L|]. split; [lia|]. exists (emsa_pkcs1 (p1_prefix s ++ hashed) (key_size (sk_pub k))).
    split; [exact LE|]. split; [|split; [lia|reflexivity]].
    pose proof (RSAEP_range (uval (pk_n (sk_pub k))) (uval (pk_e (sk_pub k))) (os2ip sig) (odd_pos_n _ Hp)) as Rg.
    pose proof (key_n_lt _ Hp). rewrite <- H.
    rewrite os2ip_i2osp by (pose proof (Z.mod_pos_bound (os2ip (emsa_pkcs1 (p1_prefix s ++ hashed) (key_size (sk_pub k))) ^ uval (sk_d k)) (uval (pk_n (sk_pub k))) ltac:(pose proof (odd_pos_n _ Hp); lia)); unfold RSADP; lia).
    symmetry. apply (rsa_enc_dec _ _ _ _ _ HV). 
    pose proof (os2ip_range (emsa_pkcs1 (p1_prefix s ++ hashed) (key_size (sk_pub k)))). split; [lia|].
    apply block00_lt; auto.
Qed.

(** ** PSS *)

Lemma sign_tape_inv k f hd mh sl t sig : good_priv k -> uprec (pk_n (sk_pub k)) < 2 ^ 32 -> (0 < h_size hd)%nat ->
  pss_sign_digest tape hd f t false k mh sl = Ok sig ->
  length mh = h_size hd /\ (h_size hd + sl + 2 <= pss_em_len (em_bits (sk_pub k)))%nat /\
  exists salt, length salt = sl /\ sig = pss_signature k hd mh salt.
Proof.
  intros Hk H32 Hh H. unfold pss_sign_digest in H. cbn [rng_fill tape] in H.
  destruct (Nat.leb_spec sl (length t)) as [L|L]; [|discriminate].
  destruct (sign_pss_exact tape hd f None k mh (firstn sl t) ltac:(congruence) Hh Hk H32) as [A B]. cbv zeta in A, B.
  rewrite firstn_length_le in B by auto.
  destruct (Nat.eq_dec (length mh) (h_size hd)) as [E|E]; [|rewrite (A E) in H; discriminate].
  split; [exact E|]. destruct (B E) as (C & D).
  destruct (Nat.lt_ge_cases (pss_em_len (em_bits (sk_pub k))) (h_size hd + sl + 2)) as [X|X].
  { unfold em_bits in X. rewrite (C X) in H. discriminate. }
  split; [lia|]. exists (firstn sl t). split; [apply firstn_length_le; auto|].
  destruct (D X) as (D1 & _). rewrite (D1 I) in H. apply ok_inj in H. symmetry. exact H.
Qed.

Lemma rfc_pss_producible k hd sl hashed sig : good_priv k -> uprec (pk_n (sk_pub k)) < 2 ^ 32 -> (0 < h_size hd)%nat ->
  rfc_pss_verifies (h_fun hd) (h_size hd) sl (uval (pk_n (sk_pub k))) (uval (pk_e (sk_pub k))) (key_size (sk_pub k))
                   (Z.to_nat (ubits (pk_n (sk_pub k)))) hashed sig <->
  exists f t, pss_sign_digest tape hd f t false k hashed sl = Ok sig.
Proof.
  intros Hk H32 Hh. pose proof (good_pub k Hk) as Hp. pose proof Hk as (_ & _ & _ & HV & _).
  destruct (nbits_facts _ Hp) as (B1 & B2 & B3 & B4 & B5). fold (em_bits (sk_pub k)) in B4, B5.
  pose proof (key_n_lt _ Hp) as Kn. pose proof (odd_pos_n _ Hp) as Hn.
  split.
  - intros (L & V & EM & LE & E & (Lm & Sz & salt & Ls & X)). fold (em_bits (sk_pub k)) in Sz, X, LE.
    exists 0%nat, salt.
    pose proof (sign_tape k 0 hd hashed sl salt Hk H32 Hh Lm Sz) as T.
    cbn [private_sign_with_rng scheme_sign ps_blinded ps_salt_len ps_digest] in T. rewrite pss_sign_agree in T.
    rewrite T. rewrite <- Ls, Nat.leb_refl, firstn_all. f_equal. unfold pss_signature. fold (em_bits (sk_pub k)).
    rewrite <- X. apply sig_of_value; auto.
  - intros (f & t & H). destruct (sign_tape_inv _ _ _ _ _ _ _ Hk H32 Hh H) as (Lm & Sz & salt & Ls & ->).
    set (em := pss_encode (h_fun hd) (h_size hd) hashed salt (em_bits (sk_pub k))).
    assert (LE : length em = pss_em_len (em_bits (sk_pub k))) by (apply pss_encode_length; auto; lia).
    pose proof (pss_encode_value hd hashed salt (em_bits (sk_pub k)) Hh ltac:(lia)) as V. fold em in V.
    unfold pss_signature. fold (em_bits (sk_pub k)) em.
    assert (R1 : 0 <= RSADP (uval (pk_n (sk_pub k))) (uval (sk_d k)) (os2ip em) < uval (pk_n (sk_pub k)))
      by (apply Z.mod_pos_bound; lia).
    unfold rfc_pss_verifies. rewrite i2osp_length, os2ip_i2osp by lia.
    split; [reflexivity|]. split; [lia|]. exists em. split; [exact LE|]. split.
    + symmetry. apply (rsa_enc_dec _ _ _ _ _ HV). lia.
    + split; [exact Lm|]. split; [exact Sz|]. exists salt. split; [exact Ls|reflexivity].
Qed.

(** The test of the code on a representative that fits emLen octets. *)
Lemma pss_accepts_small hd pk sl hashed sig : wf_pub pk -> length sig = key_size pk -> os2ip sig < uval (pk_n pk) ->
  RSAEP (uval (pk_n pk)) (uval (pk_e pk)) (os2ip sig) < 256 ^ Z.of_nat (pss_em_len (em_bits pk)) ->
  pss_accepts hd pk sl hashed (os2ip sig) ->
  rfc_pss_verifies (h_fun hd) (h_size hd) sl (uval (pk_n pk)) (uval (pk_e pk)) (key_size pk)
                   (Z.to_nat (ubits (pk_n pk))) hashed sig.
Proof.
  intros Hp L V S A. destruct (nbits_facts _ Hp) as (B1 & B2 & B3 & B4 & B5). fold (em_bits pk) in B4, B5.
  pose proof (RSAEP_range (uval (pk_n pk)) (uval (pk_e pk)) (os2ip sig) (odd_pos_n _ Hp)) as Rg.
  set (v := RSAEP _ _ _) in *. unfold pss_accepts, pss_tail in A. fold (em_bits pk) v in A.
  assert (E : skipn (key_size pk - pss_em_len (em_bits pk)) (i2osp v (key_size pk)) = i2osp v (pss_em_len (em_bits pk))).
  { rewrite <- (os2ip_i2osp v (pss_em_len (em_bits pk))) at 1 by lia.
    rewrite i2osp_pad by (rewrite i2osp_length; exact B4). rewrite skipn_app_exact; [reflexivity|].
    rewrite vec_length, i2osp_length. reflexivity. }
  rewrite E in A. split; [exact L|]. split; [exact V|]. exists (i2osp v (pss_em_len (em_bits pk))).
  split; [apply i2osp_length|]. split; [apply os2ip_i2osp; lia|exact A].
Qed.

Lemma rfc_pss_small H hLen sl n e k b hashed sig : 
  rfc_pss_verifies H hLen sl n e k b hashed sig -> RSAEP n e (os2ip sig) < 256 ^ Z.of_nat (pss_em_len (b - 1)).
Proof. intros (_ & _ & EM & L & V & _). rewrite <- V, <- L. apply os2ip_range. Qed.

Lemma accept_pss k hd bl sl hashed sig : good_priv k -> uprec (pk_n (sk_pub k)) < 2 ^ 32 -> (0 < h_size hd)%nat ->
  Z.of_nat (h_size hd + sl + 2) < 2 ^ 64 -> 8 * Z.of_nat (length sig) < 2 ^ 32 ->
  (exists f t, pss_sign_digest tape hd f t false k hashed sl = Ok sig) <->
  public_verify (sk_pub k) (SigPss (mkPss bl (digest_new hd) sl)) hashed sig = Ok tt /\
  os2ip sig < uval (pk_n (sk_pub k)) /\
  RSAEP (uval (pk_n (sk_pub k))) (uval (pk_e (sk_pub k))) (os2ip sig)
    < 256 ^ Z.of_nat (pss_em_len (em_bits (sk_pub k))).
Proof.
  intros Hk H32 Hh Ho L8. pose proof (good_pub k Hk) as Hp.
  rewrite <- rfc_pss_producible by auto. rewrite c16_scheme_exact by auto. split.
  - intros H. pose proof H as (L & V & _). split; [split; [exact L|apply rfc_pss_accepts; auto]|].
    split; [exact V|]. exact (rfc_pss_small _ _ _ _ _ _ _ _ _ H).
  - intros ((L & A) & V & S). apply pss_accepts_small; auto.
Qed.

(** The representative always fits unless the bit length is 1 modulo 8. *)
Lemma fits_em pk s : wf_pub pk -> (Z.to_nat (ubits (pk_n pk)) mod 8 <> 1)%nat ->
  RSAEP (uval (pk_n pk)) (uval (pk_e pk)) s < 256 ^ Z.of_nat (pss_em_len (em_bits pk)).
Proof.
  intros Hp Hm. destruct (nbits_facts pk Hp) as (B1 & B2 & B3 & B4 & B5).
  unfold em_bits. set (b := Z.to_nat (ubits (pk_n pk))) in *.
  assert (Ek : pss_em_len (b - 1) = key_size pk).
  { pose proof (div_ceil8_spec b) as S1. pose proof (div_ceil8_spec (b - 1)) as S2.
    change (pss_em_len (b - 1)) with (div_ceil8 (b - 1)). rewrite B2 in S1.
    pose proof (Nat.div_mod b 8 ltac:(lia)). lia. }
  rewrite Ek. pose proof (RSAEP_range (uval (pk_n pk)) (uval (pk_e pk)) s (odd_pos_n _ Hp)).
  pose proof (key_n_lt _ Hp). lia.
Qed.

(** ** Key objects *)

Lemma try_from_inj pk sig sig' s : wf_pub pk -> uprec (pk_n pk) < 2 ^ 32 -> length sig = key_size pk ->
  length sig' = key_size pk -> signature_try_from sig = Ok s -> signature_try_from sig' = Ok s -> sig = sig'.
Proof.
  intros Hp H32 L L' E E'. rewrite (sig_object pk Hp H32) in E, E' by auto.
  apply octets_eq; [congruence|]. congruence.
Qed.

Lemma accept_p1_keys {R} (g : rng_ops R) fuel rng k prefix hashed sig s :
  (rng <> None -> rng_ok g) -> good_priv k -> uprec (pk_n (sk_pub k)) < 2 ^ 32 ->
  stored_minimally (pk_n (sk_pub k)) -> length sig = key_size (sk_pub k) -> signature_try_from sig = Ok s ->
  blinding_succeeds g (uval (pk_n (sk_pub k))) rng fuel ->
  let sk := mkP1SK k prefix in
  p1vk_verify_prehash (p1sk_verifying_key sk) hashed s = Ok tt <-> p1sk_sign_prehash g fuel rng sk hashed = Ok s.
Proof.
  intros Hr Hk H32 M L T B sk. pose proof (good_pub k Hk) as Hp.
  pose proof (accept_pkcs1v15_sig g fuel rng k (mkP1S None prefix) hashed sig Hr Hk H32 M L B) as A.
  cbn [scheme_sign check_hash_len p1_hash_len p1_prefix public_verify bind] in A.
  pose proof T as T'. unfold signature_try_from in T'. apply bind_ok in T'. destruct T' as (u & U & Es).
  apply ok_inj in Es. subst s. rewrite U in A. cbn [bind] in A.
  unfold p1vk_verify_prehash, p1sk_sign_prehash, sk, p1sk_verifying_key, to_public_key.
  cbn [p1sk_inner p1sk_prefix p1vk_inner p1vk_prefix sg_inner]. rewrite A. split.
  - intros ->. cbn [bind]. exact T.
  - intros H. apply bind_ok in H. destruct H as (sig' & S & T').
    assert (L' : length sig' = key_size (sk_pub k)).
    { destruct (pkcs1v15_sign_exact g fuel rng k prefix hashed Hr Hk) as [S1 S2].
      destruct (Nat.lt_ge_cases (key_size (sk_pub k)) (length (prefix ++ hashed) + 11)) as [X|X].
      { rewrite (S1 X) in S. discriminate. }
      destruct (S2 ltac:(lia)) as (S3 & _). rewrite (S3 B) in S. apply ok_inj in S. subst sig'. apply i2osp_length. }
    rewrite (try_from_inj (sk_pub k) sig sig' _ Hp H32 L L' T T'). exact S.
Qed.

Lemma accept_pss_keys k hd sl hashed sig s :
  good_priv k -> uprec (pk_n (sk_pub k)) < 2 ^ 32 -> (0 < h_size hd)%nat -> Z.of_nat (h_size hd + sl + 2) < 2 ^ 64 ->
  stored_minimally (pk_n (sk_pub k)) -> length sig = key_size (sk_pub k) -> signature_try_from sig = Ok s ->
  let sk := pssk_new_with_salt_len false k sl in
  (exists f t, pssk_sign_prehash tape hd f t sk hashed = Ok s) <->
  psvk_verify_prehash hd (pssk_verifying_key sk) hashed s = Ok tt /\
  RSAEP (uval (pk_n (sk_pub k))) (uval (pk_e (sk_pub k))) (os2ip sig)
    < 256 ^ Z.of_nat (pss_em_len (em_bits (sk_pub k))).
Proof.
  intros Hk H32 Hh Ho M L T sk. pose proof (good_pub k Hk) as Hp.
  assert (P : (exists f t, pssk_sign_prehash tape hd f t sk hashed = Ok s) <->
              exists f t, pss_sign_digest tape hd f t false k hashed sl = Ok sig).
  { unfold pssk_sign_prehash, sk, pssk_new_with_salt_len. cbn [pssk_blinded pssk_inner pssk_salt_len]. split.
    - intros (f & t & H). apply bind_ok in H. destruct H as (sig' & S & T'). exists f, t.
      destruct (sign_tape_inv _ _ _ _ _ _ _ Hk H32 Hh S) as (_ & _ & salt & _ & E).
      assert (L' : length sig' = key_size (sk_pub k)) by (subst sig'; apply i2osp_length).
      rewrite (try_from_inj (sk_pub k) sig sig' _ Hp H32 L L' T T'). exact S.
    - intros (f & t & S). exists f, t. rewrite S. exact T. }
  rewrite P, <- rfc_pss_producible by auto.
  destruct (c16_keys hd (pssk_verifying_key sk) hashed sig s Hh Ho Hp H32 M L T) as (_ & A & _). split.
  - intros H. split; [exact (A H)|]. exact (rfc_pss_small _ _ _ _ _ _ _ _ _ H).
  - intros (H & S). pose proof T as T'. rewrite (sig_object (sk_pub k) Hp H32 sig L) in T'. apply ok_inj in T'.
    apply (c16_keys_exact hd (pssk_verifying_key sk) hashed s Hh Ho Hp H32) in H.
    + rewrite <- T' in H. cbn [sg_inner uval] in H. destruct H as (V & _ & Acc). apply pss_accepts_small; auto.
    + rewrite <- T'. cbn [sg_inner]. rewrite <- L. apply sig_uint_wf.
Qed.
