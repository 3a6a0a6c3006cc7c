(** Further lemmas for PropMisc.v: refused keys, key-object equality and blinding,
    pre-fed digests, CRT accessors, conversions. *)
From Coq Require Import ZArith List Bool Lia Znumtheory.
From Coq Require Import Init.Byte.
From Verif Require Import Base Bigint BytesLemmas NumTheory SpecRFC SpecRng SpecSig SpecKey BigintLemmas MHash MPad MMgf
  MPkcs1 MOaep MPss MRsa MGenerate MKey MApi MWrap MMisc KeyDefs.
From Verif Require Import PPad PPkcs1 POaep PPss PRsa PApi PSig PEnc PHist PPub PSign PRaw PWrap PMisc.
Import ListNotations.
Local Open Scope Z_scope.

(** * C25 *)
Section Refused.
  Context {R : Type} (g : rng_ops R).

  Lemma refused_everywhere fuel st pk e hd hm lab pad msg :
    check_public pk = Err e ->
    public_encrypt g fuel st pk pad msg = Err e /\
    p1ek_encrypt g fuel st (p1ek_new pk) msg = Err e /\
    oek_encrypt g hd hm st (mkOEK pk lab) msg = Err e.
  Proof.
    intros C. split; [|split].
    - destruct pad; cbn [public_encrypt]; [unfold pkcs1v15_encrypt|unfold oaep_api_encrypt]; rewrite C; reflexivity.
    - unfold p1ek_encrypt, pkcs1v15_encrypt. cbn [p1ek_new p1ek_inner]. rewrite C. reflexivity.
    - unfold oek_encrypt, oaep_api_encrypt_digest. cbn [oek_inner]. rewrite C. reflexivity.
  Qed.
End Refused.

(** * Equality of signing and verifying keys *)

Lemma p1sk_eqb_spec a b : p1sk_eqb a b = true <->
  priv_eqb (p1sk_inner a) (p1sk_inner b) = true /\ p1sk_prefix a = p1sk_prefix b.
Proof. unfold p1sk_eqb. rewrite andb_true_iff, bytes_eqb_eq. tauto. Qed.
Lemma p1vk_eqb_spec a b : p1vk_eqb a b = true <->
  pub_eqb (p1vk_inner a) (p1vk_inner b) = true /\ p1vk_prefix a = p1vk_prefix b.
Proof. unfold p1vk_eqb. rewrite andb_true_iff, bytes_eqb_eq. tauto. Qed.
Lemma pssk_eqb_spec a b : pssk_eqb a b = true <->
  priv_eqb (pssk_inner a) (pssk_inner b) = true /\ pssk_salt_len a = pssk_salt_len b.
Proof. unfold pssk_eqb. rewrite andb_true_iff, Nat.eqb_eq. tauto. Qed.
Lemma psvk_eqb_spec a b : psvk_eqb a b = true <->
  pub_eqb (psvk_inner a) (psvk_inner b) = true /\ psvk_salt_len a = psvk_salt_len b.
Proof. unfold psvk_eqb. rewrite andb_true_iff, Nat.eqb_eq. tauto. Qed.

Section KeyObjects.
  Context {R : Type} (g : rng_ops R).

  Lemma eq_p1sk a b hd fuel rng msg : (rng <> None -> rng_ok g) ->
    good_priv (p1sk_inner a) -> good_priv (p1sk_inner b) -> p1sk_eqb a b = true ->
    uprec (pk_n (sk_pub (p1sk_inner a))) = uprec (pk_n (sk_pub (p1sk_inner b))) ->
    p1sk_sign g hd fuel rng a msg = p1sk_sign g hd fuel rng b msg.
  Proof.
    intros Hg Ga Gb E P. apply p1sk_eqb_spec in E. destruct E as (E & X).
    pose proof (eq_scheme_sign g _ _ fuel rng (SigPkcs1v15 (mkP1S None (p1sk_prefix a)))
                  (digest_oneshot hd msg) Hg Ga Gb E P) as Q.
    cbn [scheme_sign check_hash_len p1_hash_len p1_prefix bind] in Q.
    unfold p1sk_sign, p1sk_sign_prehash. rewrite Q, X. reflexivity.
  Qed.

  Lemma eq_p1vk a b hd msg s : wf_pub (p1vk_inner a) -> wf_pub (p1vk_inner b) -> p1vk_eqb a b = true ->
    uprec (pk_n (p1vk_inner a)) = uprec (pk_n (p1vk_inner b)) ->
    p1vk_verify hd a msg s = p1vk_verify hd b msg s.
  Proof.
    intros Wa Wb E P. apply p1vk_eqb_spec in E. destruct E as (E & X).
    destruct (eq_n _ _ E P) as (En & Ee). destruct (eq_size _ _ En) as (Ks & Np).
    unfold p1vk_verify, p1vk_verify_prehash, pkcs1v15_verify. rewrite En, Ks, Np, X.
    destruct (_ || _); auto. rewrite (eq_encrypt _ _ (sg_inner s) Wa Wb En Ee). reflexivity.
  Qed.

  Lemma eq_psvk a b hd msg s : wf_pub (psvk_inner a) -> wf_pub (psvk_inner b) -> psvk_eqb a b = true ->
    uprec (pk_n (psvk_inner a)) = uprec (pk_n (psvk_inner b)) ->
    psvk_verify hd a msg s = psvk_verify hd b msg s.
  Proof.
    intros Wa Wb E P. apply psvk_eqb_spec in E. destruct E as (E & X).
    destruct (eq_n _ _ E P) as (En & Ee). destruct (eq_size _ _ En) as (Ks & Np).
    unfold psvk_verify, psvk_verify_prehash, pss_verify_digest. rewrite En, Ks, Np, X.
    destruct (_ || _); auto. rewrite (eq_encrypt _ _ (sg_inner s) Wa Wb En Ee). reflexivity.
  Qed.

  Lemma eq_pssk a b hd fuel st msg : rng_ok g ->
    good_priv (pssk_inner a) -> good_priv (pssk_inner b) -> pssk_eqb a b = true ->
    pssk_blinded a = pssk_blinded b ->
    uprec (pk_n (sk_pub (pssk_inner a))) = uprec (pk_n (sk_pub (pssk_inner b))) ->
    pssk_sign g hd fuel st a msg = pssk_sign g hd fuel st b msg.
  Proof.
    intros Hg Ga Gb E B P. apply pssk_eqb_spec in E. destruct E as (E & X).
    destruct (priv_eq _ _ E P) as (En & Ee & Ed).
    assert (Q : forall h, pssk_sign_prehash g hd fuel st a h = pssk_sign_prehash g hd fuel st b h).
    { intros h. unfold pssk_sign_prehash, pss_sign_digest. rewrite B, X.
      destruct (rng_fill g st _) as [[salt|] st']; auto.
      unfold sign_pss_with_salt_digest. rewrite En.
      destruct (usub _ _); cbn [bind]; auto.
      destruct (emsa_pss_encode_digest _ _ _ _) as [em| | |]; cbn [bind]; auto.
      apply (f_equal (fun o => let* s := o in signature_try_from s)).
      exact (eq_core g _ _ fuel (if pssk_blinded b then Some st' else None) em (fun _ => Hg) Ga Gb En Ed). }
    unfold pssk_sign, pssk_sign_digest. rewrite B, !Q. reflexivity.
  Qed.
End KeyObjects.

(** * C74: digests that have already absorbed octets *)

Lemma prefed_encrypt {R} (g : rng_ops R) fuel st pk hd x md label msg :
  Z.of_nat (length x + length (label_bytes label)) < 2 ^ 61 ->
  public_encrypt g fuel st pk (PadOaep (mkOaep (digest_update (digest_new hd) x) md label)) msg =
  public_encrypt g fuel st pk (PadOaep (mkOaep (digest_new hd) md (Some (x ++ label_bytes label)))) msg.
Proof.
  intros L. cbn [public_encrypt]. unfold oaep_api_encrypt, oaep_encrypt, MAX_LABEL_LEN. cbn [oa_digest oa_mgf oa_label label_bytes].
  rewrite app_length.
  destruct (Z.leb_spec (2 ^ 61) (Z.of_nat (length (label_bytes label)))) as [B|B]; [lia|].
  destruct (Z.leb_spec (2 ^ 61) (Z.of_nat (length x + length (label_bytes label)))) as [C|C]; [lia|].
  reflexivity.
Qed.

Lemma prefed_decrypt {R} (g : rng_ops R) fuel rng k hd x md label ct :
  Z.of_nat (length x + length (label_bytes label)) < 2 ^ 61 ->
  scheme_decrypt g fuel rng k (PadOaep (mkOaep (digest_update (digest_new hd) x) md label)) ct =
  scheme_decrypt g fuel rng k (PadOaep (mkOaep (digest_new hd) md (Some (x ++ label_bytes label)))) ct.
Proof.
  intros L. cbn [scheme_decrypt]. unfold oaep_api_decrypt, oaep_decrypt, MAX_LABEL_LEN. cbn [oa_digest oa_mgf oa_label label_bytes].
  rewrite app_length.
  destruct (Z.leb_spec (2 ^ 61) (Z.of_nat (length (label_bytes label)))) as [B|B]; [lia|].
  destruct (Z.leb_spec (2 ^ 61) (Z.of_nat (length x + length (label_bytes label)))) as [C|C]; [lia|].
  reflexivity.
Qed.

(** * C75: the CRT accessors *)

Lemma valid_congr n e d ps p : valid_rsa_key n e d ps -> In p ps -> 1 < p - 1 ->
  (e * (d mod (p - 1))) mod (p - 1) = 1.
Proof.
  intros (_ & _ & _ & _ & _ & _ & H) I L. rewrite Zmult_mod_idemp_r, (H p I).
  apply Z.mod_small; lia.
Qed.

Lemma good_primes2 k p q rest : good_priv k -> sk_primes k = p :: q :: rest ->
  2 < uval p /\ 2 < uval q.
Proof.
  intros (W & _ & _ & HV & _) EP. pose proof W as (_ & _ & _ & O).
  pose proof HV as (_ & HP & _ & HN & _). rewrite EP in HP, HN. cbn [map] in HP, HN.
  assert (Ho : forall x, In x (uval p :: uval q :: map uval rest) -> Z.odd x = true)
    by (apply odd_factors; rewrite <- HN; auto).
  inversion HP as [|? ? Pp HP2]; subst. inversion HP2 as [|? ? Pq HP3]; subst.
  split; apply odd_prime_gt2; auto; apply Ho; simpl; auto.
Qed.

Lemma crt_accessors k p q rest : good_priv k -> sk_primes k = p :: q :: rest -> sk_pre k <> None ->
  exists dp dq qi,
    priv_dp k = Some dp /\ priv_dq k = Some dq /\ priv_qinv k = Some qi /\
    priv_p_params k = Some (mkMP (mkU (uval p) (uprec (sk_d k)))) /\
    priv_q_params k = Some (mkMP (mkU (uval q) (uprec (sk_d k)))) /\
    0 < uval dp < uval p - 1 /\ (uval (pk_e (sk_pub k)) * uval dp) mod (uval p - 1) = 1 /\
    0 < uval dq < uval q - 1 /\ (uval (pk_e (sk_pub k)) * uval dq) mod (uval q - 1) = 1 /\
    0 < mf_res qi < uval p /\ (uval q * mf_res qi) mod uval p = 1.
Proof.
  intros G EP NP. destruct (sk_pre k) as [pc|] eqn:Es; [|congruence].
  pose proof G as (W & Wd & HF & HV & _ & Hpre).
  destruct (good_primes2 k p q rest G EP) as (Lp & Lq).
  destruct (pre_consistent_inv k pc Wd HF Hpre Es) as (p' & q' & rest' & qi & EP' & H).
  rewrite EP in EP'. injection EP' as <- <- <-. cbv zeta in H.
  destruct H as (_ & _ & _ & _ & B & C & ->).
  rewrite (Z.mod_small 1) in C by lia.
  assert (Vp := valid_congr _ _ _ _ (uval p) HV ltac:(rewrite EP; simpl; auto) ltac:(lia)).
  assert (Vq := valid_congr _ _ _ _ (uval q) HV ltac:(rewrite EP; simpl; auto) ltac:(lia)).
  pose proof (Z.mod_pos_bound (uval (sk_d k)) (uval p - 1) ltac:(lia)).
  pose proof (Z.mod_pos_bound (uval (sk_d k)) (uval q - 1) ltac:(lia)).
  unfold priv_dp, priv_dq, priv_qinv, priv_p_params, priv_q_params. rewrite Es. cbn [option_map pc_dp pc_dq pc_qinv pc_p_params pc_q_params].
  do 3 eexists. do 5 (split; [reflexivity|]). cbn [uval mf_res].
  assert (Z0 : forall a m, 1 < m -> (a * 0) mod m <> 1) by (intros; rewrite Z.mul_0_r, Zmod_0_l; discriminate).
  split; [|split; [exact Vp|split; [|split; [exact Vq|split; [|exact C]]]]].
  - destruct (Z.eq_dec (uval (sk_d k) mod (uval p - 1)) 0) as [E|]; [|lia].
    rewrite E in Vp. apply Z0 in Vp; lia.
  - destruct (Z.eq_dec (uval (sk_d k) mod (uval q - 1)) 0) as [E|]; [|lia].
    rewrite E in Vq. apply Z0 in Vq; lia.
  - destruct (Z.eq_dec qi 0) as [E|]; [|lia]. rewrite E in C. apply Z0 in C; lia.
Qed.

(** The coefficient computed on demand is the stored one. *)
Lemma crt_coefficient_agrees k qi c : good_priv k -> priv_qinv k = Some qi ->
  crt_coefficient k = Ok (Some c) -> uval c = mf_res qi.
Proof.
  intros G Q C.
  assert (NP : sk_pre k <> None) by (unfold priv_qinv in Q; destruct (sk_pre k); [discriminate|discriminate]).
  unfold crt_coefficient in C.
  destruct (sk_primes k) as [|p [|q rest]] eqn:EP; cbn [get_idx nth_error bind] in C; try discriminate.
  destruct (good_primes2 k p q rest G EP) as (Lp & _).
  destruct (crt_accessors k p q rest G EP NP) as (dp & dq & qi' & _ & _ & Q' & _ & _ & _ & _ & _ & _ & B & V).
  rewrite Q in Q'. injection Q' as <-.
  unfold uinv_mod in C. destruct (uprec q =? uprec p); [|discriminate].
  destruct (zinv (uval q) (uval p)) as [x|] eqn:Ex; [|discriminate]. injection C as <-. cbn [uval].
  apply zinv_some in Ex. destruct Ex as (_ & X1 & X2).
  rewrite (Z.mod_small 1) in X2 by lia.
  assert (Y : (x * ((uval q * mf_res qi) mod uval p)) mod uval p = x) by (rewrite V, Z.mul_1_r; apply Z.mod_small; lia).
  rewrite Zmult_mod_idemp_r in Y.
  replace (x * (uval q * mf_res qi)) with (uval q * x * mf_res qi) in Y by ring.
  rewrite <- Zmult_mod_idemp_l, X2, Z.mul_1_l, Z.mod_small in Y by lia. lia.
Qed.

(** * Which PSS key objects draw a blinding factor *)

Lemma pssk_blinding {R} (g : rng_ops R) hd fuel st st' bl k sl salt h :
  rng_ok g -> (0 < h_size hd)%nat -> good_priv k -> uprec (pk_n (sk_pub k)) < 2 ^ 32 ->
  length h = h_size hd -> (h_size hd + sl + 2 <= pss_em_len (em_bits (sk_pub k)))%nat ->
  rng_fill g st sl = (Some salt, st') ->
  blinding_fails g (uval (pk_n (sk_pub k))) (Some st') fuel ->
  let r := pssk_sign_prehash g hd fuel st (pssk_new_with_salt_len bl k sl) h in
  if bl then r = Err Rng else exists s, r = Ok s.
Proof.
  intros Hg Hh G H32 Lh Ls F B. cbv zeta. destruct bl.
  - destruct (c41_pss_sign g hd fuel st true k h sl Hg Hh G H32) as (_ & X).
    specialize (X salt st' F eq_refl Lh Ls B). unfold private_sign_with_rng in X.
    cbn [scheme_sign ps_blinded ps_salt_len ps_digest] in X. rewrite pss_sign_agree in X.
    unfold pssk_sign_prehash, pssk_new_with_salt_len. cbn [pssk_blinded pssk_inner pssk_salt_len].
    rewrite X. reflexivity.
  - destruct (c15_keys g hd fuel st st' false k h sl salt Hg Hh G H32 Lh Ls F I) as (s & E & _).
    exists s. exact E.
Qed.

Lemma pssk_blinding_all {R} (g : rng_ops R) hd fuel st st' bl k sl salt msg chunks h :
  rng_ok g -> (0 < h_size hd)%nat -> good_priv k -> uprec (pk_n (sk_pub k)) < 2 ^ 32 ->
  length h = h_size hd -> (h_size hd + sl + 2 <= pss_em_len (em_bits (sk_pub k)))%nat ->
  rng_fill g st sl = (Some salt, st') ->
  blinding_fails g (uval (pk_n (sk_pub k))) (Some st') fuel ->
  forall r, In r [pssk_sign g hd fuel st (pssk_new_with_salt_len bl k sl) msg;
                  pssk_sign_prehash g hd fuel st (pssk_new_with_salt_len bl k sl) h;
                  pssk_sign_digest g hd fuel st (pssk_new_with_salt_len bl k sl)
                                   (fold_left digest_update chunks (digest_new hd))] ->
  if bl then r = Err Rng else exists s, r = Ok s.
Proof.
  intros Hg Hh G H32 Lh Ls F B r I.
  pose proof (fun h L => pssk_blinding g hd fuel st st' bl k sl salt h Hg Hh G H32 L Ls F B) as X.
  cbv zeta in X. destruct I as [<-|[<-|[<-|[]]]].
  - unfold pssk_sign, pssk_sign_digest, digest_oneshot.
    destruct (pssk_blinded _); apply X; apply h_len.
  - apply X; auto.
  - unfold pssk_sign_digest, digest_finalize_reset, fst.
    assert (D : d_fn (fold_left digest_update chunks (digest_new hd)) = hd).
    { change hd with (d_fn (digest_new hd)) at 2. generalize (digest_new hd).
      induction chunks as [|c cs IH]; intros d; cbn [fold_left]; auto. rewrite IH. reflexivity. }
    apply X. rewrite D. apply h_len.
Qed.
