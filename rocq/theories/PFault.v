(** Lemmas for PropFault.v: the private operation under faults. *)
From Coq Require Import ZArith Znumtheory Zpow_facts List Bool Lia.
From Coq Require Import Init.Byte.
From Verif Require Import Base Bigint BytesLemmas NumTheory SpecRFC SpecRng SpecSig SpecKey BigintLemmas MHash MPad MMgf
  MPkcs1 MOaep MPss MRsa MKey MApi MWrap MFault KeyDefs.
From Verif Require Import PPad PPkcs1 POaep PPss PRsa PApi PSig PEnc PHist PPub PSign PRaw.
Import ListNotations.
Local Open Scope Z_scope.

Lemma hit_none s u : hit no_fault s u = u. Proof. reflexivity. Qed.

Lemma hit_prec F s u : uprec (hit F s u) = uprec u.
Proof. unfold hit. destruct (F s); reflexivity. Qed.

Lemma hit_wf F s u : wf_uint u -> wf_uint (hit F s u).
Proof.
  intros (V & P & M). unfold hit. destruct (F s); [|split; auto].
  apply wf_mk; auto. apply Z.mod_pos_bound. apply Z.pow_pos_nonneg; lia.
Qed.

Section Faults.
  Context {R : Type} (g : rng_ops R).

  (** Without a fault it is the model of the crate. *)
  Lemma bind_id {A} (o : outcome A) : (let* x := o in Ok x) = o.
  Proof. destruct o; reflexivity. Qed.

  Lemma no_fault_decrypt fuel rng k c :
    rsa_decrypt_f g no_fault fuel rng k c = rsa_decrypt g fuel rng k c.
  Proof.
    unfold rsa_decrypt_f, rsa_decrypt. destruct (uleb _ _); auto. cbv zeta.
    match goal with |- bind ?a _ = bind ?b _ => change a with b; destruct b as [[x y]| | |] end;
      cbn [bind]; auto.
    match goal with |- bind ?a _ = bind ?b _ => assert (E : a = b) end.
    { destruct (sk_pre k); [destruct (2 <? length (sk_primes k))%nat|]; try apply bind_id.
      reflexivity. }
    rewrite E. clear E.
    match goal with |- bind ?a _ = _ => destruct a end; cbn [bind]; auto.
    destruct (shorten _ _); cbn [bind]; auto. destruct y; auto. apply bind_id.
  Qed.

  Lemma no_fault_check fuel rng k c :
    rsa_decrypt_and_check_f g no_fault fuel k rng c = rsa_decrypt_and_check g fuel k rng c.
  Proof.
    unfold rsa_decrypt_and_check_f, rsa_decrypt_and_check. rewrite no_fault_decrypt. reflexivity.
  Qed.

  (** The result is a number as wide as the modulus, whatever went wrong. *)
  Lemma decrypt_f_prec F fuel rng k c m :
    wf_pub (sk_pub k) -> rsa_decrypt_f g F fuel rng k c = Ok m ->
    wf_uint m /\ uprec m = uprec (pk_n (sk_pub k)) /\ uval c < uval (pk_n (sk_pub k)).
  Proof.
    intros Hpub H.
    pose proof (odd_pos_n _ Hpub) as Hn0. pose proof Hpub as (Hn & _ & Hpar & _).
    pose proof Hn as (Hv & P1 & P2).
    unfold rsa_decrypt_f in H. unfold uleb in H.
    destruct (Z.leb_spec (uval (pk_n (sk_pub k))) (uval c)); [discriminate|]. cbv zeta in H.
    apply bind_ok in H. destruct H as ((c' & ir) & _ & H).
    apply bind_ok in H. destruct H as (m' & _ & H).
    apply bind_ok in H. destruct H as (m'' & Hs & H).
    rewrite Hpar in *. unfold mp_prec in *. cbn [mp_modulus] in *.
    unfold shorten in Hs. destruct (_ <=? _); [|discriminate]. injection Hs as <-.
    rewrite prec_for_id in H by auto.
    assert (B : 0 < 2 ^ uprec (pk_n (sk_pub k))) by (apply Z.pow_pos_nonneg; lia).
    destruct ir as [ir|].
    - apply bind_ok in H. destruct H as (m2 & H & E). injection E as <-.
      unfold unblind in H. apply bind_ok in H. destruct H as (_ & _ & H).
      apply bind_ok in H. destruct H as (_ & _ & H).
      unfold mul_mod_params in H. apply bind_ok in H. destruct H as (l1 & El & H).
      apply bind_ok in H. destruct H as (r1 & Er & H). injection H as <-.
      unfold mf_new in El. destruct (_ =? _); [|discriminate]. injection El as <-.
      rewrite hit_prec. split; [|split; auto]. apply hit_wf.
      unfold mf_retrieve, mf_mul, mp_prec, mp_val. cbn [mf_params mf_res mp_modulus uval uprec].
      apply wf_mk; auto.
      match goal with |- _ <= ?a mod ?b < _ => pose proof (Z.mod_pos_bound a b Hn0) end. lia.
    - injection H as <-. rewrite !hit_prec. split; [|split; auto].
      apply hit_wf, hit_wf. apply wf_mk; auto. apply Z.mod_pos_bound; auto.
  Qed.

  Lemma check_f_sound F fuel rng k c m :
    wf_pub (sk_pub k) -> rsa_decrypt_and_check_f g F fuel k rng c = Ok m ->
    RSAEP (uval (pk_n (sk_pub k))) (uval (pk_e (sk_pub k))) (uval m) = uval c
    /\ uval c < uval (pk_n (sk_pub k)) /\ wf_uint m /\ uprec m = uprec (pk_n (sk_pub k)).
  Proof.
    intros Hpub H. unfold rsa_decrypt_and_check_f in H.
    apply bind_ok in H. destruct H as (m' & Hd & H).
    apply bind_ok in H. destruct H as (chk & He & H).
    destruct (ueqb c chk) eqn:Eq; [|discriminate]. injection H as <-.
    apply decrypt_f_prec in Hd; auto. destruct Hd as (Hm & Hp & Hr).
    rewrite rsa_encrypt_small in He; auto.
    2:{ destruct Hm as (? & _). rewrite <- Hp; lia. }
    injection He as <-. unfold ueqb in Eq. cbn [uval] in Eq. apply Z.eqb_eq in Eq. auto.
  Qed.

  (** A number with the right power is the right number, modulo n. *)
  Lemma ep_unique n e d ps x c :
    valid_rsa_key n e d ps -> 0 < n -> RSAEP n e x = c -> x mod n = RSADP n d c.
  Proof.
    intros HV Hn <-. pose proof (rsa_id n e d ps x HV) as E.
    pose proof HV as (_ & _ & _ & _ & He & Hd & _).
    unfold RSADP, RSAEP. rewrite pow_mod_base by lia. rewrite <- Z.pow_mul_r by lia. auto.
  Qed.

  Lemma check_f_valid F fuel rng k c m :
    good_priv k -> rsa_decrypt_and_check_f g F fuel k rng c = Ok m ->
    uval m mod uval (pk_n (sk_pub k)) = RSADP (uval (pk_n (sk_pub k))) (uval (sk_d k)) (uval c).
  Proof.
    intros Hk H. pose proof (good_pub k Hk) as Hp. apply check_f_sound in H; auto.
    destruct H as (E & _). pose proof Hk as (_ & _ & _ & HV & _).
    eapply ep_unique; eauto. apply odd_pos_n; auto.
  Qed.

  (** The part common to the schemes. *)
  Definition core_f (F : fault) (fuel : nat) (rng : option R) (k : privkey) (ct : list byte)
    : outcome (list byte) :=
    let* c := from_be_slice ct (n_bits_precision (sk_pub k)) in
    let* em := rsa_decrypt_and_check_f g F fuel k rng c in
    uint_to_zeroizing_be_pad em (key_size (sk_pub k)).

  Lemma core_f_sound F fuel rng k ct em : wf_pub (sk_pub k) ->
    core_f F fuel rng k ct = Ok em ->
    length em = key_size (sk_pub k) /\ 8 * Z.of_nat (length ct) <= uprec (pk_n (sk_pub k)) /\
    os2ip ct < uval (pk_n (sk_pub k)) /\
    RSAEP (uval (pk_n (sk_pub k))) (uval (pk_e (sk_pub k))) (os2ip em) = os2ip ct.
  Proof.
    intros Hp H. pose proof Hp as ((_ & P1 & P2) & _).
    destruct (Z.le_gt_cases (8 * Z.of_nat (length ct)) (uprec (pk_n (sk_pub k)))) as [L|L].
    2:{ unfold core_f, n_bits_precision in H. exfalso. rewrite from_be_slice_spec in H by lia.
        destruct (Z.eqb_spec (Z.of_nat (length ct)) 0); [lia|]. cbn [andb] in H.
        apply Z.mod_divide in P2; [|lia]. destruct P2 as [j Hj].
        replace ((uprec (pk_n (sk_pub k)) + 7) / 8) with (8 * j) in H
          by (rewrite Hj; apply Z.div_unique with 7; lia).
        destruct (Z.ltb_spec (8 * j) (Z.of_nat (length ct))); [discriminate|lia]. }
    unfold core_f, n_bits_precision in H. rewrite from_be_slice_fits in H by auto. cbn [bind] in H.
    apply bind_ok in H. destruct H as (m & Em & H).
    apply check_f_sound in Em; auto.
    cbn [uval] in Em. destruct Em as (E1 & E2 & W & _).
    destruct (C21_lemma m (key_size (sk_pub k)) W) as [A B].
    destruct (Z.lt_ge_cases (uval m) (256 ^ Z.of_nat (key_size (sk_pub k)))) as [V|V].
    - destruct (A V) as (X & _ & EX & L1 & V1). rewrite EX in H. injection H as <-.
      rewrite V1. auto.
    - destruct (B V) as (_ & EX). rewrite EX in H. discriminate.
  Qed.

  (** A block that begins with 00 and opens to the ciphertext is the block the key
      decrypts to. *)
  Lemma core_f_block F fuel rng k ct em : good_priv k ->
    core_f F fuel rng k ct = Ok (x00 :: em) -> decrypt_core g fuel None k ct = Ok (x00 :: em).
  Proof.
    intros Hk H. pose proof (good_pub k Hk) as Hp. apply core_f_sound in H; auto.
    destruct H as (L & Lc & Hr & E). pose proof (block00_lt _ _ Hp L) as Hlt.
    destruct (decrypt_core_good g fuel None k ct ltac:(congruence) Hk Lc Hr) as (A & _).
    rewrite A by exact I. f_equal. pose proof Hk as (_ & _ & _ & HV & _).
    apply ep_unique with (d := uval (sk_d k)) (ps := map uval (sk_primes k)) in E; auto;
      [|apply odd_pos_n; auto].
    rewrite <- E. rewrite Z.mod_small by (split; [apply os2ip_range|auto]).
    apply i2osp_os2ip; auto.
  Qed.

  Lemma faulty_pkcs1_decrypt F fuel rng k ct msg :
    good_priv k -> pkcs1v15_decrypt_f g F fuel rng k ct = Ok msg ->
    pkcs1v15_decrypt g fuel None k ct = Ok msg.
  Proof.
    intros Hk H. pose proof (good_pub k Hk) as Hp.
    rewrite pkcs1v15_decrypt_core. unfold pkcs1v15_decrypt_f in H.
    apply bind_ok in H. destruct H as ([] & C & H). rewrite C. cbn [bind].
    apply check_public_ok in C; auto. pose proof (usable_size _ Hp C) as Hs.
    assert (H' : (let* em := core_f F fuel rng k ct in
                  pkcs1v15_encrypt_unpad em (key_size (sk_pub k))) = Ok msg).
    { rewrite <- H. unfold core_f. destruct (from_be_slice _ _); cbn [bind]; auto.
      destruct (rsa_decrypt_and_check_f _ _ _ _ _ _); cbn [bind]; auto. }
    clear H. apply bind_ok in H'. destruct H' as (em & E & H).
    pose proof E as E'. apply core_f_sound in E'; auto. destruct E' as (L & _).
    pose proof H as H0. apply C05_lemma in H0; auto; [|lia].
    destruct H0 as (_ & PS & Eem & _). unfold eme_pkcs1 in Eem. subst em.
    rewrite (core_f_block _ _ _ _ _ _ Hk E). exact H.
  Qed.

  Lemma faulty_oaep_decrypt F fuel rng k ct hd hm label msg :
    good_priv k -> uprec (pk_n (sk_pub k)) < 2 ^ 32 -> (0 < h_size hm)%nat ->
    (11 <= key_size (sk_pub k))%nat ->
    oaep_api_decrypt_f g F fuel rng k ct (digest_new hd) (digest_new hm) label = Ok msg ->
    oaep_api_decrypt g fuel None k ct (digest_new hd) (digest_new hm) label = Ok msg.
  Proof.
    intros Hk H32 Hm H11 H. pose proof (good_pub k Hk) as Hp.
    pose proof (prec32_size _ Hp H32) as Hs.
    rewrite oaep_api_decrypt_dyn_core. unfold oaep_api_decrypt_f in H.
    destruct (negb _); [discriminate|].
    assert (H' : (let* em := core_f F fuel rng k ct in
                  oaep_decrypt em (digest_new hd) (digest_new hm) label (key_size (sk_pub k))) = Ok msg).
    { rewrite <- H. unfold core_f. destruct (from_be_slice _ _); cbn [bind]; auto.
      destruct (rsa_decrypt_and_check_f _ _ _ _ _ _); cbn [bind]; auto. }
    clear H. apply bind_ok in H'. destruct H' as (em & E & H). rewrite oaep_decrypt_agree in H.
    destruct (Z.leb_spec (2 ^ 61) (Z.of_nat (length (label_bytes label)))); [discriminate|].
    pose proof E as E'. apply core_f_sound in E'; auto. destruct E' as (L & _).
    pose proof H as HH. apply oaep_exact in HH; auto; [|lia].
    destruct HH as (seed & _ & _ & Eem). unfold oaep_encode in Eem. cbv zeta in Eem.
    destruct em as [|b em]; [discriminate|]. injection Eem as -> _.
    rewrite (core_f_block _ _ _ _ _ _ Hk E). exact H.
  Qed.

  Lemma faulty_pkcs1_sign F fuel rng k prefix hashed sig :
    wf_pub (sk_pub k) -> pkcs1v15_sign_f g F fuel rng k prefix hashed = Ok sig ->
    length sig = key_size (sk_pub k) /\
    RSAEP (uval (pk_n (sk_pub k))) (uval (pk_e (sk_pub k))) (os2ip sig)
    = os2ip (emsa_pkcs1 (prefix ++ hashed) (key_size (sk_pub k))).
  Proof.
    intros Hp H. change (pkcs1v15_sign_f g F fuel rng k prefix hashed)
      with (let* em := pkcs1v15_sign_pad prefix hashed (key_size (sk_pub k)) in core_f F fuel rng k em) in H.
    apply bind_ok in H. destruct H as (em & Ep & H). apply sign_pad_spec in Ep. destruct Ep as [_ ->].
    apply core_f_sound in H; auto. tauto.
  Qed.

  Lemma faulty_pss_sign F fuel rng k hashed salt hd sig :
    wf_pub (sk_pub k) -> uprec (pk_n (sk_pub k)) < 2 ^ 32 -> (0 < h_size hd)%nat ->
    sign_pss_with_salt_f g F fuel rng k hashed salt (digest_new hd) = Ok sig ->
    length sig = key_size (sk_pub k) /\
    RSAEP (uval (pk_n (sk_pub k))) (uval (pk_e (sk_pub k))) (os2ip sig)
    = os2ip (pss_encode (h_fun hd) (h_size hd) hashed salt (Z.to_nat (ubits (pk_n (sk_pub k))) - 1)).
  Proof.
    intros Hp H32 Hh H. unfold sign_pss_with_salt_f in H.
    destruct (nbits_facts _ Hp) as (B1 & _ & _ & B4 & _). pose proof (prec32_size _ Hp H32).
    rewrite usub_ok in H by auto. cbn [bind] in H. rewrite emsa_pss_encode_agree in H.
    rewrite emsa_pss_encode_digest_spec in H by (auto; lia).
    destruct (negb _); [discriminate|]. destruct (_ <? _)%nat; [discriminate|]. cbn [bind] in H.
    apply core_f_sound in H; auto. tauto.
  Qed.
End Faults.

(** * What the comparison prevents *)

Lemma gcd_of_congruence x y n : 0 < n -> x mod n = y -> 0 <= y < n -> Z.gcd (x - y) n = n.
Proof.
  intros Hn H Hy. rewrite Z.gcd_comm. apply Z.divide_gcd_iff; [lia|].
  exists (x / n). pose proof (Z.div_mod x n ltac:(lia)). lia.
Qed.

(** A result right modulo q and wrong modulo p gives q away. *)
Lemma half_right_factors p q e d m x :
  prime p -> prime q -> p <> q -> 0 < e -> 0 < d ->
  (e * d) mod (p - 1) = 1 mod (p - 1) ->
  m mod q = x mod q -> m mod p <> x mod p ->
  Z.gcd (m ^ e - (x ^ e) mod (p * q)) (p * q) = q.
Proof.
  intros Hp Hq Hne He Hd Hed Eq Np.
  pose proof (prime_ge_2 p Hp). pose proof (prime_ge_2 q Hq).
  assert (Hpq : 0 < p * q) by (apply Z.mul_pos_pos; lia).
  assert (Hed1 : 1 <= e * d) by (pose proof (Z.mul_pos_pos e d He Hd); lia).
  assert (Dq : (q | m ^ e - (x ^ e) mod (p * q))).
  { apply divide_mod_eq; [lia|]. rewrite (Z.mul_comm p q), <- Zmod_div_mod;
      [|lia|lia|exists p; ring]. rewrite (Zpower_mod m), (Zpower_mod x), Eq by lia. reflexivity. }
  assert (Dp : ~ (p | m ^ e - (x ^ e) mod (p * q))).
  { intros D. apply divide_mod_eq in D; [|lia].
    rewrite <- Zmod_div_mod in D; [|lia|lia|exists q; ring].
    apply Np. 
    assert (Z : forall y, (y ^ e) ^ d mod p = y mod p).
    { intros y. rewrite <- Z.pow_mul_r by lia. apply fermat_exp; auto. }
    rewrite <- (Z m), <- (Z x). rewrite (Zpower_mod (m ^ e)), (Zpower_mod (x ^ e)), D by lia. reflexivity. }
  destruct Dq as [j Hj]. rewrite Hj in *.
  rewrite Z.gcd_mul_mono_r_nonneg by lia.
  replace (Z.gcd j p) with 1; [lia|]. symmetry. apply Zgcd_1_rel_prime.
  apply rel_prime_sym, prime_rel_prime; auto. intros [i Hi]. apply Dp. exists (i * q). rewrite Hi. ring.
Qed.

Lemma garner_p p q qinv m1 m2 :
  0 < p -> (q * qinv) mod p = 1 mod p ->
  (((qinv * ((m1 - m2) mod p)) mod p) * q + m2) mod p = m1 mod p.
Proof.
  intros Hp Hi. rewrite <- Zplus_mod_idemp_l. rewrite Zmult_mod_idemp_l.
  replace (qinv * ((m1 - m2) mod p) * q) with (((m1 - m2) mod p) * (q * qinv)) by ring.
  rewrite <- Zmult_mod_idemp_r, Hi, Zmult_mod_idemp_r, Z.mul_1_r, Zmod_mod.
  rewrite Zplus_mod_idemp_l. f_equal; ring.
Qed.

(** The fault that hits the exponentiation modulo the first prime only. *)
Definition m1_fault (v : Z) : fault := fun s => match s with At_m1 => Some v | _ => None end.

Lemma crt_pow_f_m1 v c p q d bits qinv n e :
  prime (uval p) -> prime (uval q) -> 2 < uval p -> 2 < uval q ->
  n = uval p * uval q -> n < 2 ^ bits -> 64 <= bits ->
  uprec c = bits -> 0 < d ->
  (e * d) mod (uval q - 1) = 1 mod (uval q - 1) ->
  (uval q * qinv) mod uval p = 1 mod uval p ->
  let pc := mkPre (mkU (d mod (uval p - 1)) bits) (mkU (d mod (uval q - 1)) bits)
             (mkMF qinv (mkMP (mkU (uval p) bits)))
             (mkMP (mkU (uval p) bits)) (mkMP (mkU (uval q) bits)) in
  exists m, crt_pow_f (m1_fault v) c pc q = Ok (mkU m bits) /\ 0 <= m < n /\
    m mod uval p = (v mod 2 ^ bits) mod uval p /\ m mod uval q = uval c ^ d mod uval q.
Proof.
  intros Hp Hq Hp2 Hq2 Hn Hnb Hb Hcb Hd Heq Hi pc. unfold pc.
  unfold crt_pow_f. cbn [pc_p_params pc_q_params pc_dp pc_dq pc_qinv].
  unfold hit, hitm, m1_fault.
  unfold mf_new, mp_prec, mp_val. cbn [mp_modulus uprec uval].
  rewrite Hcb, Z.eqb_refl. cbn [bind].
  unfold mf_pow, mf_retrieve, mf_sub, mf_mul, mp_val, mp_prec.
  cbn [mf_res mf_params mp_modulus uval uprec bind].
  rewrite Z.eqb_refl. cbn [bind mf_res mf_params mp_modulus uval uprec].
  pose proof (Z.mod_pos_bound d (uval q - 1) ltac:(lia)).
  rewrite !powm_spec by lia.
  rewrite (crt_pow_exp_odd (uval q) (uval c) d e) by auto.
  set (v' := v mod 2 ^ bits). set (m2 := uval c ^ d mod uval q).
  assert (Hm2 : 0 <= m2 < uval q) by (apply Z.mod_pos_bound; lia).
  pose proof (garner_p (uval p) (uval q) qinv v' (m2 mod uval p) ltac:(lia) Hi) as G.
  set (hh := (qinv * ((v' - m2 mod uval p) mod uval p)) mod uval p) in *.
  assert (Hh : 0 <= hh < uval p) by (apply Z.mod_pos_bound; lia).
  assert (Hr : 0 <= hh * uval q + m2 < uval p * uval q).
  { assert (hh * uval q <= (uval p - 1) * uval q) by (apply Z.mul_le_mono_nonneg_r; lia).
    assert (0 <= hh * uval q) by (apply Z.mul_nonneg_nonneg; lia).
    rewrite Z.mul_sub_distr_r in *. clearbody hh m2 v'. clear - Hm2 H0 H1. lia. }
  exists (hh * uval q + m2). rewrite Hn. split; [|split; [exact Hr|split]].
  - unfold uwrapping_mul, uwrapping_add. cbn [uval uprec].
    assert (0 <= hh * uval q) by (clear - Hh Hq2; apply Z.mul_nonneg_nonneg; lia).
    clearbody hh m2 v'.
    rewrite (Z.mod_small (hh * uval q)) by (clear - Hr Hm2 H0 Hnb Hn; lia).
    rewrite Z.max_id. rewrite Z.mod_small by (clear - Hr Hnb Hn; lia). reflexivity.
  - rewrite Zplus_mod_idemp_r in G. exact G.
  - rewrite Z.add_comm, Z_mod_plus_full. unfold m2. apply Zmod_mod.
Qed.

Lemma unchecked_factors {R} (g : rng_ops R) fuel k pc p q c v :
  good_priv k -> sk_pre k = Some pc -> sk_primes k = [p; q] ->
  wf_uint c -> uprec c <= uprec (sk_d k) -> uval c < uval (pk_n (sk_pub k)) ->
  (v mod 2 ^ uprec (sk_d k)) mod uval p
    <> RSADP (uval (pk_n (sk_pub k))) (uval (sk_d k)) (uval c) mod uval p ->
  exists m, rsa_decrypt_f g (m1_fault v) fuel None k c = Ok m /\
    Z.gcd (uval m ^ uval (pk_e (sk_pub k)) - uval c) (uval (pk_n (sk_pub k))) = uval q.
Proof.
  intros Hk Hpre EP Hc Hcp Hcn Nv. pose proof Hk as (Hpub & Hd & HF & HV & Hprec & Hcons).
  pose proof (odd_pos_n _ Hpub) as Hn0. pose proof Hpub as (Hn & He & Hpar & Hodd).
  destruct (pre_consistent_inv k pc) as (p' & q' & rest & qinv & EP' & H1); auto.
  rewrite EP in EP'. injection EP' as <- <- <-.
  cbv zeta in H1. destruct H1 as (A & B & C & D & F & G & ->).
  pose proof HV as (HL & HP & HD & HNn & He0 & Hd0 & Hcong).
  rewrite EP in *. cbn [map length] in *.
  inversion HP as [|? ? Pp HP2]; subst. inversion HP2 as [|? ? Pq HP3]; subst.
  inversion HD as [|? ? N1 _]; subst.
  assert (Ho : forall x, In x [uval p; uval q] -> Z.odd x = true)
    by (apply odd_factors; rewrite <- HNn; auto).
  assert (Hpr : uval (pk_n (sk_pub k)) = uval p * uval q)
    by (rewrite HNn; unfold product; cbn [fold_right]; ring).
  assert (Hne : uval p <> uval q) by (intros E; apply N1; simpl; auto).
  assert (P2 : 2 < uval p) by (apply odd_prime_gt2; auto; apply Ho; simpl; auto).
  assert (Q2 : 2 < uval q) by (apply odd_prime_gt2; auto; apply Ho; simpl; auto).
  assert (Hb : uval (pk_n (sk_pub k)) < 2 ^ uprec (sk_d k)).
  { destruct Hn as (Hv & _). eapply Z.lt_le_trans; [apply Hv|].
    apply Z.pow_le_mono_r; [reflexivity|exact Hprec]. }
  unfold rsa_decrypt_f, uleb.
  destruct (Z.leb_spec (uval (pk_n (sk_pub k))) (uval c)); [lia|]. cbv zeta.
  rewrite widen_ok; [|auto|auto|destruct Hd as (_ & _ & ?); auto]. cbn [bind].
  rewrite Hpre, EP. cbn [length Nat.ltb Nat.leb get_idx nth_error bind].
  unfold hit at 1. cbn [m1_fault].
  destruct (crt_pow_f_m1 v (mkU (uval c) (uprec (sk_d k))) p q (uval (sk_d k)) (uprec (sk_d k)) qinv
              (uval (pk_n (sk_pub k))) (uval (pk_e (sk_pub k))))
    as (m & Em & Hm & Mp & Mq); auto.
  { destruct Hd as (_ & ? & _); auto. }
  { apply Hcong; simpl; auto. }
  rewrite Em. cbn [bind]. rewrite Hpar. unfold mp_prec. cbn [mp_modulus].
  destruct Hn as (Hv & Pn & Pm).
  unfold shorten. cbn [uval uprec]. rewrite prec_for_id by auto.
  destruct (Z.leb_spec (uprec (pk_n (sk_pub k))) (uprec (sk_d k))); [|lia]. cbn [bind].
  unfold hit. cbn [m1_fault]. eexists. split; [reflexivity|]. cbn [uval].
  rewrite (Z.mod_small m) by (clear - Hm Hv; lia).
  pose proof (rsa_enc_dec _ _ _ _ (uval c) HV ltac:(destruct Hc as (? & _); clear - H1 Hcn; lia)) as EC.
  unfold RSAEP in EC. rewrite Hpr in *.
  rewrite <- EC at 1. cbn [uval] in Mq.
  apply half_right_factors with (d := uval (sk_d k)); auto.
  - apply Hcong; simpl; auto.
  - rewrite Mq. unfold RSADP. rewrite (Z.mul_comm (uval p)), <- Zmod_div_mod; auto.
    + clear - Q2; lia.
    + rewrite Z.mul_comm. exact Hn0.
    + exists (uval p). ring.
  - rewrite Mp. exact Nv.
Qed.
