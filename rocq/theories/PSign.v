(** Statements about signatures assembled for PropSig.v. *)
From Coq Require Import ZArith List Bool Lia.
From Coq Require Import Init.Byte.
From Verif Require Import Base Bigint BytesLemmas BigintLemmas NumTheory SpecRFC SpecRng SpecKey SpecSig
  MHash MPad MPkcs1 MOaep MPss MRsa MKey MApi MWrap KeyDefs PPad PPkcs1 PRsa POaep PPss PApi PSig
  PHist PRaw.
Import ListNotations.
Local Open Scope Z_scope.

(** The top 64-bit limb of the stored integer is not zero. *)
Definition stored_minimally (u : uint) : Prop := 2 ^ (uprec u - 64) <= uval u.

Lemma minimal_iff pk : wf_pub pk -> (minimal_precision pk <-> stored_minimally (pk_n pk)).
Proof.
  intros Hk. unfold minimal_precision, stored_minimally, prec_for, ceil64.
  destruct (key_size_facts pk Hk) as (K1 & K2 & K3 & K4 & K5 & K6).
  pose proof Hk as ((_ & P1 & P2) & _).
  set (P := uprec (pk_n pk)) in *. set (K := key_size pk) in *. set (b := ubits (pk_n pk)) in *.
  pose proof (Z.div_mod P 64 ltac:(lia)) as DP. rewrite P2 in DP. set (j := P / 64) in *.
  pose proof (Z.div_mod (8 * Z.of_nat K + 63) 64 ltac:(lia)) as DK.
  pose proof (Z.mod_pos_bound (8 * Z.of_nat K + 63) 64 ltac:(lia)) as MK.
  set (t := (8 * Z.of_nat K + 63) / 64) in *.
  assert (H : 2 ^ (P - 64) <= uval (pk_n pk) <-> P - 64 < b).
  { split; intros H.
    - apply (Z.pow_lt_mono_r_iff 2); lia.
    - eapply Z.le_trans; [|exact K5]. apply Z.pow_le_mono_r; lia. }
  rewrite H. rewrite Z.max_r by lia. lia.
Qed.

Lemma len_32 pk : wf_pub pk -> uprec (pk_n pk) < 2 ^ 32 -> 8 * Z.of_nat (key_size pk) < 2 ^ 32.
Proof. intros Hk H. destruct (key_size_facts pk Hk) as (_ & H2 & _). lia. Qed.

(** ** C12 *)

Definition hash_len_ok (s : pkcs1_sign_params) (hashed : list byte) : Prop :=
  match p1_hash_len s with Some l => length hashed = l | None => True end.

Lemma check_hash_len_ok s hashed : hash_len_ok s hashed -> check_hash_len s hashed = Ok tt.
Proof.
  unfold hash_len_ok, check_hash_len. destruct (p1_hash_len s); auto.
  intros ->. rewrite Nat.eqb_refl. reflexivity.
Qed.

Lemma c12_scheme {R} (g : rng_ops R) fuel rng k s hashed :
  (rng <> None -> rng_ok g) -> good_priv k -> uprec (pk_n (sk_pub k)) < 2 ^ 32 ->
  hash_len_ok s hashed -> (length (p1_prefix s ++ hashed) + 11 <= key_size (sk_pub k))%nat ->
  blinding_succeeds g (uval (pk_n (sk_pub k))) rng fuel ->
  exists sig, scheme_sign g fuel rng k (SigPkcs1v15 s) hashed = Ok sig /\
    (public_verify (sk_pub k) (SigPkcs1v15 s) hashed sig = Ok tt <->
     stored_minimally (pk_n (sk_pub k))).
Proof.
  intros Hr Hk H32 Hh HT Hb. pose proof (good_pub k Hk) as Hp.
  destruct (pkcs1v15_sign_exact g fuel rng k (p1_prefix s) hashed Hr Hk) as [_ A].
  destruct (A HT) as (A1 & _). specialize (A1 Hb).
  set (sig := i2osp _ _) in A1. exists sig. split.
  - cbn [scheme_sign]. rewrite check_hash_len_ok by auto. cbn [bind]. exact A1.
  - destruct (sig_value_accepts k (p1_prefix s ++ hashed) Hk HT) as (L & _ & _ & Acc).
    fold sig in L, Acc. rewrite <- minimal_iff by auto.
    destruct (public_verify_pkcs1_exact (sk_pub k) s hashed sig Hp) as [_ B].
    { rewrite L. apply len_32; auto. }
    destruct (B Hh) as [B1 _]. rewrite B1. split; auto.
    intros (_ & P & _). rewrite L in P. unfold minimal_precision. auto.
Qed.

Lemma c12_other_precision pk s hashed sig :
  wf_pub pk -> uprec (pk_n pk) < 2 ^ 32 -> ~ stored_minimally (pk_n pk) ->
  length sig = key_size pk -> public_verify pk (SigPkcs1v15 s) hashed sig <> Ok tt.
Proof.
  intros Hp H32 Hm L E. rewrite <- minimal_iff in Hm by auto.
  assert (L8 : 8 * Z.of_nat (length sig) < 2 ^ 32) by (rewrite L; apply len_32; auto).
  destruct (public_verify_pkcs1_exact pk s hashed sig Hp L8) as [A B]. cbv zeta in A, B.
  assert (D : hash_len_ok s hashed \/ ~ hash_len_ok s hashed).
  { unfold hash_len_ok. destruct (p1_hash_len s); auto. lia. }
  destruct D as [D|D].
  - destruct (B D) as [B1 _]. apply B1 in E. destruct E as (_ & P & _).
    apply Hm. unfold minimal_precision. rewrite <- P, L. reflexivity.
  - rewrite (A D) in E. discriminate.
Qed.

Lemma sig_object k : wf_pub k -> uprec (pk_n k) < 2 ^ 32 -> forall l, length l = key_size k ->
  signature_try_from l = Ok (mkSig (mkU (os2ip l) (prec_for (8 * Z.of_nat (key_size k))))).
Proof.
  intros Hk H l L. unfold signature_try_from. rewrite sig_from_bytes_ok by (rewrite L; apply len_32; auto).
  rewrite L. reflexivity.
Qed.

Lemma c12_keys {R} (g : rng_ops R) fuel rng k prefix hashed :
  (rng <> None -> rng_ok g) -> good_priv k -> uprec (pk_n (sk_pub k)) < 2 ^ 32 ->
  (length (prefix ++ hashed) + 11 <= key_size (sk_pub k))%nat ->
  blinding_succeeds g (uval (pk_n (sk_pub k))) rng fuel ->
  let sk := mkP1SK k prefix in
  exists s, p1sk_sign_prehash g fuel rng sk hashed = Ok s /\
    (p1vk_verify_prehash (p1sk_verifying_key sk) hashed s = Ok tt <->
     stored_minimally (pk_n (sk_pub k))).
Proof.
  intros Hr Hk H32 HT Hb sk. pose proof (good_pub k Hk) as Hp.
  destruct (pkcs1v15_sign_exact g fuel rng k prefix hashed Hr Hk) as [_ A].
  destruct (A HT) as (A1 & _). specialize (A1 Hb).
  set (sig := i2osp _ _) in A1. 
  destruct (sig_value_accepts k (prefix ++ hashed) Hk HT) as (L & V & E & Acc).
  fold sig in L, V, E, Acc.
  eexists. split.
  - unfold p1sk_sign_prehash, sk. cbn [p1sk_inner p1sk_prefix]. rewrite A1. cbn [bind].
    apply (sig_object (sk_pub k)); auto.
  - unfold p1vk_verify_prehash, p1sk_verifying_key, sk, to_public_key.
    cbn [p1sk_inner p1sk_prefix p1vk_inner p1vk_prefix sg_inner].
    rewrite <- minimal_iff by auto. rewrite <- L.
    destruct (pkcs1v15_verify_exact (sk_pub k) prefix hashed _ Hp (sig_uint_wf sig)) as [[X Y]|[X Y]];
      rewrite X; cbn [uval uprec] in Y.
    + split; auto. intros _. unfold minimal_precision. rewrite <- L. symmetry. apply Y.
    + split; [discriminate|]. intros M. exfalso. apply Y. apply Acc. auto.
Qed.

(** ** C13 / RFC comparison *)

Lemma c13_rfc pk s hashed sig :
  wf_pub pk -> uprec (pk_n pk) < 2 ^ 32 -> stored_minimally (pk_n pk) ->
  length sig = key_size pk -> hash_len_ok s hashed ->
  (public_verify pk (SigPkcs1v15 s) hashed sig = Ok tt <->
   rfc_pkcs1_verifies (uval (pk_n pk)) (uval (pk_e pk)) (key_size pk) (p1_prefix s ++ hashed) sig) /\
  (~ rfc_pkcs1_verifies (uval (pk_n pk)) (uval (pk_e pk)) (key_size pk) (p1_prefix s ++ hashed) sig ->
   public_verify pk (SigPkcs1v15 s) hashed sig = Err Verification).
Proof.
  intros Hp H32 Hm L Hh. rewrite <- minimal_iff in Hm by auto.
  assert (L8 : 8 * Z.of_nat (length sig) < 2 ^ 32) by (rewrite L; apply len_32; auto).
  destruct (public_verify_pkcs1_exact pk s hashed sig Hp L8) as [_ B]. destruct (B Hh) as [B1 B2].
  assert (Q : pkcs1v15_accepts pk (p1_prefix s ++ hashed) sig <->
   rfc_pkcs1_verifies (uval (pk_n pk)) (uval (pk_e pk)) (key_size pk) (p1_prefix s ++ hashed) sig).
  { pose proof (odd_pos_n _ Hp) as Hn. pose proof (key_n_lt _ Hp) as Kn.
    pose proof (RSAEP_range (uval (pk_n pk)) (uval (pk_e pk)) (os2ip sig) Hn) as Rg.
    unfold pkcs1v15_accepts, rfc_pkcs1_verifies. split.
    - intros (V & _ & E). split; auto. split; auto.
      exists (i2osp (RSAEP (uval (pk_n pk)) (uval (pk_e pk)) (os2ip sig)) (key_size pk)).
      split; [apply i2osp_length|]. split; auto. apply os2ip_i2osp. lia.
    - intros (_ & V & EM & LE & VE & E). split; auto. split; [rewrite L; symmetry; exact Hm|].
      rewrite <- VE, <- LE, i2osp_os2ip by auto. rewrite LE. exact E. }
  rewrite B1. split; auto. intros. apply B2. tauto.
Qed.

(** ** C14 *)

Lemma c14_unique k s hashed sig1 sig2 :
  good_priv k -> uprec (pk_n (sk_pub k)) < 2 ^ 32 ->
  8 * Z.of_nat (length sig1) < 2 ^ 32 -> 8 * Z.of_nat (length sig2) < 2 ^ 32 ->
  public_verify (sk_pub k) (SigPkcs1v15 s) hashed sig1 = Ok tt ->
  public_verify (sk_pub k) (SigPkcs1v15 s) hashed sig2 = Ok tt ->
  os2ip sig1 = os2ip sig2.
Proof.
  intros Hk H32 L1 L2 V1 V2. pose proof (good_pub k Hk) as Hp.
  assert (D : hash_len_ok s hashed \/ ~ hash_len_ok s hashed).
  { unfold hash_len_ok. destruct (p1_hash_len s); auto. lia. }
  destruct (public_verify_pkcs1_exact (sk_pub k) s hashed sig1 Hp L1) as [A1 B1].
  destruct (public_verify_pkcs1_exact (sk_pub k) s hashed sig2 Hp L2) as [_ B2].
  destruct D as [D|D]; [|rewrite (A1 D) in V1; discriminate].
  destruct (B1 D) as [C1 _]. destruct (B2 D) as [C2 _].
  apply C1 in V1. apply C2 in V2. eapply pkcs1v15_accepts_unique; eauto.
Qed.

Lemma c14_deterministic {R1 R2} (g1 : rng_ops R1) (g2 : rng_ops R2) f1 f2 r1 r2 k s hashed sig1 sig2 :
  (r1 <> None -> rng_ok g1) -> (r2 <> None -> rng_ok g2) -> good_priv k ->
  scheme_sign g1 f1 r1 k (SigPkcs1v15 s) hashed = Ok sig1 ->
  scheme_sign g2 f2 r2 k (SigPkcs1v15 s) hashed = Ok sig2 -> sig1 = sig2.
Proof.
  intros H1 H2 Hk E1 E2. cbn [scheme_sign] in E1, E2.
  destruct (check_hash_len s hashed); try discriminate. cbn [bind] in E1, E2.
  destruct (pkcs1v15_sign_exact g1 f1 r1 k (p1_prefix s) hashed H1 Hk) as [A1 B1].
  destruct (pkcs1v15_sign_exact g2 f2 r2 k (p1_prefix s) hashed H2 Hk) as [A2 B2].
  destruct (Nat.le_gt_cases (length (p1_prefix s ++ hashed) + 11) (key_size (sk_pub k))) as [L|L].
  2:{ rewrite A1 in E1 by auto. discriminate. }
  destruct (B1 L) as (C1 & C2 & C3). destruct (B2 L) as (D1 & D2 & D3).
  destruct (blinding_trichotomy g1 (uval (pk_n (sk_pub k))) r1 f1) as [X|[X|X]];
    [rewrite (C1 X) in E1|rewrite (C2 X) in E1; discriminate|rewrite (C3 X) in E1; discriminate].
  destruct (blinding_trichotomy g2 (uval (pk_n (sk_pub k))) r2 f2) as [Y|[Y|Y]];
    [rewrite (D1 Y) in E2|rewrite (D2 Y) in E2; discriminate|rewrite (D3 Y) in E2; discriminate].
  congruence.
Qed.

(** ** C15 *)

(** Bits available to the PSS encoding. *)
Definition em_bits (pk : pubkey) : nat := Z.to_nat (ubits (pk_n pk)) - 1.

Definition opt_blind {R} (bl : bool) (st : R) : option R := if bl then Some st else None.

Lemma pss_sign_digest_eq {R} (g : rng_ops R) hd fuel st bl k hashed sl salt st' :
  rng_fill g st sl = (Some salt, st') ->
  pss_sign_digest g hd fuel st bl k hashed sl
  = sign_pss_with_salt_digest g hd fuel (opt_blind bl st') k hashed salt.
Proof. intros E. unfold pss_sign_digest. rewrite E. reflexivity. Qed.

Lemma opt_blind_ok {R} (g : rng_ops R) bl (st : R) : rng_ok g -> opt_blind bl st <> None -> rng_ok g.
Proof. auto. Qed.

Lemma size_overflow hd sl pk : wf_pub pk -> uprec (pk_n pk) < 2 ^ 32 ->
  (h_size hd + sl + 2 <= pss_em_len (em_bits pk))%nat -> Z.of_nat (h_size hd + sl + 2) < 2 ^ 64.
Proof.
  intros Hp H32 H. destruct (nbits_facts pk Hp) as (_ & _ & _ & B4 & _).
  pose proof (prec32_size pk Hp H32). unfold em_bits in H.
  assert (2 ^ 29 < 2 ^ 64) by (apply Z.pow_lt_mono_r; lia). lia.
Qed.

Lemma c15_scheme {R} (g : rng_ops R) hd fuel st st' bl k hashed sl salt :
  rng_ok g -> (0 < h_size hd)%nat -> good_priv k -> uprec (pk_n (sk_pub k)) < 2 ^ 32 ->
  length hashed = h_size hd -> (h_size hd + sl + 2 <= pss_em_len (em_bits (sk_pub k)))%nat ->
  rng_fill g st sl = (Some salt, st') ->
  blinding_succeeds g (uval (pk_n (sk_pub k))) (opt_blind bl st') fuel ->
  let s := SigPss (mkPss bl (digest_new hd) sl) in
  exists sig, scheme_sign g fuel (Some st) k s hashed = Ok sig /\
              public_verify (sk_pub k) s hashed sig = Ok tt.
Proof.
  intros Hg Hh Hk H32 Hl Hs Ef Hb s. pose proof (good_pub k Hk) as Hp.
  assert (Ls : length salt = sl) by (eapply (proj1 Hg); eauto). subst sl.
  destruct (sign_pss_exact g hd fuel (opt_blind bl st') k hashed salt (fun _ => Hg) Hh Hk H32) as [_ A].
  destruct (A Hl) as [_ B]. destruct (B Hs) as (B1 & _). specialize (B1 Hb).
  set (sig := i2osp _ _) in B1.
  destruct (pss_sig_accepts hd k hashed salt Hh Hk Hl Hs) as (L & V & E & Acc). fold sig in L, V, E, Acc.
  exists sig. split.
  - unfold s. cbn [scheme_sign ps_blinded ps_salt_len ps_digest]. rewrite pss_sign_agree.
    erewrite pss_sign_digest_eq by eauto. exact B1.
  - unfold s.
    destruct (public_verify_pss_total hd bl (sk_pub k) hashed (length salt) sig Hh
               (size_overflow _ _ _ Hp H32 Hs) Hp H32) as [[X _]|[_ Y]]; auto.
    + rewrite L. apply len_32; auto.
    + exfalso. apply Y. auto.
Qed.

Lemma c15_keys {R} (g : rng_ops R) hd fuel st st' bl k hashed sl salt :
  rng_ok g -> (0 < h_size hd)%nat -> good_priv k -> uprec (pk_n (sk_pub k)) < 2 ^ 32 ->
  length hashed = h_size hd -> (h_size hd + sl + 2 <= pss_em_len (em_bits (sk_pub k)))%nat ->
  rng_fill g st sl = (Some salt, st') ->
  blinding_succeeds g (uval (pk_n (sk_pub k))) (opt_blind bl st') fuel ->
  let sk := pssk_new_with_salt_len bl k sl in
  exists s, pssk_sign_prehash g hd fuel st sk hashed = Ok s /\
    (psvk_verify_prehash hd (pssk_verifying_key sk) hashed s = Ok tt <->
     stored_minimally (pk_n (sk_pub k))).
Proof.
  intros Hg Hh Hk H32 Hl Hs Ef Hb sk. pose proof (good_pub k Hk) as Hp.
  assert (Ls : length salt = sl) by (eapply (proj1 Hg); eauto). subst sl.
  destruct (sign_pss_exact g hd fuel (opt_blind bl st') k hashed salt (fun _ => Hg) Hh Hk H32) as [_ A].
  destruct (A Hl) as [_ B]. destruct (B Hs) as (B1 & _). specialize (B1 Hb).
  set (sig := i2osp _ _) in B1.
  destruct (pss_sig_accepts hd k hashed salt Hh Hk Hl Hs) as (L & V & E & Acc). fold sig in L, V, E, Acc.
  eexists. split.
  - unfold pssk_sign_prehash, sk, pssk_new_with_salt_len.
    cbn [pssk_blinded pssk_inner pssk_salt_len]. erewrite pss_sign_digest_eq by eauto.
    rewrite B1. cbn [bind]. apply (sig_object (sk_pub k)); auto.
  - unfold psvk_verify_prehash, pssk_verifying_key, sk, pssk_new_with_salt_len, to_public_key.
    cbn [pssk_inner pssk_salt_len psvk_inner psvk_salt_len sg_inner].
    rewrite <- minimal_iff by auto. rewrite <- L.
    destruct (pss_verify_digest_total hd (sk_pub k) hashed (length salt) _ Hh
               (size_overflow _ _ _ Hp H32 Hs) Hp H32 (sig_uint_wf sig)) as [[X Y]|[X Y]];
      rewrite X; cbn [uval uprec] in Y.
    + split; auto. intros _. unfold minimal_precision. rewrite <- L. symmetry. apply Y.
    + split; [discriminate|]. intros M. exfalso. apply Y. split; [lia|]. split; auto.
      unfold minimal_precision in M. rewrite <- L in M. auto.
Qed.

(** ** C16 *)

Lemma pss_accepts_rfc hd pk sl hashed sig :
  wf_pub pk -> length sig = key_size pk -> os2ip sig < uval (pk_n pk) ->
  (Z.to_nat (ubits (pk_n pk)) mod 8 <> 1)%nat ->
  (pss_accepts hd pk sl hashed (os2ip sig) <->
   rfc_pss_verifies (h_fun hd) (h_size hd) sl (uval (pk_n pk)) (uval (pk_e pk)) (key_size pk)
                    (Z.to_nat (ubits (pk_n pk))) hashed sig).
Proof.
  intros Hp L V Hm. destruct (nbits_facts pk Hp) as (B1 & B2 & B3 & B4 & B5).
  set (b := Z.to_nat (ubits (pk_n pk))) in *.
  assert (Ek : pss_em_len (b - 1) = key_size pk).
  { pose proof (div_ceil8_spec b) as S1. pose proof (div_ceil8_spec (b - 1)) as S2.
    change (pss_em_len (b - 1)) with (div_ceil8 (b - 1)). rewrite B2 in S1.
    pose proof (Nat.div_mod b 8 ltac:(lia)). lia. }
  pose proof (odd_pos_n _ Hp) as Hn. pose proof (key_n_lt _ Hp) as Kn.
  pose proof (RSAEP_range (uval (pk_n pk)) (uval (pk_e pk)) (os2ip sig) Hn) as Rg.
  unfold pss_accepts, pss_tail, rfc_pss_verifies. fold b. rewrite Ek, Nat.sub_diag, skipn_O. split.
  - intros H. split; auto. split; auto.
    exists (i2osp (RSAEP (uval (pk_n pk)) (uval (pk_e pk)) (os2ip sig)) (key_size pk)).
    split; [apply i2osp_length|]. split; auto. apply os2ip_i2osp. lia.
  - intros (_ & _ & EM & LE & VE & E). rewrite <- VE, <- LE, i2osp_os2ip by auto. exact E.
Qed.

(** In general RFC acceptance implies acceptance by the code. *)
Lemma rfc_pss_accepts hd pk sl hashed sig :
  wf_pub pk ->
  rfc_pss_verifies (h_fun hd) (h_size hd) sl (uval (pk_n pk)) (uval (pk_e pk)) (key_size pk)
                    (Z.to_nat (ubits (pk_n pk))) hashed sig ->
  pss_accepts hd pk sl hashed (os2ip sig).
Proof.
  intros Hp (_ & _ & EM & LE & VE & E). destruct (nbits_facts pk Hp) as (B1 & B2 & B3 & B4 & B5).
  set (b := Z.to_nat (ubits (pk_n pk))) in *.
  unfold pss_accepts, pss_tail. fold b. rewrite <- VE. rewrite i2osp_pad by lia.
  rewrite skipn_app_exact by (rewrite vec_length; lia). exact E.
Qed.

Lemma c16_scheme hd bl pk hashed sl sig :
  (0 < h_size hd)%nat -> Z.of_nat (h_size hd + sl + 2) < 2 ^ 64 ->
  wf_pub pk -> uprec (pk_n pk) < 2 ^ 32 -> 8 * Z.of_nat (length sig) < 2 ^ 32 ->
  let v := public_verify pk (SigPss (mkPss bl (digest_new hd) sl)) hashed sig in
  let rfc := rfc_pss_verifies (h_fun hd) (h_size hd) sl (uval (pk_n pk)) (uval (pk_e pk)) (key_size pk)
                    (Z.to_nat (ubits (pk_n pk))) hashed sig in
  (v = Ok tt \/ v = Err Verification) /\
  (rfc -> v = Ok tt) /\
  ((Z.to_nat (ubits (pk_n pk)) mod 8 <> 1)%nat -> os2ip sig < uval (pk_n pk) -> v = Ok tt -> rfc).
Proof.
  intros Hh Hov Hp H32 L8 v rfc.
  destruct (public_verify_pss_total hd bl pk hashed sl sig Hh Hov Hp H32 L8) as [[E A]|[E A]];
    fold v in E; rewrite E.
  - split; auto. split; auto. intros Hm V _. destruct A as [L A].
    apply pss_accepts_rfc; auto.
  - split; auto. split; [|discriminate]. intros H. exfalso. apply A. split; [apply H|].
    apply rfc_pss_accepts; auto.
Qed.

Lemma c16_scheme_exact hd bl pk hashed sl sig :
  (0 < h_size hd)%nat -> Z.of_nat (h_size hd + sl + 2) < 2 ^ 64 ->
  wf_pub pk -> uprec (pk_n pk) < 2 ^ 32 -> 8 * Z.of_nat (length sig) < 2 ^ 32 ->
  public_verify pk (SigPss (mkPss bl (digest_new hd) sl)) hashed sig = Ok tt <->
  length sig = key_size pk /\ pss_accepts hd pk sl hashed (os2ip sig).
Proof.
  intros Hh Hov Hp H32 L8.
  destruct (public_verify_pss_total hd bl pk hashed sl sig Hh Hov Hp H32 L8) as [[E A]|[E A]];
    rewrite E; [tauto|]. split; [discriminate|tauto].
Qed.

Lemma c16_keys_exact hd vk hashed s :
  let pk := psvk_inner vk in let sl := psvk_salt_len vk in
  (0 < h_size hd)%nat -> Z.of_nat (h_size hd + sl + 2) < 2 ^ 64 ->
  wf_pub pk -> uprec (pk_n pk) < 2 ^ 32 -> wf_uint (sg_inner s) ->
  psvk_verify_prehash hd vk hashed s = Ok tt <->
  uval (sg_inner s) < uval (pk_n pk) /\ uprec (sg_inner s) = uprec (pk_n pk) /\
  pss_accepts hd pk sl hashed (uval (sg_inner s)).
Proof.
  intros pk sl Hh Hov Hp H32 Hw. unfold psvk_verify_prehash. fold pk sl.
  destruct (pss_verify_digest_total hd pk hashed sl _ Hh Hov Hp H32 Hw) as [[E A]|[E A]];
    rewrite E; [tauto|]. split; [discriminate|tauto].
Qed.

Lemma c16_keys hd vk hashed sig s :
  let pk := psvk_inner vk in let sl := psvk_salt_len vk in
  (0 < h_size hd)%nat -> Z.of_nat (h_size hd + sl + 2) < 2 ^ 64 ->
  wf_pub pk -> uprec (pk_n pk) < 2 ^ 32 -> stored_minimally (pk_n pk) -> length sig = key_size pk ->
  signature_try_from sig = Ok s ->
  let v := psvk_verify_prehash hd vk hashed s in
  let rfc := rfc_pss_verifies (h_fun hd) (h_size hd) sl (uval (pk_n pk)) (uval (pk_e pk)) (key_size pk)
                    (Z.to_nat (ubits (pk_n pk))) hashed sig in
  (v = Ok tt \/ v = Err Verification) /\
  (rfc -> v = Ok tt) /\
  ((Z.to_nat (ubits (pk_n pk)) mod 8 <> 1)%nat -> v = Ok tt -> rfc).
Proof.
  intros pk sl Hh Hov Hp H32 Hm L Es v rfc. rewrite <- minimal_iff in Hm by auto.
  rewrite (sig_object pk Hp H32 sig L) in Es.
  assert (Es' : s = mkSig (mkU (os2ip sig) (prec_for (8 * Z.of_nat (length sig))))) by congruence.
  subst s. clear Es. unfold v, psvk_verify_prehash. cbn [sg_inner]. fold pk sl.
  destruct (pss_verify_digest_total hd pk hashed sl _ Hh Hov Hp H32 (sig_uint_wf sig)) as [[E A]|[E A]];
    rewrite E; cbn [uval uprec] in A.
  - split; auto. split; auto. intros Hb _. apply pss_accepts_rfc; auto; apply A.
  - split; auto. split; [|discriminate]. intros H. exfalso. apply A. split; [apply H|].
    split; [rewrite L; symmetry; exact Hm|]. apply rfc_pss_accepts; auto.
Qed.

(** ** C17 *)

Lemma c17_range hd vk hashed s :
  psvk_verify_prehash hd vk hashed s = Ok tt -> uval (sg_inner s) < uval (pk_n (psvk_inner vk)).
Proof.
  unfold psvk_verify_prehash, pss_verify_digest, uleb.
  destruct (Z.leb_spec (uval (pk_n (psvk_inner vk))) (uval (sg_inner s))); cbn [orb]; [discriminate|lia].
Qed.

Lemma RSAEP_shift n e s : 0 < n -> RSAEP n e (s + n) = RSAEP n e s.
Proof.
  intros Hn. unfold RSAEP. destruct (Z.le_gt_cases 0 e).
  - rewrite (Zpow_facts.Zpower_mod s) by lia.
    rewrite (Zpow_facts.Zpower_mod (s + n)) by lia.
    replace ((s + n) mod n) with (s mod n); auto.
    rewrite <- (Z.mod_add s 1 n) by lia. f_equal. lia.
  - rewrite !Z.pow_neg_r by lia. reflexivity.
Qed.

Lemma c17_malleable hd bl pk hashed sl sig sig' :
  (0 < h_size hd)%nat -> Z.of_nat (h_size hd + sl + 2) < 2 ^ 64 ->
  wf_pub pk -> uprec (pk_n pk) < 2 ^ 32 ->
  length sig' = key_size pk -> os2ip sig' = os2ip sig + uval (pk_n pk) ->
  let v x := public_verify pk (SigPss (mkPss bl (digest_new hd) sl)) hashed x in
  8 * Z.of_nat (length sig) < 2 ^ 32 ->
  v sig = Ok tt -> v sig' = Ok tt.
Proof.
  intros Hh Hov Hp H32 L' V' v L8 E. pose proof (odd_pos_n _ Hp) as Hn.
  destruct (public_verify_pss_total hd bl pk hashed sl sig Hh Hov Hp H32 L8) as [[_ A]|[E' _]];
    [|fold (v sig) in E'; congruence].
  destruct (public_verify_pss_total hd bl pk hashed sl sig' Hh Hov Hp H32) as [[X _]|[_ B]]; auto.
  { rewrite L'. apply len_32; auto. }
  exfalso. apply B. split; auto. destruct A as [_ A]. unfold pss_accepts, pss_tail in *.
  rewrite V', RSAEP_shift by auto. exact A.
Qed.

(** ** C18 *)

Lemma c18_pss bl dg sl pk hashed sig :
  8 * Z.of_nat (length sig) < 2 ^ 32 -> length sig <> key_size pk ->
  public_verify pk (SigPss (mkPss bl dg sl)) hashed sig = Err Verification.
Proof.
  intros L8 L. unfold public_verify. rewrite sig_from_bytes_ok by auto. cbn [bind]. unfold pss_verify.
  destruct (Nat.eqb_spec (length sig) (key_size pk)); [contradiction|reflexivity].
Qed.

Lemma c18_pkcs1 pk s hashed sig1 sig2 :
  8 * Z.of_nat (length sig1) < 2 ^ 32 -> 8 * Z.of_nat (length sig2) < 2 ^ 32 ->
  os2ip sig1 = os2ip sig2 ->
  (8 * Z.of_nat (length sig1) + 63) / 64 = (8 * Z.of_nat (length sig2) + 63) / 64 ->
  public_verify pk (SigPkcs1v15 s) hashed sig1 = public_verify pk (SigPkcs1v15 s) hashed sig2.
Proof.
  intros L1 L2 V P. unfold public_verify. rewrite !sig_from_bytes_ok by auto.
  unfold prec_for, ceil64. rewrite V, P. reflexivity.
Qed.

Lemma c18_limbs pk s hashed sig :
  wf_pub pk -> 8 * Z.of_nat (length sig) < 2 ^ 32 -> (1 <= length sig)%nat ->
  public_verify pk (SigPkcs1v15 s) hashed sig = Ok tt ->
  64 * ((8 * Z.of_nat (length sig) + 63) / 64) = uprec (pk_n pk).
Proof.
  intros Hp L8 L1 E. destruct (public_verify_pkcs1_exact pk s hashed sig Hp L8) as [A B].
  assert (D : hash_len_ok s hashed \/ ~ hash_len_ok s hashed).
  { unfold hash_len_ok. destruct (p1_hash_len s); auto. lia. }
  destruct D as [D|D]; [|rewrite (A D) in E; discriminate].
  destruct (B D) as [C _]. apply C in E. destruct E as (_ & P & _).
  rewrite <- P. unfold prec_for, ceil64. rewrite Z.max_r; auto.
  assert (1 <= (8 * Z.of_nat (length sig) + 63) / 64) by (apply Z.div_le_lower_bound; lia). lia.
Qed.

(** ** C40, C41, C42 (signing) *)

Lemma c40_pkcs1_sign {R} (g : rng_ops R) fuel rng k s hashed :
  (rng <> None -> rng_ok g) -> good_priv k -> hash_len_ok s hashed ->
  (scheme_sign g fuel rng k (SigPkcs1v15 s) hashed = Err MessageTooLong <->
   Z.of_nat (length (p1_prefix s ++ hashed)) > Z.of_nat (key_size (sk_pub k)) - 11).
Proof.
  intros Hr Hk Hh. cbn [scheme_sign]. rewrite check_hash_len_ok by auto. cbn [bind].
  destruct (pkcs1v15_sign_exact g fuel rng k (p1_prefix s) hashed Hr Hk) as [A B]. split.
  - intros E. destruct (Nat.le_gt_cases (length (p1_prefix s ++ hashed) + 11) (key_size (sk_pub k))) as [L|L];
      [|lia].
    destruct (B L) as (C1 & C2 & C3). exfalso.
    destruct (blinding_trichotomy g (uval (pk_n (sk_pub k))) rng fuel) as [X|[X|X]];
    [rewrite (C1 X) in E|rewrite (C2 X) in E|rewrite (C3 X) in E]; discriminate.
  - intros L. apply A. lia.
Qed.

Lemma c40_pss_sign {R} (g : rng_ops R) hd fuel st st' bl k hashed sl salt :
  rng_ok g -> (0 < h_size hd)%nat -> good_priv k -> uprec (pk_n (sk_pub k)) < 2 ^ 32 ->
  length hashed = h_size hd -> rng_fill g st sl = (Some salt, st') ->
  (scheme_sign g fuel (Some st) k (SigPss (mkPss bl (digest_new hd) sl)) hashed = Err Internal <->
   (pss_em_len (em_bits (sk_pub k)) < h_size hd + sl + 2)%nat).
Proof.
  intros Hg Hh Hk H32 Hl Ef. pose proof (good_pub k Hk) as Hp.
  assert (Ls : length salt = sl) by (eapply (proj1 Hg); eauto). subst sl.
  cbn [scheme_sign ps_blinded ps_salt_len ps_digest]. rewrite pss_sign_agree.
  erewrite pss_sign_digest_eq by eauto.
  destruct (sign_pss_exact g hd fuel (opt_blind bl st') k hashed salt (fun _ => Hg) Hh Hk H32) as [_ A].
  destruct (A Hl) as [B0 B]. unfold em_bits. split; [|exact B0].
  intros E. destruct (Nat.le_gt_cases (h_size hd + length salt + 2)
                       (pss_em_len (Z.to_nat (ubits (pk_n (sk_pub k))) - 1))) as [L|L]; auto.
  destruct (B L) as (C1 & C2 & C3). exfalso.
  destruct (blinding_trichotomy g (uval (pk_n (sk_pub k))) (opt_blind bl st') fuel) as [X|[X|X]];
    [rewrite (C1 X) in E|rewrite (C2 X) in E|rewrite (C3 X) in E]; discriminate.
Qed.

Lemma c41_pkcs1_sign {R} (g : rng_ops R) fuel st k s hashed :
  rng_ok g -> good_priv k -> hash_len_ok s hashed ->
  (length (p1_prefix s ++ hashed) + 11 <= key_size (sk_pub k))%nat ->
  blinding_fails g (uval (pk_n (sk_pub k))) (Some st) fuel ->
  private_sign_with_rng g fuel st k (SigPkcs1v15 s) hashed = Err Rng.
Proof.
  intros Hr Hk Hh L X. unfold private_sign_with_rng. cbn [scheme_sign].
  rewrite check_hash_len_ok by auto. cbn [bind].
  destruct (pkcs1v15_sign_exact g fuel (Some st) k (p1_prefix s) hashed (fun _ => Hr) Hk) as [_ B].
  destruct (B L) as (_ & C2 & _). auto.
Qed.

Lemma c41_pss_sign {R} (g : rng_ops R) hd fuel st bl k hashed sl :
  rng_ok g -> (0 < h_size hd)%nat -> good_priv k -> uprec (pk_n (sk_pub k)) < 2 ^ 32 ->
  let sign := private_sign_with_rng g fuel st k (SigPss (mkPss bl (digest_new hd) sl)) hashed in
  (forall st', rng_fill g st sl = (None, st') -> sign = Err Rng) /\
  (forall salt st', rng_fill g st sl = (Some salt, st') -> bl = true ->
     length hashed = h_size hd -> (h_size hd + sl + 2 <= pss_em_len (em_bits (sk_pub k)))%nat ->
     blinding_fails g (uval (pk_n (sk_pub k))) (Some st') fuel -> sign = Err Rng).
Proof.
  intros Hg Hh Hk H32 sign. unfold sign, private_sign_with_rng.
  cbn [scheme_sign ps_blinded ps_salt_len ps_digest]. rewrite pss_sign_agree. split.
  - intros st' E. unfold pss_sign_digest. rewrite E. reflexivity.
  - intros salt st' Ef -> Hl Hs X.
    assert (Ls : length salt = sl) by (eapply (proj1 Hg); eauto). subst sl.
    erewrite pss_sign_digest_eq by eauto.
    destruct (sign_pss_exact g hd fuel (Some st') k hashed salt (fun _ => Hg) Hh Hk H32) as [_ A].
    destruct (A Hl) as [_ B]. destruct (B Hs) as (_ & C2 & _). apply C2. exact X.
Qed.

Lemma c42_blinding_flag {R} (g : rng_ops R) hd fuel st st' k hashed sl salt :
  rng_ok g -> (0 < h_size hd)%nat -> good_priv k -> uprec (pk_n (sk_pub k)) < 2 ^ 32 ->
  rng_fill g st sl = (Some salt, st') ->
  blinding_succeeds g (uval (pk_n (sk_pub k))) (Some st') fuel ->
  private_sign_with_rng g fuel st k (SigPss (mkPss true (digest_new hd) sl)) hashed
  = private_sign_with_rng g fuel st k (SigPss (mkPss false (digest_new hd) sl)) hashed.
Proof.
  intros Hg Hh Hk H32 Ef X. unfold private_sign_with_rng.
  cbn [scheme_sign ps_blinded ps_salt_len ps_digest]. rewrite !pss_sign_agree.
  rewrite !(pss_sign_digest_eq g hd fuel st _ k hashed sl salt st' Ef). cbn [opt_blind].
  destruct (sign_pss_exact g hd fuel (Some st') k hashed salt (fun _ => Hg) Hh Hk H32) as [A0 A].
  destruct (sign_pss_exact g hd fuel None k hashed salt (fun _ => Hg) Hh Hk H32) as [B0 B].
  destruct (Nat.eq_dec (length hashed) (h_size hd)) as [L|L].
  2:{ rewrite A0, B0 by auto. reflexivity. }
  destruct (A L) as [A1 A2]. destruct (B L) as [B1 B2].
  destruct (Nat.le_gt_cases (h_size hd + length salt + 2)
             (pss_em_len (Z.to_nat (ubits (pk_n (sk_pub k))) - 1))) as [M|M].
  - destruct (A2 M) as (A3 & _). destruct (B2 M) as (B3 & _). rewrite A3, B3; auto. exact I.
  - rewrite A1, B1 by auto. reflexivity.
Qed.

(** ** C23 (PSS): object and scheme APIs decide the same way *)

Lemma c23_pss_decision hd bl vk hashed sig s :
  let pk := psvk_inner vk in let sl := psvk_salt_len vk in
  (0 < h_size hd)%nat -> Z.of_nat (h_size hd + sl + 2) < 2 ^ 64 ->
  wf_pub pk -> uprec (pk_n pk) < 2 ^ 32 -> stored_minimally (pk_n pk) -> length sig = key_size pk ->
  os2ip sig < uval (pk_n pk) -> signature_try_from sig = Ok s ->
  psvk_verify_prehash hd vk hashed s
  = public_verify pk (SigPss (mkPss bl (digest_new hd) sl)) hashed sig.
Proof.
  intros pk sl Hh Hov Hp H32 Hm L V Es. rewrite <- minimal_iff in Hm by auto.
  rewrite (sig_object pk Hp H32 sig L) in Es.
  assert (Es' : s = mkSig (mkU (os2ip sig) (prec_for (8 * Z.of_nat (length sig))))) by congruence.
  subst s. clear Es. unfold psvk_verify_prehash. cbn [sg_inner]. fold pk sl.
  assert (L8 : 8 * Z.of_nat (length sig) < 2 ^ 32) by (rewrite L; apply len_32; auto).
  destruct (public_verify_pss_total hd bl pk hashed sl sig Hh Hov Hp H32 L8) as [[E A]|[E A]];
  destruct (pss_verify_digest_total hd pk hashed sl _ Hh Hov Hp H32 (sig_uint_wf sig)) as [[E2 B]|[E2 B]];
    rewrite E, E2; cbn [uval uprec] in B; auto; exfalso.
  - apply B. split; auto. split; [|apply A]. rewrite L. symmetry. exact Hm.
  - apply A. split; auto. apply B.
Qed.

Lemma c23_pkcs1_decision vk hl hashed sig s :
  8 * Z.of_nat (length sig) < 2 ^ 32 -> signature_try_from sig = Ok s ->
  hash_len_ok (mkP1S hl (p1vk_prefix vk)) hashed ->
  p1vk_verify_prehash vk hashed s
  = public_verify (p1vk_inner vk) (SigPkcs1v15 (mkP1S hl (p1vk_prefix vk))) hashed sig.
Proof.
  intros L8 Es Hh. unfold signature_try_from in Es. rewrite sig_from_bytes_ok in Es by auto.
  cbn [bind] in Es. assert (Es' : s = mkSig (mkU (os2ip sig) (prec_for (8 * Z.of_nat (length sig)))))
    by congruence. subst s.
  unfold public_verify. rewrite check_hash_len_ok by auto. cbn [bind].
  rewrite sig_from_bytes_ok by auto. reflexivity.
Qed.

(** ** C48: bytes of a signature object under the padding-scheme API *)

Lemma to_bytes_value s : wf_uint (sg_inner s) ->
  os2ip (signature_to_bytes s) = uval (sg_inner s) /\
  8 * Z.of_nat (length (signature_to_bytes s)) = uprec (sg_inner s).
Proof.
  intros (V & P1 & P2). unfold signature_to_bytes, to_be_bytes.
  assert (E : 8 * (uprec (sg_inner s) / 8) = uprec (sg_inner s)).
  { pose proof (Z.div_mod (uprec (sg_inner s)) 64 ltac:(lia)) as D. rewrite P2 in D.
    replace (uprec (sg_inner s)) with ((8 * (uprec (sg_inner s) / 64)) * 8) at 1 by lia.
    rewrite Z.div_mul by lia. lia. }
  assert (0 <= uprec (sg_inner s) / 8) by (apply Z.div_pos; lia).
  rewrite <- i2osp_be_bytes, i2osp_length, Z2Nat.id by lia. split; auto.
  apply os2ip_i2osp. rewrite Z2Nat.id by lia. rewrite pow256_2 by lia. rewrite E. auto.
Qed.

(** A signing key's signature object, converted to bytes, under the scheme API. *)
Lemma c48_pkcs1 {R} (g : rng_ops R) fuel rng k prefix hl hashed s :
  (rng <> None -> rng_ok g) -> good_priv k -> uprec (pk_n (sk_pub k)) < 2 ^ 32 ->
  stored_minimally (pk_n (sk_pub k)) -> hash_len_ok (mkP1S hl prefix) hashed ->
  p1sk_sign_prehash g fuel rng (mkP1SK k prefix) hashed = Ok s ->
  public_verify (sk_pub k) (SigPkcs1v15 (mkP1S hl prefix)) hashed (signature_to_bytes s) = Ok tt.
Proof.
  intros Hr Hk H32 Hm Hh E. pose proof (good_pub k Hk) as Hp.
  unfold p1sk_sign_prehash in E. cbn [p1sk_inner p1sk_prefix] in E.
  destruct (pkcs1v15_sign_exact g fuel rng k prefix hashed Hr Hk) as [A B].
  destruct (Nat.le_gt_cases (length (prefix ++ hashed) + 11) (key_size (sk_pub k))) as [L|L].
  2:{ rewrite A in E by auto. discriminate. }
  destruct (B L) as (C1 & C2 & C3).
  destruct (blinding_trichotomy g (uval (pk_n (sk_pub k))) rng fuel) as [X|[X|X]];
    [rewrite (C1 X) in E|rewrite (C2 X) in E; discriminate|rewrite (C3 X) in E; discriminate].
  set (sig := i2osp _ _) in E. cbn [bind] in E.
  destruct (sig_value_accepts k (prefix ++ hashed) Hk L) as (Ls & V & Ev & Acc). fold sig in Ls, V, Ev, Acc.
  rewrite (sig_object (sk_pub k) Hp H32 sig Ls) in E.
  assert (Es' : s = mkSig (mkU (os2ip sig) (prec_for (8 * Z.of_nat (length sig))))) by congruence.
  subst s. rewrite <- minimal_iff in Hm by auto.
  destruct (to_bytes_value (mkSig (mkU (os2ip sig) (prec_for (8 * Z.of_nat (length sig))))) (sig_uint_wf sig)) as [T1 T2]. cbn [uval uprec sg_inner] in T1, T2.
  set (bs := signature_to_bytes _) in *.
  assert (P : prec_for (8 * Z.of_nat (length sig)) = uprec (pk_n (sk_pub k)))
    by (rewrite Ls; symmetry; exact Hm).
  destruct (public_verify_pkcs1_exact (sk_pub k) (mkP1S hl prefix) hashed bs Hp) as [_ Q]; [lia|].
  destruct (Q Hh) as [Q1 _]. apply Q1. specialize (Acc Hm).
  destruct Acc as (Z1 & Z2 & Z3). unfold pkcs1v15_accepts. cbn [p1_prefix]. rewrite T1, T2.
  split; auto. split; auto. rewrite P. 
  destruct Hp as ((_ & W1 & W2) & _). unfold prec_for, ceil64.
  pose proof (Z.div_mod (uprec (pk_n (sk_pub k))) 64 ltac:(lia)) as D. rewrite W2 in D.
  assert ((uprec (pk_n (sk_pub k)) + 63) / 64 = uprec (pk_n (sk_pub k)) / 64) as ->.
  { rewrite D at 1. rewrite Z.add_0_r, Z.mul_comm, Z.div_add_l by lia. change (63 / 64) with 0. lia. }
  lia.
Qed.

Lemma c48_pss {R} (g : rng_ops R) hd fuel st bl bl' k hashed sl s :
  rng_ok g -> (0 < h_size hd)%nat -> good_priv k -> uprec (pk_n (sk_pub k)) < 2 ^ 32 ->
  pssk_sign_prehash g hd fuel st (pssk_new_with_salt_len bl k sl) hashed = Ok s ->
  (public_verify (sk_pub k) (SigPss (mkPss bl' (digest_new hd) sl)) hashed (signature_to_bytes s) = Ok tt
   <-> (key_size (sk_pub k) mod 8 = 0)%nat).
Proof.
  intros Hg Hh Hk H32 E. pose proof (good_pub k Hk) as Hp.
  unfold pssk_sign_prehash, pssk_new_with_salt_len in E.
  cbn [pssk_blinded pssk_inner pssk_salt_len] in E.
  destruct (rng_fill g st sl) as [[salt|] st'] eqn:Ef.
  2:{ unfold pss_sign_digest in E. rewrite Ef in E. discriminate. }
  assert (Lsl : length salt = sl) by (eapply (proj1 Hg); eauto). subst sl.
  erewrite pss_sign_digest_eq in E by eauto.
  destruct (sign_pss_exact g hd fuel (opt_blind bl st') k hashed salt (fun _ => Hg) Hh Hk H32) as [A0 A].
  destruct (Nat.eq_dec (length hashed) (h_size hd)) as [L|L]; [|rewrite A0 in E by auto; discriminate].
  destruct (A L) as [A1 A2].
  destruct (Nat.le_gt_cases (h_size hd + length salt + 2)
             (pss_em_len (Z.to_nat (ubits (pk_n (sk_pub k))) - 1))) as [M|M];
    [|rewrite A1 in E by auto; discriminate].
  destruct (A2 M) as (C1 & C2 & C3).
  destruct (blinding_trichotomy g (uval (pk_n (sk_pub k))) (opt_blind bl st') fuel) as [X|[X|X]];
    [rewrite (C1 X) in E|rewrite (C2 X) in E; discriminate|rewrite (C3 X) in E; discriminate].
  set (sig := i2osp _ _) in E. cbn [bind] in E.
  destruct (pss_sig_accepts hd k hashed salt Hh Hk L M) as (Ls & V & Ev & Acc). fold sig in Ls, V, Ev, Acc.
  rewrite (sig_object (sk_pub k) Hp H32 sig Ls) in E.
  assert (Es' : s = mkSig (mkU (os2ip sig) (prec_for (8 * Z.of_nat (length sig))))) by congruence.
  subst s. clear E.
  destruct (to_bytes_value (mkSig (mkU (os2ip sig) (prec_for (8 * Z.of_nat (length sig))))) (sig_uint_wf sig)) as [T1 T2]. cbn [uval uprec sg_inner] in T1, T2.
  set (bs := signature_to_bytes _) in *. rewrite Ls in T2.
  pose proof (len_32 _ Hp H32) as L32.
  destruct (key_size_facts _ Hp) as (K1 & K2 & _).
  assert (Lb : 8 * Z.of_nat (length bs) = 64 * ((8 * Z.of_nat (key_size (sk_pub k)) + 63) / 64)).
  { rewrite T2. unfold prec_for, ceil64. rewrite Z.max_r; auto.
    assert (1 <= (8 * Z.of_nat (key_size (sk_pub k)) + 63) / 64) by (apply Z.div_le_lower_bound; lia). lia. }
  pose proof (Z.div_mod (8 * Z.of_nat (key_size (sk_pub k)) + 63) 64 ltac:(lia)) as D.
  pose proof (Z.mod_pos_bound (8 * Z.of_nat (key_size (sk_pub k)) + 63) 64 ltac:(lia)) as Dm.
  assert (Q : length bs = key_size (sk_pub k) <-> (key_size (sk_pub k) mod 8 = 0)%nat).
  { pose proof (Nat.div_mod (key_size (sk_pub k)) 8 ltac:(lia)) as N.
    pose proof (Nat.mod_upper_bound (key_size (sk_pub k)) 8 ltac:(lia)). lia. }
  rewrite <- Q.
  assert (P64 : uprec (pk_n (sk_pub k)) <= 2 ^ 32 - 64).
  { destruct Hp as ((_ & W1 & W2) & _).
    pose proof (Z.div_mod (uprec (pk_n (sk_pub k))) 64 ltac:(lia)) as DD. rewrite W2 in DD. lia. }
  destruct (public_verify_pss_total hd bl' (sk_pub k) hashed (length salt) bs Hh
             (size_overflow _ _ _ Hp H32 M) Hp H32) as [[Y Z]|[Y Z]]; [lia| |]; rewrite Y.
  - split; auto. intros _. apply Z.
  - split; [discriminate|]. intros EQ. exfalso. apply Z. split; auto. rewrite T1. auto.
Qed.

(** ** C35 *)

Lemma c35_try_from bs : 8 * Z.of_nat (length bs) < 2 ^ 32 ->
  exists s, signature_try_from bs = Ok s /\ wf_uint (sg_inner s) /\ uval (sg_inner s) = os2ip bs /\
    os2ip (signature_to_bytes s) = os2ip bs /\
    Z.of_nat (length (signature_to_bytes s)) = 8 * Z.max 1 ((Z.of_nat (length bs) + 7) / 8) /\
    (signature_to_bytes s = bs <-> ((1 <= length bs)%nat /\ (length bs mod 8 = 0)%nat)).
Proof.
  intros L8. unfold signature_try_from. rewrite sig_from_bytes_ok by auto. cbn [bind].
  eexists. split; [reflexivity|]. pose proof (sig_uint_wf bs) as W. split; [exact W|].
  split; [reflexivity|].
  destruct (to_bytes_value (mkSig (mkU (os2ip bs) (prec_for (8 * Z.of_nat (length bs))))) W) as [T1 T2].
  cbn [sg_inner uval uprec] in T1, T2. split; auto.
  set (out := signature_to_bytes _) in *.
  assert (EL : Z.of_nat (length out) = 8 * Z.max 1 ((Z.of_nat (length bs) + 7) / 8)).
  { unfold prec_for, ceil64 in T2.
    assert ((8 * Z.of_nat (length bs) + 63) / 64 = (Z.of_nat (length bs) + 7) / 8) as EQ.
    { replace (8 * Z.of_nat (length bs) + 63) with (8 * (Z.of_nat (length bs) + 7) + 7) by lia.
      replace 64 with (8 * 8) by lia. rewrite <- Z.div_div by lia.
      rewrite (Z.mul_comm 8 (_ + 7)), Z.div_add_l by lia. change (7 / 8) with 0. f_equal. lia. }
    rewrite EQ in T2. lia. }
  split; [exact EL|].
  pose proof (Z.div_mod (Z.of_nat (length bs) + 7) 8 ltac:(lia)) as D.
  pose proof (Z.mod_pos_bound (Z.of_nat (length bs) + 7) 8 ltac:(lia)) as Dm.
  pose proof (Nat.div_mod (length bs) 8 ltac:(lia)) as N.
  pose proof (Nat.mod_upper_bound (length bs) 8 ltac:(lia)).
  split.
  - intros E. rewrite E in EL. lia.
  - intros [E1 E2]. assert (length out = length bs) as EL2 by lia.
    rewrite <- (i2osp_os2ip out (length out)), <- (i2osp_os2ip bs (length bs)) by auto.
    rewrite T1, EL2. reflexivity.
Qed.

(** A second trip through bytes changes nothing. *)
Lemma c35_stable s : wf_uint (sg_inner s) -> uprec (sg_inner s) < 2 ^ 32 ->
  signature_try_from (signature_to_bytes s) = Ok s.
Proof.
  intros W H. destruct (to_bytes_value s W) as [T1 T2]. unfold signature_try_from.
  rewrite sig_from_bytes_ok by lia. cbn [bind]. rewrite T1, T2.
  destruct W as (_ & W1 & W2). destruct s as [[v p]]. cbn [sg_inner uval uprec] in *.
  assert (prec_for p = p) as ->; auto. unfold prec_for, ceil64.
  pose proof (Z.div_mod p 64 ltac:(lia)) as D. rewrite W2 in D.
  assert ((p + 63) / 64 = p / 64) as ->; [|lia].
  rewrite D at 1. rewrite Z.add_0_r, Z.mul_comm, Z.div_add_l by lia. change (63 / 64) with 0. lia.
Qed.

(** ** C47 *)

Lemma c47_p1_sign {R} (g : rng_ops R) hd fuel rng k msg :
  p1sk_sign g hd fuel rng k msg
  = (let* s := scheme_sign g fuel rng (p1sk_inner k)
        (SigPkcs1v15 (mkP1S (Some (h_size hd)) (p1sk_prefix k))) (h_fun hd msg) in
     signature_try_from s).
Proof.
  unfold p1sk_sign, p1sk_sign_prehash, digest_oneshot. cbn [scheme_sign].
  unfold check_hash_len. cbn [p1_hash_len p1_prefix]. rewrite h_len, Nat.eqb_refl. reflexivity.
Qed.

Lemma c47_p1_digest {R} (g : rng_ops R) hd fuel rng k m1 m2 :
  p1sk_sign_digest g fuel rng k (digest_update (digest_update (digest_new hd) m1) m2)
  = p1sk_sign g hd fuel rng k (m1 ++ m2).
Proof. reflexivity. Qed.

Lemma c47_pss_sign {R} (g : rng_ops R) hd fuel st k msg :
  pssk_sign g hd fuel st k msg
  = (let* s := private_sign_with_rng g fuel st (pssk_inner k)
        (SigPss (mkPss (pssk_blinded k) (digest_new hd) (pssk_salt_len k))) (h_fun hd msg) in
     signature_try_from s).
Proof.
  unfold private_sign_with_rng. cbn [scheme_sign ps_blinded ps_digest ps_salt_len].
  rewrite pss_sign_agree. unfold pssk_sign, pssk_sign_digest, pssk_sign_prehash, digest_oneshot.
  cbn [digest_finalize_reset digest_update digest_new d_fn d_pending fst app].
  destruct (pssk_blinded k); reflexivity.
Qed.
