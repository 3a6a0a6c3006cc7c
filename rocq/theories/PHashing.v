(** How much a call hashes. *)
From Coq Require Import ZArith List Bool Lia.
From Coq Require Import Init.Byte.
From Verif Require Import Base Bigint BytesLemmas BigintLemmas SpecRFC SpecKey SpecRng SpecSig SpecWork SpecHashing KeyDefs
  MHash MPad MMgf MPkcs1 MOaep MPss MRsa MKey MApi MLeak MLeakEnc MLeakVerify PPad PMgf PRsa PPkcs1 PPss POaep PApi PSig PLeak
  PLeakRel PLeakEnc PLeakKey PLeakVerify PWork.
Import ListNotations.
Local Open Scope Z_scope.

Lemma hashings_app t t' : hashings (t ++ t') = hashings t ++ hashings t'.
Proof.
  induction t as [|e t IH]; [reflexivity|]. cbn [app]. destruct e; try exact IH.
  cbn [hashings app]. rewrite IH. reflexivity.
Qed.

Definition hashed {A} (m : leaky A) : list nat := hashings (trace m).

Lemma hashed_bind {A B} (m : leaky A) (k : A -> leaky B) :
  hashed (lbind m k) = hashed m ++ match result m with Ok a => hashed (k a) | _ => [] end.
Proof. unfold hashed. rewrite trace_bind, hashings_app. destruct (result m); reflexivity. Qed.

Lemma quiet_bind {A B} (m : leaky A) (k : A -> leaky B) :
  hashed m = [] -> (forall a, hashed (k a) = []) -> hashed (lbind m k) = [].
Proof. intros H K. rewrite hashed_bind, H. destruct (result m); auto. cbn [app]. auto. Qed.

Lemma hashed_step {A B} (m : leaky A) (k : A -> leaky B) a :
  hashed m = [] -> result m = Ok a -> hashed (lbind m k) = hashed (k a).
Proof. intros H E. rewrite hashed_bind, H, E. reflexivity. Qed.

Lemma hashed_then {A B} (m : leaky A) (k : A -> leaky B) a w w' :
  hashed m = w -> result m = Ok a -> hashed (k a) = w' -> hashed (lbind m k) = w ++ w'.
Proof. intros H E K. rewrite hashed_bind, H, E, K. reflexivity. Qed.

Ltac quiet := repeat first
  [ reflexivity | assumption
  | match goal with |- hashed (let '(_, _) := ?x in _) = [] => destruct x end
  | apply quiet_bind; [reflexivity|intros]
  | match goal with |- hashed (if ?b then _ else _) = [] => destruct b end
  | match goal with |- hashed (match ?r with Some _ => _ | None => _ end) = [] => destruct r end ].

(** * Code that hashes nothing *)

Lemma quiet_left_pad i k : hashed (l_left_pad i k) = [].
Proof. unfold l_left_pad. quiet. Qed.
Lemma quiet_be_pad u k : hashed (l_uint_to_be_pad u k) = [].
Proof. unfold l_uint_to_be_pad. do 3 (apply quiet_bind; [reflexivity|intros]). apply quiet_left_pad. Qed.
Lemma quiet_inc i : forall c, hashed (l_inc_counter_from i c) = [].
Proof.
  induction i; intros; [reflexivity|]. cbn [l_inc_counter_from]. apply quiet_bind; [reflexivity|intros]. cbv zeta.
  apply quiet_bind; [reflexivity|intros c0]. destruct c0; auto.
Qed.
Lemma quiet_xor_block d : forall out i j len, hashed (l_xor_block out i d j len) = [].
Proof.
  induction d; intros; [reflexivity|]. cbn [l_xor_block]. apply quiet_bind; [reflexivity|intros].
  apply quiet_bind; [reflexivity|intros c]. destruct c; [reflexivity|].
  do 3 (apply quiet_bind; [reflexivity|intros]). apply IHd.
Qed.
Lemma quiet_scan l : forall pos len i lk ix nz, hashed (l_oaep_scan l pos len i lk ix nz) = [].
Proof. induction l; intros; [reflexivity|]. cbn [l_oaep_scan]. apply quiet_bind; [reflexivity|]. intros. apply IHl. Qed.
Lemma quiet_all_equal b l : forall i len ok, hashed (l_all_equal b l i len ok) = [].
Proof. induction l; intros; [reflexivity|]. cbn [l_all_equal]. apply quiet_bind; [reflexivity|]. intros. apply IHl. Qed.
Lemma quiet_copy {A} (l : list A) a b src : hashed (l_copy_into l a b src) = [].
Proof. reflexivity. Qed.
Lemma quiet_from_be bs n : hashed (l_from_be_slice bs n) = [].
Proof. reflexivity. Qed.
Lemma quiet_reduce n p : hashed (l_reduce_vartime n p) = [].
Proof.
  unfold l_reduce_vartime. cbv zeta. do 2 (apply quiet_bind; [reflexivity|intros]).
  apply quiet_bind; [destruct a; [reflexivity|destruct a0; reflexivity]|intros]. quiet.
Qed.
Lemma quiet_pow b e p : hashed (l_pow_mod_params b e p) = [].
Proof. unfold l_pow_mod_params. apply quiet_bind; [apply quiet_reduce|intros]. quiet. Qed.
Lemma quiet_mul_mod a b p : hashed (l_mul_mod_params a b p) = [].
Proof. unfold l_mul_mod_params. quiet. Qed.
Lemma quiet_unblind m u p : hashed (l_unblind m u p) = [].
Proof. unfold l_unblind. do 2 (apply quiet_bind; [reflexivity|intros]). apply quiet_mul_mod. Qed.
Lemma quiet_encrypt k m : hashed (l_rsa_encrypt k m) = [].
Proof. apply quiet_pow. Qed.

Section Private.
  Context {R : Type} (g : rng_ops R).

  Lemma quiet_blind_loop f : forall st key, hashed (l_blind_loop g f st key) = [].
  Proof.
    induction f; intros; [reflexivity|]. cbn [l_blind_loop]. apply quiet_bind; [reflexivity|intros (? & ?)].
    do 2 (apply quiet_bind; [reflexivity|intros]). cbv zeta. do 2 (apply quiet_bind; [reflexivity|intros]).
    destruct a1; [reflexivity|apply IHf].
  Qed.
  Lemma quiet_blind f st key c p : hashed (l_blind g f st key c p) = [].
  Proof.
    unfold l_blind. cbv zeta. apply quiet_bind; [reflexivity|intros _].
    apply quiet_bind; [apply quiet_blind_loop|intros ((? & ?) & ?)].
    apply quiet_bind; [apply quiet_pow|intros]. apply quiet_bind; [apply quiet_mul_mod|intros]. quiet.
  Qed.
  Lemma quiet_crt c pc q : hashed (l_crt_pow c pc q) = [].
  Proof. unfold l_crt_pow. quiet. Qed.
  Lemma quiet_decrypt f rng k c : hashed (l_rsa_decrypt g f rng k c) = [].
  Proof.
    unfold l_rsa_decrypt. cbv zeta. apply quiet_bind; [reflexivity|intros]. apply quiet_bind; [reflexivity|intros ge].
    destruct ge; [reflexivity|]. apply quiet_bind; [reflexivity|intros].
    apply quiet_bind.
    { destruct rng as [st|]; [|quiet]. apply quiet_bind; [apply quiet_blind|intros (? & ?)]. quiet. }
    intros (c1 & ir). apply quiet_bind; [reflexivity|intros]. apply quiet_bind.
    { destruct (sk_pre k) as [pc|]; [|apply quiet_pow].
      apply quiet_bind; [reflexivity|intros mp]. destruct mp; [apply quiet_pow|].
      do 2 (apply quiet_bind; [reflexivity|intros]). apply quiet_crt. }
    intros. apply quiet_bind; [reflexivity|intros]. apply quiet_bind; [reflexivity|intros].
    destruct ir; [apply quiet_unblind|reflexivity].
  Qed.
  Lemma quiet_check f rng k c : hashed (l_rsa_decrypt_and_check g f k rng c) = [].
  Proof.
    unfold l_rsa_decrypt_and_check. apply quiet_bind; [apply quiet_decrypt|intros].
    apply quiet_bind; [apply quiet_encrypt|intros]. quiet.
  Qed.
End Private.

Lemma be_pad_length u k em : uint_to_be_pad u k = Ok em -> length em = k.
Proof.
  unfold uint_to_be_pad. intros E. apply bind_ok in E. destruct E as (b & _ & E). rewrite left_pad_full in E.
  destruct (Nat.leb_spec (length b) k); [|discriminate]. injection E as <-. rewrite app_length, repeat_length. lia.
Qed.

(** * The mask *)

Lemma mask_hashings_0 h seed : (0 < h)%nat -> mask_hashings h seed 0 = [].
Proof. intros H. unfold mask_hashings. rewrite Nat.div_small by lia. reflexivity. Qed.
Lemma mask_hashings_S h seed n : (0 < h)%nat -> (0 < n)%nat ->
  mask_hashings h seed n = (seed + 4)%nat :: mask_hashings h seed (n - h).
Proof.
  intros H Hn. unfold mask_hashings. destruct (Nat.le_gt_cases n h).
  - replace (n - h)%nat with 0%nat by lia. rewrite (Nat.div_small (0 + h - 1)) by lia.
    replace ((n + h - 1) / h)%nat with 1%nat; [reflexivity|].
    apply Nat.div_unique with (n - 1)%nat; lia.
  - replace (n + h - 1)%nat with ((n - h + h - 1) + 1 * h)%nat by lia.
    rewrite Nat.div_add by lia. rewrite Nat.add_1_r. reflexivity.
Qed.

Lemma inc_length i : forall c, (i <= length c)%nat -> length (inc_counter_from i c) = length c.
Proof.
  induction i as [|i IH]; intros c H; cbn [inc_counter_from]; [reflexivity|].
  set (c' := firstn i c ++ _ :: skipn (S i) c).
  assert (L : length c' = length c).
  { unfold c'. rewrite app_length. cbn [length]. rewrite firstn_length, skipn_length. lia. }
  destruct (byte_eqb _ _); [rewrite IH; lia|exact L].
Qed.

Lemma xor_block_shape D out i : (i <= length out)%nat ->
  exists out', xor_block out i D = Ok (out', (i + Nat.min (length out - i) (length D))%nat) /\ length out' = length out.
Proof.
  intros H. pose proof (xor_block_spec D (firstn i out) (skipn i out)) as E.
  rewrite firstn_skipn, firstn_length, skipn_length, Nat.min_l in E by auto.
  eexists. split; [exact E|]. rewrite !app_length, xor_octets_length, !skipn_length, firstn_length. lia.
Qed.

Lemma di_length (seed c : list byte) : length c = 4%nat ->
  exists di, copy_into (vec x00 (length seed + 4)) 0 (length seed) seed = Ok di /\
    copy_into di (length seed) (length di) c = Ok (seed ++ c).
Proof.
  intros Hc. unfold vec. rewrite repeat_app.
  exists (seed ++ repeat x00 4). split.
  - rewrite <- (app_nil_l (repeat x00 (length seed) ++ repeat x00 4)).
    rewrite copy_into_app; [reflexivity|reflexivity|rewrite repeat_length; reflexivity|reflexivity].
  - rewrite <- (app_nil_r (repeat x00 4)).
    rewrite copy_into_app; [rewrite app_nil_r; reflexivity|reflexivity|rewrite Hc; reflexivity|].
    rewrite Hc, app_nil_r, app_length. reflexivity.
Qed.

Lemma hashed_mgf_loop h seed : (0 < h_size h)%nat -> forall fuel out i c,
  (i <= length out)%nat -> (length out - i <= fuel)%nat -> length c = 4%nat ->
  hashed (l_mgf1_xor_loop fuel out i c (digest_new h) seed) = mask_hashings (h_size h) (length seed) (length out - i) /\
  hashed (l_mgf1_xor_digest_loop fuel out i c (digest_new h) seed)
  = mask_hashings (h_size h) (length seed) (length out - i).
Proof.
  intros Hh. induction fuel as [|fuel IH]; intros out i c Hi Hf Hc;
    cbn [l_mgf1_xor_loop l_mgf1_xor_digest_loop];
    rewrite !(hashed_step (l_if _) _ _ eq_refl eq_refl); destruct (Nat.leb_spec (length out) i) as [L|L].
  - replace (length out - i)%nat with 0%nat by lia. rewrite mask_hashings_0 by auto. split; reflexivity.
  - lia.
  - replace (length out - i)%nat with 0%nat by lia. rewrite mask_hashings_0 by auto. split; reflexivity.
  - rewrite mask_hashings_S by lia.
    destruct (di_length seed c Hc) as (di & D1 & D2).
    destruct (xor_block_shape (h_fun h (seed ++ c)) out i Hi) as (out' & X & LX). rewrite h_len in X.
    assert (N : (length out - i - h_size h = length out' - (i + Nat.min (length out - i) (h_size h)))%nat) by lia.
    assert (LC : length (inc_counter_from 4 c) = 4%nat) by (rewrite inc_length; lia).
    specialize (IH out' (i + Nat.min (length out - i) (h_size h))%nat (inc_counter_from 4 c) ltac:(lia) ltac:(lia) LC).
    rewrite <- N in IH. destruct IH as (IH1 & IH2). split.
    + rewrite (hashed_step (l_vec _ _) _ _ eq_refl eq_refl).
      rewrite (hashed_step (l_copy_into _ _ _ _) _ di); [|apply quiet_copy|rewrite rf_copy_into; exact D1].
      rewrite (hashed_step (l_copy_into _ _ _ _) _ (seed ++ c)); [|apply quiet_copy|rewrite rf_copy_into; exact D2].
      rewrite (hashed_step (l_update _ _) _ _ eq_refl eq_refl).
      eapply (hashed_then (l_finalize_reset _) _ _ [_] _); [|reflexivity|].
      * cbn. rewrite app_length, Hc. reflexivity.
      * cbv beta iota. cbn [digest_update digest_new d_fn d_pending digest_finalize_reset app].
        erewrite hashed_step; [|apply quiet_xor_block|rewrite rf_xor_block; exact X]. cbv beta iota.
        erewrite hashed_step; [|apply quiet_inc|apply rf_inc_counter_from]. exact IH1.
    + rewrite !(hashed_step (l_update _ _) _ _ eq_refl eq_refl).
      eapply (hashed_then (l_finalize_reset _) _ _ [_] _); [|reflexivity|].
      * cbn. rewrite app_length, Hc. reflexivity.
      * cbv beta iota. cbn [digest_update digest_new d_fn d_pending digest_finalize_reset app].
        erewrite hashed_step; [|apply quiet_xor_block|rewrite rf_xor_block; exact X]. cbv beta iota.
        erewrite hashed_step; [|apply quiet_inc|apply rf_inc_counter_from]. exact IH2.
Qed.

Lemma hashed_mgf h seed out : (0 < h_size h)%nat -> Z.of_nat (length out) <= 2 ^ 32 ->
  hashed (l_mgf1_xor out (digest_new h) seed) = mask_hashings (h_size h) (length seed) (length out) /\
  hashed (l_mgf1_xor_digest out (digest_new h) seed) = mask_hashings (h_size h) (length seed) (length out).
Proof.
  intros Hh H32. unfold l_mgf1_xor, l_mgf1_xor_digest.
  assert (A : assert_ (Z.of_nat (length out) <=? 2 ^ 32) = Ok tt).
  { unfold assert_. destruct (Z.leb_spec (Z.of_nat (length out)) (2 ^ 32)); [reflexivity|lia]. }
  rewrite !(hashed_step (l_assert _) _ tt eq_refl A).
  pose proof (hashed_mgf_loop h seed Hh (length out) out 0 [x00; x00; x00; x00]) as H.
  rewrite Nat.sub_0_r in H. apply H; auto; lia.
Qed.

(** * OAEP *)

Lemma mgf_result h seed out : (0 < h_size h)%nat -> Z.of_nat (length out) <= 2 ^ 32 ->
  exists out', length out' = length out /\
    result (l_mgf1_xor out (digest_new h) seed) = Ok (out', digest_new h) /\
    result (l_mgf1_xor_digest out (digest_new h) seed) = Ok (out', digest_new h).
Proof.
  intros Hh H32. exists (xor_octets out (mgf1 (h_fun h) (h_size h) seed (length out))).
  rewrite rf_mgf, rf_mgf_digest, mgf1_xor_spec, mgf1_xor_digest_spec by auto.
  split; [|split; reflexivity]. rewrite xor_octets_length, mgf1_length by auto. lia.
Qed.

Lemma quiet_oaep_finish r : hashed (l_oaep_finish r) = [].
Proof. destruct r as ((? & ?) & ?). unfold l_oaep_finish. quiet. Qed.

Lemma hashed_oaep_inner em h ph K mgf w : length em = K -> (11 <= K)%nat ->
  (forall s d, (h * 2 + 2 <= K)%nat -> length s = h -> length d = (K - h - 1)%nat -> hashed (mgf s d) = w) ->
  hashed (l_oaep_decrypt_inner em h ph K mgf) = if (K <? h * 2 + 2)%nat then [] else w.
Proof.
  intros L K11 M. unfold l_oaep_decrypt_inner.
  rewrite (hashed_step (l_if _) _ _ eq_refl eq_refl). destruct (Nat.ltb_spec K 11); [lia|].
  rewrite (hashed_step (l_if _) _ _ eq_refl eq_refl). destruct (Nat.ltb_spec K (h * 2 + 2)) as [B|B]; [reflexivity|].
  destruct em as [|b0 payload]; [cbn [length] in L; lia|].
  rewrite (hashed_step (l_get (b0 :: payload) 0) _ b0 eq_refl eq_refl). cbv zeta.
  rewrite (hashed_step (l_split_at (b0 :: payload) 1) _ ([b0], payload) eq_refl); [|exact (split_at_app [b0] payload 1 eq_refl)].
  cbv beta iota.
  destruct (split_len payload h (K - h - 1)) as (s & d & -> & Ls & Ld); [cbn [length] in L; lia|].
  rewrite (hashed_step (l_split_at _ _) _ (s, d) eq_refl); [|exact (split_at_app s d h Ls)].
  cbv beta iota. rewrite hashed_bind, (M s d B Ls Ld). destruct (result (mgf s d)) as [(s' & d')| | |]; rewrite ?app_nil_r; auto.
  rewrite <- (app_nil_r w) at 2. f_equal.
  do 2 (apply quiet_bind; [reflexivity|intros]). apply quiet_bind; [apply quiet_scan|intros ((? & ?) & ?)]. quiet.
Qed.

Lemma hashed_oaep_masks hm s d : (0 < h_size hm)%nat ->
  Z.of_nat (length s) <= 2 ^ 32 -> Z.of_nat (length d) <= 2 ^ 32 ->
  let w := mask_hashings (h_size hm) (length d) (length s) ++ mask_hashings (h_size hm) (length s) (length d) in
  hashed (let! (seed, md) := l_mgf1_xor s (digest_new hm) d in
          let! (db, _) := l_mgf1_xor d md seed in lret (seed, db)) = w /\
  hashed (let! (seed, md) := l_mgf1_xor_digest s (digest_new hm) d in
          let! (db, _) := l_mgf1_xor_digest d md seed in lret (seed, db)) = w.
Proof.
  intros Hm Hs Hd w. subst w.
  destruct (mgf_result hm d s Hm Hs) as (s' & Ls & E1 & E2).
  destruct (mgf_result hm s' d Hm Hd) as (d' & Ld & F1 & F2).
  destruct (hashed_mgf hm d s Hm Hs) as (A1 & A2). destruct (hashed_mgf hm s' d Hm Hd) as (B1 & B2).
  rewrite Ls in *. split.
  - eapply hashed_then; [exact A1|exact E1|]. cbv beta iota.
    rewrite <- app_nil_r. eapply hashed_then; [exact B1|exact F1|reflexivity].
  - eapply hashed_then; [exact A2|exact E2|]. cbv beta iota.
    rewrite <- app_nil_r. eapply hashed_then; [exact B2|exact F2|reflexivity].
Qed.

Definition oaep_hashing (h hm label K : nat) : list nat :=
  if 2 ^ 61 <=? Z.of_nat label then []
  else if (K <? h * 2 + 2)%nat then [label] else oaep_hashings h hm label K.

Lemma hashed_oaep_decrypt hd hm em label K : (0 < h_size hm)%nat -> length em = K -> (11 <= K)%nat ->
  Z.of_nat K <= 2 ^ 32 ->
  let w := oaep_hashing (h_size hd) (h_size hm) (length (label_bytes label)) K in
  hashed (l_oaep_decrypt em (digest_new hd) (digest_new hm) label K) = w /\
  hashed (l_oaep_decrypt_digest hd hm em label K) = w.
Proof.
  intros Hm L K11 K32 w. subst w. unfold l_oaep_decrypt, l_oaep_decrypt_digest, oaep_hashing. cbv zeta.
  rewrite !(hashed_step (l_if _) _ _ eq_refl eq_refl). unfold MAX_LABEL_LEN.
  destruct (2 ^ 61 <=? Z.of_nat (length (label_bytes label))); [split; reflexivity|].
  assert (F : forall m : leaky (list byte * Z * bool), hashed (let! r := m in l_oaep_finish r) = hashed m).
  { intros m. rewrite hashed_bind. destruct (result m); rewrite ?quiet_oaep_finish, ?app_nil_r; reflexivity. }
  assert (S : forall w, (if (K <? h_size hd * 2 + 2)%nat then [length (label_bytes label)]
                         else length (label_bytes label) :: w)
                        = [length (label_bytes label)] ++ if (K <? h_size hd * 2 + 2)%nat then [] else w).
  { intros w. destruct (_ <? _)%nat; reflexivity. }
  unfold oaep_hashings. rewrite S. split.
  - rewrite (hashed_step (l_update _ _) _ _ eq_refl eq_refl).
    eapply hashed_then; [reflexivity|reflexivity|]. unfold digest_finalize_reset. cbv beta iota. rewrite F.
    apply hashed_oaep_inner; auto.
    intros s d B Ls Ld. pose proof (hashed_oaep_masks hm s d Hm) as X. rewrite Ls, Ld in X. apply X; lia.
  - eapply hashed_then; [reflexivity|reflexivity|]. cbv beta iota. rewrite F. apply hashed_oaep_inner; auto.
    intros s d B Ls Ld. pose proof (hashed_oaep_masks hm s d Hm) as X. rewrite Ls, Ld in X. apply X; lia.
Qed.

Section Oaep.
  Context {R : Type} (g : rng_ops R).

  Lemma hashed_api_decrypt hd hm f rng k ct label : (0 < h_size hm)%nat -> good_priv k ->
    (11 <= key_size (sk_pub k))%nat -> uprec (pk_n (sk_pub k)) < 2 ^ 32 ->
    let K := key_size (sk_pub k) in
    let w := if (length ct =? K)%nat
             then match decrypt_core g f rng k ct with
                  | Ok _ => oaep_hashing (h_size hd) (h_size hm) (length (label_bytes label)) K | _ => [] end else [] in
    hashed (l_oaep_api_decrypt g f rng k ct (digest_new hd) (digest_new hm) label) = w /\
    (public_usable (uval (pk_n (sk_pub k))) (uval (pk_e (sk_pub k))) (uprec (pk_n (sk_pub k))) ->
     hashed (l_oaep_api_decrypt_digest g hd hm f rng k ct label) = w).
  Proof.
    intros Hm Hk K11 H32 K w. pose proof (good_pub k Hk) as Hp.
    pose proof (prec32_size _ Hp H32) as Ks.
    assert (X : forall (next : list byte -> leaky (list byte)) v, (forall em, length em = K -> hashed (next em) = v) ->
                hashed (let! c := l_if (negb (length ct =? key_size (sk_pub k))%nat) in
                        if c then lerr Decryption
                        else let! c := l_public (from_be_slice ct (n_bits_precision (sk_pub k))) in
                             let! em := l_rsa_decrypt_and_check g f k rng c in
                             let! em := l_uint_to_be_pad em (key_size (sk_pub k)) in next em)
                = if (length ct =? K)%nat then match decrypt_core g f rng k ct with Ok _ => v | _ => [] end else []).
    { intros next v N. rewrite (hashed_step (l_if _) _ _ eq_refl eq_refl). fold K.
      destruct (length ct =? K)%nat; [|reflexivity]. cbn [negb].
      unfold decrypt_core. rewrite hashed_bind. change (result (l_public ?x)) with x.
      change (hashed (l_public ?x)) with (@nil nat). cbn [app].
      destruct (from_be_slice ct (n_bits_precision (sk_pub k))); try reflexivity. cbn [bind].
      rewrite hashed_bind, quiet_check, rf_rsa_check. cbn [app].
      destruct (rsa_decrypt_and_check g f k rng a); try reflexivity. cbn [bind].
      rewrite hashed_bind, quiet_be_pad, rf_zeroizing_pad. cbn [app]. fold K.
      destruct (uint_to_zeroizing_be_pad a0 K) eqn:E; try reflexivity.
      apply N. exact (be_pad_length _ _ _ E). }
    split.
    - unfold l_oaep_api_decrypt. cbv zeta. apply X. intros em Lem. apply hashed_oaep_decrypt; auto. lia.
    - intros Hu. apply check_public_ok in Hu; auto. unfold l_oaep_api_decrypt_digest. cbv zeta.
      rewrite hashed_bind. change (result (l_public ?x)) with x. change (hashed (l_public ?x)) with (@nil nat).
      rewrite Hu. cbn [app]. apply X. intros em Lem. apply hashed_oaep_decrypt; auto. lia.
  Qed.
End Oaep.

Lemma hashed_oaep_masks_enc hm s d : (0 < h_size hm)%nat ->
  Z.of_nat (length s) <= 2 ^ 32 -> Z.of_nat (length d) <= 2 ^ 32 ->
  let w := mask_hashings (h_size hm) (length s) (length d) ++ mask_hashings (h_size hm) (length d) (length s) in
  hashed (let! (db, md) := l_mgf1_xor d (digest_new hm) s in
          let! (seed, _) := l_mgf1_xor s md db in lret (seed, db)) = w /\
  hashed (let! (db, md) := l_mgf1_xor_digest d (digest_new hm) s in
          let! (seed, _) := l_mgf1_xor_digest s md db in lret (seed, db)) = w.
Proof.
  intros Hm Hs Hd w. subst w.
  destruct (mgf_result hm s d Hm Hd) as (d' & Ld & E1 & E2).
  destruct (mgf_result hm d' s Hm Hs) as (s' & Ls & F1 & F2).
  destruct (hashed_mgf hm s d Hm Hd) as (A1 & A2). destruct (hashed_mgf hm d' s Hm Hs) as (B1 & B2).
  rewrite Ld in *. split.
  - eapply hashed_then; [exact A1|exact E1|]. cbv beta iota.
    rewrite <- app_nil_r. eapply hashed_then; [exact B1|exact F1|reflexivity].
  - eapply hashed_then; [exact A2|exact E2|]. cbv beta iota.
    rewrite <- app_nil_r. eapply hashed_then; [exact B2|exact F2|reflexivity].
Qed.

Lemma quiet_step {A B} (o : outcome A) ev (k : A -> leaky B) a :
  hashings [ev] = [] -> o = Ok a -> hashed (lbind (emit ev o) k) = hashed (k a).
Proof. intros H ->. apply hashed_step; [exact H|reflexivity]. Qed.

Lemma copy_into_ok {A} (l src : list A) i j : (j <= length l)%nat -> (i + length src = j)%nat ->
  exists l', copy_into l i j src = Ok l' /\ length l' = length l.
Proof.
  intros Hj Hs. rewrite <- (firstn_skipn i l).
  rewrite <- (firstn_skipn (length src) (skipn i l)).
  eexists. split.
  - apply copy_into_app; [rewrite firstn_length; lia|rewrite firstn_length, skipn_length; lia|lia].
  - rewrite !app_length, !firstn_length, !skipn_length. lia.
Qed.
Lemma set_idx_ok {A} (l : list A) i v : (i < length l)%nat ->
  exists l', set_idx l i v = Ok l' /\ length l' = length l.
Proof.
  intros H. unfold set_idx. destruct (Nat.ltb_spec i (length l)); [|lia].
  eexists. split; [reflexivity|]. rewrite app_length. cbn [length]. rewrite firstn_length, skipn_length. lia.
Qed.

Section OaepEnc.
  Context {R : Type} (g : rng_ops R).

  Lemma hashed_enc_inner st msg ph h K mgf w : rng_ok g -> length ph = h ->
    (forall s d, (length msg + 2 * h + 2 <= K)%nat -> length s = h -> length d = (K - h - 1)%nat -> hashed (mgf s d) = w) ->
    hashed (l_oaep_encrypt_internal g st msg ph h K mgf)
    = if (K <? length msg + 2 * h + 2)%nat then []
      else match rng_fill g st h with (Some _, _) => w | (None, _) => [] end.
  Proof.
    intros Hg Lp M. unfold l_oaep_encrypt_internal.
    rewrite (hashed_step (l_if _) _ _ eq_refl eq_refl). destruct (Nat.ltb_spec K (length msg + 2 * h + 2)) as [B|B]; [reflexivity|].
    rewrite (hashed_step (l_vec _ _) _ _ eq_refl eq_refl). unfold vec.
    destruct K as [|K]; [lia|]. 
    rewrite (hashed_step (l_split_at _ _) _ ([x00], repeat x00 K) eq_refl); [|exact (split_at_app [x00] (repeat x00 K) 1 eq_refl)].
    cbv beta iota. destruct (split_len (repeat x00 K) h (K - h)) as (s & d & E & Ls & Ld); [rewrite repeat_length; lia|].
    rewrite E. rewrite (hashed_step (l_split_at _ _) _ (s, d) eq_refl); [|exact (split_at_app s d h Ls)].
    cbv beta iota. rewrite hashed_bind. unfold l_fill. rewrite Ls. destruct (rng_fill g st h) as [[seed|] st'] eqn:F; [|reflexivity].
    change (hashed (emit _ _)) with (@nil nat). cbn [app]. cbv [result emit snd]. cbv beta iota.
    assert (Lseed : length seed = h) by (apply (proj1 Hg) in F; exact F).
    rewrite (hashed_step (l_check _) _ (S K - h)%nat eq_refl); [|exact (usub_ok (S K) h ltac:(lia))].
    rewrite (hashed_step (l_check _) _ (S K - h - 1)%nat eq_refl); [|exact (usub_ok (S K - h) 1 ltac:(lia))].
    destruct (copy_into_ok d ph 0 h ltac:(lia) ltac:(lia)) as (d1 & D1 & L1).
    rewrite (hashed_step (l_copy_into _ _ _ _) _ d1); [|reflexivity|rewrite rf_copy_into; exact D1].
    rewrite (hashed_step (l_check _) _ (S K - h - 1 - length msg)%nat eq_refl); [|exact (usub_ok (S K - h - 1) (length msg) ltac:(lia))].
    rewrite (hashed_step (l_check _) _ (S K - h - 1 - length msg - 1)%nat eq_refl); [|exact (usub_ok (S K - h - 1 - length msg) 1 ltac:(lia))].
    destruct (set_idx_ok d1 (S K - h - 1 - length msg - 1) x01 ltac:(lia)) as (d2 & D2 & L2).
    rewrite (hashed_step (l_set _ _ _) _ d2 eq_refl); [|exact D2].
    destruct (copy_into_ok d2 msg (S K - h - 1 - length msg) (length d2) ltac:(lia) ltac:(lia)) as (d3 & D3 & L3).
    rewrite (hashed_step (l_copy_into _ _ _ _) _ d3); [|reflexivity|rewrite rf_copy_into; exact D3].
    rewrite hashed_bind, (M seed d3) by lia. rewrite <- (app_nil_r w) at 2. f_equal.
    destruct (result (mgf seed d3)) as [(? & ?)| | |]; reflexivity.
  Qed.

  Definition oaep_encrypt_hashing (st : R) (h hm label m K : nat) : list nat :=
    if 2 ^ 61 <=? Z.of_nat label then []
    else if (K <? m + 2 * h + 2)%nat then [label]
    else match rng_fill g st h with
         | (Some _, _) => oaep_encrypt_hashings h hm label K
         | (None, _) => [label]
         end.

  Lemma hashed_oaep_encrypt hd hm st msg label K : rng_ok g -> (0 < h_size hm)%nat -> Z.of_nat K <= 2 ^ 32 ->
    let w := oaep_encrypt_hashing st (h_size hd) (h_size hm) (length (label_bytes label)) (length msg) K in
    hashed (l_oaep_encrypt g st msg (digest_new hd) (digest_new hm) label K) = w /\
    hashed (l_oaep_encrypt_digest g hd hm st msg label K) = w.
  Proof.
    intros Hg Hm K32 w. subst w. unfold l_oaep_encrypt, l_oaep_encrypt_digest, oaep_encrypt_hashing. cbv zeta.
    rewrite !(hashed_step (l_if _) _ _ eq_refl eq_refl). unfold MAX_LABEL_LEN.
    destruct (2 ^ 61 <=? Z.of_nat (length (label_bytes label))); [split; reflexivity|].
    set (L := length (label_bytes label)).
    assert (S : forall v, (if (K <? length msg + 2 * h_size hd + 2)%nat then [L]
       else match rng_fill g st (h_size hd) with (Some _, _) => L :: v | (None, _) => [L] end)
       = [L] ++ if (K <? length msg + 2 * h_size hd + 2)%nat then []
                else match rng_fill g st (h_size hd) with (Some _, _) => v | (None, _) => [] end).
    { intros v. destruct (_ <? _)%nat; [reflexivity|]. destruct (rng_fill g st (h_size hd)) as [[|] ?]; reflexivity. }
    unfold oaep_encrypt_hashings. rewrite S. split.
    - rewrite (hashed_step (l_update _ _) _ _ eq_refl eq_refl).
      eapply hashed_then; [reflexivity|reflexivity|]. unfold digest_finalize_reset. cbv beta iota.
      apply hashed_enc_inner; [auto|apply h_len|].
      intros s d B Ls Ld. pose proof (hashed_oaep_masks_enc hm s d Hm) as X. rewrite Ls, Ld in X. apply X; lia.
    - eapply hashed_then; [reflexivity|reflexivity|].
      apply hashed_enc_inner; [auto|apply h_len|].
      intros s d B Ls Ld. pose proof (hashed_oaep_masks_enc hm s d Hm) as X. rewrite Ls, Ld in X. apply X; lia.
  Qed.

  Lemma hashed_api_encrypt hd hm st pk msg label : rng_ok g -> (0 < h_size hm)%nat -> wf_pub pk ->
    let w := match check_public pk with
             | Ok _ => oaep_encrypt_hashing st (h_size hd) (h_size hm) (length (label_bytes label)) (length msg) (key_size pk)
             | _ => [] end in
    hashed (l_oaep_api_encrypt g st pk msg (digest_new hd) (digest_new hm) label) = w /\
    hashed (l_oaep_api_encrypt_digest g hd hm st pk msg label) = w.
  Proof.
    intros Hg Hm Hp w. subst w. unfold l_oaep_api_encrypt, l_oaep_api_encrypt_digest.
    rewrite !hashed_bind. change (result (l_public ?x)) with x. change (hashed (l_public ?x)) with (@nil nat).
    destruct (check_public pk) as [[]| | |] eqn:C; try (split; reflexivity). cbn [app]. cbv beta iota.
    apply check_public_ok in C; auto. pose proof (usable_size _ Hp C) as Us.
    destruct (hashed_oaep_encrypt hd hm st msg label (key_size pk) Hg Hm ltac:(lia)) as (A & B).
    rewrite A, B.
    assert (Q : forall em, hashed (let! int := l_from_be_slice em (n_bits_precision pk) in
                let! c := l_rsa_encrypt pk int in l_uint_to_be_pad c (key_size pk)) = []).
    { intros em. apply quiet_bind; [apply quiet_from_be|intros]. apply quiet_bind; [apply quiet_encrypt|intros]. apply quiet_be_pad. }
    split.
    - rewrite <- app_nil_r. f_equal. destruct (result _); try reflexivity. apply Q.
    - rewrite <- app_nil_r. f_equal. destruct (result _); try reflexivity. apply Q.
  Qed.
End OaepEnc.

(** * PSS *)

Lemma ff_shr_total eb : exists m, ff_shr (8 * div_ceil8 eb - eb) = Ok m.
Proof.
  pose proof (div_ceil8_spec eb). unfold ff_shr. destruct (Nat.ltb_spec (8 * div_ceil8 eb - eb) 8); [eauto|lia].
Qed.

Definition pss_hashing (h mh salt emLen : nat) : list nat :=
  if negb (mh =? h)%nat then [] else if (emLen <? h + salt + 2)%nat then [] else pss_hashings h salt emLen.

Lemma l_check_step {A B} (o : outcome A) (k : A -> leaky B) a : o = Ok a -> hashed (lbind (l_check o) k) = hashed (k a).
Proof. intros E. apply hashed_step; [reflexivity|exact E]. Qed.
Ltac hsub a b := rewrite !(l_check_step (usub a b) _ (a - b)%nat (usub_ok a b ltac:(lia))).

Lemma hashed_pss_tail {B} (em_len eb : nat) (db h tl : list byte) (k : list byte -> leaky B) :
  (forall em, hashed (k em) = []) ->
  hashed (let! sh := l_check (usub (8 * em_len) eb) in
          let! mask := l_check (ff_shr sh) in
          let! d0 := l_get db 0 in
          let! db := l_set db 0 (band d0 mask) in
          let em := db ++ h ++ tl in
          let! last := l_check (usub em_len 1) in
          let! em := l_set em last xbc in k em) = [].
Proof. intros H. do 6 (apply quiet_bind; [reflexivity|intros]). apply H. Qed.

Lemma hashed_pss_encode hd mh eb salt : (0 < h_size hd)%nat -> Z.of_nat (div_ceil8 eb) <= 2 ^ 32 ->
  let w := pss_hashing (h_size hd) (length mh) (length salt) (div_ceil8 eb) in
  hashed (l_emsa_pss_encode mh eb salt (digest_new hd)) = w /\
  hashed (l_emsa_pss_encode_digest hd mh eb salt) = w.
Proof.
  intros Hh H32 w. subst w. unfold l_emsa_pss_encode, l_emsa_pss_encode_digest, pss_hashing. cbv zeta.
  change (digest_output_size (digest_new hd)) with (h_size hd).
  rewrite !(hashed_step (l_if _) _ _ eq_refl eq_refl).
  destruct (Nat.eqb_spec (length mh) (h_size hd)) as [Lm|]; [|split; reflexivity]. cbn [negb].
  rewrite !(hashed_step (l_if _) _ _ eq_refl eq_refl).
  set (L := div_ceil8 eb) in *.
  destruct (Nat.ltb_spec L (h_size hd + length salt + 2)) as [B|B]; [split; reflexivity|].
  rewrite !(hashed_step (l_vec _ _) _ _ eq_refl eq_refl).
  hsub L (h_size hd). hsub (L - h_size hd)%nat 1%nat.
  destruct (split_len (vec x00 L) (L - h_size hd - 1) (h_size hd + 1)) as (db & r & E & Ld & Lr);
    [unfold vec; rewrite repeat_length; lia|].
  destruct (split_len r (h_size hd) 1) as (h1 & tl & -> & Lh1 & Lt); [lia|].
  rewrite E, !(hashed_step (l_split_at _ _) _ (db, h1 ++ tl) eq_refl (split_at_app db _ _ Ld)).
  cbv beta iota. hsub L 1%nat. rewrite Ld. hsub (L - 1)%nat (L - h_size hd - 1)%nat.
  replace (L - 1 - (L - h_size hd - 1))%nat with (h_size hd) by lia.
  rewrite !(hashed_step (l_split_at _ _) _ (h1, tl) eq_refl (split_at_app h1 tl _ Lh1)).
  cbv beta iota. rewrite !(hashed_step (l_update _ _) _ _ eq_refl eq_refl).
  set (pend := digest_update (digest_update (digest_update (digest_new hd) (vec x00 8)) mh) salt).
  assert (FR : digest_finalize_reset pend = (h_fun hd (d_pending pend), digest_new hd)) by reflexivity.
  assert (LP : length (d_pending pend) = (8 + h_size hd + length salt)%nat).
  { unfold pend. cbn [digest_update digest_new d_pending app]. rewrite !app_length, Lm. reflexivity. }
  set (hs := h_fun hd (d_pending pend)) in *. assert (Lhs : length hs = h_size hd) by apply h_len.
  assert (HF : hashed (l_finalize_reset pend) = [(8 + h_size hd + length salt)%nat]) by (rewrite <- LP; reflexivity).
  assert (RF : result (l_finalize_reset pend) = Ok (hs, digest_new hd)) by reflexivity.
  clearbody pend hs.
  destruct (copy_into_ok h1 hs 0 (length h1) ltac:(lia) ltac:(lia)) as (h2 & H2 & L2).
  destruct (set_idx_ok db (L - length salt - h_size hd - 2) x01 ltac:(lia)) as (db1 & D1 & L1).
  destruct (copy_into_ok db1 salt (L - length salt - h_size hd - 1) (length db1) ltac:(lia) ltac:(lia)) as (db2 & D2 & Ld2).
  destruct (hashed_mgf hd h2 db2 Hh ltac:(lia)) as (M1 & M2).
  destruct (mgf_result hd h2 db2 Hh ltac:(lia)) as (db3 & L3 & R1 & R2).
  rewrite Ld2, L1, Ld, L2, Lh1 in M1, M2.
  unfold pss_hashings. change (?x :: ?y) with ([x] ++ y). split.
  - eapply hashed_then; [exact HF|exact RF|]. cbv beta iota.
    rewrite (hashed_step (l_copy_into _ _ _ _) _ h2); [|reflexivity|rewrite rf_copy_into; exact H2].
    hsub L (length salt). hsub (L - length salt)%nat (h_size hd). hsub (L - length salt - h_size hd)%nat 2%nat.
    rewrite (hashed_step (l_set _ _ _) _ db1 eq_refl); [|exact D1].
    hsub (L - length salt - h_size hd)%nat 1%nat.
    rewrite (hashed_step (l_copy_into _ _ _ _) _ db2); [|reflexivity|rewrite rf_copy_into; exact D2].
    rewrite <- app_nil_r. eapply hashed_then; [exact M1|exact R1|]. cbv beta iota.
    apply hashed_pss_tail. reflexivity.
  - eapply hashed_then; [exact HF|exact RF|]. cbv beta iota.
    rewrite (hashed_step (l_copy_into _ _ _ _) _ h2); [|reflexivity|rewrite rf_copy_into; exact H2].
    hsub L (length salt). hsub (L - length salt)%nat (h_size hd). hsub (L - length salt - h_size hd)%nat 2%nat.
    rewrite (hashed_step (l_set _ _ _) _ db1 eq_refl); [|exact D1].
    hsub (L - length salt - h_size hd)%nat 1%nat.
    rewrite (hashed_step (l_copy_into _ _ _ _) _ db2); [|reflexivity|rewrite rf_copy_into; exact D2].
    rewrite <- app_nil_r. eapply hashed_then; [exact M2|exact R2|]. cbv beta iota.
    do 5 (apply quiet_bind; [reflexivity|intros]). reflexivity.
Qed.

Section PssSign.
  Context {R : Type} (g : rng_ops R).

  Lemma hashed_public {A B} (o : outcome A) (k : A -> leaky B) :
    hashed (lbind (l_public o) k) = match o with Ok a => hashed (k a) | _ => [] end.
  Proof. rewrite hashed_bind. reflexivity. Qed.

  Lemma hashed_sign_salt hd f rng k mh salt : (0 < h_size hd)%nat -> wf_pub (sk_pub k) ->
    uprec (pk_n (sk_pub k)) < 2 ^ 32 ->
    let eb := (Z.to_nat (ubits (pk_n (sk_pub k))) - 1)%nat in
    let w := pss_hashing (h_size hd) (length mh) (length salt) (pss_em_len eb) in
    hashed (l_sign_pss_with_salt g f rng k mh salt (digest_new hd)) = w /\
    hashed (l_sign_pss_with_salt_digest g hd f rng k mh salt) = w.
  Proof.
    intros Hh Hp H32 eb w. destruct (nbits_facts _ Hp) as (B1 & B2 & B3 & B4 & B5). fold eb in B4, B5.
    pose proof (prec32_size _ Hp H32) as Hs.
    unfold l_sign_pss_with_salt, l_sign_pss_with_salt_digest. cbv zeta.
    rewrite !hashed_public, usub_ok by auto. fold eb.
    destruct (hashed_pss_encode hd mh eb salt Hh) as (A & B); [change (div_ceil8 eb) with (pss_em_len eb); lia|].
    change (div_ceil8 eb) with (pss_em_len eb) in *. fold w in A, B.
    assert (Q : forall em, hashed (let! em := l_from_be_slice em (n_bits_precision (sk_pub k)) in
              let! raw := l_rsa_decrypt_and_check g f k rng em in l_uint_to_be_pad raw (key_size (sk_pub k))) = []).
    { intros em. apply quiet_bind; [apply quiet_from_be|intros]. apply quiet_bind; [apply quiet_check|intros]. apply quiet_be_pad. }
    rewrite !hashed_bind, A, B. rewrite <- (app_nil_r w) at 2 4. split; f_equal.
    - destruct (result _) as [(em & ?)| | |]; try reflexivity. apply Q.
    - destruct (result _) as [em| | |]; try reflexivity. apply Q.
  Qed.

  Lemma hashed_pss_sign hd f st bl k mh sl : rng_ok g -> (0 < h_size hd)%nat -> wf_pub (sk_pub k) ->
    uprec (pk_n (sk_pub k)) < 2 ^ 32 ->
    let eb := (Z.to_nat (ubits (pk_n (sk_pub k))) - 1)%nat in
    let w := match rng_fill g st sl with
             | (Some _, _) => pss_hashing (h_size hd) (length mh) sl (pss_em_len eb) | _ => [] end in
    hashed (l_pss_sign g f st bl k mh sl (digest_new hd)) = w /\
    hashed (l_pss_sign_digest g hd f st bl k mh sl) = w.
  Proof.
    intros Hg Hh Hp H32 eb w. subst w. unfold l_pss_sign, l_pss_sign_digest.
    rewrite !(hashed_step (l_vec _ _) _ _ eq_refl eq_refl). unfold l_fill. rewrite !hashed_bind.
    destruct (rng_fill g st sl) as [[salt|] st'] eqn:F; [|split; reflexivity].
    apply (proj1 Hg) in F. rewrite <- F.
    change (hashed (emit _ _)) with (@nil nat). cbn [app]. cbv [result emit snd]. cbv beta iota.
    rewrite !(hashed_step (l_if _) _ _ eq_refl eq_refl). apply hashed_sign_salt; auto.
  Qed.
End PssSign.

(** * Verification *)

Lemma quiet_sign_unpad p h em k : hashed (l_pkcs1v15_sign_unpad p h em k) = [].
Proof.
  unfold l_pkcs1v15_sign_unpad. cbv zeta. apply quiet_bind; [reflexivity|intros c]. destruct c; [reflexivity|].
  do 11 (apply quiet_bind; [reflexivity|intros]). apply quiet_bind; [apply quiet_all_equal|intros]. quiet.
Qed.
Lemma quiet_pkcs1_verify pk p h sig : hashed (l_pkcs1v15_verify pk p h sig) = [].
Proof.
  unfold l_pkcs1v15_verify. do 2 (apply quiet_bind; [reflexivity|intros]). destruct a0; [reflexivity|].
  apply quiet_bind; [apply quiet_encrypt|intros]. apply quiet_bind; [apply quiet_be_pad|intros]. apply quiet_sign_unpad.
Qed.
Lemma quiet_verify_pre mh em eb sl hl : hashed (l_emsa_pss_verify_pre mh em eb sl hl) = [].
Proof.
  unfold l_emsa_pss_verify_pre. cbv zeta. apply quiet_bind; [reflexivity|intros c]. destruct c; [reflexivity|].
  do 2 (apply quiet_bind; [reflexivity|intros]). destruct a0; [reflexivity|].
  do 3 (apply quiet_bind; [reflexivity|intros]). destruct a2; [reflexivity|].
  do 2 (apply quiet_bind; [reflexivity|intros]). apply quiet_bind; [reflexivity|intros (? & ?)].
  do 5 (apply quiet_bind; [reflexivity|intros]). destruct a8; reflexivity.
Qed.
Lemma quiet_verify_salt db el sl hl : hashed (l_emsa_pss_verify_salt db el sl hl) = [].
Proof.
  unfold l_emsa_pss_verify_salt. do 3 (apply quiet_bind; [reflexivity|intros]). apply quiet_bind; [reflexivity|intros (? & ?)].
  apply quiet_bind; [apply quiet_all_equal|intros]. quiet.
Qed.

(** what the first phase lets through *)
Lemma verify_pre_lengths mh em eb sl hl db h : emsa_pss_verify_pre mh em eb sl hl = Ok (db, h) ->
  length mh = hl /\ (hl + sl + 2 <= length em)%nat /\ length h = hl /\ length db = (length em - hl - 1)%nat.
Proof.
  unfold emsa_pss_verify_pre. destruct (Nat.eqb_spec (length mh) hl) as [L|]; [|discriminate]. cbn [negb].
  unfold usize_add. destruct (_ <? 2 ^ 64); [|discriminate]. cbn [bind].
  destruct (Nat.ltb_spec (length em) (hl + sl + 2)) as [|B]; [discriminate|]. intros E.
  apply bind_ok in E. destruct E as (l & _ & E). apply bind_ok in E. destruct E as (l' & _ & E).
  destruct (negb (byte_eqb l' xbc)); [discriminate|].
  rewrite usub_ok in E by lia. cbn [bind] in E. rewrite usub_ok in E by lia. cbn [bind] in E.
  destruct (split_len em (length em - hl - 1) (hl + 1)) as (d & r & -> & Ld & Lr); [lia|].
  rewrite split_at_app in E by auto. cbn [bind] in E.
  destruct (split_len r hl 1) as (h' & tl & -> & Lh & Lt); [lia|].
  change (h' ++ tl) with ([] ++ h' ++ tl) in E. rewrite slice_app in E; [|reflexivity|cbn [length]; lia]. cbn [bind] in E.
  apply bind_ok in E. destruct E as (? & _ & E). apply bind_ok in E. destruct E as (? & _ & E).
  apply bind_ok in E. destruct E as (? & _ & E). destruct (negb _); [discriminate|]. injection E as <- <-. auto.
Qed.

Lemma hashed_pss_finish hd mh db h eb sl : length mh = h_size hd -> (h_size hd + sl + 2 <= div_ceil8 eb)%nat ->
  length db = (div_ceil8 eb - h_size hd - 1)%nat ->
  hashed (l_emsa_pss_finish mh db h (digest_new hd) eb (div_ceil8 eb) sl (h_size hd)) = [(8 + h_size hd + sl)%nat].
Proof.
  intros Lm B Ld. unfold l_emsa_pss_finish. pose proof (div_ceil8_spec eb) as S. set (L := div_ceil8 eb) in *.
  destruct (ff_shr_total eb) as (m & Hm). fold L in Hm.
  hsub (8 * L)%nat eb. rewrite (l_check_step _ _ _ Hm).
  destruct db as [|d0 db]; [cbn [length] in Ld; lia|].
  rewrite (hashed_step (l_get (d0 :: db) 0) _ d0 eq_refl eq_refl).
  rewrite (hashed_step (l_set _ _ _) _ (band d0 m :: db) eq_refl); [|exact (set_idx_0 d0 db (band d0 m))].
  set (db' := band d0 m :: db). assert (Ld' : length db' = (L - h_size hd - 1)%nat) by exact Ld. clearbody db'.
  assert (exists v, emsa_pss_verify_salt db' L sl (h_size hd) = Ok v) as (v & V).
  { unfold emsa_pss_verify_salt. rewrite usub_ok by lia. cbn [bind]. rewrite usub_ok by lia. cbn [bind].
    rewrite usub_ok by lia. cbn [bind].
    destruct (split_len db' (L - h_size hd - sl - 2) (1 + sl)) as (z & r & -> & Lz & Lr); [lia|].
    rewrite split_at_app by auto. cbn [bind]. destruct r as [|r0 r]; [discriminate|].
    change (get_idx (r0 :: r) 0) with (Ok r0). cbn [bind]. eauto. }
  rewrite (hashed_step (l_emsa_pss_verify_salt _ _ _ _) _ v (quiet_verify_salt _ _ _ _));
    [|rewrite rf_verify_salt; exact V].
  hsub (length db') sl.
  destruct (split_len db' (length db' - sl) sl) as (a & salt & E & La & Ls); [lia|].
  rewrite E at 1. rewrite (hashed_step (l_slice_from _ _) _ salt eq_refl).
  2:{ change (slice_from (a ++ salt) (length db' - sl) = Ok salt). apply slice_from_app. exact La. }
  rewrite !(hashed_step (l_update _ _) _ _ eq_refl eq_refl).
  rewrite <- (app_nil_r [_]). eapply hashed_then; [|reflexivity|].
  - cbn -[vec Nat.add]. rewrite !app_length, Lm, Ls. unfold vec. rewrite repeat_length. reflexivity.
  - unfold digest_finalize_reset. cbv beta iota. quiet.
Qed.

Lemma hashed_pss_verify hd mh em sl kb : (0 < h_size hd)%nat -> (1 <= kb)%nat ->
  length em = div_ceil8 kb -> Z.of_nat (div_ceil8 kb) <= 2 ^ 32 ->
  let full := pss_verify_hashings (h_size hd) sl (pss_em_len (kb - 1)) in
  exists w, hashed (l_emsa_pss_verify mh em sl (digest_new hd) kb) = w /\
    hashed (l_emsa_pss_verify_digest hd mh em sl kb) = w /\
    ((w = [] /\ emsa_pss_verify_digest hd mh em sl kb <> Ok tt) \/ w = full).
Proof.
  intros Hh Hkb Lem H32 full. unfold l_emsa_pss_verify, l_emsa_pss_verify_digest, emsa_pss_verify_digest. cbv zeta.
  change (digest_output_size (digest_new hd)) with (h_size hd).
  hsub kb 1%nat. rewrite (usub_ok kb 1) by auto. cbn [bind].
  pose proof (div_ceil8_spec kb) as S1. pose proof (div_ceil8_spec (kb - 1)) as S2.
  change (pss_em_len (kb - 1)) with (div_ceil8 (kb - 1)) in full. set (L := div_ceil8 (kb - 1)) in *.
  hsub (div_ceil8 kb) L. rewrite (usub_ok (div_ceil8 kb) L) by lia. cbn [bind].
  destruct (split_len em (div_ceil8 kb - L) L) as (pre & blk & -> & Lp & Lb); [lia|].
  rewrite !(hashed_step (l_slice_from _ _) _ blk eq_refl (slice_from_app pre blk _ Lp)).
  rewrite slice_from_app by auto. cbn [bind].
  rewrite !hashed_bind, quiet_verify_pre, rf_verify_pre. cbn [app].
  destruct (emsa_pss_verify_pre mh blk (kb - 1) sl (h_size hd)) as [(db & h)| | |] eqn:P;
    try (exists []; split; [reflexivity|split; [reflexivity|left; split; [reflexivity|discriminate]]]).
  apply verify_pre_lengths in P. destruct P as (Lm & B & Lh & Ld).
  exists full. rewrite Lb in *.
  destruct (hashed_mgf hd h db Hh ltac:(lia)) as (M1 & M2).
  destruct (mgf_result hd h db Hh ltac:(lia)) as (db3 & L3 & R1 & R2). rewrite Ld, Lh in M1, M2.
  assert (F : hashed (l_emsa_pss_finish mh db3 h (digest_new hd) (kb - 1) L sl (h_size hd)) = [(8 + h_size hd + sl)%nat]).
  { apply hashed_pss_finish; auto. rewrite L3. exact Ld. }
  split; [|split; [|right; reflexivity]].
  - eapply hashed_then; [exact M1|exact R1|exact F].
  - eapply hashed_then; [exact M2|exact R2|exact F].
Qed.

Lemma hashed_api_verify hd pk mh sl : (0 < h_size hd)%nat -> wf_pub pk -> uprec (pk_n pk) < 2 ^ 32 ->
  let full := pss_verify_hashings (h_size hd) sl (pss_em_len (Z.to_nat (ubits (pk_n pk)) - 1)) in
  (forall sig, let w := hashed (l_pss_verify_digest hd pk mh sig sl) in
     (w = [] /\ pss_verify_digest hd pk mh sig sl <> Ok tt) \/ w = full) /\
  (forall sig n, let w := hashed (l_pss_verify pk mh sig n (digest_new hd) sl) in
     (w = [] /\ pss_verify pk mh sig n (digest_new hd) sl <> Ok tt) \/ w = full).
Proof.
  intros Hh Hk H32 full. destruct (nbits_facts pk Hk) as (B1 & B2 & B3 & B4 & B5).
  pose proof (prec32_size pk Hk H32) as Hs.
  split.
  - intros sig w. subst w. unfold l_pss_verify_digest, pss_verify_digest.
    rewrite !(hashed_step (l_cmp _ _ _) _ _ eq_refl eq_refl).
    rewrite !(hashed_step (l_if _) _ _ eq_refl eq_refl).
    destruct (_ || _); [left; split; [reflexivity|discriminate]|].
    rewrite hashed_bind, quiet_encrypt, rf_encrypt. cbn [app].
    destruct (rsa_encrypt pk sig) as [m| | |]; try (left; split; [reflexivity|discriminate]). cbn [bind].
    rewrite hashed_bind, quiet_be_pad, rf_be_pad. cbn [app].
    destruct (uint_to_be_pad m (key_size pk)) as [em| | |] eqn:E; try (left; split; [reflexivity|discriminate]). cbn [bind].
    apply be_pad_length in E. rewrite <- B2 in E.
    destruct (hashed_pss_verify hd mh em sl _ Hh B1 E ltac:(lia)) as (w & _ & -> & X). exact X.
  - intros sig n w. subst w. unfold l_pss_verify, pss_verify.
    rewrite !(hashed_step (l_if _) _ _ eq_refl eq_refl).
    destruct (negb _); [left; split; [reflexivity|discriminate]|].
    rewrite hashed_bind, quiet_encrypt, rf_encrypt. cbn [app].
    destruct (rsa_encrypt pk sig) as [m| | |]; try (left; split; [reflexivity|discriminate]). cbn [bind].
    rewrite hashed_bind, quiet_be_pad, rf_be_pad. cbn [app].
    destruct (uint_to_be_pad m (key_size pk)) as [em| | |] eqn:E; try (left; split; [reflexivity|discriminate]). cbn [bind].
    apply be_pad_length in E. rewrite <- B2 in E. rewrite emsa_pss_verify_agree.
    destruct (hashed_pss_verify hd mh em sl _ Hh B1 E ltac:(lia)) as (w & -> & _ & X). exact X.
Qed.

(** * What verifying costs besides *)

Lemma idle_all_equal b l : forall i len ok, work (l_all_equal b l i len ok) = [].
Proof. induction l; intros; [reflexivity|]. cbn [l_all_equal]. apply idle_bind; [reflexivity|]. intros. apply IHl. Qed.
Lemma idle_sign_unpad p h em k : work (l_pkcs1v15_sign_unpad p h em k) = [].
Proof.
  unfold l_pkcs1v15_sign_unpad. cbv zeta. apply idle_bind; [reflexivity|intros c]. destruct c; [reflexivity|].
  do 11 (apply idle_bind; [reflexivity|intros]). apply idle_bind; [apply idle_all_equal|intros]. idle.
Qed.
Lemma idle_verify_pre mh em eb sl hl : work (l_emsa_pss_verify_pre mh em eb sl hl) = [].
Proof.
  unfold l_emsa_pss_verify_pre. cbv zeta. apply idle_bind; [reflexivity|intros c]. destruct c; [reflexivity|].
  do 2 (apply idle_bind; [reflexivity|intros]). destruct a0; [reflexivity|].
  do 3 (apply idle_bind; [reflexivity|intros]). destruct a2; [reflexivity|].
  do 2 (apply idle_bind; [reflexivity|intros]). apply idle_bind; [reflexivity|intros (? & ?)].
  do 5 (apply idle_bind; [reflexivity|intros]). destruct a8; reflexivity.
Qed.
Lemma idle_pss_finish mh db h dg eb el sl hl : work (l_emsa_pss_finish mh db h dg eb el sl hl) = [].
Proof.
  unfold l_emsa_pss_finish. do 4 (apply idle_bind; [reflexivity|intros]).
  apply idle_bind.
  - unfold l_emsa_pss_verify_salt. do 3 (apply idle_bind; [reflexivity|intros]). apply idle_bind; [reflexivity|intros (? & ?)].
    apply idle_bind; [apply idle_all_equal|intros]. idle.
  - intros. do 5 (apply idle_bind; [reflexivity|intros]). apply idle_bind; [reflexivity|intros (? & ?)]. idle.
Qed.
Lemma idle_pss_verify mh em sl dg kb : work (l_emsa_pss_verify mh em sl dg kb) = [].
Proof.
  unfold l_emsa_pss_verify. cbv zeta. do 3 (apply idle_bind; [reflexivity|intros]).
  apply idle_bind; [apply idle_verify_pre|intros (? & ?)]. apply idle_bind; [apply idle_mgf|intros (? & ?)]. apply idle_pss_finish.
Qed.
Lemma idle_pss_verify_digest hd mh em sl kb : work (l_emsa_pss_verify_digest hd mh em sl kb) = [].
Proof.
  unfold l_emsa_pss_verify_digest. cbv zeta. do 3 (apply idle_bind; [reflexivity|intros]).
  apply idle_bind; [apply idle_verify_pre|intros (? & ?)]. apply idle_bind; [apply idle_mgf_digest|intros (? & ?)]. apply idle_pss_finish.
Qed.

Lemma work_verify_core {A} pk sig (next : list byte -> leaky A) : wf_pub pk -> wf_uint sig -> uval sig < 2 ^ uprec (pk_n pk) ->
  (forall em, work (next em) = []) ->
  work (let! m := l_rsa_encrypt pk sig in let! em := l_uint_to_be_pad m (key_size pk) in next em) = public_work pk.
Proof.
  intros Hk Hw Hs N. pose proof (verify_core_ok pk sig Hk Hw Hs) as V. unfold verify_core in V.
  rewrite work_bind, rf_encrypt. destruct (rsa_encrypt pk sig) as [m| | |] eqn:Ec; try discriminate.
  rewrite (idle_bind (l_uint_to_be_pad m (key_size pk))), app_nil_r; [|apply idle_be_pad|exact N].
  unfold l_rsa_encrypt. unfold rsa_encrypt in Ec. rewrite (work_pow_mod _ _ _ _ Ec).
  destruct Hk as (_ & _ & -> & _). reflexivity.
Qed.

Lemma work_pkcs1_verify pk p h sig : wf_pub pk -> wf_uint sig ->
  work (l_pkcs1v15_verify pk p h sig)
  = if (uval sig <? uval (pk_n pk)) && (uprec sig =? uprec (pk_n pk)) then public_work pk else [].
Proof.
  intros Hk Hw. unfold l_pkcs1v15_verify.
  rewrite !(work_step (l_cmp _ _ _) _ _ eq_refl eq_refl). rewrite !(work_step (l_if _) _ _ eq_refl eq_refl).
  unfold n_bits_precision. destruct (Z.ltb_spec (uval sig) (uval (pk_n pk))) as [L|L].
  - rewrite uleb_false by auto. cbn [orb andb]. destruct (uprec sig =? uprec (pk_n pk)); [|reflexivity]. cbn [negb].
    apply work_verify_core; auto. { destruct Hk as ((? & _) & _). lia. } intros. apply idle_sign_unpad.
  - rewrite uleb_true by auto. reflexivity.
Qed.
Lemma work_pss_verify_digest hd pk mh sig sl : wf_pub pk -> wf_uint sig ->
  work (l_pss_verify_digest hd pk mh sig sl)
  = if (uval sig <? uval (pk_n pk)) && (uprec sig =? uprec (pk_n pk)) then public_work pk else [].
Proof.
  intros Hk Hw. unfold l_pss_verify_digest.
  rewrite !(work_step (l_cmp _ _ _) _ _ eq_refl eq_refl). rewrite !(work_step (l_if _) _ _ eq_refl eq_refl).
  unfold n_bits_precision. destruct (Z.ltb_spec (uval sig) (uval (pk_n pk))) as [L|L].
  - rewrite uleb_false by auto. cbn [orb andb]. destruct (uprec sig =? uprec (pk_n pk)); [|reflexivity]. cbn [negb].
    apply work_verify_core; auto. { destruct Hk as ((? & _) & _). lia. } intros. apply idle_pss_verify_digest.
  - rewrite uleb_true by auto. reflexivity.
Qed.

Lemma work_public_verify pk s mh sig : wf_pub pk -> 8 * Z.of_nat (length sig) < 2 ^ 32 ->
  let w := work (l_public_verify pk s mh sig) in
  (w = [] \/ w = public_work pk) /\ (public_verify pk s mh sig = Ok tt -> w = public_work pk).
Proof.
  intros Hk Hl w. subst w. unfold l_public_verify, public_verify. destruct s as [s|s].
  - rewrite work_public. destruct (check_hash_len s mh); [|split; [auto|discriminate] ..]. cbn [bind].
    rewrite work_public, sig_from_bytes_ok by auto. cbn [bind].
    pose proof (sig_uint_wf sig) as Hw. set (u := mkU _ _) in *.
    rewrite work_pkcs1_verify by auto.
    unfold pkcs1v15_verify, n_bits_precision.
    destruct (Z.ltb_spec (uval u) (uval (pk_n pk))) as [L|L].
    + rewrite uleb_false by auto. cbn [orb andb]. destruct (uprec u =? uprec (pk_n pk)); cbn [negb]; [auto|split; [auto|discriminate]].
    + rewrite uleb_true by auto. cbn [orb andb]. split; [auto|discriminate].
  - rewrite work_public, sig_from_bytes_ok by auto. cbn [bind].
    pose proof (sig_uint_wf sig) as Hw. set (u := mkU _ _) in *.
    unfold l_pss_verify, pss_verify. rewrite !(work_step (l_if _) _ _ eq_refl eq_refl).
    destruct (Nat.eqb_spec (length sig) (key_size pk)) as [Ls|Ls]; cbn [negb]; [|split; [auto|discriminate]].
    assert (E : work (let! raw := l_rsa_encrypt pk u in let! em := l_uint_to_be_pad raw (key_size pk) in
              l_emsa_pss_verify mh em (ps_salt_len s) (ps_digest s) (Z.to_nat (ubits (pk_n pk)))) = public_work pk).
    { apply work_verify_core; auto.
      - destruct (key_size_facts pk Hk) as (_ & H2 & _).
        pose proof (os2ip_range sig) as Rg. rewrite pow256_2 in Rg by lia.
        assert (2 ^ (8 * Z.of_nat (length sig)) <= 2 ^ uprec (pk_n pk)) by (apply Z.pow_le_mono_r; lia).
        unfold u. cbn [uval]. lia.
      - intros. apply idle_pss_verify. }
    rewrite E. auto.
Qed.
