(** Lemmas for C103: one key used with several schemes. *)
From Coq Require Import ZArith List Bool Lia.
From Coq Require Import Init.Byte.
From Verif Require Import Base Bigint BytesLemmas BigintLemmas NumTheory SpecRFC SpecRng SpecKey SpecSig
  MHash MPad MPkcs1 MOaep MPss MRsa MKey MApi MWrap KeyDefs PPad PPkcs1 PRsa POaep PMgf PPss PApi PSig PHist PRaw PSign PEnc PUniform.
Import ListNotations.
Local Open Scope Z_scope.

Lemma nth_xor_octets a : forall b i, (i < length a)%nat -> (i < length b)%nat ->
  nth i (xor_octets a b) x00 = octet_xor (nth i a x00) (nth i b x00).
Proof.
  induction a as [|x a IH]; intros [|y b] [|i] Ha Hb; cbn [length] in *; try lia; [reflexivity|].
  cbn [xor_octets nth]. apply IH; lia.
Qed.

Lemma nth_clear_top z l i : (1 <= i)%nat -> nth i (clear_top z l) x00 = nth i l x00.
Proof. destruct l as [|x l]; [reflexivity|]. destruct i; [lia|]. reflexivity. Qed.

Lemma xor_zero_l b : octet_xor x00 b = b.
Proof. destruct b; reflexivity. Qed.

Lemma nth_repeat_lt (b : byte) n : forall i, (i < n)%nat -> nth i (repeat b n) x00 = b.
Proof. induction n as [|n IH]; intros [|i] H; try lia; [reflexivity|]. cbn [repeat nth]. apply IH. lia. Qed.

Lemma nth_emsa T k i : (length T + 11 <= k)%nat -> (2 <= i)%nat -> (i + length T + 1 < k)%nat ->
  nth i (emsa_pkcs1 T k) x00 = xff.
Proof.
  intros HT H2 Hi. unfold emsa_pkcs1. destruct i as [|[|i]]; try lia. cbn [nth].
  rewrite app_nth1 by (rewrite repeat_length; lia). apply nth_repeat_lt. lia.
Qed.

Lemma nth_skipn {A} (l : list A) : forall o i d, nth i (skipn o l) d = nth (o + i) l d.
Proof.
  induction l as [|x l IH]; intros o i d.
  - rewrite skipn_nil. destruct i, (o + _)%nat; reflexivity.
  - destruct o as [|o]; [reflexivity|]. cbn [skipn Nat.add nth]. apply IH.
Qed.

(** A block that is both: trailer, hash and mask are those of the DigestInfo block. *)
Lemma both_blocks hd T k off mh salt bits :
  (0 < h_size hd)%nat -> (length T + 11 <= k)%nat -> (off <= 1)%nat -> (k = off + pss_em_len bits)%nat ->
  (h_size hd + length salt + 2 <= pss_em_len bits)%nat ->
  skipn off (emsa_pkcs1 T k) = pss_encode (h_fun hd) (h_size hd) mh salt bits ->
  let L := pss_em_len bits in let Hv := h_fun hd (repeat x00 8 ++ mh ++ salt) in
  (exists T', T = T' ++ [xbc]) /\
  ((h_size hd + 1 <= length T)%nat -> exists T', T = T' ++ Hv ++ [xbc]) /\
  (forall i, (2 <= i)%nat -> (i + length T + 1 < L)%nat -> (i + length salt + h_size hd + 2 < L)%nat ->
     nth i (mgf1 (h_fun hd) (h_size hd) Hv (L - h_size hd - 1)) x00 = xff).
Proof.
  intros Hh HT Ho Hk Hs E L Hv.
  assert (E2 : emsa_pkcs1 T k = firstn off (emsa_pkcs1 T k) ++ pss_encode (h_fun hd) (h_size hd) mh salt bits)
    by (rewrite <- E; symmetry; apply firstn_skipn).
  pose proof (emsa_pkcs1_length T k ltac:(lia)) as LE.
  pose proof (f_equal (@length byte) E) as LL. rewrite skipn_length, LE in LL.
  unfold pss_encode in E2, E, LL. fold L in E2, E, LL, Hk, Hs. fold Hv in E2, E, LL.
  set (DB := repeat x00 _ ++ x01 :: salt) in *. set (mk := mgf1 _ _ Hv _) in *.
  set (z := (8 * L - bits)%nat) in *. set (C := clear_top z (xor_octets DB mk)) in *.
  assert (LHv : length Hv = h_size hd) by apply h_len.
  assert (LDB : length DB = (L - h_size hd - 1)%nat) by (unfold DB; rewrite app_length, repeat_length; cbn [length]; lia).
  assert (Lmk : length mk = (L - h_size hd - 1)%nat) by (apply mgf1_length; auto).
  assert (LC : length C = (L - h_size hd - 1)%nat) by (unfold C; rewrite clear_top_length, xor_octets_length; lia).
  split; [|split].
  - destruct (exists_last (l := T)) as (T' & t & ->).
    + intros ->. unfold emsa_pkcs1 in E2. rewrite !app_assoc in E2.
      change (x00 :: x01 :: repeat xff (k - length (@nil byte) - 3) ++ [x00])
        with ((x00 :: x01 :: repeat xff (k - length (@nil byte) - 3)) ++ [x00]) in E2.
      apply app_inj_tail in E2. destruct E2 as (_ & E2). discriminate.
    + exists T'. f_equal. unfold emsa_pkcs1 in E2. rewrite !app_assoc in E2.
      match type of E2 with x00 :: x01 :: ?r ++ x00 :: T' ++ [t] = _ =>
        change (x00 :: x01 :: r ++ x00 :: T' ++ [t]) with ((x00 :: x01 :: r) ++ (x00 :: T') ++ [t]) in E2 end.
      rewrite app_assoc in E2. apply app_inj_tail in E2. destruct E2 as (_ & ->). reflexivity.
  - intros HL. exists (firstn (length T - h_size hd - 1) T).
    rewrite <- (firstn_skipn (length T - h_size hd - 1) T) at 1. f_equal.
    assert (X : skipn (k - h_size hd - 1) (emsa_pkcs1 T k) = Hv ++ [xbc]).
    { rewrite E2, app_assoc. rewrite skipn_app, skipn_all2.
      - rewrite app_length, firstn_length, LC, LE.
        replace (k - h_size hd - 1 - (Nat.min off k + (L - h_size hd - 1)))%nat with 0%nat by lia. reflexivity.
      - rewrite app_length, firstn_length, LC, LE. lia. }
    rewrite <- X. clear - HT HL. unfold emsa_pkcs1.
    change (x00 :: x01 :: repeat xff (k - length T - 3) ++ x00 :: T)
      with ((x00 :: x01 :: repeat xff (k - length T - 3)) ++ [x00] ++ T).
    rewrite app_assoc. set (P := (x00 :: _) ++ [x00]).
    assert (LP : length P = (k - length T)%nat) by (unfold P; rewrite app_length; cbn [length]; rewrite repeat_length; lia).
    rewrite (skipn_app _ P T), (skipn_all2 P) by lia. cbn [app]. f_equal. lia.
  - intros i H2 H3 H4.
    assert (N : nth i (skipn off (emsa_pkcs1 T k)) x00 = xff).
    { rewrite nth_skipn. apply nth_emsa; lia. }
    rewrite E, app_nth1 in N by lia. unfold C in N. rewrite nth_clear_top in N by lia.
    rewrite nth_xor_octets in N by lia. unfold DB in N.
    rewrite app_nth1 in N by (rewrite repeat_length; lia). rewrite nth_repeat_lt in N by lia.
    rewrite xor_zero_l in N. exact N.
Qed.

Lemma both_verify hd bl sl s pk h1 h2 sig :
  (0 < h_size hd)%nat -> Z.of_nat (h_size hd + sl + 2) < 2 ^ 64 ->
  wf_pub pk -> uprec (pk_n pk) < 2 ^ 32 -> 8 * Z.of_nat (length sig) < 2 ^ 32 ->
  public_verify pk (SigPkcs1v15 s) h1 sig = Ok tt ->
  public_verify pk (SigPss (mkPss bl (digest_new hd) sl)) h2 sig = Ok tt ->
  let T := p1_prefix s ++ h1 in let L := pss_em_len (Z.to_nat (ubits (pk_n pk)) - 1) in
  exists salt, length salt = sl /\
  let Hv := h_fun hd (repeat x00 8 ++ h2 ++ salt) in
  (exists T', T = T' ++ [xbc]) /\
  ((h_size hd + 1 <= length T)%nat -> exists T', T = T' ++ Hv ++ [xbc]) /\
  (forall i, (2 <= i)%nat -> (i + length T + 1 < L)%nat -> (i + sl + h_size hd + 2 < L)%nat ->
     nth i (mgf1 (h_fun hd) (h_size hd) Hv (L - h_size hd - 1)) x00 = xff).
Proof.
  intros Hh Ho W H32 Ls V1 V2 T L.
  assert (D : hash_len_ok s h1 \/ ~ hash_len_ok s h1).
  { unfold hash_len_ok. destruct (p1_hash_len s); auto. lia. }
  destruct (public_verify_pkcs1_exact pk s h1 sig W Ls) as [A1 B1].
  destruct D as [D|D]; [|rewrite (A1 D) in V1; discriminate].
  destruct (B1 D) as (C1 & _). apply C1 in V1. destruct V1 as (_ & _ & HT & EM). fold T in HT, EM.
  apply c16_scheme_exact in V2; auto. destruct V2 as (_ & _ & B & salt & Lsalt & E).
  unfold pss_tail in E. rewrite EM in E. exists salt. split; [exact Lsalt|]. cbv zeta. fold L in E, B. rewrite <- Lsalt.
  destruct (key_size_facts pk W) as (K1 & K2 & K3 & K4 & K5 & K6).
  assert (X : (key_size pk - L <= 1)%nat /\ (key_size pk = (key_size pk - L) + L)%nat).
  { unfold L, pss_em_len. set (b := ubits (pk_n pk)) in *. clearbody b. clear - K1 K3 K4.
    set (K := key_size pk) in *. clearbody K.
    pose proof (Nat.div_mod (Z.to_nat b - 1 + 7) 8 ltac:(lia)) as X.
    pose proof (Nat.mod_upper_bound (Z.to_nat b - 1 + 7) 8 ltac:(lia)) as Y. lia. }
  destruct X as (X1 & X2).
  apply (both_blocks hd T (key_size pk) (key_size pk - L) h2 salt (Z.to_nat (ubits (pk_n pk)) - 1)); auto.
  rewrite Lsalt. exact B.
Qed.

(** A PKCS#1 v1.5 signature is the private power of its block. *)
Lemma scheme_sign_value {R} (g : rng_ops R) fuel rng k s hashed sig :
  (rng <> None -> rng_ok g) -> good_priv k ->
  scheme_sign g fuel rng k (SigPkcs1v15 s) hashed = Ok sig ->
  let K := key_size (sk_pub k) in let T := p1_prefix s ++ hashed in
  (length T + 11 <= K)%nat /\
  sig = i2osp (RSADP (uval (pk_n (sk_pub k))) (uval (sk_d k)) (os2ip (emsa_pkcs1 T K))) K.
Proof.
  intros Hr Hk E K T. cbn [scheme_sign] in E.
  destruct (check_hash_len s hashed); try discriminate. cbn [bind] in E.
  destruct (pkcs1v15_sign_exact g fuel rng k (p1_prefix s) hashed Hr Hk) as [A1 B1].
  destruct (Nat.le_gt_cases (length (p1_prefix s ++ hashed) + 11) (key_size (sk_pub k))) as [L|L].
  2:{ rewrite A1 in E by auto. discriminate. }
  destruct (B1 L) as (C1 & C2 & C3). split; [exact L|].
  destruct (blinding_trichotomy g (uval (pk_n (sk_pub k))) rng fuel) as [X|[X|X]];
    [rewrite (C1 X) in E|rewrite (C2 X) in E; discriminate|rewrite (C3 X) in E; discriminate].
  injection E as <-. reflexivity.
Qed.

Lemma signing_decrypts {R1 R2} (g1 : rng_ops R1) (g2 : rng_ops R2) f1 f2 r1 r2 k s hashed sig :
  (r1 <> None -> rng_ok g1) -> (r2 <> None -> rng_ok g2) -> good_priv k -> usable_key (sk_pub k) ->
  scheme_sign g1 f1 r1 k (SigPkcs1v15 s) hashed = Ok sig ->
  blinding_succeeds g2 (uval (pk_n (sk_pub k))) r2 f2 ->
  let K := key_size (sk_pub k) in let EM := emsa_pkcs1 (p1_prefix s ++ hashed) K in
  (forall m, scheme_decrypt g2 f2 r2 k PadPkcs1v15 EM = Ok m <-> is_eme_pkcs1 K sig m) /\
  (forall hd hm label m, (0 < h_size hm)%nat -> Z.of_nat (length (label_bytes label)) < 2 ^ 61 ->
     scheme_decrypt g2 f2 r2 k (PadOaep (mkOaep (digest_new hd) (digest_new hm) label)) EM = Ok m <->
     is_eme_oaep (h_fun hd) (h_size hd) (h_fun hm) (h_size hm) (label_bytes label) K sig m).
Proof.
  intros H1 H2 Hk U S B K EM. pose proof (good_pub k Hk) as Hp.
  destruct (scheme_sign_value g1 f1 r1 k s hashed sig H1 Hk S) as (L & V). fold K EM in L, V.
  pose proof (emsa_pkcs1_lt _ (p1_prefix s ++ hashed) Hp L) as Lt. fold K EM in Lt.
  pose proof (emsa_pkcs1_length _ _ L) as LE. fold EM in LE.
  destruct (key_size_facts _ Hp) as (_ & K2 & _). fold K in K2.
  split.
  - intros m. cbn [scheme_decrypt].
    destruct (pkcs1v15_decrypt_exact g2 f2 r2 k EM H2 Hk U) as (_ & _ & D).
    rewrite V. apply (proj1 (D ltac:(rewrite LE; exact K2) Lt)). exact B.
  - intros hd hm label m Hh Hl. cbn [scheme_decrypt oa_digest oa_mgf oa_label].
    assert (H32 : uprec (pk_n (sk_pub k)) < 2 ^ 32) by (destruct U as (X & _); clear - X; lia).
    destruct (oaep_api_decrypt_exact g2 f2 r2 k EM hd hm label H2 Hh Hk H32 ltac:(fold K; lia) Hl) as (_ & _ & D).
    rewrite V. apply (proj1 (D LE Lt)). exact B.
Qed.

Lemma signing_reveals {R1 R2} (g1 : rng_ops R1) (g2 : rng_ops R2) f1 f2 st r1 k s hashed sig msg ct r ri :
  (r1 <> None -> rng_ok g1) -> rng_ok g2 -> good_priv k ->
  let n := uval (pk_n (sk_pub k)) in let e := uval (pk_e (sk_pub k)) in let K := key_size (sk_pub k) in
  public_encrypt g2 f2 st (sk_pub k) PadPkcs1v15 msg = Ok ct ->
  0 <= r -> (r * ri) mod n = 1 ->
  (os2ip ct * RSAEP n e r) mod n = os2ip (emsa_pkcs1 (p1_prefix s ++ hashed) K) ->
  scheme_sign g1 f1 r1 k (SigPkcs1v15 s) hashed = Ok sig ->
  is_eme_pkcs1 K (i2osp ((os2ip sig * ri) mod n) K) msg.
Proof.
  intros H1 H2 Hk n e K En R0 Ri Eq S. pose proof (good_pub k Hk) as Hp.
  destruct (pkcs1v15_encrypt_inv g2 f2 st (sk_pub k) msg ct H2 Hp En) as (_ & em & I & C). fold K n e in I, C.
  destruct (scheme_sign_value g1 f1 r1 k s hashed sig H1 Hk S) as (L & V). fold K n in L, V.
  pose proof (odd_pos_n _ Hp) as Hn. fold n in Hn. pose proof (key_n_lt _ Hp) as Kn. fold n K in Kn.
  destruct (sig_value_accepts k _ Hk L) as (_ & Sl & Sv & _). fold K n e in Sl, Sv. rewrite <- V in Sl, Sv.
  assert (Lem : os2ip em < n) by (destruct I as (Ie & PS & -> & P8 & _); rewrite eme_pkcs1_length in Ie; apply (block_below_n (sk_pub k)); [exact Hp|fold K; lia|fold K; lia]).
  pose proof (os2ip_range em) as Rem. pose proof (os2ip_range sig) as Rs.
  assert (Ec : os2ip ct = RSAEP n e (os2ip em)).
  { rewrite C. apply os2ip_i2osp. pose proof (RSAEP_range n e (os2ip em) Hn). lia. }
  assert (X : os2ip sig = (os2ip em * r) mod n).
  { pose proof Hk as (_ & _ & _ & Hval & _). fold n e in Hval.
    destruct (Z.mod_pos_bound (os2ip em * r) n Hn) as (M1 & M2).
    rewrite <- (rsa_dec_enc _ _ _ _ (os2ip sig) Hval) by lia.
    rewrite <- (rsa_dec_enc _ _ _ _ ((os2ip em * r) mod n) Hval) by lia.
    f_equal. rewrite Sv, <- Eq, Ec. unfold RSAEP.
    rewrite <- Zmult_mod. rewrite <- Z.pow_mul_l. rewrite Zpow_facts.Zpower_mod by lia.
    reflexivity. }
  replace ((os2ip sig * ri) mod n) with (os2ip em).
  - rewrite i2osp_os2ip by apply I. exact I.
  - rewrite X, Zmult_mod_idemp_l. replace (os2ip em * r * ri) with (os2ip em * (r * ri)) by ring.
    rewrite Zmult_mod, Ri, Z.mul_1_r, Zmod_mod. symmetry. apply Z.mod_small. lia.
Qed.

(** The same through the key objects. *)
Lemma both_verify_keys hd pk pre sl h1 h2 s :
  (0 < h_size hd)%nat -> Z.of_nat (h_size hd + sl + 2) < 2 ^ 64 ->
  wf_pub pk -> uprec (pk_n pk) < 2 ^ 32 -> wf_uint (sg_inner s) ->
  p1vk_verify_prehash (mkP1VK pk pre) h1 s = Ok tt ->
  psvk_verify_prehash hd (psvk_new_with_salt_len pk sl) h2 s = Ok tt ->
  exists T', pre ++ h1 = T' ++ [xbc].
Proof.
  intros Hh Ho W H32 Ws V1 V2.
  unfold p1vk_verify_prehash in V1. cbn [p1vk_inner p1vk_prefix] in V1.
  unfold psvk_verify_prehash, psvk_new_with_salt_len in V2. cbn [psvk_inner psvk_salt_len] in V2.
  destruct (pkcs1v15_verify_exact pk pre h1 (sg_inner s) W Ws) as [[_ A]|[A _]]; [|congruence].
  destruct A as (_ & _ & HT & EM).
  destruct (pss_verify_digest_total hd pk h2 sl (sg_inner s) Hh Ho W H32 Ws) as [(_ & _ & _ & A2)|(X & _)]; [|congruence].
  destruct A2 as (_ & B & salt & Lsalt & E).
  unfold pss_tail in E. rewrite EM in E.
  destruct (key_size_facts pk W) as (K1 & K2 & K3 & K4 & K5 & K6).
  set (L := pss_em_len (Z.to_nat (ubits (pk_n pk)) - 1)) in *.
  assert (X : (key_size pk - L <= 1)%nat /\ (key_size pk = (key_size pk - L) + L)%nat).
  { unfold L, pss_em_len. set (b := ubits (pk_n pk)) in *. clearbody b. clear - K1 K3 K4.
    set (K := key_size pk) in *. clearbody K.
    pose proof (Nat.div_mod (Z.to_nat b - 1 + 7) 8 ltac:(lia)) as X.
    pose proof (Nat.mod_upper_bound (Z.to_nat b - 1 + 7) 8 ltac:(lia)) as Y. lia. }
  destruct X as (X1 & X2).
  apply (both_blocks hd (pre ++ h1) (key_size pk) (key_size pk - L) h2 salt (Z.to_nat (ubits (pk_n pk)) - 1)); auto.
  rewrite Lsalt. exact B.
Qed.
