(** Proofs about src/algorithms/pss.rs. *)
From Coq Require Import ZArith List Bool Lia.
From Coq Require Import Init.Byte.
From Verif Require Import Base Bigint BytesLemmas SpecRFC BigintLemmas MHash MMgf MPss PMgf POaep.
Import ListNotations.
Local Open Scope Z_scope.

(** * Masking the top bits of the first octet *)

Definition low_mask (z : nat) : byte := z2b (2 ^ (8 - Z.of_nat z) - 1).

Lemma pow_8z z : (z <= 7)%nat -> 2 <= 2 ^ (8 - Z.of_nat z) <= 256.
Proof.
  intros H. change 2 with (2 ^ 1) at 1. change 256 with (2 ^ 8).
  split; apply Z.pow_le_mono_r; lia.
Qed.

Lemma ff_shr_mask z : (z <= 7)%nat -> ff_shr z = Ok (low_mask z).
Proof.
  intros H. unfold ff_shr. destruct (Nat.ltb_spec z 8); [|lia]. f_equal. unfold low_mask.
  do 8 (destruct z as [|z]; [reflexivity|]). lia.
Qed.

Lemma mask_octet z x : (z <= 7)%nat ->
  octet (octet_val x mod 2 ^ (8 - Z.of_nat z)) = band x (low_mask z).
Proof.
  intros Hz. change octet with z2b. change octet_val with b2z.
  pose proof (pow_8z z Hz). unfold band. f_equal. unfold low_mask.
  rewrite b2z_z2b_small by lia.
  replace (2 ^ (8 - Z.of_nat z) - 1) with (Z.ones (8 - Z.of_nat z))
    by (rewrite Z.ones_equiv; lia).
  rewrite Z.land_ones by lia. reflexivity.
Qed.

Lemma clear_top_cons z x l : (z <= 7)%nat ->
  clear_top z (x :: l) = band x (low_mask z) :: l.
Proof. intros. unfold clear_top. rewrite mask_octet by auto. reflexivity. Qed.

Lemma clear_top_length z l : length (clear_top z l) = length l.
Proof. destruct l; reflexivity. Qed.

Lemma clear_top_xor z a b : (z <= 7)%nat ->
  clear_top z (xor_octets (clear_top z a) b) = clear_top z (xor_octets a b).
Proof.
  intros Hz. destruct a as [|x a]; [reflexivity|]. destruct b as [|y b]; [reflexivity|].
  rewrite (clear_top_cons z x a) by auto. cbn [xor_octets]. rewrite !clear_top_cons by auto.
  f_equal. change octet_xor with bxor.
  rewrite !band_xor_distr, band_assoc, band_diag. reflexivity.
Qed.

Lemma clear_top_idem z a : (z <= 7)%nat -> clear_top z (clear_top z a) = clear_top z a.
Proof.
  intros Hz. destruct a as [|x a]; [reflexivity|].
  rewrite !clear_top_cons by auto. rewrite band_assoc, band_diag. reflexivity.
Qed.

Lemma clear_top_small z x l : (z <= 7)%nat -> x = x00 \/ x = x01 ->
  clear_top z (x :: l) = x :: l.
Proof.
  intros Hz Hx. rewrite clear_top_cons by auto. f_equal.
  do 8 (destruct z as [|z]; [destruct Hx as [-> | ->]; reflexivity|]). lia.
Qed.

(** The test of the top bits. *)
Lemma high_mask z x : (z <= 7)%nat ->
  byte_eqb (band x (ff_checked_shl (8 - z))) x00 = true <-> band x (low_mask z) = x.
Proof.
  intros Hz.
  do 8 (destruct z as [|z]; [destruct x; split; intros H; solve [vm_compute; reflexivity | vm_compute in H; discriminate]|]). lia.
Qed.

Lemma div_ceil8_spec n : (n <= 8 * div_ceil8 n < n + 8)%nat.
Proof.
  unfold div_ceil8. pose proof (Nat.div_mod (n + 7) 8 ltac:(lia)).
  pose proof (Nat.mod_upper_bound (n + 7) 8 ltac:(lia)). lia.
Qed.

Lemma div_ceil8_pss n : pss_em_len n = div_ceil8 n.
Proof. reflexivity. Qed.

(** * Encoding *)

Lemma set_idx_0 {A} (x : A) l v : set_idx (x :: l) 0 v = Ok (v :: l).
Proof. reflexivity. Qed.

Lemma emsa_pss_encode_digest_spec hd mh em_bits salt :
  (0 < h_size hd)%nat -> Z.of_nat (pss_em_len em_bits) <= 2 ^ 32 ->
  emsa_pss_encode_digest hd mh em_bits salt =
  if negb (length mh =? h_size hd)%nat then Err InputNotHashed
  else if (pss_em_len em_bits <? h_size hd + length salt + 2)%nat then Err Internal
  else Ok (pss_encode (h_fun hd) (h_size hd) mh salt em_bits).
Proof.
  intros Hh Hk. unfold emsa_pss_encode_digest. cbv zeta. change pss_em_len with div_ceil8 in *.
  pose proof (div_ceil8_spec em_bits) as Hem.
  set (em_len := div_ceil8 em_bits) in *. set (hl := h_size hd) in *. set (sl := length salt).
  destruct (negb _); auto.
  destruct (Nat.ltb_spec em_len (hl + sl + 2)) as [|Hl]; auto.
  set (np := (em_len - sl - hl - 2)%nat).
  replace (vec x00 em_len) with ((vec x00 np ++ x00 :: vec x00 sl) ++ vec x00 hl ++ [x00]).
  2:{ transitivity (vec x00 ((np + (1 + sl)) + (hl + 1))); [|f_equal; lia].
      rewrite !vec_app. reflexivity. }
  rewrite usub_ok by lia. cbn [bind]. rewrite usub_ok by lia. cbn [bind].
  assert (Ldb : length (vec x00 np ++ x00 :: vec x00 sl) = (em_len - hl - 1)%nat).
  { rewrite app_length. cbn [length]. rewrite !vec_length. lia. }
  rewrite split_at_app by auto. cbn [bind].
  rewrite usub_ok by lia. cbn [bind]. rewrite usub_ok by lia. cbn [bind].
  rewrite split_at_app by (rewrite vec_length; lia). cbn [bind].
  unfold digest_finalize_reset, digest_update, digest_new. cbn [d_fn d_pending app].
  rewrite vec_length. rewrite copy_into_full by (rewrite ?vec_length, ?h_len; auto). cbn [bind].
  rewrite usub_ok by lia. cbn [bind]. rewrite usub_ok by lia. cbn [bind].
  rewrite usub_ok by lia. cbn [bind].
  rewrite set_idx_app by (rewrite vec_length; lia). cbn [bind].
  rewrite usub_ok by lia. cbn [bind].
  replace (vec x00 np ++ x01 :: vec x00 sl) with ((vec x00 np ++ [x01]) ++ vec x00 sl ++ [])
    by (rewrite app_nil_r, <- app_assoc; reflexivity).
  rewrite copy_into_app.
  2:{ rewrite app_length, vec_length. cbn [length]. lia. }
  2:{ apply vec_length. }
  2:{ rewrite !app_length, !vec_length. cbn [length]. fold sl. lia. }
  cbn [bind]. rewrite app_nil_r.
  set (DB := (vec x00 np ++ [x01]) ++ salt).
  assert (LDB : length DB = (em_len - hl - 1)%nat).
  { unfold DB. rewrite !app_length, vec_length. cbn [length]. fold sl. lia. }
  change (mkDigest hd []) with (digest_new hd).
  rewrite mgf1_xor_digest_spec by (auto; lia). cbn [bind].
  rewrite usub_ok by lia. cbn [bind].
  rewrite ff_shr_mask by lia. cbn [bind].
  unfold pss_encode. change pss_em_len with div_ceil8. fold em_len hl sl np.
  change (repeat x00 8 ++ mh ++ salt) with (vec x00 8 ++ mh ++ salt).
  replace ((vec x00 8 ++ mh) ++ salt) with (vec x00 8 ++ mh ++ salt)
    by (rewrite app_assoc; reflexivity).
  set (Hv := h_fun hd (vec x00 8 ++ mh ++ salt)).
  change (repeat x00 np ++ x01 :: salt) with (vec x00 np ++ [x01] ++ salt).
  rewrite (app_assoc (vec x00 np)). fold DB. rewrite LDB.
  set (X := xor_octets DB _).
  assert (LX : length X = (em_len - hl - 1)%nat).
  { unfold X. rewrite xor_octets_length, mgf1_length; auto. lia. }
  destruct X as [|x X]; [cbn [length] in LX; lia|].
  change (get_idx (x :: X) 0) with (Ok x). cbn [bind].
  rewrite set_idx_0. cbn [bind app].
  change (band x (low_mask (8 * em_len - em_bits)) :: X ++ Hv ++ [x00])
    with ((band x (low_mask (8 * em_len - em_bits)) :: X) ++ Hv ++ [x00]).
  rewrite app_assoc. rewrite set_idx_app.
  - rewrite clear_top_cons by lia. rewrite <- app_assoc. reflexivity.
  - rewrite app_length. unfold Hv. rewrite h_len. fold hl. cbn [length] in *. lia.
Qed.

(** Both encoders agree (C23). *)
Ltac same_bind :=
  match goal with
  | |- bind ?m _ = bind (bind ?m _) _ => destruct m; cbn [bind]; auto
  | |- bind ?m _ = bind ?m _ => destruct m; cbn [bind]; auto
  end.

Lemma emsa_pss_encode_agree hd mh em_bits salt :
  emsa_pss_encode mh em_bits salt (digest_new hd)
  = (let* em := emsa_pss_encode_digest hd mh em_bits salt in Ok (em, digest_new hd)).
Proof.
  unfold emsa_pss_encode, emsa_pss_encode_digest, digest_output_size.
  cbn [d_fn digest_new].
  destruct (negb _); auto. destruct (_ <? _)%nat; auto.
  same_bind. same_bind. same_bind. destruct a1 as [db h]. same_bind. same_bind. same_bind.
  destruct a3 as [h' tl].
  unfold digest_finalize_reset, digest_update, digest_new. cbn [d_fn d_pending app].
  do 7 same_bind. change (mkDigest hd []) with (digest_new hd).
  rewrite mgf1_xor_agree.
  destruct (mgf1_xor_digest _ _ _) as [[o md]| | |] eqn:E; cbn [bind]; auto.
  apply mgf1_xor_digest_state in E. subst md.
  repeat same_bind.
Qed.

(** Both verifiers agree (C23). *)
Lemma emsa_pss_verify_agree hd mh em s_len key_bits :
  emsa_pss_verify mh em s_len (digest_new hd) key_bits
  = emsa_pss_verify_digest hd mh em s_len key_bits.
Proof.
  unfold emsa_pss_verify, emsa_pss_verify_digest, digest_output_size.
  cbn [d_fn digest_new].
  same_bind. same_bind. same_bind. same_bind. destruct a2 as [db h].
  change (mkDigest hd []) with (digest_new hd).
  rewrite mgf1_xor_agree.
  destruct (mgf1_xor_digest _ _ _) as [[o md]| | |] eqn:E; cbn [bind]; auto.
Qed.

(** * Verification *)

Lemma fold_zeros l : fold_left (fun a e => a && byte_eqb e x00) l true = true <-> l = vec x00 (length l).
Proof. rewrite fold_andb. cbn [andb]. apply forallb_vec. Qed.

(** Verification of a block split into its parts. *)
Lemma emsa_pss_verify_shape hd mh pre mdb h l s_len key_bits :
  (0 < h_size hd)%nat -> (1 <= key_bits)%nat ->
  let em_bits := (key_bits - 1)%nat in
  let em_len := pss_em_len em_bits in
  Z.of_nat em_len <= 2 ^ 32 ->
  length (pre ++ mdb ++ h ++ [l]) = div_ceil8 key_bits ->
  length mh = h_size hd -> length h = h_size hd ->
  length mdb = (em_len - h_size hd - 1)%nat -> (h_size hd + s_len + 2 <= em_len)%nat ->
  let z := (8 * em_len - em_bits)%nat in
  let db := clear_top z (xor_octets mdb (mgf1 (h_fun hd) (h_size hd) h (length mdb))) in
  let salt := skipn (length db - s_len) db in
  let np := (em_len - h_size hd - s_len - 2)%nat in
  emsa_pss_verify_digest hd mh (pre ++ mdb ++ h ++ [l]) s_len key_bits =
  if byte_eqb l xbc && bytes_eqb (clear_top z mdb) mdb && bytes_eqb (firstn (S np) db) (vec x00 np ++ [x01])
     && bytes_eqb (h_fun hd (vec x00 8 ++ mh ++ salt)) h
  then Ok tt else Err Verification.
Proof.
  intros Hh Hkb em_bits em_len Hk Lem Lmh Lh Lmdb Hlen z db salt np.
  assert (Hs : salt = skipn (length db - s_len) db) by reflexivity. clearbody salt.
  assert (Hdb : db = clear_top z (xor_octets mdb (mgf1 (h_fun hd) (h_size hd) h (length mdb))))
    by reflexivity. clearbody db.
  unfold emsa_pss_verify_digest. rewrite usub_ok by auto. cbn [bind]. fold em_bits.
  change (div_ceil8 em_bits) with em_len.
  pose proof (div_ceil8_spec key_bits) as S1. pose proof (div_ceil8_spec em_bits) as S2.
  change (div_ceil8 em_bits) with em_len in S2.
  assert (Lrest : length (mdb ++ h ++ [l]) = em_len) by (rewrite !app_length; cbn [length]; lia).
  assert (Lpre : (length pre + em_len = div_ceil8 key_bits)%nat) by (rewrite app_length in Lem; lia).
  rewrite usub_ok by lia. cbn [bind]. rewrite slice_from_app by lia. cbn [bind].
  unfold emsa_pss_verify_pre. rewrite Lmh, Nat.eqb_refl. cbn [negb].
  unfold usize_add. destruct (Z.ltb_spec (Z.of_nat (h_size hd + s_len + 2)) (2 ^ 64)); [|lia].
  cbn [bind]. rewrite Lrest.
  destruct (Nat.ltb_spec em_len (h_size hd + s_len + 2)); [lia|].
  rewrite usub_ok by lia. cbn [bind].
  rewrite (app_assoc mdb h [l]). rewrite get_idx_app by (rewrite app_length; lia). cbn [bind].
  destruct (byte_eqb_spec l xbc) as [->|]; [|reflexivity]. cbn [negb andb].
  rewrite usub_ok by lia. cbn [bind]. rewrite usub_ok by lia. cbn [bind].
  rewrite <- app_assoc. rewrite split_at_app by auto. cbn [bind].
  rewrite <- (app_nil_l (h ++ [xbc])). rewrite slice_app; [|reflexivity|cbn [length]; lia]. cbn [bind].
  rewrite usub_ok by lia. cbn [bind]. fold z. assert (Hz : (z <= 7)%nat) by lia.
  rewrite usub_ok by lia. cbn [bind].
  destruct mdb as [|m0 mdb]; [cbn [length] in Lmdb; lia|].
  change (get_idx (m0 :: mdb) 0) with (Ok m0). cbn [bind].
  rewrite clear_top_cons by auto. 
  destruct (byte_eqb (band m0 (ff_checked_shl (8 - z))) x00) eqn:Et.
  - apply high_mask in Et; auto. rewrite Et, bytes_eqb_refl. cbn [negb bind andb].
    rewrite mgf1_xor_digest_spec by (auto; lia). cbn [bind].
    cbn [bind]. fold z. rewrite ff_shr_mask by auto. cbn [bind].
    set (X := xor_octets _ _) in *.
    assert (LX : length X = (em_len - h_size hd - 1)%nat).
    { unfold X. rewrite xor_octets_length, mgf1_length; auto. lia. }
    assert (Ldb : length db = (em_len - h_size hd - 1)%nat)
      by (rewrite Hdb, clear_top_length; auto).
    destruct X as [|x X]; [cbn [length] in LX; lia|].
    change (get_idx (x :: X) 0) with (Ok x). cbn [bind].
    rewrite set_idx_0. cbn [bind app].
    rewrite clear_top_cons in Hdb by auto. rewrite <- Hdb. clear Hdb.
    unfold emsa_pss_verify_salt.
    rewrite usub_ok by lia. cbn [bind]. rewrite usub_ok by lia. cbn [bind].
    rewrite usub_ok by lia. cbn [bind]. fold np.
    destruct (split_len db np (S s_len)) as (zs & rest & -> & Lz & Lr); [lia|].
    rewrite split_at_app by auto. cbn [bind].
    destruct rest as [|r0 rest]; [discriminate|]. cbn [length] in Lr.
    change (get_idx (r0 :: rest) 0) with (Ok r0). cbn [bind].
    rewrite Ldb. rewrite usub_ok by lia. cbn [bind].
    assert (Es : salt = rest).
    { rewrite Hs, Ldb.
      replace (zs ++ r0 :: rest) with ((zs ++ [r0]) ++ rest) by (rewrite <- app_assoc; reflexivity).
      apply skipn_app_exact. rewrite app_length. cbn [length]. lia. }
    rewrite Es.
    replace (zs ++ r0 :: rest) with ((zs ++ [r0]) ++ rest) by (rewrite <- app_assoc; reflexivity).
    rewrite slice_from_app by (rewrite app_length; cbn [length]; lia). cbn [bind].
    unfold digest_finalize_reset, digest_update, digest_new. cbn [d_fn d_pending app].
    replace ((vec x00 8 ++ mh) ++ rest) with (vec x00 8 ++ mh ++ rest)
      by (rewrite app_assoc; reflexivity).
    rewrite firstn_app_exact by (rewrite app_length; cbn [length]; lia).
    replace (fold_left (fun a e => a && byte_eqb e x00) zs true && byte_eqb r0 x01)
      with (bytes_eqb (zs ++ [r0]) (vec x00 np ++ [x01])); auto.
    apply eq_true_iff_eq. rewrite bytes_eqb_eq, andb_true_iff, fold_zeros, byte_eqb_eq, Lz.
    split.
    + intros E. apply app_inj_len in E; [|rewrite vec_length; auto].
      destruct E as [-> E]. injection E as ->. auto.
    + intros [-> ->]. auto.
  - replace (bytes_eqb _ _) with false; [reflexivity|]. symmetry. apply bytes_eqb_neq.
    intros E. injection E as E. apply high_mask in E; auto. congruence.
Qed.

Lemma pss_encode_parts hd mh salt em_bits :
  let em_len := pss_em_len em_bits in
  let z := (8 * em_len - em_bits)%nat in
  let h := h_fun hd (vec x00 8 ++ mh ++ salt) in
  let np := (em_len - length salt - h_size hd - 2)%nat in
  let DB := (vec x00 np ++ [x01]) ++ salt in
  pss_encode (h_fun hd) (h_size hd) mh salt em_bits
  = clear_top z (xor_octets DB (mgf1 (h_fun hd) (h_size hd) h (em_len - h_size hd - 1)))
    ++ h ++ [xbc].
Proof.
  cbv zeta. unfold pss_encode. 
  change (repeat x00 (pss_em_len em_bits - length salt - h_size hd - 2) ++ x01 :: salt)
    with (vec x00 (pss_em_len em_bits - length salt - h_size hd - 2) ++ [x01] ++ salt).
  rewrite <- !app_assoc. reflexivity.
Qed.

Lemma pss_z em_bits : (8 * pss_em_len em_bits - em_bits <= 7)%nat.
Proof. pose proof (div_ceil8_spec em_bits). change pss_em_len with div_ceil8. lia. Qed.

Lemma clear_top_DB z np salt : (z <= 7)%nat ->
  clear_top z ((vec x00 np ++ [x01]) ++ salt) = (vec x00 np ++ [x01]) ++ salt.
Proof.
  intros Hz. destruct np; cbn [vec repeat app]; apply clear_top_small; auto.
Qed.

Lemma pss_encode_length hd mh salt em_bits :
  (0 < h_size hd)%nat -> (h_size hd + length salt + 2 <= pss_em_len em_bits)%nat ->
  length (pss_encode (h_fun hd) (h_size hd) mh salt em_bits) = pss_em_len em_bits.
Proof.
  intros Hh Hl. rewrite pss_encode_parts.
  rewrite !app_length, clear_top_length, h_len, xor_octets_length, mgf1_length by auto.
  rewrite !app_length, vec_length. cbn [length]. lia.
Qed.

Lemma pss_verify_total hd mh em s_len key_bits :
  (0 < h_size hd)%nat -> (1 <= key_bits)%nat ->
  Z.of_nat (pss_em_len (key_bits - 1)) <= 2 ^ 32 ->
  Z.of_nat (h_size hd + s_len + 2) < 2 ^ 64 ->
  length em = div_ceil8 key_bits ->
  let em' := skipn (div_ceil8 key_bits - pss_em_len (key_bits - 1)) em in
  (emsa_pss_verify_digest hd mh em s_len key_bits = Ok tt /\
   pss_consistent (h_fun hd) (h_size hd) s_len (key_bits - 1) mh em') \/
  (emsa_pss_verify_digest hd mh em s_len key_bits = Err Verification /\
   ~ pss_consistent (h_fun hd) (h_size hd) s_len (key_bits - 1) mh em').
Proof.
  intros Hh Hkb Hk Hov Lem em'.
  set (em_bits := (key_bits - 1)%nat) in *. set (em_len := pss_em_len em_bits) in *.
  pose proof (div_ceil8_spec key_bits) as S1. pose proof (div_ceil8_spec em_bits) as S2.
  change (div_ceil8 em_bits) with em_len in S2.
  assert (Lem' : length em' = em_len) by (unfold em'; rewrite skipn_length; lia).
  destruct (Nat.eq_dec (length mh) (h_size hd)) as [Lmh|Nmh].
  2:{ right. split; [|intros (? & _); lia].
      unfold emsa_pss_verify_digest. rewrite usub_ok by auto. cbn [bind]. fold em_bits.
      change (div_ceil8 em_bits) with em_len. rewrite usub_ok by lia. cbn [bind].
      unfold slice_from. destruct (Nat.leb_spec (div_ceil8 key_bits - em_len) (length em)); [|lia].
      cbn [bind]. unfold emsa_pss_verify_pre.
      destruct (Nat.eqb_spec (length mh) (h_size hd)); [lia|]. reflexivity. }
  destruct (Nat.le_gt_cases (h_size hd + s_len + 2) em_len) as [Hl|Hl].
  2:{ right. split; [|intros (_ & HH & _); fold em_len in HH; lia].
      unfold emsa_pss_verify_digest. rewrite usub_ok by auto. cbn [bind]. fold em_bits.
      change (div_ceil8 em_bits) with em_len. rewrite usub_ok by lia. cbn [bind].
      unfold slice_from. destruct (Nat.leb_spec (div_ceil8 key_bits - em_len) (length em)); [|lia].
      cbn [bind]. unfold emsa_pss_verify_pre.
      destruct (Nat.eqb_spec (length mh) (h_size hd)); [|lia]. cbn [negb].
      unfold usize_add. destruct (Z.ltb_spec (Z.of_nat (h_size hd + s_len + 2)) (2 ^ 64)); [|lia].
      cbn [bind]. fold em'. rewrite Lem'.
      destruct (Nat.ltb_spec em_len (h_size hd + s_len + 2)); [reflexivity|lia]. }
  (* split the block *)
  assert (Eem : em = firstn (div_ceil8 key_bits - em_len) em ++ em')
    by (unfold em'; rewrite firstn_skipn; auto).
  destruct (split_len em' (em_len - h_size hd - 1) (h_size hd + 1)) as (mdb & r1 & E1 & Lmdb & Lr1); [lia|].
  destruct (split_len r1 (h_size hd) 1) as (h & r2 & -> & Lh & Lr2); [lia|].
  destruct (len_1 _ Lr2) as [l ->].
  rewrite E1 in Eem.
  set (pre := firstn (div_ceil8 key_bits - em_len) em) in *.
  assert (Lall : length (pre ++ mdb ++ h ++ [l]) = div_ceil8 key_bits) by (rewrite <- Eem; auto).
  pose proof (emsa_pss_verify_shape hd mh pre mdb h l s_len key_bits Hh Hkb Hk Lall Lmh Lh Lmdb Hl) as SH.
  cbv zeta in SH. fold em_bits em_len in SH. rewrite <- Eem in SH. rewrite SH. clear SH.
  set (z := (8 * em_len - em_bits)%nat) in *.
  assert (Hz : (z <= 7)%nat) by (apply pss_z).
  set (mask := mgf1 (h_fun hd) (h_size hd) h (length mdb)) in *.
  assert (Lmask : length mask = length mdb) by (unfold mask; apply mgf1_length; auto).
  set (db := clear_top z (xor_octets mdb mask)) in *.
  assert (Ldb : length db = length mdb)
    by (unfold db; rewrite clear_top_length, xor_octets_length; lia).
  set (np := (em_len - h_size hd - s_len - 2)%nat) in *.
  destruct (split_len db (S np) s_len) as (a & salt & Edb & La & Lsalt); [lia|].
  assert (Esk : skipn (length db - s_len) db = salt).
  { rewrite Edb. apply skipn_app_exact. rewrite app_length. lia. }
  rewrite Esk.
  assert (Efn : firstn (S np) db = a) by (rewrite Edb; apply firstn_app_exact; auto).
  rewrite Efn.
  match goal with |- context [if ?b then _ else _] => destruct b eqn:EB end.
  - left. split; auto.
    apply andb_true_iff in EB. destruct EB as [EB H4].
    apply andb_true_iff in EB. destruct EB as [EB H3].
    apply andb_true_iff in EB. destruct EB as [H1 H2].
    apply byte_eqb_eq in H1. apply bytes_eqb_eq in H2, H3, H4. subst l.
    split; auto. split; auto. exists salt. split; auto.
    rewrite pss_encode_parts. fold em_len z. rewrite E1, H4. f_equal.
    replace (em_len - length salt - h_size hd - 2)%nat with np by lia.
    rewrite <- H3, <- Edb. unfold db.
    rewrite <- Lmdb. fold mask. rewrite clear_top_xor by auto.
    rewrite xor_octets_invol by lia. auto.
  - right. split; auto. intros (_ & _ & salt' & Ls' & Eenc).
    rewrite pss_encode_parts in Eenc. fold em_len z in Eenc. rewrite E1 in Eenc.
    replace (em_len - length salt' - h_size hd - 2)%nat with np in Eenc by lia.
    set (h' := h_fun hd (vec x00 8 ++ mh ++ salt')) in *.
    set (DB := (vec x00 np ++ [x01]) ++ salt') in *.
    assert (LDB : length DB = length mdb).
    { unfold DB. rewrite !app_length, vec_length. cbn [length]. lia. }
    apply app_inj_len in Eenc.
    2:{ rewrite clear_top_length, xor_octets_length, mgf1_length by auto. lia. }
    destruct Eenc as [Em Eh]. apply app_inj_len in Eh; [|unfold h'; rewrite h_len; auto].
    destruct Eh as [-> El]. injection El as ->.
    rewrite <- Lmdb in Em. fold mask in Em.
    assert (Hdb : db = DB).
    { unfold db. rewrite Em, clear_top_xor by auto. rewrite xor_octets_invol by lia.
      apply clear_top_DB; auto. }
    rewrite Hdb in Edb. unfold DB in Edb. apply app_inj_len_r in Edb; [|lia].
    destruct Edb as [<- <-].
    assert (Ect : clear_top z mdb = mdb) by (rewrite Em; apply clear_top_idem; auto).
    fold h' in EB. rewrite byte_eqb_refl, Ect, !bytes_eqb_refl in EB. discriminate.
Qed.

Lemma pss_verify_exact hd mh em s_len key_bits :
  (0 < h_size hd)%nat -> (1 <= key_bits)%nat ->
  Z.of_nat (pss_em_len (key_bits - 1)) <= 2 ^ 32 ->
  Z.of_nat (h_size hd + s_len + 2) < 2 ^ 64 ->
  length em = div_ceil8 key_bits ->
  let em' := skipn (div_ceil8 key_bits - pss_em_len (key_bits - 1)) em in
  (emsa_pss_verify_digest hd mh em s_len key_bits = Ok tt <->
   pss_consistent (h_fun hd) (h_size hd) s_len (key_bits - 1) mh em') /\
  (~ pss_consistent (h_fun hd) (h_size hd) s_len (key_bits - 1) mh em' ->
   emsa_pss_verify_digest hd mh em s_len key_bits = Err Verification).
Proof.
  intros H1 H2 H3 H4 H5 em'.
  destruct (pss_verify_total hd mh em s_len key_bits H1 H2 H3 H4 H5) as [[E C]|[E C]]; fold em' in C.
  - split; [tauto|]. intros; contradiction.
  - split; auto. split; [rewrite E; discriminate|contradiction].
Qed.

(** Value of a PSS encoding: below 2^emBits. *)
Lemma os2ip_clear_top z l : (z <= 7)%nat -> l <> [] ->
  0 <= os2ip (clear_top z l) < 2 ^ (8 * Z.of_nat (length l) - Z.of_nat z).
Proof.
  intros Hz Hl. destruct l as [|x l]; [congruence|]. cbn [clear_top].
  rewrite os2ip_cons. change octet with z2b. change octet_val with b2z.
  pose proof (pow_8z z Hz). pose proof (Z.mod_pos_bound (b2z x) (2 ^ (8 - Z.of_nat z)) ltac:(lia)).
  rewrite b2z_z2b_small by lia. pose proof (os2ip_range l) as R.
  pose proof (pow256_pos (length l)).
  replace (8 * Z.of_nat (length (x :: l)) - Z.of_nat z)
    with ((8 - Z.of_nat z) + 8 * Z.of_nat (length l)) by (cbn [length]; lia).
  rewrite Z.pow_add_r by lia. rewrite <- pow256_2 by lia. nia.
Qed.

Lemma pss_encode_value hd mh salt em_bits :
  (0 < h_size hd)%nat -> (h_size hd + length salt + 2 <= pss_em_len em_bits)%nat ->
  0 <= os2ip (pss_encode (h_fun hd) (h_size hd) mh salt em_bits) < 2 ^ Z.of_nat em_bits.
Proof.
  intros Hh Hl. rewrite pss_encode_parts.
  set (z := (8 * pss_em_len em_bits - em_bits)%nat).
  set (X := xor_octets _ _).
  assert (LX : length X = (pss_em_len em_bits - h_size hd - 1)%nat).
  { unfold X. rewrite xor_octets_length, mgf1_length by auto.
    rewrite !app_length, vec_length. cbn [length]. lia. }
  assert (Hz : (z <= 7)%nat) by apply pss_z.
  pose proof (div_ceil8_spec em_bits) as SS. change div_ceil8 with pss_em_len in SS.
  rewrite os2ip_app.
  assert (X <> []) by (intros ->; cbn [length] in LX; lia).
  pose proof (os2ip_clear_top z X Hz H) as R.
  set (t := h_fun hd _ ++ [xbc]).
  assert (Lt : length t = S (h_size hd)) by (unfold t; rewrite app_length, h_len; cbn [length]; lia).
  pose proof (os2ip_range t) as R2. rewrite Lt in *.
  replace (Z.of_nat em_bits) with ((8 * Z.of_nat (length X) - Z.of_nat z) + 8 * Z.of_nat (S (h_size hd)))
    by lia.
  rewrite Z.pow_add_r by lia. rewrite <- (pow256_2 (Z.of_nat (S (h_size hd)))) by lia.
  pose proof (pow256_pos (S (h_size hd))). nia.
Qed.
