(** Proofs about src/algorithms/oaep.rs. *)
From Coq Require Import ZArith List Bool Lia.
From Coq Require Import Init.Byte.
From Verif Require Import Base Bigint BytesLemmas SpecRFC BigintLemmas MHash MMgf MPkcs1 MOaep PMgf.
Import ListNotations.
Local Open Scope Z_scope.

(** * The masking callbacks *)

(** A mask callback that behaves as MGF1 with hash [hm] in the order used by
    encoding: mask db with the seed, then the seed with the masked db. *)
Definition enc_mgf (hm : hashfn) (seed db : list byte) : list byte * list byte :=
  let mdb := xor_octets db (mgf1 (h_fun hm) (h_size hm) seed (length db)) in
  (xor_octets seed (mgf1 (h_fun hm) (h_size hm) mdb (length seed)), mdb).

Definition dec_mgf (hm : hashfn) (mseed mdb : list byte) : list byte * list byte :=
  let seed := xor_octets mseed (mgf1 (h_fun hm) (h_size hm) mdb (length mseed)) in
  (seed, xor_octets mdb (mgf1 (h_fun hm) (h_size hm) seed (length mdb))).

Lemma mgf1_xor_digest_state h out seed o md :
  mgf1_xor_digest out (digest_new h) seed = Ok (o, md) -> md = digest_new h.
Proof.
  unfold mgf1_xor_digest. intros H. apply bind_ok in H. destruct H as (_ & _ & H).
  revert H. generalize (length out) at 1 as fuel. generalize 0%nat as i.
  generalize [x00; x00; x00; x00] as c. intros c i fuel. revert out i c.
  induction fuel; intros out i c; cbn [mgf1_xor_digest_loop]; destruct (_ <=? _)%nat;
    try discriminate; try (intros [= _ <-]; reflexivity).
  unfold digest_finalize_reset, digest_update. cbn [d_fn digest_new].
  intros H. apply bind_ok in H. destruct H as ((o' & i') & _ & H). eapply IHfuel; eauto.
Qed.

Section Enc.
  Context {R : Type} (g : rng_ops R).

  Lemma oaep_encrypt_internal_ext r msg ph hs k f1 f2 :
    (forall s d, f1 s d = f2 s d) ->
    oaep_encrypt_internal g r msg ph hs k f1 = oaep_encrypt_internal g r msg ph hs k f2.
  Proof.
    intros E. unfold oaep_encrypt_internal.
    destruct (k <? length msg + 2 * hs + 2)%nat; auto.
    destruct (split_at (vec x00 k) 1) as [[hd pl]| | |]; auto. cbn [bind].
    destruct (split_at pl hs) as [[sd db]| | |]; auto. cbn [bind].
    destruct (rng_fill g r (length sd)) as [[s|] r']; auto.
    destruct (usub k hs) as [a| | |]; auto. cbn [bind].
    destruct (usub a 1) as [b| | |]; auto. cbn [bind].
    destruct (copy_into db 0 hs ph) as [c| | |]; auto. cbn [bind].
    destruct (usub b (length msg)) as [d| | |]; auto. cbn [bind].
    destruct (usub d 1) as [d1| | |]; auto. cbn [bind].
    destruct (set_idx c d1 x01) as [e| | |]; auto. cbn [bind].
    destruct (copy_into e d (length e) msg) as [f| | |]; auto. cbn [bind].
    rewrite E. reflexivity.
  Qed.

  (** Both variants compute the same encoding (C23, encryption half). *)
  Lemma oaep_encrypt_agree r msg hd hm label k :
    oaep_encrypt g r msg (digest_new hd) (digest_new hm) label k
    = oaep_encrypt_digest g hd hm r msg label k.
  Proof.
    unfold oaep_encrypt, oaep_encrypt_digest.
    destruct (_ <=? _); auto.
    unfold digest_finalize_reset, digest_update, digest_oneshot, digest_output_size, digest_new.
    cbn [d_fn d_pending app].
    apply oaep_encrypt_internal_ext. intros s d. change (mkDigest hm []) with (digest_new hm).
    rewrite mgf1_xor_agree.
    destruct (mgf1_xor_digest d (digest_new hm) s) as [[o md]| | |] eqn:E; auto.
    apply mgf1_xor_digest_state in E. subst. cbn [bind]. rewrite mgf1_xor_agree. reflexivity.
  Qed.

  Lemma oaep_encrypt_digest_spec r msg hd hm label k :
    rng_ok g -> (0 < h_size hm)%nat -> Z.of_nat k <= 2 ^ 32 ->
    oaep_encrypt_digest g hd hm r msg label k =
    if 2 ^ 61 <=? Z.of_nat (length (label_bytes label)) then Err LabelTooLong
    else if (k <? length msg + 2 * h_size hd + 2)%nat then Err MessageTooLong
    else match rng_fill g r (h_size hd) with
         | (None, _) => Err Rng
         | (Some seed, _) =>
             Ok (oaep_encode (h_fun hd) (h_size hd) (h_fun hm) (h_size hm)
                             (label_bytes label) seed msg k)
         end.
  Proof.
    intros Hg Hm Hk. unfold oaep_encrypt_digest, MAX_LABEL_LEN.
    destruct (_ <=? _); auto.
    unfold oaep_encrypt_internal. set (hs := h_size hd).
    destruct (Nat.ltb_spec k (length msg + 2 * hs + 2)) as [|Hlen]; auto.
    set (np := (k - length msg - 2 * hs - 2)%nat).
    replace k with (1 + (hs + (hs + (np + (1 + length msg)))))%nat at 1 by lia.
    rewrite (vec_app x00 1). rewrite split_at_app by apply vec_length. cbn [bind].
    rewrite vec_app. rewrite split_at_app by apply vec_length. cbn [bind].
    rewrite vec_length.
    destruct (rng_fill g r hs) as [[seed|] r'] eqn:Er; auto.
    apply (proj1 Hg) in Er.
    rewrite usub_ok by lia. cbn [bind]. rewrite usub_ok by lia. cbn [bind].
    rewrite vec_app. rewrite <- (app_nil_l (vec x00 hs ++ _)).
    unfold digest_oneshot.
    rewrite copy_into_app; [|reflexivity|rewrite vec_length, h_len; auto|rewrite h_len; auto].
    cbn [bind app].
    rewrite usub_ok by lia. cbn [bind]. rewrite usub_ok by lia. cbn [bind].
    rewrite vec_app. rewrite (vec_app x00 1). change (vec x00 1) with [x00].
    rewrite (app_assoc (h_fun hd _)). cbn [app].
    rewrite set_idx_app.
    2:{ rewrite app_length, h_len, vec_length. fold hs. lia. }
    cbn [bind].
    replace ((h_fun hd (label_bytes label) ++ vec x00 np) ++ x01 :: vec x00 (length msg))
      with (((h_fun hd (label_bytes label) ++ vec x00 np) ++ [x01]) ++ vec x00 (length msg) ++ [])
      by (rewrite app_nil_r, <- !app_assoc; reflexivity).
    rewrite copy_into_app.
    2:{ rewrite !app_length, h_len, vec_length. fold hs. cbn [length]. lia. }
    2:{ apply vec_length. }
    2:{ rewrite !app_length, h_len, !vec_length. fold hs. cbn [length]. lia. }
    cbn [bind]. rewrite app_nil_r.
    set (DB := ((h_fun hd (label_bytes label) ++ vec x00 np) ++ [x01]) ++ msg).
    assert (LDB : length DB = (k - hs - 1)%nat).
    { unfold DB. rewrite !app_length, h_len, vec_length. fold hs. cbn [length]. lia. }
    rewrite mgf1_xor_digest_spec by (auto; lia). cbn [bind].
    rewrite mgf1_xor_digest_spec by (auto; lia). cbn [bind].
    unfold oaep_encode. fold hs. fold np. rewrite LDB, Er.
    change (repeat x00 np) with (vec x00 np).
    replace (h_fun hd (label_bytes label) ++ vec x00 np ++ x01 :: msg) with DB; auto.
    unfold DB. rewrite <- !app_assoc. reflexivity.
  Qed.
End Enc.

(** * The scan for the 01 separator *)

Lemma oaep_scan_found l : forall i idx nz,
  oaep_scan l i false idx nz = (false, idx, nz).
Proof.
  induction l; intros; cbn [oaep_scan andb]; auto. rewrite orb_false_r. apply IHl.
Qed.

Lemma oaep_scan_nz l : forall i lk idx, snd (oaep_scan l i lk idx true) = true.
Proof. induction l; intros; cbn [oaep_scan orb]; auto. Qed.

Lemma oaep_scan_zeros z l : forall i idx nz,
  oaep_scan (vec x00 z ++ l) i true idx nz = oaep_scan l (i + Z.of_nat z) true idx nz.
Proof.
  induction z; intros i idx nz.
  - change (vec x00 0 ++ l) with l. change (Z.of_nat 0) with 0. rewrite Z.add_0_r. reflexivity.
  - change (vec x00 (S z) ++ l) with (x00 :: vec x00 z ++ l). cbn [oaep_scan].
    change (byte_eqb x00 x00) with true. change (byte_eqb x00 x01) with false.
    cbn [andb negb]. rewrite orb_false_r. rewrite IHz. f_equal. lia.
Qed.

Lemma oaep_scan_hit z m : forall i,
  0 <= i -> i + Z.of_nat z < 2 ^ 32 ->
  oaep_scan (vec x00 z ++ x01 :: m) i true 0 false = (false, i + Z.of_nat z, false).
Proof.
  intros i Hi Hz. rewrite oaep_scan_zeros. cbn [oaep_scan].
  change (byte_eqb x01 x00) with false. change (byte_eqb x01 x01) with true.
  cbn [andb negb orb]. rewrite oaep_scan_found. unfold as_u32. rewrite Z.mod_small by lia.
  reflexivity.
Qed.

Lemma oaep_scan_shape l :
  (exists z m, l = vec x00 z ++ x01 :: m) \/
  (forall i, exists lk idx nz, oaep_scan l i true 0 false = (lk, idx, nz) /\ negb nz && negb lk = false).
Proof.
  induction l as [|x l IH].
  - right. intros i. exists true, 0, false. auto.
  - destruct (byte_eqb_spec x x00) as [->|H0].
    + destruct IH as [(z & m & ->)|IH].
      * left. exists (S z), m. reflexivity.
      * right. intros i. destruct (IH (i + 1)) as (lk & idx & nz & E & V).
        exists lk, idx, nz. split; auto.
    + destruct (byte_eqb_spec x x01) as [->|H1].
      * left. exists 0%nat, l. reflexivity.
      * right. intros i. cbn [oaep_scan].
        replace (byte_eqb x x00) with false by (symmetry; apply byte_eqb_neq; auto).
        replace (byte_eqb x x01) with false by (symmetry; apply byte_eqb_neq; auto).
        cbn [andb negb orb].
        destruct (oaep_scan l (i + 1) true 0 true) as [[lk idx] nz] eqn:E.
        exists lk, idx, nz. split; auto.
        pose proof (oaep_scan_nz l (i + 1) true 0) as N. rewrite E in N. cbn [snd] in N. subst.
        reflexivity.
Qed.

Lemma oaep_scan_index l : forall i lk idx nz n,
  0 <= i -> i + Z.of_nat (length l) <= n -> n < 2 ^ 32 -> 0 <= idx < n ->
  0 <= snd (fst (oaep_scan l i lk idx nz)) < n.
Proof.
  induction l; intros i lk idx nz n Hi Hl Hn Hidx; cbn [oaep_scan]; [auto|].
  cbn [length] in Hl. apply IHl; try lia.
  destruct (lk && byte_eqb a x01); auto. unfold as_u32. rewrite Z.mod_small by lia. lia.
Qed.

(** * Decoding *)

Lemma oaep_decrypt_inner_ext em hs ph k f1 f2 :
  (forall s d, f1 s d = f2 s d) ->
  oaep_decrypt_inner em hs ph k f1 = oaep_decrypt_inner em hs ph k f2.
Proof.
  intros E. unfold oaep_decrypt_inner.
  destruct (k <? 11)%nat; auto. destruct (k <? hs * 2 + 2)%nat; auto.
  destruct (get_idx em 0); auto. cbn [bind].
  destruct (split_at em 1) as [[hd pl]| | |]; auto. cbn [bind].
  destruct (split_at pl hs) as [[sd db]| | |]; auto. cbn [bind].
  rewrite E. reflexivity.
Qed.

(** Both variants decide alike (C23, decryption half), except for the error of an
    over-long label. *)
Lemma oaep_decrypt_agree em hd hm label k :
  oaep_decrypt em (digest_new hd) (digest_new hm) label k
  = if 2 ^ 61 <=? Z.of_nat (length (label_bytes label)) then Err Decryption
    else oaep_decrypt_digest hd hm em label k.
Proof.
  unfold oaep_decrypt, oaep_decrypt_digest, MAX_LABEL_LEN.
  destruct (_ <=? _); auto.
  unfold digest_finalize_reset, digest_update, digest_oneshot, digest_output_size, digest_new.
  cbn [d_fn d_pending app].
  erewrite oaep_decrypt_inner_ext; [reflexivity|].
  intros s d. change (mkDigest hm []) with (digest_new hm). cbv beta.
  rewrite mgf1_xor_agree.
  destruct (mgf1_xor_digest s (digest_new hm) d) as [[o md]| | |] eqn:E; auto.
  apply mgf1_xor_digest_state in E. subst. cbn [bind]. rewrite mgf1_xor_agree. reflexivity.
Qed.

Lemma oaep_unmask hm seed db :
  (0 < h_size hm)%nat ->
  let '(ms, mdb) := enc_mgf hm seed db in
  length ms = length seed /\ length mdb = length db /\ dec_mgf hm ms mdb = (seed, db).
Proof.
  intros Hm. unfold enc_mgf, dec_mgf.
  set (mdb := xor_octets db (mgf1 (h_fun hm) (h_size hm) seed (length db))).
  set (ms := xor_octets seed (mgf1 (h_fun hm) (h_size hm) mdb (length seed))).
  assert (L1 : length mdb = length db) by (unfold mdb; rewrite xor_octets_length, mgf1_length; lia).
  assert (L2 : length ms = length seed) by (unfold ms; rewrite xor_octets_length, mgf1_length; lia).
  split; auto. split; auto. rewrite L2.
  assert (E : xor_octets ms (mgf1 (h_fun hm) (h_size hm) mdb (length seed)) = seed).
  { apply xor_octets_invol. rewrite mgf1_length; auto. }
  rewrite E. f_equal. rewrite L1. apply xor_octets_invol. rewrite mgf1_length; auto.
Qed.

Lemma oaep_mask hm ms mdb :
  (0 < h_size hm)%nat ->
  let '(seed, db) := dec_mgf hm ms mdb in
  length seed = length ms /\ length db = length mdb /\ enc_mgf hm seed db = (ms, mdb).
Proof.
  intros Hm. unfold enc_mgf, dec_mgf.
  set (seed := xor_octets ms (mgf1 (h_fun hm) (h_size hm) mdb (length ms))).
  set (db := xor_octets mdb (mgf1 (h_fun hm) (h_size hm) seed (length mdb))).
  assert (L1 : length db = length mdb) by (unfold db; rewrite xor_octets_length, mgf1_length; lia).
  assert (L2 : length seed = length ms) by (unfold seed; rewrite xor_octets_length, mgf1_length; lia).
  split; auto. split; auto. rewrite L1.
  assert (E : xor_octets db (mgf1 (h_fun hm) (h_size hm) seed (length mdb)) = mdb).
  { apply xor_octets_invol. rewrite mgf1_length; auto. }
  rewrite E. f_equal. rewrite L2. apply xor_octets_invol. rewrite mgf1_length; auto.
Qed.

Lemma oaep_encode_mgf hd hm L seed M k :
  (length M + 2 * h_size hd + 2 <= k)%nat -> length seed = h_size hd ->
  oaep_encode (h_fun hd) (h_size hd) (h_fun hm) (h_size hm) L seed M k
  = x00 :: fst (enc_mgf hm seed (h_fun hd L ++ vec x00 (k - length M - 2 * h_size hd - 2) ++ x01 :: M))
        ++ snd (enc_mgf hm seed (h_fun hd L ++ vec x00 (k - length M - 2 * h_size hd - 2) ++ x01 :: M)).
Proof.
  intros Hk Hs. unfold oaep_encode, enc_mgf. cbn [fst snd].
  change (repeat x00) with (vec x00).
  set (db := h_fun hd L ++ _).
  assert (LDB : length db = (k - h_size hd - 1)%nat).
  { unfold db. rewrite !app_length, h_len, vec_length. cbn [length]. lia. }
  rewrite LDB, Hs. reflexivity.
Qed.

(** Decoding a block split into its parts. *)
Lemma oaep_decrypt_digest_shape hd hm label y ms mdb k :
  (0 < h_size hm)%nat -> Z.of_nat k < 2 ^ 32 -> (11 <= k)%nat -> (2 * h_size hd + 2 <= k)%nat ->
  length ms = h_size hd -> length mdb = (k - h_size hd - 1)%nat ->
  Z.of_nat (length (label_bytes label)) < 2 ^ 61 ->
  let '(seed, db) := dec_mgf hm ms mdb in
  oaep_decrypt_digest hd hm (y :: ms ++ mdb) label k =
  let '(looking, index, nz) := oaep_scan (skipn (h_size hd) db) 0 true 0 false in
  if byte_eqb y x00 && bytes_eqb (firstn (h_size hd) db) (h_fun hd (label_bytes label))
     && negb nz && negb looking
  then slice_from (y :: seed ++ db) (Z.to_nat (index + 2 + Z.of_nat (h_size hd * 2)))
  else Err Decryption.
Proof.
  intros Hm Hk H11 H2 Lms Lmdb Hl.
  pose proof (oaep_mask hm ms mdb Hm) as M. destruct (dec_mgf hm ms mdb) as [seed db] eqn:ED.
  destruct M as (L1 & L2 & _).
  unfold oaep_decrypt_digest, MAX_LABEL_LEN. destruct (Z.leb_spec (2 ^ 61) (Z.of_nat (length (label_bytes label)))); [lia|].
  unfold oaep_decrypt_inner.
  destruct (Nat.ltb_spec k 11); [lia|]. destruct (Nat.ltb_spec k (h_size hd * 2 + 2)); [lia|].
  change (get_idx (y :: ms ++ mdb) 0) with (Ok y). cbn [bind].
  change (y :: ms ++ mdb) with ([y] ++ ms ++ mdb).
  rewrite split_at_app by reflexivity. cbn [bind]. rewrite split_at_app by auto. cbn [bind].
  rewrite mgf1_xor_digest_spec by (auto; lia). cbn [bind].
  rewrite mgf1_xor_digest_spec by (auto; lia). cbn [bind].
  unfold dec_mgf in ED. injection ED as E1 E2. rewrite E1 in E2 |- *. rewrite E2.
  rewrite <- (firstn_skipn (h_size hd) db) at 1.
  rewrite <- (app_nil_l (firstn (h_size hd) db ++ _)).
  assert (Lf : length (firstn (h_size hd) db) = h_size hd) by (rewrite firstn_length; lia).
  rewrite slice_app; [|reflexivity|lia]. cbn [bind]. unfold digest_oneshot.
  assert (Ls : length (skipn (h_size hd) db) = (k - 2 * h_size hd - 1)%nat)
    by (rewrite skipn_length; lia).
  pose proof (oaep_scan_index (skipn (h_size hd) db) 0 true 0 false (Z.of_nat (k - 2 * h_size hd - 1))
                ltac:(lia) ltac:(lia) ltac:(lia) ltac:(lia)) as HI.
  destruct (oaep_scan (skipn (h_size hd) db) 0 true 0 false) as [[lk idx] nz] eqn:ES.
  cbn [fst snd] in HI.
  unfold u32_add.
  destruct (Z.ltb_spec (idx + 2) (2 ^ 32)); [|lia]. cbn [bind].
  unfold as_u32. rewrite (Z.mod_small (Z.of_nat _)) by lia.
  destruct (Z.ltb_spec (idx + 2 + Z.of_nat (h_size hd * 2)) (2 ^ 32)); [|lia]. cbn [bind].
  destruct (_ && _); reflexivity.
Qed.

Lemma oaep_complete hd hm label k em M :
  (0 < h_size hm)%nat -> Z.of_nat k < 2 ^ 32 -> (11 <= k)%nat ->
  Z.of_nat (length (label_bytes label)) < 2 ^ 61 ->
  is_eme_oaep (h_fun hd) (h_size hd) (h_fun hm) (h_size hm) (label_bytes label) k em M ->
  oaep_decrypt_digest hd hm em label k = Ok M.
Proof.
  intros Hm Hk H11 Hl (seed & Ls & HM & ->). rewrite oaep_encode_mgf by auto.
  set (np := (k - length M - 2 * h_size hd - 2)%nat).
  set (db := h_fun hd (label_bytes label) ++ vec x00 np ++ x01 :: M).
  assert (Ldb : length db = (k - h_size hd - 1)%nat).
  { unfold db. rewrite !app_length, h_len, vec_length. cbn [length]. lia. }
  pose proof (oaep_unmask hm seed db Hm) as U.
  destruct (enc_mgf hm seed db) as [ms mdb] eqn:EE. destruct U as (L1 & L2 & U). cbn [fst snd].
  pose proof (oaep_decrypt_digest_shape hd hm label x00 ms mdb k Hm Hk H11 ltac:(lia)
                ltac:(lia) ltac:(lia) Hl) as S.
  rewrite U in S. rewrite S. clear S.
  assert (Es : skipn (h_size hd) db = vec x00 np ++ x01 :: M)
    by (apply skipn_app_exact, h_len).
  assert (Ef : firstn (h_size hd) db = h_fun hd (label_bytes label))
    by (apply firstn_app_exact, h_len).
  rewrite Es, Ef. rewrite oaep_scan_hit by lia. rewrite bytes_eqb_refl.
  cbn [negb andb byte_eqb]. rewrite byte_eqb_refl. cbn [andb].
  replace (x00 :: seed ++ db) with
    ((x00 :: seed ++ h_fun hd (label_bytes label) ++ vec x00 np ++ [x01]) ++ M).
  - apply slice_from_app. cbn [length]. rewrite !app_length, h_len, vec_length. cbn [length]. lia.
  - unfold db. cbn [app]. rewrite <- !app_assoc. reflexivity.
Qed.

Lemma oaep_total hd hm label k em :
  (0 < h_size hm)%nat -> Z.of_nat k < 2 ^ 32 -> length em = k ->
  Z.of_nat (length (label_bytes label)) < 2 ^ 61 ->
  (exists M, oaep_decrypt_digest hd hm em label k = Ok M /\
     is_eme_oaep (h_fun hd) (h_size hd) (h_fun hm) (h_size hm) (label_bytes label) k em M)
  \/ oaep_decrypt_digest hd hm em label k = Err Decryption.
Proof.
  intros Hm Hk Lem Hl.
  destruct (Nat.lt_ge_cases k 11) as [H11|H11].
  { right. unfold oaep_decrypt_digest, MAX_LABEL_LEN.
    destruct (Z.leb_spec (2 ^ 61) (Z.of_nat (length (label_bytes label)))); [lia|].
    unfold oaep_decrypt_inner. destruct (Nat.ltb_spec k 11); [reflexivity|lia]. }
  destruct (Nat.lt_ge_cases k (2 * h_size hd + 2)) as [H2|H2].
  { right. unfold oaep_decrypt_digest, MAX_LABEL_LEN.
    destruct (Z.leb_spec (2 ^ 61) (Z.of_nat (length (label_bytes label)))); [lia|].
    unfold oaep_decrypt_inner. destruct (Nat.ltb_spec k 11); [lia|].
    destruct (Nat.ltb_spec k (h_size hd * 2 + 2)); [reflexivity|lia]. }
  destruct em as [|y pl]; [cbn [length] in *; lia|]. cbn [length] in Lem.
  destruct (split_len pl (h_size hd) (k - h_size hd - 1)) as (ms & mdb & -> & Lms & Lmdb); [lia|].
  pose proof (oaep_decrypt_digest_shape hd hm label y ms mdb k Hm Hk H11 H2 Lms Lmdb Hl) as S.
  pose proof (oaep_mask hm ms mdb Hm) as MK.
  destruct (dec_mgf hm ms mdb) as [seed db] eqn:ED. destruct MK as (L1 & L2 & MK).
  rewrite S. clear S.
  destruct (oaep_scan_shape (skipn (h_size hd) db)) as [(z & M & Es)|HS].
  2:{ destruct (HS 0) as (lk & idx & nz & -> & V). rewrite <- andb_assoc, V, andb_false_r. auto. }
  assert (Ls : length (skipn (h_size hd) db) = (k - 2 * h_size hd - 1)%nat)
    by (rewrite skipn_length; lia).
  rewrite Es, app_length, vec_length in Ls. cbn [length] in Ls.
  rewrite Es, oaep_scan_hit by lia. cbn [negb]. rewrite !andb_true_r.
  destruct (byte_eqb_spec y x00) as [->|]; [|auto]. cbn [andb].
  destruct (bytes_eqb (firstn (h_size hd) db) (h_fun hd (label_bytes label))) eqn:Eh; [|auto].
  apply bytes_eqb_eq in Eh.
  assert (Edb : db = h_fun hd (label_bytes label) ++ vec x00 z ++ x01 :: M)
    by (rewrite <- Es, <- Eh, firstn_skipn; auto).
  left. exists M. split.
  - replace (x00 :: seed ++ db) with
      ((x00 :: seed ++ h_fun hd (label_bytes label) ++ vec x00 z ++ [x01]) ++ M).
    + apply slice_from_app. cbn [length]. rewrite !app_length, h_len, vec_length. cbn [length]. lia.
    + rewrite Edb. cbn [app]. rewrite <- !app_assoc. reflexivity.
  - exists seed. split; [lia|]. split; [lia|].
    rewrite oaep_encode_mgf by lia.
    replace (k - length M - 2 * h_size hd - 2)%nat with z by lia.
    rewrite <- Edb, MK. reflexivity.
Qed.

Lemma oaep_exact hd hm label k em :
  (0 < h_size hm)%nat -> Z.of_nat k < 2 ^ 32 -> (11 <= k)%nat -> length em = k ->
  Z.of_nat (length (label_bytes label)) < 2 ^ 61 ->
  (forall M, oaep_decrypt_digest hd hm em label k = Ok M <->
     is_eme_oaep (h_fun hd) (h_size hd) (h_fun hm) (h_size hm) (label_bytes label) k em M) /\
  ((forall M, ~ is_eme_oaep (h_fun hd) (h_size hd) (h_fun hm) (h_size hm) (label_bytes label) k em M) ->
   oaep_decrypt_digest hd hm em label k = Err Decryption).
Proof.
  intros Hm Hk H11 Lem Hl.
  destruct (oaep_total hd hm label k em) as [(M & E & HE)|E]; auto.
  - split.
    + intros M'. split.
      * intros E'. assert (M' = M) by congruence. subst. auto.
      * apply oaep_complete; auto.
    + intros H. elim (H _ HE).
  - split; auto. intros M. split; [congruence|]. intros HE.
    assert (oaep_decrypt_digest hd hm em label k = Ok M) by (apply oaep_complete; auto).
    congruence.
Qed.

(** The same for the dynamic variant. *)
Lemma oaep_dyn_exact hd hm label k em :
  (0 < h_size hm)%nat -> Z.of_nat k < 2 ^ 32 -> (11 <= k)%nat -> length em = k ->
  Z.of_nat (length (label_bytes label)) < 2 ^ 61 ->
  oaep_decrypt em (digest_new hd) (digest_new hm) label k
  = oaep_decrypt_digest hd hm em label k.
Proof.
  intros. rewrite oaep_decrypt_agree.
  destruct (Z.leb_spec (2 ^ 61) (Z.of_nat (length (label_bytes label)))); [lia|]. reflexivity.
Qed.

(** An encoding made for one label is not valid for a label with another digest. *)
Lemma oaep_label_binding hd hm label label' k em M M' :
  (0 < h_size hm)%nat ->
  is_eme_oaep (h_fun hd) (h_size hd) (h_fun hm) (h_size hm) label k em M ->
  is_eme_oaep (h_fun hd) (h_size hd) (h_fun hm) (h_size hm) label' k em M' ->
  h_fun hd label = h_fun hd label' /\ M = M'.
Proof.
  intros Hm (s & Ls & Hk & ->) (s' & Ls' & Hk' & E).
  rewrite !oaep_encode_mgf in E by auto. apply (f_equal (@tl byte)) in E. cbn [tl] in E.
  set (db := h_fun hd label ++ _) in E. set (db' := h_fun hd label' ++ _) in E.
  assert (Ldb : length db = (k - h_size hd - 1)%nat).
  { unfold db. rewrite !app_length, h_len, vec_length. cbn [length]. lia. }
  assert (Ldb' : length db' = (k - h_size hd - 1)%nat).
  { unfold db'. rewrite !app_length, h_len, vec_length. cbn [length]. lia. }
  pose proof (oaep_unmask hm s db Hm) as U. pose proof (oaep_unmask hm s' db' Hm) as U'.
  destruct (enc_mgf hm s db) as [ms mdb]. destruct (enc_mgf hm s' db') as [ms' mdb'].
  destruct U as (A & B & C). destruct U' as (A' & B' & C'). cbn [fst snd] in E.
  apply app_inj_len in E; [|lia]. destruct E as [-> ->].
  assert (ED : db = db') by congruence. unfold db, db' in ED.
  apply app_inj_len in ED; [|rewrite !h_len; auto]. destruct ED as [-> ED]. split; auto.
  revert ED. generalize (k - length M - 2 * h_size hd - 2)%nat as a.
  generalize (k - length M' - 2 * h_size hd - 2)%nat as b. clear.
  intros b a. revert b. induction a; destruct b; cbn; intros H; try discriminate.
  - congruence.
  - injection H as H. eapply IHa; eauto.
Qed.

Lemma oaep_encode_length hd hm L seed M k :
  (0 < h_size hm)%nat -> length seed = h_size hd -> (length M + 2 * h_size hd + 2 <= k)%nat ->
  length (oaep_encode (h_fun hd) (h_size hd) (h_fun hm) (h_size hm) L seed M k) = k.
Proof.
  intros Hm Hs Hk. rewrite oaep_encode_mgf by auto.
  set (db := h_fun hd L ++ _).
  assert (Ldb : length db = (k - h_size hd - 1)%nat).
  { unfold db. rewrite !app_length, h_len, vec_length. cbn [length]. lia. }
  pose proof (oaep_unmask hm seed db Hm) as U.
  destruct (enc_mgf hm seed db) as [ms mdb]. destruct U as (A & B & _). cbn [fst snd length].
  rewrite app_length. lia.
Qed.
