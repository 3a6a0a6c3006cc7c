(** The OAEP seed and the PSS salt are unbiased. *)
From Coq Require Import ZArith List Bool Lia.
From Coq Require Import Init.Byte.
From Verif Require Import Base Bigint BytesLemmas BigintLemmas SpecRFC SpecRng SpecKey SpecBlind MHash MPad MPss MOaep MRsa MKey
  MApi KeyDefs PMgf POaep PPss PRsa PApi PSig PSign PEnc PWrap PBlind PUniform.
Import ListNotations.
Local Open Scope Z_scope.

(** ** Tapes that start with a given string *)

Lemma all_tapes_length L : length (all_tapes L) = (256 ^ L)%nat.
Proof.
  induction L as [|L IH]; [reflexivity|]. cbn [all_tapes]. rewrite Nat.pow_succ_r'.
  rewrite <- IH. clear IH. induction (all_tapes L) as [|t l IH]; [cbn [flat_map length]; lia|].
  cbn [flat_map]. rewrite app_length, IH, map_length, seq_length. cbn [length]. lia.
Qed.

Lemma filter_flat_map_length {A B} (P : B -> bool) (Q : A -> bool) (f : A -> list B) l :
  (forall x, length (filter P (f x)) = if Q x then 1%nat else 0%nat) ->
  length (filter P (flat_map f l)) = length (filter Q l).
Proof.
  intros H. induction l as [|a l IH]; cbn [flat_map filter]; auto.
  rewrite filter_app, app_length, IH, H. destruct (Q a); reflexivity.
Qed.

Lemma prefix_count s : forall L, (length s <= L)%nat ->
  length (filter (fun t => bytes_eqb (firstn (length s) t) s) (all_tapes L)) = (256 ^ (L - length s))%nat.
Proof.
  induction s as [|b s IH]; intros L HL.
  - cbn [length firstn]. rewrite Nat.sub_0_r, <- all_tapes_length. f_equal.
    induction (all_tapes L) as [|t l IHl]; cbn [filter]; auto. rewrite IHl. reflexivity.
  - destruct L as [|L]; [cbn in HL; lia|]. cbn [length] in *.
    replace (S L - S (length s))%nat with (L - length s)%nat by lia. rewrite <- IH by lia.
    cbn [all_tapes]. apply filter_flat_map_length. intros t.
    set (P := fun u : list byte => bytes_eqb (firstn (S (length s)) u) (b :: s)).
    destruct (bytes_eqb (firstn (length s) t) s) eqn:E.
    + apply bytes_eqb_eq in E.
      rewrite (filter_one P _ (b :: t)); [reflexivity| | | |].
      * apply map_nodup_in; [|apply seq_NoDup]. intros i j Hi Hj H. apply in_seq in Hi. apply in_seq in Hj.
        assert (X : z2b (Z.of_nat i) = z2b (Z.of_nat j)) by congruence.
        apply (f_equal b2z) in X. rewrite !b2z_z2b_small in X by lia. lia.
      * apply in_map_iff. exists (Z.to_nat (b2z b)). pose proof (b2z_range b).
        rewrite Z2Nat.id, z2b_b2z by lia. split; auto. apply in_seq. lia.
      * unfold P. cbn [firstn]. rewrite E. apply bytes_eqb_refl.
      * intros y Hy HP. apply in_map_iff in Hy. destruct Hy as (i & <- & _).
        unfold P in HP. apply bytes_eqb_eq in HP. cbn [firstn] in HP. congruence.
    + rewrite filter_none; [reflexivity|]. intros y Hy. apply in_map_iff in Hy. destruct Hy as (i & <- & _).
      unfold P. cbn [firstn]. destruct (bytes_eqb (z2b (Z.of_nat i) :: firstn (length s) t) (b :: s)) eqn:E2; auto.
      apply bytes_eqb_eq in E2. assert (E3 : firstn (length s) t = s) by congruence.
      rewrite E3, bytes_eqb_refl in E. discriminate.
Qed.

(** A computation that turns the first h octets of the tape into an answer, and different
    octets into different answers. *)
Lemma prefix_run (h L : nat) (run : list byte -> outcome (list byte)) (f : list byte -> list byte) s :
  (forall t, run t = if (h <=? length t)%nat then Ok (f (firstn h t)) else Err Rng) ->
  (forall a b, length a = h -> length b = h -> f a = f b -> a = b) ->
  length s = h ->
  tapes_giving L run (f s) = if (h <=? L)%nat then (256 ^ (L - h))%nat else 0%nat.
Proof.
  intros HR HI HS. unfold tapes_giving. subst h. destruct (Nat.leb_spec (length s) L) as [HL|HL].
  - rewrite <- prefix_count by auto. f_equal. apply filter_ext_in. intros t Ht. apply in_all_tapes in Ht.
    rewrite HR. subst L. apply Nat.leb_le in HL as HL'. rewrite HL'.
    destruct (bytes_eqb (firstn (length s) t) s) eqn:E.
    + apply bytes_eqb_eq in E. rewrite E. apply bytes_eqb_refl.
    + destruct (bytes_eqb (f (firstn (length s) t)) (f s)) eqn:E2; auto. apply bytes_eqb_eq in E2.
      apply HI in E2; auto; [|apply firstn_length_le; auto]. rewrite E2, bytes_eqb_refl in E. discriminate.
  - rewrite filter_none; auto. intros t Ht. apply in_all_tapes in Ht. rewrite HR.
    destruct (Nat.leb_spec (length s) (length t)); [lia|reflexivity].
Qed.

(** ** OAEP *)

Lemma oaep_encode_inj hd hm L L' s s' M M' k :
  (0 < h_size hm)%nat -> length s = h_size hd -> length s' = h_size hd ->
  (length M + 2 * h_size hd + 2 <= k)%nat -> (length M' + 2 * h_size hd + 2 <= k)%nat ->
  oaep_encode (h_fun hd) (h_size hd) (h_fun hm) (h_size hm) L s M k =
  oaep_encode (h_fun hd) (h_size hd) (h_fun hm) (h_size hm) L' s' M' k ->
  s = s' /\ M = M' /\ h_fun hd L = h_fun hd L'.
Proof.
  intros Hm Ls Ls' Hk Hk' E.
  destruct (oaep_label_binding hd hm L L' k (oaep_encode (h_fun hd) (h_size hd) (h_fun hm) (h_size hm) L s M k) M M' Hm) as [EL EM].
  { exists s. auto. }
  { exists s'. auto. }
  split; auto. subst M'.
  rewrite !oaep_encode_mgf in E by auto. apply (f_equal (@tl byte)) in E. cbn [tl] in E.
  rewrite <- EL in E. set (db := h_fun hd L ++ _) in E.
  pose proof (oaep_unmask hm s db Hm) as U. pose proof (oaep_unmask hm s' db Hm) as U'.
  destruct (enc_mgf hm s db) as [ms mdb]. destruct (enc_mgf hm s' db) as [ms' mdb'].
  destruct U as (A & B & C). destruct U' as (A' & B' & C'). cbn [fst snd] in E.
  apply app_inj_len in E; [|lia]. destruct E as [-> ->]. congruence.
Qed.

Lemma oaep_ciphertext_inj k hd hm L L' s s' M M' :
  good_priv k -> (0 < h_size hm)%nat -> length s = h_size hd -> length s' = h_size hd ->
  (length M + 2 * h_size hd + 2 <= key_size (sk_pub k))%nat ->
  (length M' + 2 * h_size hd + 2 <= key_size (sk_pub k))%nat ->
  oaep_ciphertext (sk_pub k) hd hm L s M = oaep_ciphertext (sk_pub k) hd hm L' s' M' ->
  s = s' /\ M = M' /\ h_fun hd L = h_fun hd L'.
Proof.
  intros Hk Hm Ls Ls' Hs Hs' E. unfold oaep_ciphertext in E. pose proof (good_pub k Hk) as Hp.
  eapply oaep_encode_inj; eauto.
  match goal with |- ?a = ?b => assert (B : Ok a = Ok b); [|congruence] end.
  rewrite <- (decrypt_of_encrypt tape 0 None k
                (oaep_encode (h_fun hd) (h_size hd) (h_fun hm) (h_size hm) L s M (key_size (sk_pub k)))),
          <- (decrypt_of_encrypt tape 0 None k
                (oaep_encode (h_fun hd) (h_size hd) (h_fun hm) (h_size hm) L' s' M' (key_size (sk_pub k)))).
  - rewrite E. reflexivity.
  - congruence.
  - auto.
  - apply oaep_encode_length; auto.
  - apply block00_lt; auto. apply oaep_encode_length with (L := L'); auto.
  - exact I.
  - congruence.
  - auto.
  - apply oaep_encode_length; auto.
  - apply block00_lt; auto. apply oaep_encode_length with (L := L); auto.
  - exact I.
Qed.

Lemma uniform_seed k f L hd hm label seed msg :
  good_priv k -> usable_key (sk_pub k) -> (0 < h_size hm)%nat ->
  Z.of_nat (length (label_bytes label)) < 2 ^ 61 ->
  (length msg + 2 * h_size hd + 2 <= key_size (sk_pub k))%nat -> length seed = h_size hd ->
  tapes_giving L (fun t => public_encrypt tape f t (sk_pub k) (PadOaep (oaep_of hd hm label)) msg)
    (oaep_ciphertext (sk_pub k) hd hm (label_bytes label) seed msg)
  = if (h_size hd <=? L)%nat then (256 ^ (L - h_size hd))%nat else 0%nat.
Proof.
  intros Hk Hu Hm HL HM HS. pose proof (good_pub k Hk) as Hp.
  apply (prefix_run (h_size hd) L _ (fun s => oaep_ciphertext (sk_pub k) hd hm (label_bytes label) s msg)); auto.
  - intros t. rewrite oaep_of_eq. cbn [public_encrypt].
    cbn [oa_digest oa_mgf oa_label]. rewrite oaep_api_encrypt_agree. rewrite oaep_api_encrypt_exact by (auto using tape_ok).
    destruct (Z.leb_spec (2 ^ 61) (Z.of_nat (length (label_bytes label)))); [lia|].
    destruct (Nat.ltb_spec (key_size (sk_pub k)) (length msg + 2 * h_size hd + 2)); [lia|].
    cbn [rng_fill tape]. destruct (h_size hd <=? length t)%nat; reflexivity.
  - intros a b La Lb E. apply oaep_ciphertext_inj in E; auto. tauto.
Qed.

(** ** PSS *)

Lemma pss_encode_inj hd mh salt salt' eb :
  (0 < h_size hd)%nat -> length salt = length salt' ->
  (h_size hd + length salt + 2 <= pss_em_len eb)%nat ->
  pss_encode (h_fun hd) (h_size hd) mh salt eb = pss_encode (h_fun hd) (h_size hd) mh salt' eb ->
  salt = salt'.
Proof.
  intros Hh Hl Hs E. rewrite !pss_encode_parts in E. rewrite <- Hl in E. cbv zeta in E.
  set (np := (pss_em_len eb - length salt - h_size hd - 2)%nat) in *.
  set (z := (8 * pss_em_len eb - eb)%nat) in *.
  assert (Hz : (z <= 7)%nat) by apply pss_z.
  apply app_inj_len_r in E; [|rewrite !app_length, !h_len; auto]. destruct E as [E1 E2].
  apply app_inj_len in E2; [|rewrite !h_len; auto]. destruct E2 as [E2 _]. rewrite <- E2 in E1.
  set (mask := mgf1 _ _ _ _) in E1.
  assert (Lm : length mask = (pss_em_len eb - h_size hd - 1)%nat) by (apply mgf1_length; auto).
  set (DB := (vec x00 np ++ [x01]) ++ salt) in *. set (DB' := (vec x00 np ++ [x01]) ++ salt') in *.
  assert (LD : length DB = (pss_em_len eb - h_size hd - 1)%nat).
  { unfold DB. rewrite !app_length, vec_length. cbn [length]. unfold np. lia. }
  assert (LD' : length DB' = (pss_em_len eb - h_size hd - 1)%nat).
  { unfold DB'. rewrite !app_length, vec_length. cbn [length]. unfold np. lia. }
  apply (f_equal (fun x => clear_top z (xor_octets x mask))) in E1.
  rewrite !clear_top_xor in E1 by auto. rewrite !xor_octets_invol in E1 by lia.
  unfold DB, DB' in E1. rewrite !clear_top_DB in E1 by auto.
  apply app_inj_len in E1; [|reflexivity]. tauto.
Qed.

Lemma pss_signature_inj k hd mh salt salt' :
  good_priv k -> (0 < h_size hd)%nat -> length salt = length salt' ->
  (h_size hd + length salt + 2 <= pss_em_len (em_bits (sk_pub k)))%nat ->
  pss_signature k hd mh salt = pss_signature k hd mh salt' -> salt = salt'.
Proof.
  intros Hk Hh Hl Hs E. pose proof (good_pub k Hk) as Hp. pose proof Hk as (_ & _ & _ & HV & _).
  unfold pss_signature in E. cbv zeta in E. fold (em_bits (sk_pub k)) in E.
  destruct (nbits_facts _ Hp) as (B1 & B2 & B3 & B4 & B5). fold (em_bits (sk_pub k)) in B4, B5.
  pose proof (key_n_lt _ Hp) as Kn. pose proof (odd_pos_n _ Hp) as Hn.
  apply (pss_encode_inj hd mh salt salt' (em_bits (sk_pub k))); auto.
  pose proof (pss_encode_value hd mh salt (em_bits (sk_pub k)) Hh Hs) as V.
  pose proof (pss_encode_value hd mh salt' (em_bits (sk_pub k)) Hh ltac:(lia)) as V'.
  set (em := pss_encode (h_fun hd) (h_size hd) mh salt _) in *.
  set (em' := pss_encode (h_fun hd) (h_size hd) mh salt' _) in *.
  assert (L : length em = pss_em_len (em_bits (sk_pub k))) by (apply pss_encode_length; auto).
  assert (L' : length em' = pss_em_len (em_bits (sk_pub k))) by (apply pss_encode_length; auto; lia).
  set (n := uval (pk_n (sk_pub k))) in *. set (d := uval (sk_d k)) in *.
  assert (R1 : forall x, 0 <= RSADP n d x < n) by (intros; apply Z.mod_pos_bound; lia).
  apply (f_equal os2ip) in E. pose proof (R1 (os2ip em)). pose proof (R1 (os2ip em')).
  rewrite !os2ip_i2osp in E by lia.
  apply (f_equal (RSAEP n (uval (pk_e (sk_pub k))))) in E.
  rewrite !(rsa_enc_dec _ _ _ _ _ HV) in E by lia.
  rewrite <- (i2osp_os2ip em _ eq_refl), <- (i2osp_os2ip em' _ eq_refl). congruence.
Qed.

Lemma sign_tape k f hd mh sl t :
  good_priv k -> uprec (pk_n (sk_pub k)) < 2 ^ 32 -> (0 < h_size hd)%nat -> length mh = h_size hd ->
  (h_size hd + sl + 2 <= pss_em_len (em_bits (sk_pub k)))%nat ->
  private_sign_with_rng tape f t k (SigPss (mkPss false (digest_new hd) sl)) mh =
  if (sl <=? length t)%nat then Ok (pss_signature k hd mh (firstn sl t)) else Err Rng.
Proof.
  intros Hk H32 Hh Hm Hs. cbn [private_sign_with_rng scheme_sign ps_blinded ps_salt_len ps_digest].
  rewrite pss_sign_agree.
  destruct (sl <=? length t)%nat eqn:E.
  - rewrite (pss_sign_digest_eq tape hd f t false k mh sl (firstn sl t) (skipn sl t)).
    2:{ cbn [rng_fill tape]. rewrite E. reflexivity. }
    cbn [opt_blind].
    destruct (sign_pss_exact tape hd f None k mh (firstn sl t) ltac:(congruence) Hh Hk H32) as [_ A].
    destruct (A Hm) as [_ B]. apply Nat.leb_le in E. rewrite firstn_length_le in B by auto.
    destruct (B Hs) as (B1 & _). rewrite (B1 I). reflexivity.
  - unfold pss_sign_digest. cbn [rng_fill tape]. rewrite E. reflexivity.
Qed.

Lemma uniform_salt k f L hd mh sl salt :
  good_priv k -> uprec (pk_n (sk_pub k)) < 2 ^ 32 -> (0 < h_size hd)%nat -> length mh = h_size hd ->
  (h_size hd + sl + 2 <= pss_em_len (em_bits (sk_pub k)))%nat -> length salt = sl ->
  tapes_giving L (fun t => private_sign_with_rng tape f t k (SigPss (mkPss false (digest_new hd) sl)) mh)
    (pss_signature k hd mh salt)
  = if (sl <=? L)%nat then (256 ^ (L - sl))%nat else 0%nat.
Proof.
  intros Hk H32 Hh Hm Hs HS.
  apply (prefix_run sl L _ (pss_signature k hd mh)); auto.
  - intros t. apply sign_tape; auto.
  - intros a b La Lb E. apply pss_signature_inj in E; auto; [congruence|].
    rewrite La. exact Hs.
Qed.
