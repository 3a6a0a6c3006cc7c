(** Proofs about the octets of RSASSA-PSS algorithm identifiers. *)
From Coq Require Import ZArith List Bool Lia.
From Coq Require Import Init.Byte.
From Verif Require Import SpecRFC SpecDer SpecPssParams.
From Verif Require Import Base Bigint MHash MRsa MWrap MDer MEncoding MPssParams.
From Verif Require Import BytesLemmas PDer PCodec PEncoding PWrapEnc.
Import ListNotations.
Local Open Scope Z_scope.

(** * The octets determine the value *)

Definition big : Z := 2 ^ 32 - 1.
Lemma big_ok : big < 2 ^ 32. Proof. unfold big. lia. Qed.
Notation small l := (Z.of_nat (length l) <= big).

Lemma tlv_inj t c r t' c' r' : small (der_tlv t c ++ r) ->
  der_tlv t c ++ r = der_tlv t' c' ++ r' -> t = t' /\ c = c' /\ r = r'.
Proof.
  intros S E.
  assert (L : small c) by (rewrite app_length in S; apply (der_fits big t); lia).
  assert (L' : small c') by (rewrite E in S; rewrite app_length in S; apply (der_fits big t'); lia).
  pose proof (decode_tlv_ok big big_ok t c r L) as D. rewrite E in D.
  rewrite (decode_tlv_ok big big_ok t' c' r' L') in D. injection D as -> -> ->. auto.
Qed.

Lemma tlv_inj0 t c t' c' : small (der_tlv t c) -> der_tlv t c = der_tlv t' c' -> t = t' /\ c = c'.
Proof.
  intros S E. destruct (tlv_inj t c [] t' c' []) as (A & B & _); rewrite ?app_nil_r; auto.
Qed.

Lemma tlv_le t c : (length c <= length (der_tlv t c))%nat.
Proof. unfold der_tlv. cbn [length]. rewrite app_length. lia. Qed.

Lemma hash_inj a b : small (der (HashAlgorithm a)) -> der (HashAlgorithm a) = der (HashAlgorithm b) -> a = b.
Proof.
  cbn [HashAlgorithm der map concat]. intros S E.
  pose proof (tlv_le x30 (der_tlv x06 a ++ der_tlv x05 [] ++ [])) as L.
  destruct (tlv_inj0 _ _ _ _ S E) as (_ & E1).
  apply tlv_inj in E1; [tauto|]. lia.
Qed.

Lemma mask_inj a b : small (der (MaskGenAlgorithm a)) -> der (MaskGenAlgorithm a) = der (MaskGenAlgorithm b) -> a = b.
Proof.
  unfold MaskGenAlgorithm. cbn [der map concat].
  change (der (HashAlgorithm a)) with (der (HashAlgorithm a)). rewrite !app_nil_r. intros S E.
  pose proof (tlv_le x30 (der_tlv x06 id_mgf1 ++ der (HashAlgorithm a))) as L.
  destruct (tlv_inj0 _ _ _ _ S E) as (_ & E1).
  apply app_inv_head in E1. apply hash_inj in E1; auto.
  rewrite app_length in L. lia.
Qed.

Lemma int_inj a b : 0 <= a -> 0 <= b -> small (der (AInteger a)) -> der (AInteger a) = der (AInteger b) -> a = b.
Proof.
  intros A B S E.
  pose proof (decode_uint_ok big big_ok a [] A S) as D.
  assert (S' : small (der (AInteger b))) by (rewrite <- E; exact S).
  pose proof (decode_uint_ok big big_ok b [] B S') as D'. rewrite E in D. rewrite D in D'.
  injection D' as D'. rewrite <- (min_octets_value a A), <- (min_octets_value b B), D'. reflexivity.
Qed.

(** The octets of a list of fields. *)
Notation octs l := (concat (map der l)).
Definition not_tagged (t : byte) (l : list byte) : Prop :=
  match l with [] => True | b :: _ => b <> t end.

Lemma field_octs {A} n (enc : A -> asn1) d a l : field n enc d a l ->
  (octs l = der_tlv (octet (160 + n)) (der (enc a))) \/ (octs l = [] /\ a = d).
Proof.
  intros [->|(-> & ->)]; [left|right; auto]. unfold explicit. cbn [map concat der]. apply app_nil_r.
Qed.

Lemma field_split {A} n (enc : A -> asn1) d a a' l l' r r' :
  (small (der (enc a)) -> der (enc a) = der (enc a') -> a = a') ->
  field n enc d a l -> field n enc d a' l' ->
  not_tagged (octet (160 + n)) r -> not_tagged (octet (160 + n)) r' ->
  small (octs l ++ r) -> octs l ++ r = octs l' ++ r' -> a = a' /\ r = r'.
Proof.
  intros I F F' N N' S E. apply field_octs in F. apply field_octs in F'.
  destruct F as [F|(F & ->)]; destruct F' as [F'|(F' & ->)]; rewrite F, F' in *.
  - pose proof (tlv_le (octet (160 + n)) (der (enc a))) as L.
    destruct (tlv_inj _ _ _ _ _ _ S E) as (_ & X & ->). split; [apply I; [|exact X]|reflexivity].
    rewrite app_length in S. lia.
  - exfalso. cbn [app] in E. rewrite <- E in N'. unfold der_tlv in N'. cbn in N'. congruence.
  - exfalso. cbn [app] in E. rewrite E in N. unfold der_tlv in N. cbn in N. congruence.
  - cbn [app] in E. auto.
Qed.

Lemma field_tag {A} n t (enc : A -> asn1) d a l r : field n enc d a l -> octet (160 + n) <> t ->
  not_tagged t r -> not_tagged t (octs l ++ r).
Proof.
  intros F N R. apply field_octs in F. destruct F as [F|(F & _)]; rewrite F; [exact N|exact R].
Qed.

Lemma params_unambiguous h mh s v h' mh' s' v' :
  RSASSA_PSS_params h mh s v -> RSASSA_PSS_params h' mh' s' v' -> 0 <= s -> 0 <= s' ->
  small (der v) -> der v = der v' -> h = h' /\ mh = mh' /\ s = s'.
Proof.
  intros (f0 & f1 & f2 & F0 & F1 & F2 & ->) (g0 & g1 & g2 & G0 & G1 & G2 & ->) S S' L E.
  cbn [der] in *. pose proof (tlv_le x30 (octs (f0 ++ f1 ++ f2))) as T.
  destruct (tlv_inj0 _ _ _ _ L E) as (_ & X). assert (B : small (octs (f0 ++ f1 ++ f2))) by lia.
  rewrite !map_app, !concat_app in X. rewrite !map_app, !concat_app in B.
  rewrite <- (app_nil_r (octs f2)) in X, B. rewrite <- (app_nil_r (octs g2)) in X.
  eapply field_split in X; [|intros; apply hash_inj; eassumption|exact F0|exact G0| | |exact B].
  2: { eapply field_tag; [exact F1|discriminate|]. eapply field_tag; [exact F2|discriminate|exact I]. }
  2: { eapply field_tag; [exact G1|discriminate|]. eapply field_tag; [exact G2|discriminate|exact I]. }
  destruct X as (-> & X). rewrite app_length in B. assert (B1 : small (octs f1 ++ octs f2 ++ [])) by lia.
  eapply field_split in X; [|intros; apply mask_inj; eassumption|exact F1|exact G1| | |exact B1].
  2: { eapply field_tag; [exact F2|discriminate|exact I]. }
  2: { eapply field_tag; [exact G2|discriminate|exact I]. }
  destruct X as (-> & X). rewrite app_length in B1. assert (B2 : small (octs f2 ++ [])) by lia.
  assert (J := field_split 2 AInteger 20 s s' f2 g2 [] [] (int_inj s s' S S') F2 G2 I I B2 X).
  tauto.
Qed.

Lemma identifier_unambiguous doc h mh s h' mh' s' :
  pss_identifier doc h mh s -> pss_identifier doc h' mh' s' -> 0 <= s -> 0 <= s' ->
  Z.of_nat (length doc) < 2 ^ 32 -> h = h' /\ mh = mh' /\ s = s'.
Proof.
  intros (v & P & ->) (v' & P' & E) S S' L. cbn [der map concat] in *. rewrite !app_nil_r in *.
  assert (L1 : small (der_tlv x30 (der_tlv x06 id_RSASSA_PSS ++ der v))) by (unfold big; lia).
  destruct (tlv_inj0 _ _ _ _ L1 E) as (_ & X). apply app_inv_head in X.
  eapply params_unambiguous; eauto.
  pose proof (tlv_le x30 (der_tlv x06 id_RSASSA_PSS ++ der v)) as T. rewrite app_length in T. lia.
Qed.

(** * What the code writes *)

Section WithMax.
  Context (mx : Z) (Hmx : mx < 2 ^ 32) (sha1_null : bool).
  Notation fits l := (Z.of_nat (length l) <= mx).

  Definition hash_fields (oid : list byte) : list asn1 :=
    if is_default_digest sha1_null oid then [] else [explicit 0 (HashAlgorithm oid)].
  Definition mask_fields (oid : list byte) : list asn1 :=
    if is_default_digest sha1_null oid then [] else [explicit 1 (MaskGenAlgorithm oid)].
  Definition salt_fields (s : Z) : list asn1 := if s =? 20 then [] else [explicit 2 (AInteger s)].
  Definition params_value (h mh : list byte) (s : Z) : asn1 :=
    ASequence (hash_fields h ++ mask_fields mh ++ salt_fields s).

  Lemma default_digest oid : is_default_digest sha1_null oid = true -> oid = id_sha1.
  Proof. unfold is_default_digest. rewrite andb_true_iff, bytes_eqb_eq. intros (_ & ->). reflexivity. Qed.

  Lemma value_params h mh s : RSASSA_PSS_params h mh s (params_value h mh s).
  Proof.
    exists (hash_fields h), (mask_fields mh), (salt_fields s). repeat apply conj; [| | |reflexivity].
    - unfold hash_fields. destruct (is_default_digest _ _) eqn:E; [right|left; reflexivity].
      split; [reflexivity|apply default_digest; exact E].
    - unfold mask_fields. destruct (is_default_digest _ _) eqn:E; [right|left; reflexivity].
      split; [reflexivity|apply default_digest; exact E].
    - unfold salt_fields. destruct (Z.eqb_spec s 20); [right; auto|left; reflexivity].
  Qed.

  Lemma value_params_DER h mh s : (sha1_null = true \/ (h <> id_sha1 /\ mh <> id_sha1)) ->
    RSASSA_PSS_params_DER h mh s (params_value h mh s).
  Proof.
    intros D.
    assert (X : forall o, sha1_null = true \/ o <> id_sha1 ->
              (is_default_digest sha1_null o = true /\ o = id_sha1) \/
              (is_default_digest sha1_null o = false /\ o <> id_sha1)).
    { intros o Ho. unfold is_default_digest. change oid_sha_1 with id_sha1.
      destruct (bytes_eqb o id_sha1) eqn:E.
      - apply bytes_eqb_eq in E. destruct Ho as [Ho|Ho]; [|contradiction]. rewrite Ho. left. auto.
      - right. rewrite andb_false_r. split; [reflexivity|]. intros C. apply bytes_eqb_eq in C. congruence. }
    exists (hash_fields h), (mask_fields mh), (salt_fields s). repeat apply conj; [| | |reflexivity].
    - unfold hash_fields. destruct (X h) as [(E & O)|(E & O)]; [tauto| |]; rewrite E; [right|left]; auto.
    - unfold mask_fields. destruct (X mh) as [(E & O)|(E & O)]; [tauto| |]; rewrite E; [right|left]; auto.
    - unfold salt_fields. destruct (Z.eqb_spec s 20); [right|left]; auto.
  Qed.

  Lemma digest_ok oid : fits (der (HashAlgorithm oid)) ->
    encode_alg_id mx (digest_alg_id oid) = Ok (der (HashAlgorithm oid)).
  Proof.
    intros F. unfold encode_alg_id, digest_alg_id. cbn [alg_oid alg_params any_tag any_value any_null].
    cbn [HashAlgorithm der map concat] in *. rewrite app_nil_r in *.
    pose proof (tlv_le x30 (der_tlv x06 oid ++ der_tlv x05 [])) as L. rewrite app_length in L.
    rewrite (encode_tlv_ok mx Hmx tag_oid) by (change tag_oid with x06; lia). cbn [bind].
    rewrite (encode_tlv_ok mx Hmx tag_null) by (change tag_null with x05; lia). cbn [bind].
    apply (encode_tlv_ok mx Hmx). exact F.
  Qed.

  Lemma bind_ok_inv {A B} (o : outcome A) (f : A -> outcome B) b :
    bind o f = Ok b -> exists a, o = Ok a /\ f a = Ok b.
  Proof. destruct o; cbn [bind]; intros H; try discriminate. eauto. Qed.

  Lemma digest_inv oid l : encode_alg_id mx (digest_alg_id oid) = Ok l -> l = der (HashAlgorithm oid).
  Proof.
    unfold encode_alg_id, digest_alg_id. cbn [alg_oid alg_params any_tag any_value any_null].
    intros H. apply bind_ok_inv in H. destruct H as (o & H1 & H).
    apply bind_ok_inv in H. destruct H as (n & H2 & H).
    apply encode_tlv_inv in H1, H2, H; auto. destruct H1 as (-> & _), H2 as (-> & _), H as (-> & _).
    cbn [HashAlgorithm der map concat]. rewrite app_nil_r. reflexivity.
  Qed.

  Lemma salt_octets s : 0 <= s < 256 -> [z2b s] = min_octets s.
  Proof.
    intros H. symmetry. apply min_octets_of; [lia|discriminate| |].
    - exact I.
    - rewrite os2ip_bytes1. apply Z.mod_small. lia.
  Qed.

  (** The octets of the explicit tags. *)
  Lemma context_octet n : 0 <= n < 31 -> z2b (160 + n) = octet (160 + n).
  Proof. intros _. reflexivity. Qed.

  Lemma encode_params_ok h mh s : 0 <= s < 256 -> fits (der (params_value h mh s)) ->
    encode_pss_params mx sha1_null (mkPssParams h mh s) = Ok (der (params_value h mh s)).
  Proof.
    intros Hs F. unfold params_value in *. cbn [der] in *.
    pose proof (tlv_le x30 (octs (hash_fields h ++ mask_fields mh ++ salt_fields s))) as L.
    rewrite !map_app, !concat_app in *. rewrite !app_length in L.
    unfold encode_pss_params. cbn [psp_hash psp_mgf_hash psp_salt_len].
    match goal with |- bind ?o _ = _ => assert (E : o = Ok (octs (hash_fields h))) end.
    { unfold hash_fields in *. destruct (is_default_digest _ h); [reflexivity|].
      unfold explicit in *. cbn [map concat der] in *. rewrite app_nil_r in *.
      pose proof (tlv_le (octet (160 + 0)) (der (HashAlgorithm h))).
      rewrite digest_ok by (cbn [HashAlgorithm der map concat] in *; lia). cbn [bind].
      unfold encode_context. apply (encode_tlv_ok mx Hmx). change (z2b (160 + 0)) with (octet (160 + 0)).
      cbn [HashAlgorithm der map concat] in *. lia. }
    rewrite E. cbn [bind]. clear E.
    match goal with |- bind ?o _ = _ => assert (E : o = Ok (octs (mask_fields mh))) end.
    { unfold mask_fields in *. destruct (is_default_digest _ mh); [reflexivity|].
      unfold explicit in *. cbn [map concat] in *. rewrite app_nil_r in *.
      change (der (ARaw ?l)) with l in *.
      pose proof (tlv_le (octet (160 + 1)) (der (MaskGenAlgorithm mh))) as L1.
      assert (M : der (MaskGenAlgorithm mh) = der_tlv x30 (der_tlv x06 id_mgf1 ++ der (HashAlgorithm mh))).
      { unfold MaskGenAlgorithm. cbn [der map concat]. rewrite !app_nil_r. reflexivity. }
      rewrite M in *.
      pose proof (tlv_le x30 (der_tlv x06 id_mgf1 ++ der (HashAlgorithm mh))) as L2. rewrite app_length in L2.
      rewrite (encode_tlv_ok mx Hmx tag_oid) by (change tag_oid with x06; change oid_mgf_1 with id_mgf1; lia). cbn [bind].
      rewrite digest_ok by lia. cbn [bind].
      rewrite (encode_tlv_ok mx Hmx tag_sequence)
        by (change tag_oid with x06; change oid_mgf_1 with id_mgf1; change tag_sequence with x30; lia).
      cbn [bind]. unfold encode_context. apply (encode_tlv_ok mx Hmx).
      change (z2b (160 + 1)) with (octet (160 + 1)). change tag_oid with x06. change oid_mgf_1 with id_mgf1.
      change tag_sequence with x30. lia. }
    rewrite E. cbn [bind]. clear E.
    match goal with |- bind ?o _ = _ => assert (E : o = Ok (octs (salt_fields s))) end.
    { unfold salt_fields in *. destruct (s =? 20); [reflexivity|].
      unfold explicit in *. cbn [map concat] in *. rewrite app_nil_r in *.
      change (der (ARaw ?l)) with l in *.
      pose proof (tlv_le (octet (160 + 2)) (der (AInteger s))) as L1.
      rewrite salt_octets by auto. rewrite (encode_uint_ok mx Hmx) by lia. cbn [bind].
      unfold encode_context. apply (encode_tlv_ok mx Hmx). change (z2b (160 + 2)) with (octet (160 + 2)). lia. }
    rewrite E. cbn [bind]. apply (encode_tlv_ok mx Hmx). exact F.
  Qed.

  Lemma encode_params_inv h mh s l : 0 <= s < 256 ->
    encode_pss_params mx sha1_null (mkPssParams h mh s) = Ok l ->
    l = der (params_value h mh s) /\ fits l.
  Proof.
    intros Hs H. unfold encode_pss_params in H. cbn [psp_hash psp_mgf_hash psp_salt_len] in H.
    apply bind_ok_inv in H. destruct H as (a & H1 & H).
    apply bind_ok_inv in H. destruct H as (b & H2 & H).
    apply bind_ok_inv in H. destruct H as (c & H3 & H).
    apply encode_tlv_inv in H; auto. destruct H as (-> & F). split; [|exact F]. clear F.
    unfold params_value. cbn [der]. rewrite !map_app, !concat_app.
    change tag_sequence with x30. f_equal. f_equal; [|f_equal].
    - unfold hash_fields. destruct (is_default_digest _ h); [cbn; congruence|].
      apply bind_ok_inv in H1. destruct H1 as (x & X & H1). apply digest_inv in X. subst x.
      unfold encode_context in H1. apply encode_tlv_inv in H1; auto. destruct H1 as (-> & _).
      cbn [map concat]. rewrite app_nil_r. reflexivity.
    - unfold mask_fields. destruct (is_default_digest _ mh); [cbn; congruence|].
      apply bind_ok_inv in H2. destruct H2 as (o & O & H2).
      apply bind_ok_inv in H2. destruct H2 as (x & X & H2).
      apply bind_ok_inv in H2. destruct H2 as (m & M & H2). apply digest_inv in X. subst x.
      unfold encode_context in H2. apply encode_tlv_inv in O, M, H2; auto.
      destruct O as (-> & _), M as (-> & _), H2 as (-> & _).
      cbn [map concat]. rewrite app_nil_r. unfold explicit, MaskGenAlgorithm. cbn [der map concat].
      rewrite app_nil_r. reflexivity.
    - unfold salt_fields. destruct (s =? 20); [cbn; congruence|].
      apply bind_ok_inv in H3. destruct H3 as (x & X & H3). unfold encode_uint in X. unfold encode_context in H3.
      apply encode_tlv_inv in X, H3; auto. destruct X as (-> & _), H3 as (-> & _).
      rewrite salt_octets, uint_content_spec by lia. cbn [map concat]. rewrite app_nil_r. reflexivity.
  Qed.

  Lemma encode_params_settled p : (exists l, encode_pss_params mx sha1_null p = Ok l) \/
    encode_pss_params mx sha1_null p = Err ErrAsn1.
  Proof.
    assert (B : forall A B (o : outcome A) (f : A -> outcome B),
      ((exists a, o = Ok a) \/ o = Err ErrAsn1) -> (forall a, (exists b, f a = Ok b) \/ f a = Err ErrAsn1) ->
      (exists b, bind o f = Ok b) \/ bind o f = Err ErrAsn1).
    { intros A B o f [(a & ->)| ->] H; cbn [bind]; auto. }
    assert (T : forall t c, (exists r, encode_tlv mx t c = Ok r) \/ encode_tlv mx t c = Err ErrAsn1) by (intros; apply encode_tlv_err).
    assert (D : forall o, (exists r, encode_alg_id mx (digest_alg_id o) = Ok r) \/ encode_alg_id mx (digest_alg_id o) = Err ErrAsn1).
    { intros o. unfold encode_alg_id, digest_alg_id. cbn [alg_oid alg_params]. repeat (apply B; [apply T|intros]). apply T. }
    unfold encode_pss_params, encode_context, encode_uint.
    apply B; [destruct (is_default_digest _ _); [left; eauto|apply B; [apply D|intros; apply T]]|intros a].
    apply B; [destruct (is_default_digest _ _); [left; eauto|]|intros b].
    { apply B; [apply T|intros]. apply B; [apply D|intros]. apply B; [apply T|intros]. apply T. }
    apply B; [destruct (_ =? _); [left; eauto|apply B; [apply T|intros; apply T]]|intros c].
    apply T.
  Qed.

  (** The parameters as an [Any]: tag and contents of their encoding. *)
  Lemma any_from_der h mh s l : 0 <= s < 256 ->
    encode_pss_params mx sha1_null (mkPssParams h mh s) = Ok l ->
    any_encode_from mx sha1_null (mkPssParams h mh s) =
      Ok (mkAny x30 (octs (hash_fields h ++ mask_fields mh ++ salt_fields s))).
  Proof.
    intros Hs H. destruct (encode_params_inv h mh s l Hs H) as (E & F). subst l.
    unfold any_encode_from. rewrite H. cbn [bind]. unfold params_value in *. cbn [der] in *.
    rewrite <- (app_nil_r (der_tlv _ _)). rewrite decode_tlv_ok by (auto; eapply der_fits; eauto).
    reflexivity.
  Qed.

  Notation salt_octet k := (Z.of_nat (pssk_salt_len k) mod 256).

  Lemma salt_range k : 0 <= salt_octet k < 256.
  Proof. apply Z.mod_pos_bound. lia. Qed.

  Definition identifier_value (oid : list byte) (s : Z) : asn1 :=
    ASequence [AOid id_RSASSA_PSS; params_value oid oid s].

  Lemma identifier_inv oid k doc : pssk_identifier_der mx sha1_null oid k = Ok doc ->
    doc = der (identifier_value oid (salt_octet k)) /\ fits doc.
  Proof.
    intros H. unfold pssk_identifier_der, pssk_identifier, pss_alg_id_owned in H.
    cbn [pssk_algorithm_id get_pss_signature_algo_id psa_params psa_oid] in H.
    apply bind_ok_inv in H. destruct H as (a & H1 & H).
    apply bind_ok_inv in H1. destruct H1 as (p & H1 & H2). assert (a = mkAlg oid_rsassa_pss (Some p)) by congruence. subst a. clear H2.
    assert (H1' := H1). unfold any_encode_from in H1'. apply bind_ok_inv in H1'. destruct H1' as (l & P & _).
    rewrite (any_from_der oid oid (salt_octet k) l (salt_range k) P) in H1.
    assert (p = mkAny x30 (octs (hash_fields oid ++ mask_fields oid ++ salt_fields (salt_octet k)))) by congruence. subst p.
    unfold encode_alg_id in H. cbn [alg_oid alg_params any_tag any_value] in H.
    apply bind_ok_inv in H. destruct H as (o & O & H).
    apply bind_ok_inv in H. destruct H as (q & Q & H).
    apply encode_tlv_inv in O, Q, H; auto. destruct O as (-> & _), Q as (-> & _), H as (-> & F).
    split; [|exact F]. unfold identifier_value, params_value. cbn [der map concat]. rewrite app_nil_r. reflexivity.
  Qed.

  Lemma identifier_ok oid k : fits (der (identifier_value oid (salt_octet k))) ->
    pssk_identifier_der mx sha1_null oid k = Ok (der (identifier_value oid (salt_octet k))).
  Proof.
    intros F. assert (V : der (identifier_value oid (salt_octet k)) =
      der_tlv x30 (der_tlv x06 id_RSASSA_PSS ++ der (params_value oid oid (salt_octet k)))).
    { unfold identifier_value. cbn [der map concat]. rewrite app_nil_r. reflexivity. }
    rewrite V in *.
    pose proof (tlv_le x30 (der_tlv x06 id_RSASSA_PSS ++ der (params_value oid oid (salt_octet k)))) as L.
    rewrite app_length in L.
    unfold pssk_identifier_der, pssk_identifier, pss_alg_id_owned.
    cbn [pssk_algorithm_id get_pss_signature_algo_id psa_params psa_oid].
    pose proof (encode_params_ok oid oid (salt_octet k) (salt_range k) ltac:(lia)) as P.
    rewrite (any_from_der _ _ _ _ (salt_range k) P). cbn [bind].
    unfold encode_alg_id. cbn [alg_oid alg_params any_tag any_value].
    rewrite (encode_tlv_ok mx Hmx tag_oid) by (change tag_oid with x06; change oid_rsassa_pss with id_RSASSA_PSS; lia). cbn [bind].
    unfold params_value in *. cbn [der] in *.
    rewrite (encode_tlv_ok mx Hmx x30) by lia. cbn [bind].
    apply (encode_tlv_ok mx Hmx). exact F.
  Qed.

  Lemma identifier_settled oid k : (exists doc, pssk_identifier_der mx sha1_null oid k = Ok doc) \/
    pssk_identifier_der mx sha1_null oid k = Err ErrAsn1.
  Proof.
    unfold pssk_identifier_der, pssk_identifier, pss_alg_id_owned.
    cbn [pssk_algorithm_id get_pss_signature_algo_id psa_params psa_oid].
    destruct (encode_params_settled (mkPssParams oid oid (salt_octet k))) as [(l & P)|P].
    - rewrite (any_from_der _ _ _ _ (salt_range k) P). cbn [bind]. unfold encode_alg_id. cbn [alg_oid alg_params].
      destruct (encode_tlv_err mx tag_oid oid_rsassa_pss) as [(o & ->)| ->]; [|auto]. cbn [bind any_tag any_value].
      match goal with |- context [bind (encode_tlv mx x30 ?c) _] => destruct (encode_tlv_err mx x30 c) as [(o' & ->)| ->] end; [|auto].
      cbn [bind]. apply encode_tlv_err.
    - unfold any_encode_from. rewrite P. auto.
  Qed.

  (** Room for the identifier *)
  Lemma tlv_room t c N : Z.of_nat (length c) <= N -> N < 2 ^ 32 -> Z.of_nat (length (der_tlv t c)) <= N + 6.
  Proof. intros A B. pose proof (der_tlv_bound t c ltac:(lia)). lia. Qed.

  Lemma identifier_room oid s : 0 <= s < 256 -> 2 * Z.of_nat (length oid) + 100 <= mx ->
    fits (der (identifier_value oid s)).
  Proof.
    intros Hs R. set (n := Z.of_nat (length oid)) in *. assert (0 <= n) by (unfold n; lia).
    assert (H1 : Z.of_nat (length (der (HashAlgorithm oid))) <= n + 14).
    { cbn [HashAlgorithm der map concat]. rewrite app_nil_r.
      replace (n + 14) with (n + 8 + 6) by lia. apply tlv_room; [|lia]. rewrite app_length.
      pose proof (tlv_room x06 oid n ltac:(unfold n; lia) ltac:(lia)). change (length (der_tlv x05 [])) with 2%nat. lia. }
    assert (H2 : Z.of_nat (length (der (MaskGenAlgorithm oid))) <= n + 31).
    { assert (M : der (MaskGenAlgorithm oid) = der_tlv x30 (der_tlv x06 id_mgf1 ++ der (HashAlgorithm oid))).
      { unfold MaskGenAlgorithm. cbn [der map concat]. rewrite !app_nil_r. reflexivity. }
      rewrite M. replace (n + 31) with (n + 25 + 6) by lia. apply tlv_room; [|lia]. rewrite app_length.
      change (length (der_tlv x06 id_mgf1)) with 11%nat. lia. }
    assert (H3 : Z.of_nat (length (der (AInteger s))) <= 8).
    { cbn [der]. replace 8 with (2 + 6) by lia. apply tlv_room; [|lia].
      rewrite <- uint_content_spec by lia. rewrite <- salt_octets by auto. cbn [uint_content].
      destruct (_ <? _); cbn [length]; lia. }
    assert (E : forall k v N, Z.of_nat (length (der v)) <= N -> N < 2 ^ 32 -> Z.of_nat (length (octs [explicit k v])) <= N + 6).
    { intros k v N A B. unfold explicit. cbn [map concat]. rewrite app_nil_r. change (der (ARaw ?l)) with l. apply tlv_room; auto. }
    assert (F0 : Z.of_nat (length (octs (hash_fields oid))) <= n + 20).
    { unfold hash_fields. destruct (is_default_digest _ _); [cbn [map concat length]; lia|].
      pose proof (E 0 _ _ H1 ltac:(lia)). lia. }
    assert (F1 : Z.of_nat (length (octs (mask_fields oid))) <= n + 37).
    { unfold mask_fields. destruct (is_default_digest _ _); [cbn [map concat length]; lia|].
      pose proof (E 1 _ _ H2 ltac:(lia)). lia. }
    assert (F2 : Z.of_nat (length (octs (salt_fields s))) <= 14).
    { unfold salt_fields. destruct (s =? 20); [cbn [map concat length]; lia|].
      pose proof (E 2 _ _ H3 ltac:(lia)). lia. }
    assert (P : Z.of_nat (length (der (params_value oid oid s))) <= 2 * n + 77).
    { unfold params_value. cbn [der]. replace (2 * n + 77) with (2 * n + 71 + 6) by lia.
      apply tlv_room; [|lia]. rewrite !map_app, !concat_app, !app_length. lia. }
    assert (V : der (identifier_value oid s) = der_tlv x30 (der_tlv x06 id_RSASSA_PSS ++ der (params_value oid oid s))).
    { unfold identifier_value. cbn [der map concat]. rewrite app_nil_r. reflexivity. }
    rewrite V. transitivity (2 * n + 88 + 6); [|lia]. apply tlv_room; [|lia].
    rewrite app_length. change (length (der_tlv x06 id_RSASSA_PSS)) with 11%nat. lia.
  Qed.

  (** * The identifier in a key document *)

  Lemma decode_identifier oid s rest : fits (der (identifier_value oid s)) ->
    exists p, decode_alg_id mx (der (identifier_value oid s) ++ rest) = Ok (mkAlg oid_rsassa_pss (Some p), rest).
  Proof.
    intros F. assert (V : der (identifier_value oid s) = der_tlv x30 (der_tlv x06 id_RSASSA_PSS ++ der (params_value oid oid s))).
    { unfold identifier_value. cbn [der map concat]. rewrite app_nil_r. reflexivity. }
    rewrite V in *. pose proof (tlv_le x30 (der_tlv x06 id_RSASSA_PSS ++ der (params_value oid oid s))) as L.
    rewrite app_length in L.
    unfold decode_alg_id. change x30 with tag_sequence in *.
    rewrite decode_tagged_ok by (auto; eapply der_fits; exact F). cbn [bind].
    change x06 with tag_oid in *.
    rewrite decode_tagged_ok by (auto; eapply (der_fits mx tag_oid); lia). cbn [bind].
    unfold params_value in *. cbn [der] in *. set (c := octs _) in *.
    rewrite <- (app_nil_r (der_tlv x30 c)).
    rewrite decode_tlv_ok by (auto; eapply (der_fits mx x30); lia).
    unfold der_tlv at 1. cbn [app bind finish]. eauto.
  Qed.

  Lemma identifier_not_for_keys oid k doc key :
    pssk_identifier_der mx sha1_null oid k = Ok doc ->
    fits (der (SubjectPublicKeyInfo (ARaw doc) key)) ->
    from_public_key_der mx (der (SubjectPublicKeyInfo (ARaw doc) key)) = Err ErrKeyMalformed.
  Proof.
    intros H F. apply identifier_inv in H. destruct H as (-> & Fd).
    set (v := identifier_value oid (salt_octet k)) in *.
    destruct (decode_identifier oid (salt_octet k) (der (ABits key)) Fd) as (p & D). fold v in D.
    unfold from_public_key_der, decode_spki.
    assert (E : der (SubjectPublicKeyInfo (ARaw (der v)) key) = der_tlv x30 (der v ++ der (ABits key))).
    { unfold SubjectPublicKeyInfo. cbn [der map concat]. rewrite app_nil_r. reflexivity. }
    rewrite E in *. clear E.
    pose proof (tlv_le x30 (der v ++ der (ABits key))) as L. rewrite app_length in L.
    change x30 with tag_sequence in *. rewrite <- (app_nil_r (der_tlv tag_sequence _)).
    rewrite decode_tagged_ok by (auto; eapply der_fits; exact F). cbn [bind]. rewrite D. cbn [bind].
    cbn [der] in *. change x03 with tag_bit_string in *. rewrite <- (app_nil_r (der_tlv tag_bit_string _)).
    rewrite decode_tagged_ok by (auto; eapply (der_fits mx tag_bit_string); lia).
    reflexivity.
  Qed.
End WithMax.
