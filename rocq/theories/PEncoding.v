(** Proofs about src/encoding.rs: export is the standard DER, import inverts it.
    C24, C33, C34, C43, C50. *)
From Coq Require Import ZArith List Bool Lia Znumtheory.
From Coq Require Import Init.Byte.
From Verif Require Import Base Bigint BytesLemmas NumTheory SpecRFC SpecKey SpecDer BigintLemmas
  MHash MPkcs1 MRsa MGenerate MKey MApi MWrap MDer MEncoding KeyDefs PRsa PApi PSign PKey PPub PDer.
Import ListNotations.
Local Open Scope Z_scope.

Lemma any_eqb_spec a b : any_eqb a b = true <-> a = b.
Proof.
  unfold any_eqb, byte_eqb. rewrite andb_true_iff, Z.eqb_eq, bytes_eqb_eq.
  destruct a as [t v], b as [t' v']. cbn [any_tag any_value]. split.
  - intros (H & ->). f_equal. apply b2z_inj. auto.
  - intros H. injection H as -> ->. auto.
Qed.

(** ** C34 *)

Lemma c34_exact a : verify_algorithm_id a = Ok tt <->
  (alg_oid a = rsaEncryption /\ alg_params a = Some (mkAny x05 [])) \/
  (alg_oid a = id_RSASSA_PSS /\ alg_params a = None).
Proof.
  unfold verify_algorithm_id.
  destruct (bytes_eqb (alg_oid a) oid_rsa_encryption) eqn:E1.
  - apply bytes_eqb_eq in E1. rewrite E1. split.
    + destruct (alg_params a) as [p|]; [|discriminate].
      destruct (any_eqb p any_null) eqn:E; [|discriminate].
      apply any_eqb_spec in E. subst p. auto.
    + intros [(_ & ->)|(H & _)]; [reflexivity|discriminate H].
  - destruct (bytes_eqb (alg_oid a) oid_rsassa_pss) eqn:E2.
    + apply bytes_eqb_eq in E2. rewrite E2. split.
      * destruct (alg_params a); [discriminate|auto].
      * intros [(H & _)|(_ & ->)]; [discriminate H|reflexivity].
    + split; [discriminate|]. intros [(H & _)|(H & _)]; exfalso.
      * rewrite H in E1. rewrite (proj2 (bytes_eqb_eq _ _) eq_refl) in E1. discriminate.
      * rewrite H in E2. rewrite (proj2 (bytes_eqb_eq _ _) eq_refl) in E2. discriminate.
Qed.

Lemma c34_error a : verify_algorithm_id a = Ok tt \/
  verify_algorithm_id a = Err ErrKeyMalformed \/ verify_algorithm_id a = Err ErrParametersMalformed \/
  (verify_algorithm_id a = Err ErrOidUnknown /\
   alg_oid a <> rsaEncryption /\ alg_oid a <> id_RSASSA_PSS).
Proof.
  unfold verify_algorithm_id.
  destruct (bytes_eqb (alg_oid a) oid_rsa_encryption) eqn:E1.
  - destruct (alg_params a) as [p|]; [|auto]. destruct (any_eqb p any_null); auto.
  - destruct (bytes_eqb (alg_oid a) oid_rsassa_pss) eqn:E2.
    + destruct (alg_params a); auto.
    + right. right. right. split; [auto|].
      split; intros H; rewrite H in *; [vm_compute in E1|vm_compute in E2]; discriminate.
Qed.

(** ** Structures *)

Lemma der_seq_length l v : In v l -> (length (der v) <= length (der (ASequence l)))%nat.
Proof.
  intros I. cbn [der]. unfold der_tlv. cbn [length]. rewrite app_length.
  assert (length (der v) <= length (concat (map der l)))%nat; [|lia].
  induction l as [|w l IH]; [contradiction|]. cbn [map concat]. rewrite app_length.
  destruct I as [->|I]; [lia|]. specialize (IH I). lia.
Qed.

Section WithMax.
  Context (mx : Z).
  Hypothesis Hmx : mx < 2 ^ 32.
  Notation fits v := (Z.of_nat (length (der v)) <= mx).

  Lemma fits_in l v : fits (ASequence l) -> In v l -> fits v.
  Proof. intros F I. pose proof (der_seq_length l v I). lia. Qed.

  Lemma encode_alg_ok : fits rsa_AlgorithmIdentifier ->
    encode_alg_id mx rsa_algorithm_id = Ok (der rsa_AlgorithmIdentifier).
  Proof.
    intros F. unfold encode_alg_id. cbn [alg_oid alg_params rsa_algorithm_id any_tag any_value any_null].
    assert (F1 : fits (AOid rsaEncryption)) by (apply (fits_in _ _ F); simpl; auto).
    assert (F2 : fits ANull) by (apply (fits_in _ _ F); simpl; auto).
    cbn [der] in F1, F2.
    change oid_rsa_encryption with rsaEncryption. change tag_oid with x06. change tag_null with x05.
    rewrite encode_tlv_ok by auto. cbn [bind]. rewrite encode_tlv_ok by auto. cbn [bind].
    apply encode_tlv_ok; auto.
  Qed.

  (** Parsed identifiers and the ASN.1 values they stand for. *)
  Definition alg_pair (a : alg_id) (v : asn1) : Prop :=
    (a = rsa_algorithm_id /\ v = rsa_AlgorithmIdentifier) \/
    (a = mkAlg id_RSASSA_PSS None /\ v = pss_AlgorithmIdentifier).

  Lemma decode_alg_ok a v rest : alg_pair a v -> fits v ->
    decode_alg_id mx (der v ++ rest) = Ok (a, rest).
  Proof.
    intros [(-> & ->)|(-> & ->)] F; unfold decode_alg_id.
    - unfold rsa_AlgorithmIdentifier. cbn [der map concat].
      assert (F1 : fits (AOid rsaEncryption)) by (apply (fits_in _ _ F); simpl; auto).
      assert (F2 : fits ANull) by (apply (fits_in _ _ F); simpl; auto).
      cbn [der] in F1, F2. change x30 with tag_sequence.
      unfold rsa_AlgorithmIdentifier in F. cbn [der map concat] in F.
      rewrite decode_tagged_ok by (auto; eapply der_fits; exact F). cbn [bind].
      change x06 with tag_oid. rewrite decode_tagged_ok by (auto; eapply der_fits; exact F1). cbn [bind].
      pose proof (decode_tlv_ok mx Hmx x05 [] []) as D. rewrite app_nil_r in *.
      unfold der_tlv at 1. cbn [app]. fold (der_tlv x05 []).
      rewrite D by (eapply der_fits; exact F2). reflexivity.
    - unfold pss_AlgorithmIdentifier. cbn [der map concat].
      assert (F1 : fits (AOid id_RSASSA_PSS)) by (apply (fits_in _ _ F); simpl; auto).
      cbn [der] in F1. change x30 with tag_sequence.
      unfold pss_AlgorithmIdentifier in F. cbn [der map concat] in F.
      rewrite decode_tagged_ok by (auto; eapply der_fits; exact F). cbn [bind].
      change x06 with tag_oid. rewrite decode_tagged_ok by (auto; eapply der_fits; exact F1). reflexivity.
  Qed.

  Ltac sub F := (apply (fits_in _ _ F); simpl; tauto).

  (** Public key structure *)
  Lemma encode_public_ok n e : 0 <= n -> 0 <= e -> fits (RSAPublicKey n e) ->
    encode_p1_public mx (mkP1Pub (min_octets n) (min_octets e)) = Ok (der (RSAPublicKey n e)).
  Proof.
    intros Hn He F. unfold encode_p1_public. cbn [p1_modulus p1_public_exponent].
    rewrite encode_uint_ok by (auto; sub F). cbn [bind].
    rewrite encode_uint_ok by (auto; sub F). cbn [bind].
    unfold RSAPublicKey in *. cbn [der map concat] in *. rewrite app_nil_r in *.
    apply encode_tlv_ok; auto.
  Qed.

  Lemma decode_public_ok n e : 0 <= n -> 0 <= e -> fits (RSAPublicKey n e) ->
    decode_p1_public mx (der (RSAPublicKey n e)) = Ok (mkP1Pub (min_octets n) (min_octets e)).
  Proof.
    intros Hn He F. unfold decode_p1_public.
    assert (F1 : fits (AInteger n)) by sub F. assert (F2 : fits (AInteger e)) by sub F.
    unfold RSAPublicKey in *.
    assert (E : der (ASequence [AInteger n; AInteger e]) = der_tlv x30 (der (AInteger n) ++ der (AInteger e) ++ []))
      by reflexivity.
    rewrite E in *. change x30 with tag_sequence in *.
    rewrite <- (app_nil_r (der_tlv _ _)). rewrite decode_tagged_ok by (auto; eapply der_fits; exact F).
    cbn [bind]. rewrite decode_uint_ok by auto. cbn [bind].
    rewrite decode_uint_ok by auto. reflexivity.
  Qed.

  (** Private key structure *)
  Definition p1_of (n e d p q dp dq qi : Z) : p1_private :=
    mkP1Priv false (min_octets n) (min_octets e) (min_octets d) (min_octets p) (min_octets q)
             (min_octets dp) (min_octets dq) (min_octets qi).

  Lemma min_octets_0 : min_octets 0 = [x00].
  Proof. reflexivity. Qed.

  Lemma encode_private_ok n e d p q dp dq qi :
    0 <= n -> 0 <= e -> 0 <= d -> 0 <= p -> 0 <= q -> 0 <= dp -> 0 <= dq -> 0 <= qi ->
    fits (RSAPrivateKey n e d p q dp dq qi) ->
    encode_p1_private mx (p1_of n e d p q dp dq qi) = Ok (der (RSAPrivateKey n e d p q dp dq qi)).
  Proof.
    intros Hn He Hd Hp Hq Hdp Hdq Hqi F. unfold encode_p1_private, p1_of.
    cbn [pp_modulus pp_public_exponent pp_private_exponent pp_prime1 pp_prime2 pp_exponent1 pp_exponent2 pp_coefficient].
    rewrite <- min_octets_0.
    do 9 (rewrite encode_uint_ok by (auto; try lia; sub F); cbn [bind]).
    unfold RSAPrivateKey in *.
    set (a0 := AInteger 0) in *. set (a1 := AInteger n) in *. set (a2 := AInteger e) in *.
    set (a3 := AInteger d) in *. set (a4 := AInteger p) in *. set (a5 := AInteger q) in *.
    set (a6 := AInteger dp) in *. set (a7 := AInteger dq) in *. set (a8 := AInteger qi) in *.
    clearbody a0 a1 a2 a3 a4 a5 a6 a7 a8.
    cbn [der map concat] in *. rewrite app_nil_r in *.
    apply encode_tlv_ok; auto.
  Qed.

  Lemma decode_private_ok n e d p q dp dq qi :
    0 <= n -> 0 <= e -> 0 <= d -> 0 <= p -> 0 <= q -> 0 <= dp -> 0 <= dq -> 0 <= qi ->
    fits (RSAPrivateKey n e d p q dp dq qi) ->
    decode_p1_private mx (der (RSAPrivateKey n e d p q dp dq qi)) = Ok (p1_of n e d p q dp dq qi).
  Proof.
    intros Hn He Hd Hp Hq Hdp Hdq Hqi F. unfold decode_p1_private.
    assert (X : forall z, In (AInteger z) [AInteger 0; AInteger n; AInteger e; AInteger d; AInteger p; AInteger q;
             AInteger dp; AInteger dq; AInteger qi] -> fits (AInteger z)) by (intros z I; apply (fits_in _ _ F); exact I).
    unfold RSAPrivateKey in *.
    assert (E : der (ASequence [AInteger 0; AInteger n; AInteger e; AInteger d; AInteger p; AInteger q;
             AInteger dp; AInteger dq; AInteger qi]) =
      der_tlv x30 (der (AInteger 0) ++ der (AInteger n) ++ der (AInteger e) ++ der (AInteger d) ++
        der (AInteger p) ++ der (AInteger q) ++ der (AInteger dp) ++ der (AInteger dq) ++ der (AInteger qi) ++ []))
      by reflexivity.
    rewrite E in *. change x30 with tag_sequence in *.
    rewrite <- (app_nil_r (der_tlv _ _)). rewrite decode_tagged_ok by (auto; eapply der_fits; exact F).
    cbn [bind].
    do 9 (rewrite decode_uint_ok by (auto; try lia; apply X; simpl; tauto); cbn [bind]).
    rewrite min_octets_0. reflexivity.
  Qed.

  (** PKCS#8 *)
  Lemma encode_info_ok key : fits (PrivateKeyInfo rsa_AlgorithmIdentifier key) ->
    encode_key_info mx (mkKI rsa_algorithm_id key) = Ok (der (PrivateKeyInfo rsa_AlgorithmIdentifier key)).
  Proof.
    intros F. unfold encode_key_info. cbn [ki_alg ki_key].
    assert (F1 : fits (AOctets key)) by sub F.
    rewrite <- min_octets_0. rewrite encode_uint_ok by (auto; try lia; sub F). cbn [bind].
    rewrite encode_alg_ok by sub F. cbn [bind].
    change tag_octet_string with x04. cbn [der] in F1. rewrite encode_tlv_ok by auto. cbn [bind].
    unfold PrivateKeyInfo in *. set (a0 := AInteger 0) in *. set (a := rsa_AlgorithmIdentifier) in *. clearbody a0 a.
    cbn [der map concat] in *. rewrite app_nil_r in *. apply encode_tlv_ok; auto.
  Qed.

  Lemma decode_info_ok tl ver a v key opt : alg_pair a v -> ver = 0 \/ ver = 1 -> tl ver opt = true ->
    fits (OneAsymmetricKey ver v key opt) ->
    decode_key_info mx tl (der (OneAsymmetricKey ver v key opt)) = Ok (mkKI a key).
  Proof.
    intros A Hv T F. unfold decode_key_info.
    assert (F0 : fits (AInteger ver)) by sub F. assert (F1 : fits v) by sub F.
    assert (F2 : fits (AOctets key)) by sub F.
    unfold OneAsymmetricKey in *.
    assert (E : der (ASequence [AInteger ver; v; AOctets key; ARaw opt]) =
      der_tlv x30 (der (AInteger ver) ++ der v ++ der_tlv x04 key ++ opt))
      by (cbn [der map concat]; rewrite app_nil_r; reflexivity).
    rewrite E in *. change x30 with tag_sequence in *.
    rewrite <- (app_nil_r (der_tlv _ (der (AInteger ver) ++ _))).
    rewrite decode_tagged_ok by (auto; eapply der_fits; exact F). cbn [bind].
    rewrite decode_uint_ok by (auto; lia). cbn [bind].
    assert (Ev : match min_octets ver with
                 | [b] => if byte_eqb b x00 then Ok 0 else if byte_eqb b x01 then Ok 1 else Err ErrAsn1
                 | _ => Err ErrAsn1
                 end = Ok ver) by (destruct Hv as [->| ->]; reflexivity).
    rewrite Ev. cbn [bind].
    rewrite (decode_alg_ok a v) by auto. cbn [bind].
    change x04 with tag_octet_string. rewrite decode_tagged_ok by (auto; eapply der_fits; exact F2).
    cbn [bind]. rewrite T. reflexivity.
  Qed.

  (** SPKI *)
  Lemma encode_spki_ok key : fits (SubjectPublicKeyInfo rsa_AlgorithmIdentifier key) ->
    encode_spki mx (mkSpki rsa_algorithm_id 0 key) = Ok (der (SubjectPublicKeyInfo rsa_AlgorithmIdentifier key)).
  Proof.
    intros F. unfold encode_spki. cbn [si_alg si_key si_unused].
    assert (F1 : fits (ABits key)) by sub F.
    rewrite encode_alg_ok by sub F. cbn [bind].
    change tag_bit_string with x03. change (z2b 0) with x00. cbn [der] in F1.
    rewrite encode_tlv_ok by auto. cbn [bind].
    unfold SubjectPublicKeyInfo in *. set (a := rsa_AlgorithmIdentifier) in *. clearbody a.
    cbn [der map concat] in *. rewrite app_nil_r in *. apply encode_tlv_ok; auto.
  Qed.

  Lemma decode_spki_ok a v key : alg_pair a v -> fits (SubjectPublicKeyInfo v key) ->
    decode_spki mx (der (SubjectPublicKeyInfo v key)) = Ok (mkSpki a 0 key).
  Proof.
    intros A F. unfold decode_spki.
    assert (F1 : fits v) by sub F.
    assert (F2 : fits (ABits key)) by sub F.
    unfold SubjectPublicKeyInfo in *.
    assert (E : der (ASequence [v; ABits key]) =
      der_tlv x30 (der v ++ der_tlv x03 (x00 :: key) ++ [])) by reflexivity.
    rewrite E in *. change x30 with tag_sequence in *.
    rewrite <- (app_nil_r (der_tlv _ (der v ++ _))).
    rewrite decode_tagged_ok by (auto; eapply der_fits; exact F). cbn [bind].
    rewrite (decode_alg_ok a v) by auto. cbn [bind].
    change x03 with tag_bit_string. rewrite decode_tagged_ok by (auto; eapply der_fits; exact F2).
    reflexivity.
  Qed.
End WithMax.

(** ** Sizes *)

Lemma octet_size_pos z : 1 <= octet_size z.
Proof.
  unfold octet_size. pose proof (Z.log2_nonneg z). assert (0 <= Z.log2 z / 8) by (apply Z.div_pos; lia). lia.
Qed.

Lemma octet_size_le z L : 0 <= z -> 1 <= L -> (octet_size z <= L <-> z < 256 ^ L).
Proof.
  intros Hz HL. unfold octet_size. destruct (Z.eq_dec z 0) as [->|N].
  - change (Z.log2 0 / 8 + 1) with 1. split; [|lia]. intros _. apply Z.pow_pos_nonneg; lia.
  - rewrite pow256_2 by lia. rewrite Z.log2_lt_pow2 by lia.
    pose proof (Z.div_mod (Z.log2 z) 8 ltac:(lia)). pose proof (Z.mod_pos_bound (Z.log2 z) 8 ltac:(lia)). lia.
Qed.

Lemma min_octets_len z : 0 <= z -> Z.of_nat (length (min_octets z)) = octet_size z.
Proof. intros H. rewrite min_octets_length by auto. fold (octet_size z). pose proof (octet_size_pos z). lia. Qed.

Lemma limb_bits_eq z : limb_bits z = prec_for (8 * octet_size z).
Proof. reflexivity. Qed.

Lemma limb_bits_wf z : 64 <= limb_bits z /\ limb_bits z mod 64 = 0 /\ 8 * octet_size z <= limb_bits z.
Proof. rewrite limb_bits_eq. destruct (prec_for_wf (8 * octet_size z)). pose proof (prec_for_ge (8 * octet_size z)). auto. Qed.

Lemma wf_limbs n z : 0 <= z -> z < 256 ^ octet_size n -> wf_uint (mkU z (limb_bits n)).
Proof.
  intros H0 H. destruct (limb_bits_wf n) as (A & B & C). pose proof (octet_size_pos n).
  split; [|split]; cbn [uval uprec]; auto. split; auto.
  rewrite pow256_2 in H by lia.
  assert (2 ^ (8 * octet_size n) <= 2 ^ limb_bits n) by (apply Z.pow_le_mono_r; lia). lia.
Qed.

Lemma own_size z : 0 <= z -> z < 256 ^ octet_size z.
Proof. intros H. apply octet_size_le; auto. apply octet_size_pos. lia. Qed.

Lemma limb_bits_le u : wf_uint u -> limb_bits (uval u) <= uprec u.
Proof.
  intros ((H0 & H1) & H2 & H3). unfold limb_bits.
  assert (octet_size (uval u) <= uprec u / 8).
  { apply octet_size_le; auto.
    - apply Z.div_le_lower_bound; lia.
    - rewrite pow256_2 by (apply Z.div_pos; lia).
      assert (8 * (uprec u / 8) = uprec u) as ->; auto.
      pose proof (Z.div_mod (uprec u) 64 ltac:(lia)). pose proof (Z.div_mod (uprec u) 8 ltac:(lia)).
      pose proof (Z.mod_pos_bound (uprec u) 8 ltac:(lia)). lia. }
  pose proof (Z.div_mod (uprec u) 64 ltac:(lia)). pose proof (Z.div_mod (uprec u) 8 ltac:(lia)).
  pose proof (Z.mod_pos_bound (uprec u) 8 ltac:(lia)).
  assert ((8 * octet_size (uval u) + 63) / 64 <= uprec u / 64).
  { apply Z.lt_succ_r, Z.div_lt_upper_bound; lia. }
  lia.
Qed.

Lemma stored_limbs n : 0 < n -> n < 2 ^ 64 -> stored_minimally (mkU n (limb_bits n)).
Proof.
  intros H0 H. unfold stored_minimally. cbn [uval uprec].
  assert (limb_bits n = 64) as ->.
  { unfold limb_bits. assert (octet_size n <= 8) by (apply octet_size_le; lia).
    pose proof (octet_size_pos n).
    assert ((8 * octet_size n + 63) / 64 <= 1) by (apply Z.lt_succ_r, Z.div_lt_upper_bound; lia). lia. }
  change (2 ^ (64 - 64)) with 1. lia.
Qed.

Lemma stored_limbs_min n : 0 < n -> stored_minimally (mkU n (limb_bits n)).
Proof.
  intros H0. destruct (Z.lt_ge_cases n (2 ^ 64)) as [L|L]; [apply stored_limbs; auto|].
  unfold stored_minimally. cbn [uval uprec]. unfold limb_bits, octet_size.
  pose proof (Z.log2_spec n H0) as (S1 & _).
  assert (64 <= Z.log2 n) by (apply Z.log2_le_pow2; lia).
  pose proof (Z.div_mod (Z.log2 n) 8 ltac:(lia)). pose proof (Z.mod_pos_bound (Z.log2 n) 8 ltac:(lia)).
  pose proof (Z.div_mod (8 * (Z.log2 n / 8 + 1) + 63) 64 ltac:(lia)).
  pose proof (Z.mod_pos_bound (8 * (Z.log2 n / 8 + 1) + 63) 64 ltac:(lia)).
  eapply Z.le_trans; [|exact S1]. apply Z.pow_le_mono_r; lia.
Qed.

Lemma uint_from_slice_spec z L : 0 <= z -> 1 <= L ->
  uint_from_slice (min_octets z) (8 * L) =
    if z <? 256 ^ L then Ok (mkU z (prec_for (8 * L))) else Err ErrKeyMalformed.
Proof.
  intros Hz HL. unfold uint_from_slice. rewrite from_be_slice_spec by lia.
  rewrite min_octets_value by auto. rewrite min_octets_len by auto.
  pose proof (octet_size_le z L Hz HL) as E. pose proof (octet_size_pos z).
  destruct (Z.eqb_spec (octet_size z) 0); [lia|]. cbn [andb].
  assert ((8 * L + 7) / 8 = L) as -> by (symmetry; apply (Z.div_unique _ _ _ 7); lia).
  rewrite <- pow256_2 by lia.
  destruct (Z.ltb_spec z (256 ^ L)) as [A|A].
  - apply E in A. destruct (Z.ltb_spec L (octet_size z)); [lia|].
    destruct (Z.leb_spec (256 ^ L) z); [lia|reflexivity].
  - destruct (Z.ltb_spec L (octet_size z)); [reflexivity|].
    destruct (Z.leb_spec (256 ^ L) z); [reflexivity|lia].
Qed.

Lemma octets_bits_ok z : 0 <= z -> 8 * octet_size z < 2 ^ 32 ->
  octets_bits (min_octets z) = Ok (8 * octet_size z).
Proof.
  intros Hz H. unfold octets_bits. cbv zeta. rewrite min_octets_len by auto. pose proof (octet_size_pos z).
  unfold guard, assert_. destruct (Z.ltb_spec (octet_size z) (2 ^ 32)); [|lia]. cbn [bind].
  destruct (Z.ltb_spec (8 * octet_size z) (2 ^ 32)); [reflexivity|lia].
Qed.

Lemma octets_bits_panic z : 0 <= z -> octet_size z < 2 ^ 32 -> 2 ^ 32 <= 8 * octet_size z ->
  octets_bits (min_octets z) = Panic.
Proof.
  intros Hz H1 H2. unfold octets_bits. cbv zeta. rewrite min_octets_len by auto.
  unfold guard, assert_. destruct (Z.ltb_spec (octet_size z) (2 ^ 32)); [|lia]. cbn [bind].
  destruct (Z.ltb_spec (8 * octet_size z) (2 ^ 32)); [lia|reflexivity].
Qed.

(** ** Import of private keys *)

Lemma import_unfold n e d p q dp dq qi :
  0 <= n -> 0 <= e -> 0 <= d -> 0 <= p -> 0 <= q ->
  8 * octet_size n < 2 ^ 32 -> 8 * octet_size e < 2 ^ 32 ->
  private_from_pkcs1 (p1_of n e d p q dp dq qi) =
    if Z.odd n && (d <? 256 ^ octet_size n) && (p <? 256 ^ octet_size n) && (q <? 256 ^ octet_size n)
    then map_err (fun _ => ErrKeyMalformed)
           (from_components (mkU n (limb_bits n)) (mkU e (limb_bits e)) (mkU d (limb_bits n))
                            [mkU p (limb_bits n); mkU q (limb_bits n)])
    else Err ErrKeyMalformed.
Proof.
  intros Hn He Hd Hp Hq B1 B2. unfold private_from_pkcs1, p1_of.
  cbn [pp_multi pp_modulus pp_public_exponent pp_private_exponent pp_prime1 pp_prime2].
  pose proof (octet_size_pos n). pose proof (octet_size_pos e).
  rewrite octets_bits_ok by auto. cbn [bind].
  rewrite uint_from_slice_spec by auto. pose proof (own_size n Hn).
  destruct (Z.ltb_spec n (256 ^ octet_size n)); [|lia]. cbn [bind].
  unfold guard, uis_odd. cbn [uval]. destruct (Z.odd n); cbn [bind andb]; [|reflexivity].
  rewrite octets_bits_ok by auto. cbn [bind].
  rewrite uint_from_slice_spec by auto. pose proof (own_size e He).
  destruct (Z.ltb_spec e (256 ^ octet_size e)); [|lia]. cbn [bind].
  rewrite uint_from_slice_spec by auto. destruct (d <? _); cbn [bind andb]; [|reflexivity].
  rewrite uint_from_slice_spec by auto. destruct (p <? _); cbn [bind andb]; [|reflexivity].
  rewrite uint_from_slice_spec by auto. destruct (q <? _); cbn [bind andb]; [|reflexivity].
  reflexivity.
Qed.

(** The stored key the importer builds for these numbers. *)
Definition stored_as (k : privkey) (n e d p q : Z) : Prop :=
  pk_n (sk_pub k) = mkU n (limb_bits n) /\ pk_e (sk_pub k) = mkU e (limb_bits e) /\
  sk_d k = mkU d (limb_bits n) /\ sk_primes k = [mkU p (limb_bits n); mkU q (limb_bits n)].

Lemma import_exact n e d p q dp dq qi :
  0 <= n -> 0 <= e -> 0 <= d -> 0 <= p -> 0 <= q ->
  8 * octet_size n < 2 ^ 32 -> 8 * octet_size e < 2 ^ 32 ->
  let r := private_from_pkcs1 (p1_of n e d p q dp dq qi) in
  (importable n e d p q -> exists k, r = Ok k /\ stored_as k n e d p q /\ validate k = Ok tt /\ sane_priv k /\
     (prime p -> prime q -> p <> q -> p * q = n -> good_priv k) /\
     (sk_pre k <> None <-> Z.gcd p q = 1)) /\
  (~ importable n e d p q -> p <> 1 -> q <> 1 -> r = Err ErrKeyMalformed).
Proof.
  intros Hn He Hd Hp Hq B1 B2. cbv zeta. rewrite import_unfold by auto.
  pose proof (own_size n Hn) as On. pose proof (own_size e He) as Oe.
  set (P := limb_bits n).
  destruct (Z.odd n) eqn:EO; cbn [andb].
  2:{ split; [|reflexivity]. intros ((_ & O & _) & _). congruence. }
  destruct (Z.ltb_spec d (256 ^ octet_size n)) as [D|D]; cbn [andb].
  2:{ split; [|reflexivity]. intros (_ & X & _). lia. }
  destruct (Z.ltb_spec p (256 ^ octet_size n)) as [Dp|Dp]; cbn [andb].
  2:{ split; [|reflexivity]. intros (_ & _ & X & _). lia. }
  destruct (Z.ltb_spec q (256 ^ octet_size n)) as [Dq|Dq]; cbn [andb].
  2:{ split; [|reflexivity]. intros (_ & _ & _ & X & _). lia. }
  assert (Wn : wf_uint (mkU n P)) by (apply wf_limbs; auto).
  assert (We : wf_uint (mkU e (limb_bits e))) by (apply wf_limbs; auto).
  assert (Wd : wf_uint (mkU d P)) by (apply wf_limbs; auto).
  assert (Wp : wf_uint (mkU p P)) by (apply wf_limbs; auto).
  assert (Wq : wf_uint (mkU q P)) by (apply wf_limbs; auto).
  assert (WF : Forall wf_uint [mkU p P; mkU q P]) by (constructor; [auto|constructor; [auto|constructor]]).
  assert (PF : Forall (fun x => uprec x <= uprec (mkU d P)) [mkU p P; mkU q P]).
  { constructor; [|constructor; [|constructor]]; cbn [uprec]; lia. }
  pose proof (c27_exact (mkU n P) (mkU e (limb_bits e)) (mkU d P) [mkU p P; mkU q P]
                Wn We Wd WF EO ltac:(cbn; lia) PF) as EX.
  cbn [uval uprec map] in EX. rewrite !product_cons in EX. cbn [product fold_right] in EX.
  rewrite Z.mul_1_r in EX.
  assert (IM : importable n e d p q <->
    public_usable n e P /\ (p * q) mod 2 ^ P = n /\
    Forall (fun x => 3 <= uval x /\ (e * d) mod (uval x - 1) = 1) [mkU p P; mkU q P]).
  { unfold importable. fold P. rewrite !Forall_cons_iff. cbn [uval]. split.
    - intros (A & _ & _ & _ & B & C1 & C2 & C3 & C4). auto 10.
    - intros (A & B & (C1 & C3) & (C2 & C4) & _). auto 12. }
  rewrite <- IM in EX. split.
  - intros I. apply EX in I. destruct I as (k & E). rewrite E. cbn [map_err]. exists k.
    destruct (c27_result _ _ _ _ k Wn We Wd WF EO ltac:(cbn; lia) E) as (R1 & R2 & R3 & R4 & R5 & R6 & R7 & R8).
    split; [reflexivity|]. split; [repeat split; auto|]. split; [auto|].
    split; [apply R6; cbn [uprec]; lia|]. split.
    + intros Pp Pq NE PQ. apply R7; cbn [uprec map uval]; try lia.
      * constructor; [auto|constructor; [auto|constructor]].
      * constructor; [|constructor; [|constructor]]; cbn [In]; intuition lia.
      * rewrite !product_cons. cbn [product fold_right]. destruct Wn as ((_ & X) & _). cbn [uval uprec] in X. lia.
    + apply (R8 _ _ _ eq_refl).
  - intros NI N1 N2. destruct (c27_no_panic (mkU n P) (mkU e (limb_bits e)) (mkU d P) [mkU p P; mkU q P]
                Wn We Wd WF EO ltac:(cbn; lia)) as [(k & E)|(err & E)].
    + constructor; [|constructor; [|constructor]]; cbn [uval uprec]; lia.
    + exfalso. apply NI, EX. eauto.
    + rewrite E. reflexivity.
Qed.

Lemma import_only n e d p q dp dq qi k :
  0 <= n -> 0 <= e -> 0 <= d -> 0 <= p -> 0 <= q ->
  8 * octet_size n < 2 ^ 32 -> 8 * octet_size e < 2 ^ 32 ->
  private_from_pkcs1 (p1_of n e d p q dp dq qi) = Ok k -> importable n e d p q.
Proof.
  intros Hn He Hd Hp Hq B1 B2. rewrite import_unfold by auto.
  pose proof (own_size n Hn) as On. pose proof (own_size e He) as Oe.
  set (P := limb_bits n).
  destruct (Z.odd n) eqn:EO; cbn [andb]; [|discriminate].
  destruct (Z.ltb_spec d (256 ^ octet_size n)) as [D|D]; cbn [andb]; [|discriminate].
  destruct (Z.ltb_spec p (256 ^ octet_size n)) as [Dp|Dp]; cbn [andb]; [|discriminate].
  destruct (Z.ltb_spec q (256 ^ octet_size n)) as [Dq|Dq]; cbn [andb]; [|discriminate].
  assert (Wn : wf_uint (mkU n P)) by (apply wf_limbs; auto).
  assert (We : wf_uint (mkU e (limb_bits e))) by (apply wf_limbs; auto).
  assert (Wd : wf_uint (mkU d P)) by (apply wf_limbs; auto).
  assert (Wp : wf_uint (mkU p P)) by (apply wf_limbs; auto).
  assert (Wq : wf_uint (mkU q P)) by (apply wf_limbs; auto).
  assert (WF : Forall wf_uint [mkU p P; mkU q P]) by (constructor; [auto|constructor; [auto|constructor]]).
  assert (PF : Forall (fun x => uprec x <= uprec (mkU d P)) [mkU p P; mkU q P]).
  { constructor; [|constructor; [|constructor]]; cbn [uprec]; lia. }
  pose proof (c27_exact (mkU n P) (mkU e (limb_bits e)) (mkU d P) [mkU p P; mkU q P]
                Wn We Wd WF EO ltac:(cbn; lia) PF) as EX.
  cbn [uval uprec map] in EX. rewrite !product_cons in EX. cbn [product fold_right] in EX.
  rewrite Z.mul_1_r in EX. intros H.
  destruct (from_components _ _ _ _) as [k'|?| |] eqn:EF; cbn [map_err] in H; try discriminate.
  destruct (proj1 EX (ex_intro _ k' eq_refl)) as (A & B & C). rewrite !Forall_cons_iff in C. cbn [uval] in C.
  destruct C as ((C1 & C2) & (C3 & C4) & _). unfold importable. fold P. auto 12.
Qed.

Lemma import_prime_one n e d dp dq qi :
  0 <= n -> 0 <= e -> 0 <= d -> d < 256 ^ octet_size n -> public_usable n e (limb_bits n) ->
  8 * octet_size n < 2 ^ 32 -> 8 * octet_size e < 2 ^ 32 ->
  private_from_pkcs1 (p1_of n e d 1 n dp dq qi) = Panic.
Proof.
  intros Hn He Hd D U B1 B2. rewrite import_unfold by (auto; lia).
  pose proof U as (_ & O & _). rewrite O. cbn [andb].
  pose proof (own_size n Hn) as On. pose proof (own_size e He) as Oe.
  destruct (Z.ltb_spec d (256 ^ octet_size n)); [|lia]. cbn [andb].
  destruct (Z.ltb_spec n (256 ^ octet_size n)); [|lia].
  pose proof U as (_ & _ & _ & A & B & _).
  destruct (Z.ltb_spec 1 (256 ^ octet_size n)); [|lia]. cbn [andb].
  rewrite c27_prime_one; try reflexivity; auto; apply wf_limbs; auto; lia.
Qed.
