(** Proofs about src/encoding.rs, second part: documents.  C33, C34, C50, C51. *)
From Coq Require Import ZArith List Bool Lia Znumtheory.
From Coq Require Import Init.Byte.
From Verif Require Import Base Bigint BytesLemmas NumTheory SpecRFC SpecKey SpecDer BigintLemmas
  MHash MPkcs1 MRsa MGenerate MKey MApi MWrap MDer MEncoding KeyDefs PRsa PApi PSign PKey PRecover PPub PDer PEncoding.
Import ListNotations.
Local Open Scope Z_scope.

(** ** Document sizes *)

Lemma der_tlv_bound t c : Z.of_nat (length c) < 2 ^ 32 ->
  Z.of_nat (length (der_tlv t c)) <= Z.of_nat (length c) + 6.
Proof.
  intros H. unfold der_tlv. cbn [length]. rewrite app_length. unfold der_length.
  destruct (Nat.ltb_spec (length c) 128); cbn [length]; [lia|].
  pose proof (min_octets_len (Z.of_nat (length c)) ltac:(lia)) as E.
  assert (octet_size (Z.of_nat (length c)) <= 4).
  { apply octet_size_le; lia. }
  lia.
Qed.

Lemma int_bound z B : 0 <= z -> z < 2 ^ B -> 1 <= B < 2 ^ 32 ->
  Z.of_nat (length (der (AInteger z))) <= B / 8 + 7.
Proof.
  intros Hz HB B32. cbn [der].
  assert (L : Z.of_nat (length (int_octets z)) <= B / 8 + 1).
  { unfold int_octets. rewrite i2osp_be_bytes, be_bytes_length.
    pose proof (Z.log2_nonneg z) as G. assert (0 <= (Z.log2 z + 1) / 8) by (apply Z.div_pos; lia).
    rewrite Z2Nat.id by lia. apply Z.add_le_mono_r. apply Z.div_le_mono; [lia|].
    destruct (Z.eq_dec z 0) as [->|N].
    - change (Z.log2 0) with 0 in *. lia.
    - apply Z.log2_lt_pow2 in HB; lia. }
  assert (B / 8 < 2 ^ 30) by (apply Z.div_lt_upper_bound; lia).
  pose proof (der_tlv_bound x02 (int_octets z)) as X. lia.
Qed.

Lemma seq_bound l B : Z.of_nat (length (concat (map der l))) <= B -> B < 2 ^ 32 ->
  Z.of_nat (length (der (ASequence l))) <= B + 6.
Proof.
  intros H HB. cbn [der]. pose proof (der_tlv_bound x30 (concat (map der l))). lia.
Qed.

Lemma ints_bound B l : 1 <= B < 2 ^ 32 -> Forall (fun z => 0 <= z < 2 ^ B) l ->
  Z.of_nat (length (concat (map der (map AInteger l)))) <= Z.of_nat (length l) * (B / 8 + 7).
Proof.
  intros HB F. induction F as [|z l (H0 & H1) F IH]; [cbn; lia|].
  pose proof (int_bound z B H0 H1 HB) as X.
  change (map AInteger (z :: l)) with (AInteger z :: map AInteger l).
  change (map der (AInteger z :: map AInteger l)) with (der (AInteger z) :: map der (map AInteger l)).
  cbn [concat]. rewrite app_length. rewrite Nat2Z.inj_add.
  change (length (z :: l)) with (S (length l)). rewrite Nat2Z.inj_succ. lia.
Qed.

Lemma private_doc_bound v n e d p q dp dq qi :
  v = rsa_AlgorithmIdentifier \/ v = pss_AlgorithmIdentifier ->
  Forall (fun z => 0 <= z < 2 ^ (2 ^ 20)) [n; e; d; p; q; dp; dq; qi] ->
  Z.of_nat (length (der (PrivateKeyInfo v (der (RSAPrivateKey n e d p q dp dq qi))))) <= 2 ^ 21.
Proof.
  intros Hv F.
  assert (A : Z.of_nat (length (der (RSAPrivateKey n e d p q dp dq qi))) <= 9 * (131072 + 7) + 6).
  { unfold RSAPrivateKey. apply seq_bound; [|lia].
    change [AInteger 0; AInteger n; AInteger e; AInteger d; AInteger p; AInteger q; AInteger dp; AInteger dq; AInteger qi]
      with (map AInteger [0; n; e; d; p; q; dp; dq; qi]).
    eapply Z.le_trans; [apply (ints_bound (2 ^ 20))|change (2 ^ 20 / 8) with 131072; cbn [length]; lia]; [split; [lia|apply Z.pow_lt_mono_r; lia]|].
    constructor; [|exact F]. split; [lia|]. clear.
    apply Z.pow_pos_nonneg; [lia|]. apply Z.pow_nonneg. lia. }
  clear F. set (key := der (RSAPrivateKey _ _ _ _ _ _ _ _)) in *. clearbody key.
  assert (Vb : Z.of_nat (length (der v)) <= 15) by (destruct Hv as [->| ->]; vm_compute; congruence).
  clear Hv. eapply Z.le_trans; [apply (seq_bound _ (3 + 15 + (9 * (131072 + 7) + 12)))|]; try lia.
  cbn [map concat]. rewrite !app_length. cbn [length].
  assert (Z.of_nat (length (der (AInteger 0))) = 3) by reflexivity.
  assert (Z.of_nat (length (der (AOctets key))) <= Z.of_nat (length key) + 6)
    by (cbn [der]; apply der_tlv_bound; lia).
  lia.
Qed.

Lemma public_doc_bound v n e :
  v = rsa_AlgorithmIdentifier \/ v = pss_AlgorithmIdentifier ->
  Forall (fun z => 0 <= z < 2 ^ (2 ^ 20)) [n; e] ->
  Z.of_nat (length (der (SubjectPublicKeyInfo v (der (RSAPublicKey n e))))) <= 2 ^ 21.
Proof.
  intros Hv F.
  assert (A : Z.of_nat (length (der (RSAPublicKey n e))) <= 2 * (131072 + 7) + 6).
  { unfold RSAPublicKey. apply seq_bound; [|lia].
    change [AInteger n; AInteger e] with (map AInteger [n; e]).
    eapply Z.le_trans; [apply (ints_bound (2 ^ 20))|change (2 ^ 20 / 8) with 131072; cbn [length]; lia];
      [split; [lia|apply Z.pow_lt_mono_r; lia]|exact F]. }
  clear F. set (key := der (RSAPublicKey n e)) in *. clearbody key.
  assert (Vb : Z.of_nat (length (der v)) <= 15) by (destruct Hv as [->| ->]; vm_compute; congruence).
  clear Hv. eapply Z.le_trans; [apply (seq_bound _ (15 + (2 * (131072 + 7) + 13)))|]; try lia.
  cbn [map concat]. rewrite !app_length. cbn [length].
  assert (Z.of_nat (length (der (ABits key))) <= Z.of_nat (length (x00 :: key)) + 6)
    by (cbn [der]; apply der_tlv_bound; cbn [length]; lia).
  cbn [length] in *. lia.
Qed.

(** ** Export *)

Lemma inverse_unique a m x y : 0 < m -> 0 <= x < m -> 0 <= y < m ->
  (a * x) mod m = 1 mod m -> (a * y) mod m = 1 mod m -> x = y.
Proof.
  intros Hm Hx Hy Ex Ey.
  rewrite <- (Z.mod_small x m Hx), <- (Z.mod_small y m Hy).
  assert (A : (x * (a * y)) mod m = x mod m).
  { rewrite <- Zmult_mod_idemp_r, Ey, Zmult_mod_idemp_r, Z.mul_1_r. reflexivity. }
  assert (B : (y * (a * x)) mod m = y mod m).
  { rewrite <- Zmult_mod_idemp_r, Ex, Zmult_mod_idemp_r, Z.mul_1_r. reflexivity. }
  rewrite <- A, <- B. f_equal. ring.
Qed.

Lemma crt_exponent_ok d p : wf_uint d -> wf_uint p -> 2 <= uval p -> uprec p <= uprec d ->
  crt_exponent d p = Ok (mkU (uval d mod (uval p - 1)) (uprec d)) /\
  wf_uint (mkU (uval d mod (uval p - 1)) (uprec d)).
Proof.
  intros Wd Wp H2 HP. pose proof Wd as (D1 & D2 & D3). unfold crt_exponent.
  rewrite widen_ok by auto. cbn [bind].
  rewrite usub_big_ok by (cbn [uval u_of_u64]; lia). cbn [bind uval uprec u_of_u64].
  unfold assert_, uis_zero. cbn [uval]. destruct (Z.eqb_spec (uval p - 1) 0); [lia|]. cbn [negb bind].
  rewrite urem_ok by (cbn [uval]; lia). cbn [uval uprec]. rewrite Z.max_l by lia.
  split; [reflexivity|]. split; [|split]; cbn [uval uprec]; auto.
  pose proof (Z.mod_pos_bound (uval d) (uval p - 1) ltac:(lia)).
  assert (uval d mod (uval p - 1) <= uval d) by (apply Z.mod_le; lia). lia.
Qed.

Section WithMax.
  Context (mx : Z).
  Hypothesis Hmx : mx < 2 ^ 32.
  Notation fits v := (Z.of_nat (length (der v)) <= mx).

  Definition private_doc (v : asn1) (n e d p q dp dq qi : Z) : asn1 :=
    PrivateKeyInfo v (der (RSAPrivateKey n e d p q dp dq qi)).
  Definition key_doc (ver : Z) (opt : list byte) (v : asn1) (n e d p q dp dq qi : Z) : asn1 :=
    OneAsymmetricKey ver v (der (RSAPrivateKey n e d p q dp dq qi)) opt.
  Lemma plain_key v key : der (OneAsymmetricKey 0 v key []) = der (PrivateKeyInfo v key).
  Proof. reflexivity. Qed.
  Lemma plain_doc v n e d p q dp dq qi :
    der (key_doc 0 [] v n e d p q dp dq qi) = der (private_doc v n e d p q dp dq qi).
  Proof. apply plain_key. Qed.
  Definition public_doc (v : asn1) (n e : Z) : asn1 :=
    SubjectPublicKeyInfo v (der (RSAPublicKey n e)).

  Lemma fits_key v key : fits (PrivateKeyInfo v key) -> Z.of_nat (length key) <= mx.
  Proof.
    intros F. assert (X : fits (AOctets key)) by (apply (fits_in _ _ _ F); simpl; tauto).
    cbn [der] in X. eapply der_fits. exact X.
  Qed.

  Lemma fits_bits v key : fits (SubjectPublicKeyInfo v key) -> Z.of_nat (length key) <= mx.
  Proof.
    intros F. assert (X : fits (ABits key)) by (apply (fits_in _ _ _ F); simpl; tauto).
    cbn [der] in X. apply der_fits in X. cbn [length] in X. lia.
  Qed.

  Lemma fits_min z : 0 <= z -> fits (AInteger z) -> Z.of_nat (length (min_octets z)) <= mx.
  Proof.
    intros Hz F. cbn [der] in F. apply der_fits in F. pose proof (int_octets_length z Hz). lia.
  Qed.

  Lemma export_ok k p q qi :
    wf_pub (sk_pub k) -> wf_uint (sk_d k) -> sk_primes k = [p; q] -> wf_uint p -> wf_uint q ->
    2 <= uval p -> 2 <= uval q -> uprec p <= uprec (sk_d k) -> uprec q = uprec p ->
    0 <= qi < uval p -> (uval q * qi) mod uval p = 1 ->
    let doc := private_doc rsa_AlgorithmIdentifier (uval (pk_n (sk_pub k))) (uval (pk_e (sk_pub k)))
                 (uval (sk_d k)) (uval p) (uval q) (uval (sk_d k) mod (uval p - 1))
                 (uval (sk_d k) mod (uval q - 1)) qi in
    fits doc -> to_pkcs8_der mx k = Ok (der doc).
  Proof.
    intros (Wn & We & _) Wd EP Wp Wq Hp2 Hq2 PP PQ Hqi Eqi. cbv zeta. intros F.
    destruct (crt_exponent_ok (sk_d k) p Wd Wp Hp2 PP) as (C1 & W1).
    destruct (crt_exponent_ok (sk_d k) q Wd Wq Hq2 ltac:(lia)) as (C2 & W2).
    unfold to_pkcs8_der, private_to_pkcs1. rewrite EP. cbn [length Nat.ltb Nat.leb].
    cbv zeta. cbn [get_idx nth_error bind]. rewrite C1. cbn [bind]. rewrite C2. cbn [bind].
    unfold crt_coefficient. rewrite EP. cbn [get_idx nth_error bind]. unfold uinv_mod.
    destruct (Z.eqb_spec (uprec q) (uprec p)) as [_|]; [|lia].
    assert (G : zinv (uval q) (uval p) = Some qi).
    { destruct (zinv (uval q) (uval p)) as [x|] eqn:E.
      - apply zinv_some in E. destruct E as (A & B & C). f_equal.
        eapply inverse_unique; [exact A|exact B|exact Hqi|exact C|].
        rewrite Eqi. symmetry. apply Z.mod_small. lia.
      - exfalso. apply zinv_none in E; [|lia]. apply E. clear -Eqi Hp2.
        apply Zgcd_1_rel_prime. apply bezout_rel_prime.
        apply (Bezout_intro (uval q) (uval p) 1 qi (- ((uval q * qi) / uval p))).
        pose proof (Z.div_mod (uval q * qi) (uval p) ltac:(lia)). nia. }
    rewrite G. cbn [bind].
    assert (Wqi : wf_uint (mkU qi (uprec p))).
    { destruct Wp as (R & R2 & R3). split; [|auto]. cbn [uval uprec]. lia. }
    set (n := pk_n (sk_pub k)) in *. set (e := pk_e (sk_pub k)) in *. set (d := sk_d k) in *.
    remember (mkU (uval d mod (uval p - 1)) (uprec d)) as dp eqn:Edp.
    remember (mkU (uval d mod (uval q - 1)) (uprec d)) as dq eqn:Edq.
    remember (mkU qi (uprec p)) as cq eqn:Ecq.
    assert (V1 : uval d mod (uval p - 1) = uval dp) by (rewrite Edp; reflexivity).
    assert (V2 : uval d mod (uval q - 1) = uval dq) by (rewrite Edq; reflexivity).
    assert (V3 : qi = uval cq) by (rewrite Ecq; reflexivity).
    unfold private_doc in *. rewrite V1, V2, V3 in F |- *.
    clear V1 V2 V3 Edp Edq Ecq C1 C2 G Eqi. clearbody n e d.
    pose proof (fits_key _ _ F) as FK.
    assert (X : forall u, wf_uint u -> In (AInteger (uval u))
       [AInteger 0; AInteger (uval n); AInteger (uval e); AInteger (uval d); AInteger (uval p); AInteger (uval q);
        AInteger (uval dp); AInteger (uval dq); AInteger (uval cq)] ->
       uint_ref_new mx (to_be_bytes u) = Ok (min_octets (uval u))).
    { intros u Wu I. apply uint_ref_new_ok; auto. apply fits_min; [apply Wu|].
      apply (fits_in _ _ _ FK I). }
    do 8 (rewrite X by (auto; simpl; tauto); cbn [bind]). clear X.
    change (mkP1Priv _ _ _ _ _ _ _ _ _) with
      (p1_of (uval n) (uval e) (uval d) (uval p) (uval q) (uval dp) (uval dq) (uval cq)).
    rewrite encode_private_ok; auto; try (first [apply Wn|apply We|apply Wd|apply Wp|apply Wq|apply W1|apply W2|apply Wqi]).
    cbn [bind]. unfold guard. destruct (Z.leb_spec (Z.of_nat (length (der (RSAPrivateKey (uval n) (uval e) (uval d) (uval p) (uval q) (uval dp) (uval dq) (uval cq))))) mx); [|lia].
    cbn [bind]. apply encode_info_ok; auto.
  Qed.

  Lemma export_public_ok k : wf_pub k ->
    let doc := public_doc rsa_AlgorithmIdentifier (uval (pk_n k)) (uval (pk_e k)) in
    fits doc -> to_public_key_der mx k = Ok (der doc).
  Proof.
    intros (Wn & We & _). cbv zeta. intros F. unfold to_public_key_der, public_doc in *.
    pose proof (fits_bits _ _ F) as FK.
    rewrite uint_ref_new_ok; auto.
    2:{ apply fits_min; [apply Wn|]. apply (fits_in _ _ _ FK). simpl; tauto. }
    cbn [bind]. rewrite uint_ref_new_ok; auto.
    2:{ apply fits_min; [apply We|]. apply (fits_in _ _ _ FK). simpl; tauto. }
    cbn [bind]. rewrite encode_public_ok; auto; [|apply Wn|apply We].
    cbn [bind]. unfold guard. destruct (Z.leb_spec (Z.of_nat (length (der (RSAPublicKey (uval (pk_n k)) (uval (pk_e k)))))) mx); [|lia].
    cbn [bind]. apply encode_spki_ok; auto.
  Qed.

  (** ** Import of documents *)

  Definition accepted_alg (v : asn1) : Prop := v = rsa_AlgorithmIdentifier \/ v = pss_AlgorithmIdentifier.

  Lemma accepted_pair v : accepted_alg v -> exists a, alg_pair a v /\ verify_algorithm_id a = Ok tt.
  Proof.
    intros [->| ->].
    - exists rsa_algorithm_id. split; [left; auto|]. apply c34_exact. left. auto.
    - exists (mkAlg id_RSASSA_PSS None). split; [right; auto|]. apply c34_exact. right. auto.
  Qed.

  Lemma fits_key_doc ver v key opt : fits (OneAsymmetricKey ver v key opt) -> Z.of_nat (length key) <= mx.
  Proof.
    intros F. assert (X : fits (AOctets key)) by (apply (fits_in _ _ _ F); simpl; tauto).
    cbn [der] in X. eapply der_fits. exact X.
  Qed.

  Lemma import_key_doc tl ver opt v n e d p q dp dq qi : accepted_alg v ->
    ver = 0 \/ ver = 1 -> tl ver opt = true ->
    0 <= n -> 0 <= e -> 0 <= d -> 0 <= p -> 0 <= q -> 0 <= dp -> 0 <= dq -> 0 <= qi ->
    fits (key_doc ver opt v n e d p q dp dq qi) ->
    from_pkcs8_der mx tl (der (key_doc ver opt v n e d p q dp dq qi)) =
    private_from_pkcs1 (p1_of n e d p q dp dq qi).
  Proof.
    intros Hv Hver T Hn He Hd Hp Hq Hdp Hdq Hqi F. destruct (accepted_pair v Hv) as (a & A & V).
    unfold from_pkcs8_der, key_doc in *. rewrite (decode_info_ok mx Hmx tl ver a v) by auto. cbn [bind].
    unfold private_try_from. cbn [ki_alg ki_key]. rewrite V. cbn [bind].
    rewrite decode_private_ok by (auto; eapply fits_key_doc; exact F). reflexivity.
  Qed.

  Lemma import_doc tl v n e d p q dp dq qi : accepted_alg v -> tl 0 [] = true ->
    0 <= n -> 0 <= e -> 0 <= d -> 0 <= p -> 0 <= q -> 0 <= dp -> 0 <= dq -> 0 <= qi ->
    fits (private_doc v n e d p q dp dq qi) ->
    from_pkcs8_der mx tl (der (private_doc v n e d p q dp dq qi)) =
    private_from_pkcs1 (p1_of n e d p q dp dq qi).
  Proof. rewrite <- plain_doc. intros. apply import_key_doc; auto. Qed.

  Lemma int_fits_size z : 0 <= z -> fits (AInteger z) -> octet_size z <= mx.
  Proof. intros Hz F. rewrite <- min_octets_len by auto. apply fits_min; auto. Qed.

  (** Public keys *)
  Lemma import_public_unfold n e : 0 <= n -> 0 <= e ->
    8 * octet_size n < 2 ^ 32 -> 8 * octet_size e < 2 ^ 32 ->
    (public_usable n e (limb_bits n) ->
     let N := mkU n (limb_bits n) in
     public_from_pkcs1 (mkP1Pub (min_octets n) (min_octets e)) = Ok (mkPub N (mkU e (limb_bits e)) (mkMP N)) /\
     wf_pub (mkPub N (mkU e (limb_bits e)) (mkMP N))) /\
    (~ public_usable n e (limb_bits n) ->
     public_from_pkcs1 (mkP1Pub (min_octets n) (min_octets e)) = Err ErrKeyMalformed).
  Proof.
    intros Hn He B1 B2. unfold public_from_pkcs1. cbn [p1_modulus p1_public_exponent].
    pose proof (octet_size_pos n). pose proof (octet_size_pos e).
    rewrite !octets_bits_ok by auto. cbn [bind]. rewrite !uint_from_slice_spec by auto.
    pose proof (own_size n Hn). destruct (Z.ltb_spec n (256 ^ octet_size n)); [|lia]. cbn [bind].
    pose proof (own_size e He). destruct (Z.ltb_spec e (256 ^ octet_size e)); [|lia]. cbn [bind].
    rewrite <- !limb_bits_eq.
    assert (Wn : wf_uint (mkU n (limb_bits n))) by (apply wf_limbs; auto).
    assert (We : wf_uint (mkU e (limb_bits e))) by (apply wf_limbs; auto).
    destruct (c25_exact (mkU n (limb_bits n)) (mkU e (limb_bits e)) MAX_SIZE Wn We) as (A & B).
    cbn [uval uprec] in A, B. unfold public_new. split.
    - intros U. cbv zeta. destruct (A U) as (-> & W). auto.
    - intros U. rewrite (B U). reflexivity.
  Qed.

  Lemma import_public_doc v n e : accepted_alg v -> 0 <= n -> 0 <= e ->
    fits (public_doc v n e) ->
    from_public_key_der mx (der (public_doc v n e)) =
    public_from_pkcs1 (mkP1Pub (min_octets n) (min_octets e)).
  Proof.
    intros Hv Hn He F. destruct (accepted_pair v Hv) as (a & A & V).
    unfold from_public_key_der, public_doc in *. rewrite (decode_spki_ok mx Hmx a v) by auto. cbn [bind].
    unfold public_try_from. cbn [si_alg si_key si_unused]. rewrite V. cbn [bind Z.eqb guard].
    unfold guard. cbn [bind].
    rewrite decode_public_ok by (auto; eapply fits_bits; exact F). reflexivity.
  Qed.
End WithMax.

(** ** Round trips *)

Lemma mod_pow_le x a b : 0 <= b <= a -> (x mod 2 ^ a) mod 2 ^ b = x mod 2 ^ b.
Proof.
  intros H. symmetry. apply Zmod_div_mod; [apply Z.pow_pos_nonneg; lia|apply Z.pow_pos_nonneg; lia|].
  exists (2 ^ (a - b)). rewrite <- Z.pow_add_r by lia. f_equal. lia.
Qed.

Lemma exported_importable k p q :
  wf_pub (sk_pub k) -> wf_uint (sk_d k) -> sk_primes k = [p; q] -> wf_uint p -> wf_uint q ->
  validate k = Ok tt ->
  let n := uval (pk_n (sk_pub k)) in
  (importable n (uval (pk_e (sk_pub k))) (uval (sk_d k)) (uval p) (uval q) <->
   uval (sk_d k) < 256 ^ octet_size n /\ uval p < 256 ^ octet_size n /\ uval q < 256 ^ octet_size n).
Proof.
  intros Wpub Wd EP Wp Wq V. cbv zeta.
  apply validate_exact in V; auto.
  2:{ rewrite EP. constructor; [auto|constructor; [auto|constructor]]. }
  cbv zeta in V. destruct V as (U & PR & FA). rewrite EP in *. cbn [map] in PR.
  rewrite !product_cons in PR. cbn [product fold_right] in PR. rewrite Z.mul_1_r in PR.
  rewrite !Forall_cons_iff in FA. destruct FA as ((P3 & _ & PE) & (Q3 & _ & QE) & _).
  pose proof Wpub as (Wn & _). pose proof (limb_bits_le _ Wn) as LB. destruct (limb_bits_wf (uval (pk_n (sk_pub k)))) as (L1 & L2 & L3).
  split; [intros (_ & A & B & C & _); auto|]. intros (A & B & C). unfold importable.
  split; [|split; [auto|split; [auto|split; [auto|split; [|auto]]]]].
  - destruct U as (U1 & U2). split; [lia|exact U2].
  - pose proof (wf_limbs (uval (pk_n (sk_pub k))) (uval (pk_n (sk_pub k)))) as W.
    destruct W as ((_ & W) & _); [apply Wn|apply own_size; apply Wn|]. cbn [uval uprec] in W.
    rewrite <- (mod_pow_le _ (uprec (pk_n (sk_pub k)))) by lia. rewrite PR. apply Z.mod_small. split; [apply Wn|exact W].
Qed.

Lemma octet_size_4096 u : wf_uint u -> uprec u <= 4096 -> 8 * octet_size (uval u) < 2 ^ 32.
Proof.
  intros W H. pose proof (limb_bits_le u W). destruct (limb_bits_wf (uval u)) as (_ & _ & L). lia.
Qed.

Lemma octet_size_u64 e : 0 <= e <= 2 ^ 33 - 1 -> 8 * octet_size e < 2 ^ 32.
Proof.
  intros H. assert (octet_size e <= 5) by (apply octet_size_le; lia). lia.
Qed.

Lemma below_2_20 v P : 0 <= v < 2 ^ P -> P <= 2 ^ 20 -> 0 <= v < 2 ^ (2 ^ 20).
Proof.
  intros (H0 & H1) HP. split; [auto|]. eapply Z.lt_le_trans; [exact H1|].
  apply Z.pow_le_mono_r; [lia|exact HP].
Qed.

Lemma forall8 M n e d p q dp dq qi : 0 <= d < M -> 0 <= p < M -> 0 <= q < M -> 0 <= n < M ->
  0 <= dp <= d -> 0 <= dq <= d -> 0 <= qi <= p -> 0 <= e <= n ->
  Forall (fun z => 0 <= z < M) [n; e; d; p; q; dp; dq; qi].
Proof. intros. repeat (apply Forall_cons; [lia|]). apply Forall_nil. Qed.

Lemma export_round_trip mx tl k p q : tl 0 [] = true ->
  2 ^ 21 <= mx < 2 ^ 32 -> wf_pub (sk_pub k) -> wf_uint (sk_d k) -> uprec (sk_d k) <= 2 ^ 20 ->
  sk_primes k = [p; q] -> wf_uint p -> wf_uint q ->
  validate k = Ok tt -> uprec p <= uprec (sk_d k) -> uprec q = uprec p ->
  Z.gcd (uval p) (uval q) = 1 ->
  let n := uval (pk_n (sk_pub k)) in let e := uval (pk_e (sk_pub k)) in let d := uval (sk_d k) in
  exists qi, 0 <= qi < uval p /\ (uval q * qi) mod uval p = 1 /\
  let doc := der (private_doc rsa_AlgorithmIdentifier n e d (uval p) (uval q)
                   (d mod (uval p - 1)) (d mod (uval q - 1)) qi) in
  to_pkcs8_der mx k = Ok doc /\
  (d < 256 ^ octet_size n /\ uval p < 256 ^ octet_size n /\ uval q < 256 ^ octet_size n ->
   exists k', from_pkcs8_der mx tl doc = Ok k' /\ priv_eqb k' k = true /\ priv_eqb k k' = true /\
     validate k' = Ok tt /\ sane_priv k' /\ stored_minimally (pk_n (sk_pub k')) /\ sk_pre k' <> None) /\
  (~ (d < 256 ^ octet_size n /\ uval p < 256 ^ octet_size n /\ uval q < 256 ^ octet_size n) ->
   from_pkcs8_der mx tl doc = Err ErrKeyMalformed).
Proof.
  intros T HM Wpub Wd Dp EP Wp Wq V PP PQ G. cbv zeta.
  pose proof V as V0. apply validate_exact in V0; auto.
  2:{ rewrite EP. constructor; [auto|constructor; [auto|constructor]]. }
  cbv zeta in V0. destruct V0 as (U & _ & FA). rewrite EP in FA.
  rewrite !Forall_cons_iff in FA. destruct FA as ((P3 & _ & PE) & (Q3 & _ & QE) & _).
  pose proof (exported_importable k p q Wpub Wd EP Wp Wq V) as IM. cbv zeta in IM.
  pose proof Wpub as (Wn & We & _).
  pose proof U as (U1 & _ & _ & E2 & EN & E33). 
  destruct (zinv_exists (uval q) (uval p)) as (qi & Z); [clear - P3; lia|rewrite Z.gcd_comm; exact G|].
  apply zinv_some in Z. destruct Z as (_ & Rqi & Eqi). rewrite (Z.mod_small 1) in Eqi by (clear - P3; lia).
  exists qi. split; [exact Rqi|]. split; [exact Eqi|].
  set (n := uval (pk_n (sk_pub k))) in *. set (e := uval (pk_e (sk_pub k))) in *. set (d := uval (sk_d k)) in *.
  assert (R1 : 0 <= d mod (uval p - 1) <= d).
  { pose proof (Z.mod_pos_bound d (uval p - 1) ltac:(clear - P3; lia)) as X. split; [apply X|]. apply Z.mod_le; [apply Wd|clear - P3; lia]. }
  assert (R2 : 0 <= d mod (uval q - 1) <= d).
  { pose proof (Z.mod_pos_bound d (uval q - 1) ltac:(clear - Q3; lia)) as X. split; [apply X|]. apply Z.mod_le; [apply Wd|clear - Q3; lia]. }
  pose proof Wd as (D0 & _). pose proof Wp as (P0 & _). pose proof Wq as (Q0 & _). pose proof Wn as (N0 & _).
  assert (Fit : Z.of_nat (length (der (private_doc rsa_AlgorithmIdentifier n e d (uval p) (uval q)
                   (d mod (uval p - 1)) (d mod (uval q - 1)) qi))) <= mx).
  { eapply Z.le_trans; [apply private_doc_bound; [left; reflexivity|]|apply HM].
    assert (X2 : uprec p <= 2 ^ 20) by (clear - PP Dp; lia).
    assert (X3 : uprec q <= 2 ^ 20) by (clear - PP PQ Dp; lia).
    assert (X4 : uprec (pk_n (sk_pub k)) <= 2 ^ 20) by (clear - U1; lia).
    assert (X5 : 0 <= e <= n) by (clear - E2 EN; lia). assert (X6 : 0 <= qi <= uval p) by (clear - Rqi; lia).
    pose proof (below_2_20 _ _ D0 Dp) as A. pose proof (below_2_20 _ _ P0 X2) as B.
    pose proof (below_2_20 _ _ Q0 X3) as C. pose proof (below_2_20 _ _ N0 X4) as D.
    exact (forall8 _ n e d (uval p) (uval q) _ _ qi A B C D R1 R2 X6 X5). }
  assert (M32 : mx < 2 ^ 32) by (clear - HM; lia).
  assert (P2 : 2 <= uval p) by (clear - P3; lia). assert (Q2 : 2 <= uval q) by (clear - Q3; lia).
  split; [apply export_ok; auto|].
  assert (Gn : 0 <= n) by apply N0. assert (Gd : 0 <= d) by apply D0.
  assert (Gp : 0 <= uval p) by apply P0. assert (Gq : 0 <= uval q) by apply Q0.
  assert (Ge : 0 <= e) by (clear - E2; lia).
  rewrite import_doc; auto; [|left; reflexivity|apply R1|apply R2|apply Rqi].
  destruct (import_exact n e d (uval p) (uval q) (d mod (uval p - 1)) (d mod (uval q - 1)) qi) as (A & B); auto.
  { apply octet_size_4096; auto. } { apply octet_size_u64. clear - E33 Ge; lia. }
  split.
  - intros I. apply IM in I. destruct (A I) as (k' & E & (S1 & S2 & S3 & S4) & Va & Sa & _ & Pre).
    exists k'. split; [exact E|].
    split; [apply priv_eqb_spec; rewrite S1, S2, S3, S4, EP; auto|].
    split; [apply priv_eqb_spec; rewrite S1, S2, S3, S4, EP; auto|].
    split; [exact Va|]. split; [exact Sa|]. split; [rewrite S1; apply stored_limbs_min; clear - E2 EN; lia|].
    apply Pre. exact G.
  - intros NI. apply B; [|clear - P3; lia|clear - Q3; lia]. intros I. apply NI, IM, I.
Qed.

Lemma export_multi_prime mx k : (2 < length (sk_primes k))%nat -> to_pkcs8_der mx k = Err ErrPkcs1Version.
Proof.
  intros H. unfold to_pkcs8_der, private_to_pkcs1.
  destruct (Nat.ltb_spec 2 (length (sk_primes k))); [reflexivity|lia].
Qed.

Lemma export_not_coprime mx k p q :
  wf_pub (sk_pub k) -> wf_uint (sk_d k) -> sk_primes k = [p; q] -> wf_uint p -> wf_uint q ->
  2 <= uval p -> 2 <= uval q -> uprec p <= uprec (sk_d k) -> uprec q = uprec p ->
  Z.gcd (uval p) (uval q) <> 1 -> to_pkcs8_der mx k = Err ErrPkcs1Crypto.
Proof.
  intros Wpub Wd EP Wp Wq P2 Q2 PP PQ G.
  destruct (crt_exponent_ok (sk_d k) p Wd Wp P2 PP) as (C1 & _).
  destruct (crt_exponent_ok (sk_d k) q Wd Wq Q2 ltac:(lia)) as (C2 & _).
  unfold to_pkcs8_der, private_to_pkcs1. rewrite EP. cbn [length Nat.ltb Nat.leb].
  cbv zeta. cbn [get_idx nth_error bind]. rewrite C1. cbn [bind]. rewrite C2. cbn [bind].
  unfold crt_coefficient. rewrite EP. cbn [get_idx nth_error bind]. unfold uinv_mod.
  destruct (Z.eqb_spec (uprec q) (uprec p)) as [_|]; [|lia].
  rewrite (proj2 (zinv_none (uval q) (uval p) ltac:(lia))) by (rewrite Z.gcd_comm; exact G). reflexivity.
Qed.

Lemma public_round_trip mx k : 2 ^ 21 <= mx < 2 ^ 32 -> wf_pub k ->
  uprec (pk_n k) <= 2 ^ 20 -> uprec (pk_e k) <= 2 ^ 20 ->
  let n := uval (pk_n k) in let e := uval (pk_e k) in
  let doc := der (public_doc rsa_AlgorithmIdentifier n e) in
  to_public_key_der mx k = Ok doc /\
  (public_usable n e (limb_bits n) ->
   exists k', from_public_key_der mx doc = Ok k' /\ pub_eqb k' k = true /\ wf_pub k' /\
              stored_minimally (pk_n k')) /\
  (~ public_usable n e (limb_bits n) -> from_public_key_der mx doc = Err ErrKeyMalformed).
Proof.
  intros HM Wk Bn Be. cbv zeta. pose proof Wk as (Wn & We & _ & O).
  pose proof Wn as (N0 & _). pose proof We as (E0 & _).
  assert (Fit : Z.of_nat (length (der (public_doc rsa_AlgorithmIdentifier (uval (pk_n k)) (uval (pk_e k))))) <= mx).
  { eapply Z.le_trans; [apply public_doc_bound; [left; reflexivity|]|lia].
    pose proof (below_2_20 _ _ N0 Bn) as A. pose proof (below_2_20 _ _ E0 Be) as B.
    apply Forall_cons; [exact A|]. apply Forall_cons; [exact B|]. apply Forall_nil. }
  split; [apply export_public_ok; auto; lia|].
  rewrite import_public_doc; auto; try lia; [|left; reflexivity].
  assert (S1 : 8 * octet_size (uval (pk_n k)) < 2 ^ 32).
  { pose proof (limb_bits_le _ Wn). destruct (limb_bits_wf (uval (pk_n k))) as (_ & _ & L). lia. }
  assert (S2 : 8 * octet_size (uval (pk_e k)) < 2 ^ 32).
  { pose proof (limb_bits_le _ We). destruct (limb_bits_wf (uval (pk_e k))) as (_ & _ & L). lia. }
  destruct (import_public_unfold (uval (pk_n k)) (uval (pk_e k))) as (A & B); try lia.
  split; [|exact B]. intros U. destruct (A U) as (E & W). cbv zeta in E. rewrite E.
  eexists. split; [reflexivity|]. split; [apply pub_eqb_spec; cbn [pk_n pk_e uval]; auto|].
  split; [exact W|]. cbn [pk_n]. apply stored_limbs_min. destruct U as (_ & _ & _ & U1 & U2 & _). lia.
Qed.


(** ** Only canonical DER is accepted *)

Lemma bind_ok {A B} (m : outcome A) (f : A -> outcome B) b : bind m f = Ok b -> exists a, m = Ok a /\ f a = Ok b.
Proof. destruct m; cbn [bind]; intros H; try discriminate. eauto. Qed.

Lemma guard_ok b e u : guard b e = Ok u -> b = true.
Proof. unfold guard. destruct b; [auto|discriminate]. Qed.

Lemma byte_eqb_eq a b : byte_eqb a b = true -> a = b.
Proof. unfold byte_eqb. rewrite Z.eqb_eq. apply b2z_inj. Qed.

Lemma finish_ok l u : finish l = Ok u -> l = [].
Proof. destruct l; [auto|discriminate]. Qed.

Section Inversion.
  Context (mx : Z).
  Hypothesis Hmx : mx < 2 ^ 32.

  Lemma long_length_inv b k l n rest : b2z b = 128 + Z.of_nat k -> (1 <= k <= 4)%nat ->
    long_length mx k l = Ok (n, rest) ->
    0 <= n /\ b :: l = der_length (Z.to_nat n) ++ rest.
  Proof.
    intros Hb Hk. unfold long_length. destruct (Nat.ltb_spec (length l) k) as [|L]; [discriminate|].
    cbv zeta. intros H. apply bind_ok in H. destruct H as ([] & H1 & H). apply guard_ok in H1.
    apply bind_ok in H. destruct H as ([] & H2 & H). apply guard_ok in H2.
    injection H as <- <-. rewrite be_value_os2ip in *.
    set (v := os2ip (firstn k l)) in *. pose proof (os2ip_range (firstn k l)) as R. fold v in R.
    split; [apply R|]. apply andb_true_iff in H2. destruct H2 as (H2 & H3).
    apply Z.eqb_eq in H2. apply Z.leb_le in H1.
    assert (V : Z.of_nat (Z.to_nat v) = v) by lia.
    pose proof (length_octets_spec (Z.to_nat v) ltac:(lia)) as E. rewrite V in E. rewrite <- E.
    rewrite length_octets_be in H2 |- * by lia.
    destruct (Z.ltb_spec v 128) as [|G]; [discriminate|]. cbv zeta in *. cbn [length] in H2.
    rewrite be_bytes_length in H2.
    set (kk := if v <? 256 then 1%nat else _) in *. assert (kk = k) as -> by lia.
    cbn [app]. f_equal.
    - apply b2z_inj. rewrite Hb. rewrite b2z_z2b. symmetry. apply Z.mod_small. lia.
    - assert (Lf : length (firstn k l) = k) by (rewrite firstn_length; lia).
      pose proof (be_bytes_os2ip (firstn k l)) as B. rewrite Lf in B. fold v in B. rewrite B.
      symmetry. apply firstn_skipn.
  Qed.

  Lemma decode_length_inv l n rest : decode_length mx l = Ok (n, rest) ->
    0 <= n /\ l = der_length (Z.to_nat n) ++ rest.
  Proof.
    destruct l as [|b l]; cbn [decode_length]; [discriminate|]. cbv zeta. pose proof (b2z_range b) as R.
    destruct (Z.ltb_spec (b2z b) 128) as [G|G].
    - intros H. apply bind_ok in H. destruct H as ([] & _ & H). injection H as <- <-. split; [lia|].
      unfold der_length. destruct (Nat.ltb_spec (Z.to_nat (b2z b)) 128); [|lia].
      rewrite Z2Nat.id by lia. cbn [app]. f_equal. apply b2z_inj. change (octet (b2z b)) with (z2b (b2z b)).
      rewrite b2z_z2b. symmetry. apply Z.mod_small. lia.
    - destruct (Z.eqb_spec (b2z b) 129); [apply long_length_inv; lia|].
      destruct (Z.eqb_spec (b2z b) 130); [apply long_length_inv; lia|].
      destruct (Z.eqb_spec (b2z b) 131); [apply long_length_inv; lia|].
      destruct (Z.eqb_spec (b2z b) 132); [apply long_length_inv; lia|]. discriminate.
  Qed.

  Lemma decode_tlv_inv l t c rest : decode_tlv mx l = Ok (t, c, rest) -> l = der_tlv t c ++ rest.
  Proof.
    destruct l as [|b l]; cbn [decode_tlv]; [discriminate|]. intros H.
    apply bind_ok in H. destruct H as ((n & r) & H1 & H). apply decode_length_inv in H1. destruct H1 as (N & ->).
    destruct (Z.ltb_spec (Z.of_nat (length r)) n) as [|G]; [discriminate|].
    injection H as <- <- <-. unfold der_tlv. cbn [app]. f_equal. rewrite firstn_length, Nat.min_l by lia.
    rewrite <- app_assoc. rewrite firstn_skipn. reflexivity.
  Qed.

  Lemma decode_tagged_inv t l c rest : decode_tagged mx t l = Ok (c, rest) -> l = der_tlv t c ++ rest.
  Proof.
    unfold decode_tagged. intros H. apply bind_ok in H. destruct H as (((t' & c') & r) & H1 & H).
    apply decode_tlv_inv in H1. destruct (byte_eqb t' t) eqn:E; [|discriminate].
    apply byte_eqb_eq in E. injection H as <- <-. subst t'. exact H1.
  Qed.

  Lemma uint_value_inv c l : uint_value c = Ok l -> canonical l /\ c = uint_content l.
  Proof.
    destruct c as [|b [|c r]]; cbn [uint_value]; [discriminate| |].
    - destruct (Z.ltb_spec (b2z b) 128) as [G|]; [|discriminate]. intros H. injection H as <-.
      split; [exact I|]. cbn [uint_content]. destruct (Z.ltb_spec (b2z b) 128); [reflexivity|lia].
    - destruct (byte_eqb b x00) eqn:E.
      + apply byte_eqb_eq in E. subst b. destruct (Z.ltb_spec (b2z c) 128) as [|G]; [discriminate|].
        intros H. injection H as <-. split.
        * destruct r as [|d r]; cbn [canonical]; [exact I|lia].
        * cbn [uint_content]. destruct (Z.ltb_spec (b2z c) 128); [lia|reflexivity].
      + destruct (Z.ltb_spec (b2z b) 128) as [G|]; [|discriminate]. intros H. injection H as <-. split.
        * cbn [canonical]. intros Z0. assert (b = x00) by (apply b2z_inj; rewrite Z0; reflexivity).
          subst b. vm_compute in E. discriminate.
        * cbn [uint_content]. destruct (Z.ltb_spec (b2z b) 128); [reflexivity|lia].
  Qed.

  Lemma decode_uint_inv l v rest : decode_uint mx l = Ok (v, rest) ->
    exists z, 0 <= z /\ v = min_octets z /\ l = der (AInteger z) ++ rest.
  Proof.
    unfold decode_uint. intros H. apply bind_ok in H. destruct H as ((c & r) & H1 & H).
    apply bind_ok in H. destruct H as (v' & H2 & H). injection H as <- <-.
    apply decode_tagged_inv in H1. apply uint_value_inv in H2. destruct H2 as (C & ->).
    exists (os2ip v'). pose proof (os2ip_range v') as R. split; [apply R|].
    pose proof (canonical_min _ C) as M. split; [exact M|].
    cbn [der]. rewrite <- uint_content_spec by apply R. rewrite <- M. exact H1.
  Qed.

  Lemma decode_public_inv l k : decode_p1_public mx l = Ok k ->
    exists n e, 0 <= n /\ 0 <= e /\ l = der (RSAPublicKey n e) /\ k = mkP1Pub (min_octets n) (min_octets e).
  Proof.
    unfold decode_p1_public. intros H. apply bind_ok in H. destruct H as ((b & r) & H1 & H).
    apply bind_ok in H. destruct H as ((vn & b1) & H2 & H).
    apply bind_ok in H. destruct H as ((ve & b2) & H3 & H).
    apply bind_ok in H. destruct H as ([] & F1 & H). apply bind_ok in H. destruct H as ([] & F2 & H).
    apply finish_ok in F1. apply finish_ok in F2. subst b2 r. injection H as <-.
    apply decode_tagged_inv in H1. apply decode_uint_inv in H2. apply decode_uint_inv in H3.
    destruct H2 as (n & Hn & -> & ->). destruct H3 as (e & He & -> & ->).
    exists n, e. split; [auto|]. split; [auto|]. split; [|reflexivity].
    rewrite app_nil_r in H1. exact H1.
  Qed.

  Lemma decode_private_inv l k : decode_p1_private mx l = Ok k -> pp_multi k = false ->
    exists n e d p q dp dq qi,
      0 <= n /\ 0 <= e /\ 0 <= d /\ 0 <= p /\ 0 <= q /\ 0 <= dp /\ 0 <= dq /\ 0 <= qi /\
      l = der (RSAPrivateKey n e d p q dp dq qi) /\ k = p1_of n e d p q dp dq qi.
  Proof.
    unfold decode_p1_private. intros H. apply bind_ok in H. destruct H as ((b & r) & H0 & H).
    apply bind_ok in H. destruct H as ((vv & bv) & Hv & H).
    apply bind_ok in H. destruct H as ((vn & b1) & H1 & H).
    apply bind_ok in H. destruct H as ((ve & b2) & H2 & H).
    apply bind_ok in H. destruct H as ((vd & b3) & H3 & H).
    apply bind_ok in H. destruct H as ((vp & b4) & H4 & H).
    apply bind_ok in H. destruct H as ((vq & b5) & H5 & H).
    apply bind_ok in H. destruct H as ((vdp & b6) & H6 & H).
    apply bind_ok in H. destruct H as ((vdq & b7) & H7 & H).
    apply bind_ok in H. destruct H as ((vqi & b8) & H8 & H).
    apply bind_ok in H. destruct H as (multi & HM & H).
    apply bind_ok in H. destruct H as ([] & F2 & H). injection H as <-. cbn [pp_multi].
    intros ->. apply finish_ok in F2. subst r.
    assert (V : vv = [x00] /\ b8 = []).
    { destruct vv as [|x [|y vv]]; try discriminate. destruct (byte_eqb x x00) eqn:E.
      - apply byte_eqb_eq in E. subst x. apply bind_ok in HM. destruct HM as ([] & F & _).
        apply finish_ok in F. auto.
      - destruct (byte_eqb x x01); discriminate. }
    destruct V as (-> & ->).
    apply decode_tagged_inv in H0. apply decode_uint_inv in Hv, H1, H2, H3, H4, H5, H6, H7, H8.
    destruct H1 as (n & Hn & -> & ->). destruct H2 as (e & He & -> & ->). destruct H3 as (d & Hd & -> & ->).
    destruct H4 as (p & Hp & -> & ->). destruct H5 as (q & Hq & -> & ->). destruct H6 as (dp & Hdp & -> & ->).
    destruct H7 as (dq & Hdq & -> & ->). destruct H8 as (qi & Hqi & -> & ->).
    destruct Hv as (z & Hz & Ez & ->).
    assert (z = 0) as ->.
    { apply (f_equal os2ip) in Ez. rewrite min_octets_value in Ez by auto. rewrite <- Ez. reflexivity. }
    exists n, e, d, p, q, dp, dq, qi. do 8 (split; [assumption|]). split; [|reflexivity].
    rewrite app_nil_r in H0. exact H0.
  Qed.

  Lemma decode_alg_inv l a rest : decode_alg_id mx l = Ok (a, rest) -> verify_algorithm_id a = Ok tt ->
    exists v, alg_pair a v /\ l = der v ++ rest.
  Proof.
    unfold decode_alg_id. intros H V. apply bind_ok in H. destruct H as ((b & r) & H0 & H).
    apply bind_ok in H. destruct H as ((oid & b1) & H1 & H).
    apply decode_tagged_inv in H0. apply decode_tagged_inv in H1. apply c34_exact in V.
    destruct b1 as [|x b1].
    - injection H as <- <-. cbn [alg_oid alg_params] in V. destruct V as [(_ & V)|(-> & _)]; [discriminate V|].
      exists pss_AlgorithmIdentifier. split; [right; auto|]. subst b. exact H0.
    - apply bind_ok in H. destruct H as (((t & v) & b2) & H2 & H). apply decode_tlv_inv in H2.
      apply bind_ok in H. destruct H as ([] & F & H). apply finish_ok in F. injection H as <- <-.
      cbn [alg_oid alg_params] in V. destruct V as [(-> & V)|(_ & V)]; [|discriminate V].
      injection V as -> ->.
      exists rsa_AlgorithmIdentifier. split; [left; auto|]. subst b b2.
      rewrite H2 in H0. rewrite app_nil_r in H0. rewrite H0. reflexivity.
  Qed.

  Lemma verify_accepted a v : alg_pair a v -> accepted_alg v.
  Proof. intros [(_ & ->)|(_ & ->)]; [left|right]; reflexivity. Qed.

  (** What a decoded public key document looks like, byte for byte. *)
  Lemma public_der_inv l k : from_public_key_der mx l = Ok k ->
    exists v n e, accepted_alg v /\ 0 <= n /\ 0 <= e /\ l = der (public_doc v n e) /\
      public_from_pkcs1 (mkP1Pub (min_octets n) (min_octets e)) = Ok k /\
      exists s, decode_spki mx l = Ok s /\ alg_pair (si_alg s) v.
  Proof.
    unfold from_public_key_der. intros H. apply bind_ok in H. destruct H as (s & HS & H). pose proof HS as HS0.
    unfold public_try_from in H. apply bind_ok in H. destruct H as ([] & V & H).
    apply bind_ok in H. destruct H as ([] & U & H). apply guard_ok in U.
    apply bind_ok in H. destruct H as (pk & HP & H).
    unfold decode_spki in HS. apply bind_ok in HS. destruct HS as ((b & r) & H0 & HS).
    apply bind_ok in HS. destruct HS as ((a & b1) & H1 & HS).
    apply bind_ok in HS. destruct HS as ((c & b2) & H2 & HS).
    apply bind_ok in HS. destruct HS as ([] & F1 & HS). apply bind_ok in HS. destruct HS as ([] & F2 & HS).
    apply finish_ok in F1. apply finish_ok in F2. subst b2 r.
    destruct c as [|u key]; [discriminate|]. destruct (_ || _); [discriminate|]. injection HS as <-.
    cbn [si_alg si_unused si_key] in *. apply Z.eqb_eq in U.
    assert (u = x00) as -> by (apply b2z_inj; rewrite U; reflexivity).
    apply decode_tagged_inv in H0. apply decode_tagged_inv in H2.
    destruct (decode_alg_inv _ _ _ H1 V) as (v & A & ->).
    destruct (decode_public_inv _ _ HP) as (n & e & Hn & He & -> & ->).
    exists v, n, e. split; [eapply verify_accepted; exact A|]. split; [auto|]. split; [auto|].
    split; [|split; [exact H|eexists; split; [exact HS0|exact A]]].
    rewrite app_nil_r in H0. rewrite H0. subst b1. reflexivity.
  Qed.

  Lemma key_info_inv tl l s : decode_key_info mx tl l = Ok s -> verify_algorithm_id (ki_alg s) = Ok tt ->
    exists ver opt v, alg_pair (ki_alg s) v /\ (ver = 0 \/ ver = 1) /\ tl ver opt = true /\
      l = der (OneAsymmetricKey ver v (ki_key s) opt).
  Proof.
    intros HS V. unfold decode_key_info in HS. apply bind_ok in HS. destruct HS as ((b & r) & H0 & HS).
    apply bind_ok in HS. destruct HS as ((vv & bv) & Hv & HS).
    apply bind_ok in HS. destruct HS as (ver & Hz & HS).
    apply bind_ok in HS. destruct HS as ((a & b1) & H1 & HS).
    apply bind_ok in HS. destruct HS as ((c & b2) & H2 & HS).
    apply bind_ok in HS. destruct HS as ([] & F1 & HS). apply bind_ok in HS. destruct HS as ([] & F2 & HS).
    apply guard_ok in F1. apply finish_ok in F2. subst r. injection HS as <-.
    cbn [ki_alg ki_key] in *.
    assert (Vv : (ver = 0 /\ vv = [x00]) \/ (ver = 1 /\ vv = [x01])).
    { destruct vv as [|x [|y vv]]; try discriminate.
      destruct (byte_eqb x x00) eqn:E0; [apply byte_eqb_eq in E0; subst x; injection Hz as <-; auto|].
      destruct (byte_eqb x x01) eqn:E1; [apply byte_eqb_eq in E1; subst x; injection Hz as <-; auto|].
      discriminate. }
    apply decode_tagged_inv in H0. apply decode_tagged_inv in H2. apply decode_uint_inv in Hv.
    destruct Hv as (z & Hz0 & Ez & ->).
    assert (z = ver) as ->.
    { apply (f_equal os2ip) in Ez. rewrite min_octets_value in Ez by auto. rewrite <- Ez.
      destruct Vv as [(-> & ->)|(-> & ->)]; reflexivity. }
    destruct (decode_alg_inv _ _ _ H1 V) as (v & A & ->).
    exists ver, b2, v. split; [exact A|]. split; [destruct Vv as [(-> & _)|(-> & _)]; auto|]. split; [exact F1|].
    rewrite app_nil_r in H0. rewrite H0. subst b1.
    unfold OneAsymmetricKey. cbn [der map concat]. rewrite app_nil_r. reflexivity.
  Qed.

  Lemma private_der_inv tl l k : from_pkcs8_der mx tl l = Ok k ->
    exists ver opt v n e d p q dp dq qi, accepted_alg v /\ (ver = 0 \/ ver = 1) /\ tl ver opt = true /\
      0 <= n /\ 0 <= e /\ 0 <= d /\ 0 <= p /\ 0 <= q /\ 0 <= dp /\ 0 <= dq /\ 0 <= qi /\
      l = der (key_doc ver opt v n e d p q dp dq qi) /\
      private_from_pkcs1 (p1_of n e d p q dp dq qi) = Ok k /\
      exists s, decode_key_info mx tl l = Ok s /\ alg_pair (ki_alg s) v.
  Proof.
    unfold from_pkcs8_der. intros H. apply bind_ok in H. destruct H as (s & HS & H).
    unfold private_try_from in H. apply bind_ok in H. destruct H as ([] & V & H).
    apply bind_ok in H. destruct H as (pk & HP & H).
    assert (M : pp_multi pk = false).
    { unfold private_from_pkcs1 in H. destruct (pp_multi pk); [discriminate|reflexivity]. }
    destruct (key_info_inv tl l s HS V) as (ver & opt & v & A & Hver & T & El).
    destruct (decode_private_inv _ _ HP M) as (n & e & d & p & q & dp & dq & qi & G1 & G2 & G3 & G4 & G5 & G6 & G7 & G8 & Ek & ->).
    rewrite Ek in El.
    exists ver, opt, v, n, e, d, p, q, dp, dq, qi. split; [eapply verify_accepted; exact A|].
    split; [exact Hver|]. split; [exact T|]. do 8 (split; [assumption|]).
    split; [exact El|]. split; [exact H|]. exists s. auto.
  Qed.
End Inversion.
