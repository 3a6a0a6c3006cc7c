(** Proofs: total decoding, wrapper types, DigestInfo prefixes, PSS algorithm
    identifiers.  C24, C34, C43, C44, C51, C52. *)
From Coq Require Import ZArith List Bool Lia Znumtheory.
From Coq Require Import Init.Byte.
From Verif Require Import Base Bigint BytesLemmas NumTheory SpecRFC SpecKey SpecDer BigintLemmas
  MHash MPkcs1 MPss MRsa MGenerate MKey MApi MWrap MDer MEncoding KeyDefs PRsa PApi PPad PMgf PPss PSig PSign PKey PRecover PPub PDer
  PEncoding PCodec.
Import ListNotations.
Local Open Scope Z_scope.

(** ** Totality *)

(** Returns, with a value or an error. *)
Definition settled {A} (m : outcome A) : Prop := (exists a, m = Ok a) \/ (exists e, m = Err e).

Lemma settled_ok {A} (a : A) : settled (Ok a). Proof. left; eauto. Qed.
Lemma settled_err {A} e : settled (@Err A e). Proof. right; eauto. Qed.
Lemma settled_bind {A B} (m : outcome A) (f : A -> outcome B) :
  settled m -> (forall a, m = Ok a -> settled (f a)) -> settled (bind m f).
Proof.
  intros [(a & ->)|(e & ->)] H; cbn [bind]; [apply H; reflexivity|apply settled_err].
Qed.
Lemma settled_guard b e : settled (guard b e).
Proof. unfold guard. destruct b; [apply settled_ok|apply settled_err]. Qed.
Lemma settled_finish l : settled (finish l).
Proof. destruct l; [apply settled_ok|apply settled_err]. Qed.

Ltac settle := first [apply settled_ok|apply settled_err|apply settled_guard|apply settled_finish].

Lemma public_usable_dec n e b : public_usable n e b \/ ~ public_usable n e b.
Proof.
  unfold public_usable, public_acceptable.
  destruct (Z.odd n), (Z.odd e); try (right; intuition congruence).
  destruct (Z_le_dec b 4096); [|right; intuition lia].
  destruct (Z_le_dec 2 e); [|right; intuition lia].
  destruct (Z_lt_dec e n); [|right; intuition lia].
  destruct (Z_le_dec e (2 ^ 33 - 1)); [left; auto 10|right; intuition lia].
Qed.

Lemma importable_dec n e d p q : importable n e d p q \/ ~ importable n e d p q.
Proof.
  unfold importable. destruct (public_usable_dec n e (limb_bits n)); [|tauto].
  destruct (Z_lt_dec d (256 ^ octet_size n)); [|tauto].
  destruct (Z_lt_dec p (256 ^ octet_size n)); [|tauto].
  destruct (Z_lt_dec q (256 ^ octet_size n)); [|tauto].
  destruct (Z.eq_dec ((p * q) mod 2 ^ limb_bits n) n); [|tauto].
  destruct (Z_le_dec 3 p); [|tauto]. destruct (Z_le_dec 3 q); [|tauto].
  destruct (Z.eq_dec ((e * d) mod (p - 1)) 1); [|tauto].
  destruct (Z.eq_dec ((e * d) mod (q - 1)) 1); [|tauto]. left. auto 12.
Qed.

Section Total.
  Context (mx : Z).

  Lemma decode_length_settled l : settled (decode_length mx l).
  Proof.
    destruct l as [|b l]; cbn [decode_length]; [settle|]. cbv zeta.
    assert (L : forall k, settled (long_length mx k l)).
    { intros k. unfold long_length. destruct (_ <? _)%nat; [settle|]. cbv zeta.
      apply settled_bind; [settle|]. intros. apply settled_bind; [settle|]. intros. settle. }
    destruct (_ <? 128); [apply settled_bind; [settle|intros; settle]|].
    repeat (destruct (_ =? _); [apply L|]). settle.
  Qed.
  Lemma decode_tlv_settled l : settled (decode_tlv mx l).
  Proof.
    destruct l as [|b l]; cbn [decode_tlv]; [settle|].
    apply settled_bind; [apply decode_length_settled|]. intros (n & r) _. destruct (_ <? _); settle.
  Qed.
  Lemma decode_tagged_settled t l : settled (decode_tagged mx t l).
  Proof.
    unfold decode_tagged. apply settled_bind; [apply decode_tlv_settled|]. intros ((? & ?) & ?) _.
    destruct (byte_eqb _ _); settle.
  Qed.
  Lemma decode_uint_settled l : settled (decode_uint mx l).
  Proof.
    unfold decode_uint. apply settled_bind; [apply decode_tagged_settled|]. intros (c & r) _.
    apply settled_bind; [|intros; settle].
    destruct c as [|b [|c l']]; cbn [uint_value]; [settle|destruct (_ <? _); settle|].
    destruct (byte_eqb _ _); destruct (_ <? _); settle.
  Qed.
  Lemma decode_alg_settled l : settled (decode_alg_id mx l).
  Proof.
    unfold decode_alg_id. apply settled_bind; [apply decode_tagged_settled|]. intros (b & r) _.
    apply settled_bind; [apply decode_tagged_settled|]. intros (o & b1) _.
    destruct b1; [settle|]. apply settled_bind; [apply decode_tlv_settled|]. intros ((? & ?) & ?) _.
    apply settled_bind; [settle|]. intros. settle.
  Qed.
  Lemma decode_public_settled l : settled (decode_p1_public mx l).
  Proof.
    unfold decode_p1_public. apply settled_bind; [apply decode_tagged_settled|]. intros (b & r) _.
    do 2 (apply settled_bind; [apply decode_uint_settled|]; intros (? & ?) _).
    do 2 (apply settled_bind; [settle|]; intros ? _). settle.
  Qed.
  Lemma decode_private_settled l : settled (decode_p1_private mx l).
  Proof.
    unfold decode_p1_private. apply settled_bind; [apply decode_tagged_settled|]. intros (b & r) _.
    do 9 (apply settled_bind; [apply decode_uint_settled|]; intros (? & ?) _).
    apply settled_bind.
    - destruct l0 as [|x [|y l0]]; try settle. destruct (byte_eqb x x00).
      + apply settled_bind; [settle|intros; settle].
      + destruct (byte_eqb x x01); settle.
    - intros. apply settled_bind; [settle|]. intros. settle.
  Qed.
  Lemma decode_info_settled tl l : settled (decode_key_info mx tl l).
  Proof.
    unfold decode_key_info. apply settled_bind; [apply decode_tagged_settled|]. intros (b & r) _.
    apply settled_bind; [apply decode_uint_settled|]. intros (l0 & ?) _.
    apply settled_bind.
    { destruct l0 as [|x [|y l0]]; try settle. destruct (byte_eqb x x00); [settle|]. destruct (byte_eqb x x01); settle. }
    intros ? _.
    apply settled_bind; [apply decode_alg_settled|]. intros (? & ?) _.
    apply settled_bind; [apply decode_tagged_settled|]. intros (? & ?) _.
    do 2 (apply settled_bind; [settle|]; intros ? _). settle.
  Qed.
  Lemma decode_spki_settled l : settled (decode_spki mx l).
  Proof.
    unfold decode_spki. apply settled_bind; [apply decode_tagged_settled|]. intros (b & r) _.
    apply settled_bind; [apply decode_alg_settled|]. intros (? & ?) _.
    apply settled_bind; [apply decode_tagged_settled|]. intros (c & ?) _.
    do 2 (apply settled_bind; [settle|]; intros ? _).
    destruct c; [settle|]. destruct (_ || _); settle.
  Qed.
  Lemma verify_settled a : settled (verify_algorithm_id a).
  Proof. destruct (c34_error a) as [->|[->|[->|(-> & _)]]]; settle. Qed.

  Hypothesis Hmx : mx < 2 ^ 29.

  Lemma decode_length_max l n r : decode_length mx l = Ok (n, r) -> n <= mx.
  Proof.
    destruct l as [|b l]; cbn [decode_length]; [discriminate|]. cbv zeta.
    assert (L : forall k, long_length mx k l = Ok (n, r) -> n <= mx).
    { intros k. unfold long_length. destruct (_ <? _)%nat; [discriminate|]. cbv zeta. intros H.
      apply bind_ok in H. destruct H as ([] & H1 & H). apply guard_ok in H1.
      apply bind_ok in H. destruct H as ([] & _ & H). injection H as <- _. apply Z.leb_le in H1. exact H1. }
    destruct (_ <? 128).
    - intros H. apply bind_ok in H. destruct H as ([] & H1 & H). apply guard_ok in H1. injection H as <- _.
      apply Z.leb_le in H1. exact H1.
    - repeat (destruct (_ =? _); [apply L|]). discriminate.
  Qed.
  Lemma decode_uint_max l v r : decode_uint mx l = Ok (v, r) -> Z.of_nat (length v) <= mx.
  Proof.
    unfold decode_uint. intros H. apply bind_ok in H. destruct H as ((c & r') & H1 & H).
    apply bind_ok in H. destruct H as (v' & H2 & H). injection H as <- <-.
    assert (L : Z.of_nat (length c) <= mx).
    { unfold decode_tagged in H1. apply bind_ok in H1. destruct H1 as (((t & c') & r0) & H1 & H0).
      destruct (byte_eqb t tag_integer); [|discriminate]. injection H0 as <- <-.
      destruct l as [|b l]; cbn [decode_tlv] in H1; [discriminate|].
      apply bind_ok in H1. destruct H1 as ((n & rr) & H1 & H0).
      destruct (decode_length_inv mx ltac:(lia) _ _ _ H1) as (N0 & _). apply decode_length_max in H1.
      destruct (Z.ltb_spec (Z.of_nat (length rr)) n) as [|G]; [discriminate|].
      injection H0 as _ <- _. rewrite firstn_length. lia. }
    destruct c as [|b [|c l']]; cbn [uint_value] in H2; [discriminate| |].
    - destruct (_ <? _); [|discriminate]. injection H2 as <-. exact L.
    - cbn [length] in *. destruct (byte_eqb _ _); destruct (_ <? _); try discriminate; injection H2 as <-; cbn [length]; lia.
  Qed.

  Lemma public_total l : settled (from_public_key_der mx l).
  Proof.
    unfold from_public_key_der. apply settled_bind; [apply decode_spki_settled|]. intros s _.
    unfold public_try_from. apply settled_bind; [apply verify_settled|]. intros ? _.
    apply settled_bind; [settle|]. intros ? _. apply settled_bind; [apply decode_public_settled|].
    intros k Hk. assert (M32 : mx < 2 ^ 32) by lia.
    destruct (decode_public_inv mx M32 _ _ Hk) as (n & e & Hn & He & _ & ->).
    unfold decode_p1_public in Hk. apply bind_ok in Hk. destruct Hk as ((b & r) & _ & Hk).
    apply bind_ok in Hk. destruct Hk as ((vn & b1) & H2 & Hk).
    apply bind_ok in Hk. destruct Hk as ((ve & b2) & H3 & Hk).
    apply bind_ok in Hk. destruct Hk as ([] & _ & Hk). apply bind_ok in Hk. destruct Hk as ([] & _ & Hk).
    injection Hk as -> ->. apply decode_uint_max in H2. apply decode_uint_max in H3.
    rewrite min_octets_len in H2, H3 by auto.
    destruct (import_public_unfold n e) as (A & B); auto; try lia.
    destruct (public_usable_dec n e (limb_bits n)) as [U|U].
    - destruct (A U) as (-> & _). settle.
    - rewrite (B U). settle.
  Qed.

  Lemma private_total tl l : settled (from_pkcs8_der mx tl l) \/
    (exists ver opt v n e d p q dp dq qi, accepted_alg v /\ (p = 1 \/ q = 1) /\
       (ver = 0 \/ ver = 1) /\ tl ver opt = true /\
       l = der (key_doc ver opt v n e d p q dp dq qi)).
  Proof.
    unfold from_pkcs8_der.
    destruct (decode_info_settled tl l) as [(info & EI)|(err & EI)]; rewrite EI; cbn [bind]; [|left; settle].
    unfold private_try_from.
    destruct (verify_settled (ki_alg info)) as [([] & EV)|(err & EV)]; rewrite EV; cbn [bind]; [|left; settle].
    destruct (decode_private_settled (ki_key info)) as [(k & EK)|(err & EK)]; rewrite EK; cbn [bind]; [|left; settle].
    destruct (pp_multi k) eqn:EM.
    { left. unfold private_from_pkcs1. rewrite EM. settle. }
    assert (M32 : mx < 2 ^ 32) by lia.
    destruct (decode_private_inv mx M32 _ _ EK EM) as (n & e & d & p & q & dp & dq & qi & G1 & G2 & G3 & G4 & G5 & G6 & G7 & G8 & EL & ->).
    assert (S : octet_size n <= mx /\ octet_size e <= mx).
    { clear - EK G1 G2 Hmx. unfold decode_p1_private in EK. apply bind_ok in EK. destruct EK as ((b & r) & _ & EK).
      apply bind_ok in EK. destruct EK as ((vv & bv) & _ & EK).
      apply bind_ok in EK. destruct EK as ((vn & b1) & H1 & EK).
      apply bind_ok in EK. destruct EK as ((ve & b2) & H2 & EK).
      do 6 (apply bind_ok in EK; destruct EK as ((? & ?) & _ & EK)).
      apply bind_ok in EK. destruct EK as (multi & HM & EK).
      apply bind_ok in EK. destruct EK as ([] & F2 & EK). injection EK as _ -> -> _ _ _ _ _ _.
      apply decode_uint_max in H1. apply decode_uint_max in H2. rewrite min_octets_len in H1, H2 by auto. auto. }
    destruct (import_exact n e d p q dp dq qi) as (A & B); auto; try lia. cbv zeta in A, B.
    destruct (importable_dec n e d p q) as [I|I].
    - destruct (A I) as (k & -> & _). left. settle.
    - destruct (Z.eq_dec p 1) as [->|N1]; [|destruct (Z.eq_dec q 1) as [->|N2]].
      3:{ left. rewrite B by auto. settle. }
      all: right; destruct (key_info_inv mx M32 tl l info EI EV) as (ver & opt & v & AP & Hver & T & El);
        rewrite EL in El; exists ver, opt, v; do 8 eexists;
        (split; [eapply verify_accepted; exact AP|]); (split; [|split; [exact Hver|split; [exact T|exact El]]]); auto.
  Qed.
End Total.

(** ** The salt is a function of the encoded message *)

Lemma zeros_one_inj a : forall b (s1 s2 : list byte), repeat x00 a ++ x01 :: s1 = repeat x00 b ++ x01 :: s2 -> s1 = s2.
Proof.
  induction a as [|a IH]; intros [|b] s1 s2; cbn [repeat app]; intros H; injection H; intros; try discriminate; auto.
  eapply IH; eauto.
Qed.

Lemma pss_encode_salt hd mh salt1 salt2 em_bits :
  (0 < h_size hd)%nat ->
  (h_size hd + length salt1 + 2 <= pss_em_len em_bits)%nat ->
  (h_size hd + length salt2 + 2 <= pss_em_len em_bits)%nat ->
  pss_encode (h_fun hd) (h_size hd) mh salt1 em_bits = pss_encode (h_fun hd) (h_size hd) mh salt2 em_bits ->
  salt1 = salt2.
Proof.
  intros Hh L1 L2 E. rewrite !pss_encode_parts in E. cbv zeta in E.
  set (h1 := h_fun hd (_ ++ _ ++ salt1)) in *. set (h2 := h_fun hd (_ ++ _ ++ salt2)) in *.
  assert (Lh : length h1 = h_size hd /\ length h2 = h_size hd) by (split; apply h_len).
  clearbody h1 h2. destruct Lh as (Lh1 & Lh2).
  apply app_inj_len in E.
  2:{ rewrite !clear_top_length, !xor_octets_length, !mgf1_length, !app_length, !vec_length by auto. cbn [length]. lia. }
  destruct E as (E1 & E2). apply app_inj_len in E2; [|lia]. destruct E2 as (-> & _).
  set (m := mgf1 _ _ h2 _) in *. assert (Lm : length m = (pss_em_len em_bits - h_size hd - 1)%nat) by (apply mgf1_length; auto).
  clearbody m. set (z := (8 * pss_em_len em_bits - em_bits)%nat) in *. assert (Hz : (z <= 7)%nat) by apply pss_z. clearbody z.
  apply (f_equal (fun l => clear_top z (xor_octets l m))) in E1.
  rewrite !clear_top_xor in E1 by auto.
  rewrite !xor_octets_invol in E1 by (rewrite !app_length, vec_length; cbn [length]; lia).
  rewrite !clear_top_DB in E1 by auto. rewrite <- !app_assoc in E1. cbn [app] in E1.
  eapply zeros_one_inj. exact E1.
Qed.

Lemma pss_consistent_salt hd s1 s2 em_bits mh em : (0 < h_size hd)%nat ->
  pss_consistent (h_fun hd) (h_size hd) s1 em_bits mh em ->
  pss_consistent (h_fun hd) (h_size hd) s2 em_bits mh em -> s1 = s2.
Proof.
  intros Hh (_ & B1 & salt1 & <- & ->) (_ & B2 & salt2 & <- & E).
  f_equal. eapply pss_encode_salt; eauto.
Qed.

Lemma c44_verify_salt hd pk sl1 sl2 hashed s :
  (0 < h_size hd)%nat -> wf_pub pk -> uprec (pk_n pk) < 2 ^ 32 -> wf_uint (sg_inner s) ->
  Z.of_nat (h_size hd + sl1 + 2) < 2 ^ 64 -> Z.of_nat (h_size hd + sl2 + 2) < 2 ^ 64 ->
  psvk_verify_prehash hd (psvk_new_with_salt_len pk sl1) hashed s = Ok tt ->
  psvk_verify_prehash hd (psvk_new_with_salt_len pk sl2) hashed s = Ok tt -> sl1 = sl2.
Proof.
  intros Hh Hk H32 Hw S1 S2. unfold psvk_verify_prehash, psvk_new_with_salt_len.
  cbn [psvk_inner psvk_salt_len]. intros V1 V2.
  destruct (pss_verify_digest_total hd pk hashed sl1 (sg_inner s) Hh S1 Hk H32 Hw) as [(_ & _ & _ & A1)|(E & _)];
    [|congruence].
  destruct (pss_verify_digest_total hd pk hashed sl2 (sg_inner s) Hh S2 Hk H32 Hw) as [(_ & _ & _ & A2)|(E & _)];
    [|congruence].
  eapply pss_consistent_salt; eauto.
Qed.

(** ** Encodings determine their contents *)

Lemma octet_size_mono a b : 0 <= a <= b -> octet_size a <= octet_size b.
Proof.
  intros H. unfold octet_size. pose proof (Z.log2_le_mono a b ltac:(lia)). Z.div_mod_to_equations. lia.
Qed.

Lemma der_length_len n : length (der_length n) =
  if (n <? 128)%nat then 1%nat else S (Z.to_nat (octet_size (Z.of_nat n))).
Proof.
  unfold der_length. destruct (n <? 128)%nat; [reflexivity|]. cbv zeta. cbn [length].
  f_equal. pose proof (min_octets_len (Z.of_nat n) ltac:(lia)). lia.
Qed.

Lemma der_length_mono a b : (a <= b)%nat -> (length (der_length a) <= length (der_length b))%nat.
Proof.
  intros H. rewrite !der_length_len. pose proof (octet_size_mono (Z.of_nat a) (Z.of_nat b) ltac:(lia)).
  destruct (Nat.ltb_spec a 128); destruct (Nat.ltb_spec b 128); lia.
Qed.

Lemma der_tlv_len t c : length (der_tlv t c) = S (length (der_length (length c)) + length c).
Proof. unfold der_tlv. cbn [length]. rewrite app_length. reflexivity. Qed.

Lemma der_tlv_inj t c t' c' : der_tlv t c = der_tlv t' c' -> t = t' /\ c = c'.
Proof.
  intros H. pose proof (f_equal (@length byte) H) as L. rewrite !der_tlv_len in L.
  assert (LL : length c = length c').
  { destruct (Nat.lt_trichotomy (length c) (length c')) as [A|[A|A]]; [|exact A|].
    - pose proof (der_length_mono (length c) (length c') ltac:(lia)). lia.
    - pose proof (der_length_mono (length c') (length c) ltac:(lia)). lia. }
  unfold der_tlv in H. rewrite LL in H. injection H as -> H. apply app_inv_head in H. auto.
Qed.

(** ** Wrapper types *)

Section Wrap.
  Context (mx : Z) (Hmx : mx < 2 ^ 32).

  Lemma wrap_pss tl hd b l : pssk_from_pkcs8_der mx tl hd b l =
    bind (from_pkcs8_der mx tl l) (fun k => Ok (pssk_new hd b k)).
  Proof.
    unfold pssk_from_pkcs8_der, from_pkcs8_der. destruct (decode_key_info mx tl l) as [i|?| |]; [|reflexivity..].
    cbn [bind]. destruct b; [reflexivity|]. unfold pssk_try_from, private_try_from.
    destruct (verify_algorithm_id (ki_alg i)); reflexivity.
  Qed.

  Lemma wrap_pss_public hd l : psvk_from_public_key_der mx hd l =
    bind (from_public_key_der mx l) (fun k => Ok (psvk_new hd k)).
  Proof.
    unfold psvk_from_public_key_der, from_public_key_der. destruct (decode_spki mx l) as [i|?| |]; [|reflexivity..].
    cbn [bind]. unfold psvk_try_from, guard.
    destruct (bytes_eqb (alg_oid (si_alg i)) oid_rsassa_pss) eqn:E1; [reflexivity|].
    destruct (bytes_eqb (alg_oid (si_alg i)) oid_rsa_encryption) eqn:E2; [reflexivity|].
    unfold public_try_from, verify_algorithm_id. rewrite E1, E2. reflexivity.
  Qed.

  Lemma alg_pair_oid a v : alg_pair a v ->
    (v = rsa_AlgorithmIdentifier /\ bytes_eqb (alg_oid a) oid_rsa_encryption = true) \/
    (v = pss_AlgorithmIdentifier /\ bytes_eqb (alg_oid a) oid_rsa_encryption = false).
  Proof. intros [(-> & ->)|(-> & ->)]; [left|right]; split; reflexivity. Qed.

  Lemma alg_doc_inj ver opt ver' opt' n e d p q dp dq qi n' e' d' p' q' dp' dq' qi' :
    (ver = 0 \/ ver = 1) -> (ver' = 0 \/ ver' = 1) ->
    der (key_doc ver opt rsa_AlgorithmIdentifier n e d p q dp dq qi) <>
    der (key_doc ver' opt' pss_AlgorithmIdentifier n' e' d' p' q' dp' dq' qi').
  Proof.
    intros V V'. unfold key_doc, OneAsymmetricKey. cbn [der map concat]. intros H. apply der_tlv_inj in H.
    destruct H as (_ & H).
    unfold rsa_AlgorithmIdentifier, pss_AlgorithmIdentifier in H. cbn [der map concat] in H.
    apply (f_equal (fun l => nth 4 l x00)) in H.
    destruct V as [->| ->], V' as [->| ->]; vm_compute in H; discriminate.
  Qed.
  Lemma alg_spki_inj n e n' e' :
    der (public_doc rsa_AlgorithmIdentifier n e) <> der (public_doc pss_AlgorithmIdentifier n' e').
  Proof.
    unfold public_doc, SubjectPublicKeyInfo. cbn [der map concat]. intros H. apply der_tlv_inj in H.
    destruct H as (_ & H). rewrite !app_nil_r in H.
    unfold rsa_AlgorithmIdentifier, pss_AlgorithmIdentifier in H. cbn [der map concat] in H.
    apply (f_equal (fun l => nth 1 l x00)) in H. vm_compute in H. discriminate.
  Qed.

  (** PKCS#1 v1.5 signing keys: the same documents, but only with rsaEncryption. *)
  Definition rsa_key_doc (tl : Z -> list byte -> bool) (alg : asn1) (l : list byte) : Prop :=
    exists ver opt n e d p q dp dq qi, (ver = 0 \/ ver = 1) /\ tl ver opt = true /\
      l = der (key_doc ver opt alg n e d p q dp dq qi).
  Lemma wrap_p1 tl hd oid l k : from_pkcs8_der mx tl l = Ok k ->
    (rsa_key_doc tl rsa_AlgorithmIdentifier l /\
     p1sk_from_pkcs8_der mx tl hd oid l = p1sk_new hd oid k) \/
    (rsa_key_doc tl pss_AlgorithmIdentifier l /\
     p1sk_from_pkcs8_der mx tl hd oid l = Err ErrOidUnknown).
  Proof.
    intros H. destruct (private_der_inv mx Hmx tl l k H) as
      (ver & opt & v & n & e & d & p & q & dp & dq & qi & _ & Hver & T & _ & _ & _ & _ & _ & _ & _ & _ & El & _ & s & D & A).
    unfold p1sk_from_pkcs8_der, from_pkcs8_der in *. rewrite D in *. cbn [bind] in *.
    unfold p1sk_try_from, assert_algorithm_oid, guard.
    destruct (alg_pair_oid _ _ A) as [(-> & ->)|(-> & ->)]; cbn [bind].
    - left. split; [unfold rsa_key_doc; exists ver, opt; repeat eexists; eauto|]. rewrite H. reflexivity.
    - right. split; [unfold rsa_key_doc; exists ver, opt; repeat eexists; eauto|reflexivity].
  Qed.

  Lemma wrap_p1_ok tl hd oid l s : p1sk_from_pkcs8_der mx tl hd oid l = Ok s <->
    exists k, from_pkcs8_der mx tl l = Ok k /\ p1sk_new hd oid k = Ok s /\
      rsa_key_doc tl rsa_AlgorithmIdentifier l.
  Proof.
    split.
    - intros H. assert (exists k, from_pkcs8_der mx tl l = Ok k) as (k & K).
      { unfold p1sk_from_pkcs8_der in H. apply bind_ok in H. destruct H as (i & D & H).
        unfold p1sk_try_from in H. apply bind_ok in H. destruct H as (_ & _ & H).
        apply bind_ok in H. destruct H as (k & H & _). exists k. unfold from_pkcs8_der. rewrite D. exact H. }
      exists k. split; [exact K|]. destruct (wrap_p1 tl hd oid l k K) as [(X & E)|(_ & E)]; rewrite E in H.
      + auto.
      + discriminate.
    - intros (k & K & N & ver & opt & n & e & d & p & q & dp & dq & qi & Hver & _ & El).
      destruct (wrap_p1 tl hd oid l k K) as [(_ & E)|((ver' & opt' & n' & e' & d' & p' & q' & dp' & dq' & qi' & Hver' & _ & El') & _)].
      + rewrite E. exact N.
      + exfalso. rewrite El in El'. exact (alg_doc_inj _ _ _ _ _ _ _ _ _ _ _ _ _ _ _ _ _ _ _ _ Hver Hver' El').
  Qed.

  Lemma wrap_p1_public hd oid l k : from_public_key_der mx l = Ok k ->
    ((exists n e, l = der (public_doc rsa_AlgorithmIdentifier n e)) /\
     p1vk_from_public_key_der mx hd oid l = p1vk_new hd oid k) \/
    ((exists n e, l = der (public_doc pss_AlgorithmIdentifier n e)) /\
     p1vk_from_public_key_der mx hd oid l = Err ErrOidUnknown).
  Proof.
    intros H. destruct (public_der_inv mx Hmx l k H) as (v & n & e & _ & _ & _ & El & _ & s & D & A).
    unfold p1vk_from_public_key_der, from_public_key_der in *. rewrite D in *. cbn [bind] in *.
    unfold p1vk_try_from, assert_algorithm_oid, guard.
    destruct (alg_pair_oid _ _ A) as [(-> & ->)|(-> & ->)]; cbn [bind].
    - left. split; [repeat eexists; exact El|]. rewrite H. reflexivity.
    - right. split; [repeat eexists; exact El|reflexivity].
  Qed.

  Lemma wrap_p1_public_ok hd oid l s : p1vk_from_public_key_der mx hd oid l = Ok s <->
    exists k, from_public_key_der mx l = Ok k /\ p1vk_new hd oid k = Ok s /\
      exists n e, l = der (public_doc rsa_AlgorithmIdentifier n e).
  Proof.
    split.
    - intros H. assert (exists k, from_public_key_der mx l = Ok k) as (k & K).
      { unfold p1vk_from_public_key_der in H. apply bind_ok in H. destruct H as (i & D & H).
        unfold p1vk_try_from in H. apply bind_ok in H. destruct H as (_ & _ & H).
        apply bind_ok in H. destruct H as (k & H & _). exists k. unfold from_public_key_der. rewrite D. exact H. }
      exists k. split; [exact K|]. destruct (wrap_p1_public hd oid l k K) as [(X & E)|(_ & E)]; rewrite E in H.
      + auto.
      + discriminate.
    - intros (k & K & N & n & e & El).
      destruct (wrap_p1_public hd oid l k K) as [(_ & E)|((n' & e' & El') & _)].
      + rewrite E. exact N.
      + exfalso. rewrite El in El'. exact (alg_spki_inj _ _ _ _ El').
  Qed.
End Wrap.

(** ** The DigestInfo prefix *)

Lemma prefix_length oid size pre : pkcs1v15_generate_prefix oid size = Ok pre -> length pre = (length oid + 10)%nat.
Proof.
  unfold pkcs1v15_generate_prefix. cbv zeta. intros H.
  apply bind_ok in H. destruct H as (a & _ & H). apply bind_ok in H. destruct H as (b & _ & H).
  apply bind_ok in H. destruct H as (c & _ & H). injection H as <-. cbn [app length]. rewrite app_length. cbn [length]. lia.
Qed.

Lemma der_short t c : (length c < 128)%nat -> der_tlv t c = t :: z2b (Z.of_nat (length c)) :: c.
Proof.
  intros H. unfold der_tlv, der_length. destruct (Nat.ltb_spec (length c) 128); [|lia]. reflexivity.
Qed.

Lemma digest_info_short oid digest : (length oid + length digest + 8 <= 127)%nat ->
  der (DigestInfo oid digest) =
  [x30; z2b (Z.of_nat (length oid) + 8 + Z.of_nat (length digest)); x30; z2b (Z.of_nat (length oid) + 4);
   x06; z2b (Z.of_nat (length oid))] ++ oid ++ [x05; x00; x04; z2b (Z.of_nat (length digest))] ++ digest.
Proof.
  intros H. unfold DigestInfo. cbn [der map concat]. rewrite !app_nil_r.
  rewrite (der_short x06) by lia. rewrite (der_short x05) by (cbn; lia). rewrite (der_short x04) by lia.
  rewrite (der_short x30 ((_ :: _) ++ _)) by (rewrite app_length; cbn [length]; lia).
  rewrite der_short.
  2:{ cbn [length app]. rewrite !app_length. cbn [length]. lia. }
  cbn [app length]. rewrite !app_length. cbn [length].
  repeat (rewrite <- app_assoc; cbn [app]).
  repeat first [reflexivity | f_equal; try lia].
Qed.

Lemma prefix_panic oid size :
  pkcs1v15_generate_prefix oid size = Panic <->
  256 <= Z.of_nat (length oid) mod 256 + 8 + Z.of_nat size mod 256.
Proof.
  unfold pkcs1v15_generate_prefix, u8_add. cbv zeta.
  pose proof (Z.mod_pos_bound (Z.of_nat (length oid)) 256 ltac:(lia)).
  pose proof (Z.mod_pos_bound (Z.of_nat size) 256 ltac:(lia)).
  set (a := Z.of_nat (length oid) mod 256) in *. set (b := Z.of_nat size mod 256) in *. clearbody a b.
  destruct (Z.ltb_spec (a + 8) 256); cbn [bind]; [|split; [lia|reflexivity]].
  destruct (Z.ltb_spec (a + 8 + b) 256); cbn [bind]; [|split; [lia|reflexivity]].
  destruct (Z.ltb_spec (a + 4) 256); cbn [bind]; [|lia]. split; [discriminate|lia].
Qed.

Lemma prefix_ok oid size : (length oid + size + 8 <= 127)%nat ->
  exists pre, pkcs1v15_generate_prefix oid size = Ok pre /\
    forall digest, length digest = size -> pre ++ digest = der (DigestInfo oid digest).
Proof.
  intros H. unfold pkcs1v15_generate_prefix, u8_add. cbv zeta.
  rewrite !Z.mod_small by lia.
  destruct (Z.ltb_spec (Z.of_nat (length oid) + 8) 256); [|lia]. cbn [bind].
  destruct (Z.ltb_spec (Z.of_nat (length oid) + 8 + Z.of_nat size) 256); [|lia]. cbn [bind].
  destruct (Z.ltb_spec (Z.of_nat (length oid) + 4) 256); [|lia]. cbn [bind].
  eexists. split; [reflexivity|]. intros digest <-. rewrite digest_info_short by lia.
  rewrite <- !app_assoc. reflexivity.
Qed.

Lemma prefix_exact oid size pre digest : pkcs1v15_generate_prefix oid size = Ok pre -> length digest = size ->
  (pre ++ digest = der (DigestInfo oid digest) <-> (length oid + size + 8 <= 127)%nat).
Proof.
  intros H L. split.
  - intros E. apply (f_equal (@length byte)) in E. rewrite app_length, (prefix_length _ _ _ H) in E.
    destruct (le_gt_dec (length oid + size + 8) 127) as [?|G]; [assumption|exfalso].
    unfold DigestInfo in E. cbn [der map concat] in E. rewrite !app_nil_r in E.
    assert (D : forall t c, (2 + length c <= length (der_tlv t c))%nat).
    { intros t c. rewrite der_tlv_len, der_length_len. destruct (_ <? _)%nat; lia. }
    assert (D2 : forall t c, (128 <= length c)%nat -> (3 + length c <= length (der_tlv t c))%nat).
    { intros t c HH. rewrite der_tlv_len, der_length_len. destruct (Nat.ltb_spec (length c) 128); [lia|].
      pose proof (octet_size_pos (Z.of_nat (length c))). lia. }
    pose proof (D x06 oid) as A1. pose proof (D x05 []) as A2. cbn [length] in A2.
    pose proof (D x30 (der_tlv x06 oid ++ der_tlv x05 [])) as A3. rewrite app_length in A3.
    pose proof (D x04 digest) as A4.
    pose proof (D2 x30 (der_tlv x30 (der_tlv x06 oid ++ der_tlv x05 []) ++ der_tlv x04 digest)) as A5.
    rewrite app_length in A5. lia.
  - intros HL. destruct (prefix_ok oid size HL) as (pre' & P & Q). rewrite H in P. injection P as <-. auto.
Qed.

Lemma digest_info_inj o1 d1 o2 d2 :
  (length o1 + length d1 + 8 <= 127)%nat -> (length o2 + length d2 + 8 <= 127)%nat ->
  der (DigestInfo o1 d1) = der (DigestInfo o2 d2) -> o1 = o2 /\ d1 = d2.
Proof.
  intros L1 L2. rewrite !digest_info_short by auto. cbn [app]. intros H.
  injection H as H1 H2 H3 H4.
  apply (f_equal b2z) in H3. rewrite !b2z_z2b in H3. rewrite !Z.mod_small in H3 by lia.
  apply app_inj_len in H4; [|lia]. destruct H4 as (-> & H4). injection H4 as _ ->. auto.
Qed.

(** ** Round trips of wrappers *)

Section WrapRound.
  Context (mx : Z) (hd : hashfn).

  Lemma wrap_round_pss tl b s doc k :
    pssk_to_pkcs8_der mx s = Ok doc -> from_pkcs8_der mx tl doc = Ok k -> priv_eqb k (pssk_inner s) = true ->
    exists s', pssk_from_pkcs8_der mx tl hd b doc = Ok s' /\ pssk_salt_len s' = h_size hd /\
      (pssk_eqb s' s = true <-> pssk_salt_len s = h_size hd).
  Proof.
    intros _ I E. rewrite wrap_pss, I. cbn [bind]. eexists. split; [reflexivity|]. split; [reflexivity|].
    unfold pssk_eqb, pssk_new, pssk_new_with_salt_len. cbn [pssk_inner pssk_salt_len]. rewrite E. cbn [andb].
    rewrite Nat.eqb_eq. split; auto.
  Qed.

  Lemma wrap_round_pss_public s doc k :
    psvk_to_public_key_der mx s = Ok doc -> from_public_key_der mx doc = Ok k -> pub_eqb k (psvk_inner s) = true ->
    exists s', psvk_from_public_key_der mx hd doc = Ok s' /\ psvk_salt_len s' = h_size hd /\
      (psvk_eqb s' s = true <-> psvk_salt_len s = h_size hd).
  Proof.
    intros _ I E. rewrite wrap_pss_public, I. cbn [bind]. eexists. split; [reflexivity|]. split; [reflexivity|].
    unfold psvk_eqb, psvk_new, psvk_new_with_salt_len. cbn [psvk_inner psvk_salt_len]. rewrite E. cbn [andb].
    rewrite Nat.eqb_eq. split; auto.
  Qed.

  (** Every document that is written is an rsaEncryption document. *)
  Lemma exported_alg tl k doc : tl 0 [] = true -> mx < 2 ^ 32 -> to_pkcs8_der mx k = Ok doc ->
    exists key, decode_key_info mx tl doc = Ok (mkKI rsa_algorithm_id key).
  Proof.
    intros T Hm H. unfold to_pkcs8_der in H. apply bind_ok in H. destruct H as (s & _ & H).
    apply bind_ok in H. destruct H as (key & _ & H). apply bind_ok in H. destruct H as (_ & _ & H).
    exists key. unfold encode_key_info, encode_alg_id, encode_uint in H. cbn [ki_alg ki_key alg_oid alg_params rsa_algorithm_id any_null any_tag any_value] in H.
    apply bind_ok in H. destruct H as (v & V & H).
    apply bind_ok in H. destruct H as (al & A & H).
    apply bind_ok in A. destruct A as (o & A1 & A). apply bind_ok in A. destruct A as (nl & A2 & A).
    apply bind_ok in H. destruct H as (ky & Y & H).
    apply encode_tlv_inv in V; auto. apply encode_tlv_inv in A; auto. apply encode_tlv_inv in A1; auto.
    apply encode_tlv_inv in A2; auto. apply encode_tlv_inv in Y; auto. apply encode_tlv_inv in H; auto.
    destruct V as (-> & _). destruct A as (-> & _). destruct A1 as (-> & _). destruct A2 as (-> & _). destruct Y as (-> & _).
    destruct H as (-> & F).
    pose proof (decode_info_ok mx Hm tl 0 rsa_algorithm_id rsa_AlgorithmIdentifier key [] (or_introl (conj eq_refl eq_refl)) (or_introl eq_refl) T) as D.
    rewrite plain_key in D. unfold PrivateKeyInfo, rsa_AlgorithmIdentifier in D. cbn [der map concat] in D. rewrite !app_nil_r in D.
    apply D. exact F.
  Qed.

  Lemma exported_alg_public k doc : mx < 2 ^ 32 -> to_public_key_der mx k = Ok doc ->
    exists key, decode_spki mx doc = Ok (mkSpki rsa_algorithm_id 0 key).
  Proof.
    intros Hm H. unfold to_public_key_der in H. apply bind_ok in H. destruct H as (n & _ & H).
    apply bind_ok in H. destruct H as (e & _ & H).
    apply bind_ok in H. destruct H as (key & _ & H). apply bind_ok in H. destruct H as (_ & _ & H).
    exists key. unfold encode_spki, encode_alg_id, encode_uint in H. cbn [si_alg si_key si_unused alg_oid alg_params rsa_algorithm_id any_null any_tag any_value] in H.
    apply bind_ok in H. destruct H as (al & A & H).
    apply bind_ok in A. destruct A as (o & A1 & A). apply bind_ok in A. destruct A as (nl & A2 & A).
    apply bind_ok in H. destruct H as (ky & Y & H).
    apply encode_tlv_inv in A; auto. apply encode_tlv_inv in A1; auto.
    apply encode_tlv_inv in A2; auto. apply encode_tlv_inv in Y; auto. apply encode_tlv_inv in H; auto.
    destruct A as (-> & _). destruct A1 as (-> & _). destruct A2 as (-> & _). destruct Y as (-> & _).
    destruct H as (-> & F).
    pose proof (decode_spki_ok mx Hm rsa_algorithm_id rsa_AlgorithmIdentifier key (or_introl (conj eq_refl eq_refl))) as D.
    unfold SubjectPublicKeyInfo, rsa_AlgorithmIdentifier in D. cbn [der map concat] in D. rewrite !app_nil_r in D.
    apply D. exact F.
  Qed.

  Lemma bytes_eqb_sym_iff a b : bytes_eqb a b = true <-> b = a.
  Proof. rewrite bytes_eqb_eq. split; auto. Qed.

  Lemma wrap_round_p1 tl oid pre s doc k : tl 0 [] = true -> mx < 2 ^ 32 -> pkcs1v15_generate_prefix oid (h_size hd) = Ok pre ->
    p1sk_to_pkcs8_der mx s = Ok doc -> from_pkcs8_der mx tl doc = Ok k -> priv_eqb k (p1sk_inner s) = true ->
    exists s', p1sk_from_pkcs8_der mx tl hd oid doc = Ok s' /\ p1sk_prefix s' = pre /\
      (p1sk_eqb s' s = true <-> p1sk_prefix s = pre).
  Proof.
    intros T Hm P O I E. destruct (exported_alg tl _ _ T Hm O) as (key & D).
    unfold p1sk_from_pkcs8_der, from_pkcs8_der in *. rewrite D in *. cbn [bind] in *.
    unfold p1sk_try_from. change (assert_algorithm_oid (ki_alg (mkKI rsa_algorithm_id key)) oid_rsa_encryption) with (Ok tt).
    cbn [bind]. rewrite I. cbn [bind]. unfold p1sk_new. rewrite P. cbn [bind].
    eexists. split; [reflexivity|]. split; [reflexivity|].
    unfold p1sk_eqb. cbn [p1sk_inner p1sk_prefix]. rewrite E. cbn [andb]. apply bytes_eqb_sym_iff.
  Qed.

  Lemma wrap_round_p1_public oid pre s doc k : mx < 2 ^ 32 -> pkcs1v15_generate_prefix oid (h_size hd) = Ok pre ->
    p1vk_to_public_key_der mx s = Ok doc -> from_public_key_der mx doc = Ok k -> pub_eqb k (p1vk_inner s) = true ->
    exists s', p1vk_from_public_key_der mx hd oid doc = Ok s' /\ p1vk_prefix s' = pre /\
      (p1vk_eqb s' s = true <-> p1vk_prefix s = pre).
  Proof.
    intros Hm P O I E. destruct (exported_alg_public _ _ Hm O) as (key & D).
    unfold p1vk_from_public_key_der, from_public_key_der in *. rewrite D in *. cbn [bind] in *.
    unfold p1vk_try_from. change (assert_algorithm_oid (si_alg (mkSpki rsa_algorithm_id 0 key)) oid_rsa_encryption) with (Ok tt).
    cbn [bind]. rewrite I. cbn [bind]. unfold p1vk_new. rewrite P. cbn [bind].
    eexists. split; [reflexivity|]. split; [reflexivity|].
    unfold p1vk_eqb. cbn [p1vk_inner p1vk_prefix]. rewrite E. cbn [andb]. apply bytes_eqb_sym_iff.
  Qed.
End WrapRound.

(** ** The PSS algorithm identifier *)

Lemma c44_identifier oid k :
  psa_oid (pssk_algorithm_id oid k) = id_RSASSA_PSS /\
  psp_hash (psa_params (pssk_algorithm_id oid k)) = oid /\
  psp_mgf_hash (psa_params (pssk_algorithm_id oid k)) = oid /\
  psp_salt_len (psa_params (pssk_algorithm_id oid k)) = Z.of_nat (pssk_salt_len k) mod 256 /\
  (psp_salt_len (psa_params (pssk_algorithm_id oid k)) = Z.of_nat (pssk_salt_len k) <->
   (pssk_salt_len k < 256)%nat).
Proof.
  cbn [pssk_algorithm_id get_pss_signature_algo_id psa_oid psa_params psp_hash psp_mgf_hash psp_salt_len].
  repeat (split; [reflexivity|]). rewrite Z.mod_small_iff by lia. lia.
Qed.

Lemma c44_verifies hd oid k hashed s :
  let pk := to_public_key (pssk_inner k) in
  (0 < h_size hd)%nat -> wf_pub pk -> uprec (pk_n pk) < 2 ^ 32 -> wf_uint (sg_inner s) ->
  Z.of_nat (h_size hd + pssk_salt_len k + 2) < 2 ^ 64 ->
  psvk_verify_prehash hd (pssk_verifying_key k) hashed s = Ok tt ->
  (psvk_verify_prehash hd (psvk_new_with_salt_len pk
     (Z.to_nat (psp_salt_len (psa_params (pssk_algorithm_id oid k))))) hashed s = Ok tt <->
   (pssk_salt_len k < 256)%nat).
Proof.
  intros pk Hh Hk H32 Hw Hs V. destruct (c44_identifier oid k) as (_ & _ & _ & E & X).
  change (pssk_verifying_key k) with (psvk_new_with_salt_len pk (pssk_salt_len k)) in V.
  pose proof (Z.mod_pos_bound (Z.of_nat (pssk_salt_len k)) 256 ltac:(lia)).
  assert (L : Z.of_nat (pssk_salt_len k) mod 256 <= Z.of_nat (pssk_salt_len k)) by (apply Z.mod_le; lia).
  split.
  - intros V2. assert (S2 : pssk_salt_len k = Z.to_nat (psp_salt_len (psa_params (pssk_algorithm_id oid k)))).
    { eapply (c44_verify_salt hd pk _ _ hashed s Hh Hk H32 Hw Hs); [rewrite E; lia|exact V|exact V2]. }
    apply X. rewrite E in S2 |- *. clear - S2 H. lia.
  - intros Lt. apply X in Lt. rewrite Lt, Nat2Z.id. exact V.
Qed.

(** ** Documents and the keys they stand for *)

Section Documents.
  Context (mx : Z) (Hmx : mx < 2 ^ 29).
  Notation fits v := (Z.of_nat (length (der v)) <= mx).

  Lemma doc_sizes ver opt v n e d p q dp dq qi : 0 <= n -> 0 <= e -> fits (key_doc ver opt v n e d p q dp dq qi) ->
    8 * octet_size n < 2 ^ 32 /\ 8 * octet_size e < 2 ^ 32.
  Proof.
    intros Hn He F. pose proof (fits_key_doc mx ver v _ opt F) as FK.
    assert (F1 : fits (AInteger n)) by (apply (fits_in mx _ (AInteger n) FK); simpl; tauto).
    assert (F2 : fits (AInteger e)) by (apply (fits_in mx _ (AInteger e) FK); simpl; tauto).
    apply int_fits_size in F1; auto. apply int_fits_size in F2; auto. lia.
  Qed.

  Lemma import_document tl ver opt v n e d p q dp dq qi : accepted_alg v ->
    ver = 0 \/ ver = 1 -> tl ver opt = true ->
    Forall (fun z => 0 <= z) [n; e; d; p; q; dp; dq; qi] ->
    fits (key_doc ver opt v n e d p q dp dq qi) ->
    let r := from_pkcs8_der mx tl (der (key_doc ver opt v n e d p q dp dq qi)) in
    (importable n e d p q -> exists k, r = Ok k /\ stored_as k n e d p q /\ validate k = Ok tt /\ sane_priv k /\
       (prime p -> prime q -> p <> q -> p * q = n -> good_priv k) /\
       (sk_pre k <> None <-> Z.gcd p q = 1)) /\
    (~ importable n e d p q -> p <> 1 -> q <> 1 -> r = Err ErrKeyMalformed) /\
    (forall k, r = Ok k -> importable n e d p q).
  Proof.
    intros V Hver T F8 F. rewrite !Forall_cons_iff in F8. destruct F8 as (A1 & A2 & A3 & A4 & A5 & A6 & A7 & A8 & _).
    cbv zeta. assert (M : mx < 2 ^ 32) by lia. rewrite import_key_doc by auto.
    destruct (doc_sizes _ _ _ _ _ _ _ _ _ _ _ A1 A2 F) as (S1 & S2).
    destruct (import_exact n e d p q dp dq qi) as (X & Y); auto.
    split; [exact X|]. split; [exact Y|]. intros k. apply import_only; auto.
  Qed.

  Lemma import_ignores_rest tl ver opt ver' opt' v v' n e d p q dp dq qi dp' dq' qi' :
    accepted_alg v -> accepted_alg v' ->
    ver = 0 \/ ver = 1 -> tl ver opt = true -> ver' = 0 \/ ver' = 1 -> tl ver' opt' = true ->
    Forall (fun z => 0 <= z) [n; e; d; p; q; dp; dq; qi; dp'; dq'; qi'] ->
    fits (key_doc ver opt v n e d p q dp dq qi) -> fits (key_doc ver' opt' v' n e d p q dp' dq' qi') ->
    from_pkcs8_der mx tl (der (key_doc ver opt v n e d p q dp dq qi)) =
    from_pkcs8_der mx tl (der (key_doc ver' opt' v' n e d p q dp' dq' qi')).
  Proof.
    intros V V' Hv T Hv' T' F8 F F'. rewrite !Forall_cons_iff in F8.
    destruct F8 as (A1 & A2 & A3 & A4 & A5 & A6 & A7 & A8 & A9 & A10 & A11 & _).
    assert (M : mx < 2 ^ 32) by lia. rewrite !import_key_doc by auto. reflexivity.
  Qed.

  Lemma import_public_document v n e : accepted_alg v -> 0 <= n -> 0 <= e -> fits (public_doc v n e) ->
    let r := from_public_key_der mx (der (public_doc v n e)) in
    (public_usable n e (limb_bits n) -> exists k, r = Ok k /\ wf_pub k /\
       pk_n k = mkU n (limb_bits n) /\ pk_e k = mkU e (limb_bits e)) /\
    (~ public_usable n e (limb_bits n) -> r = Err ErrKeyMalformed).
  Proof.
    intros V Hn He F. cbv zeta. assert (M : mx < 2 ^ 32) by lia. rewrite import_public_doc by auto.
    pose proof (fits_bits mx v _ F) as FK.
    assert (F1 : fits (AInteger n)) by (apply (fits_in mx _ (AInteger n) FK); simpl; tauto).
    assert (F2 : fits (AInteger e)) by (apply (fits_in mx _ (AInteger e) FK); simpl; tauto).
    apply int_fits_size in F1; auto. apply int_fits_size in F2; auto.
    destruct (import_public_unfold n e) as (A & B); auto; try lia.
    split; [|exact B]. intros U. destruct (A U) as (E & W). cbv zeta in *. eauto 10.
  Qed.

  (** Sizes again, from a successful parse. *)
  Lemma octets_bits_inv z b : 0 <= z -> octets_bits (min_octets z) = Ok b -> 8 * octet_size z < 2 ^ 32.
  Proof.
    intros Hz. unfold octets_bits. cbv zeta. rewrite min_octets_len by auto. intros H.
    apply bind_ok in H. destruct H as (_ & _ & H). apply bind_ok in H. destruct H as (u & H & _).
    unfold assert_ in H. destruct (Z.ltb_spec (8 * octet_size z) (2 ^ 32)); [assumption|discriminate].
  Qed.

  Lemma public_document l k : from_public_key_der mx l = Ok k ->
    let n := uval (pk_n k) in let e := uval (pk_e k) in
    (l = der (public_doc rsa_AlgorithmIdentifier n e) \/ l = der (public_doc pss_AlgorithmIdentifier n e)) /\
    public_usable n e (limb_bits n) /\ wf_pub k /\
    uprec (pk_n k) = limb_bits n /\ uprec (pk_e k) = limb_bits e.
  Proof.
    intros H. assert (M : mx < 2 ^ 32) by lia.
    destruct (public_der_inv mx M l k H) as (v & n & e & V & Hn & He & El & P & _).
    assert (S12 : 8 * octet_size n < 2 ^ 32 /\ 8 * octet_size e < 2 ^ 32).
    { unfold public_from_pkcs1 in P. cbn [p1_modulus p1_public_exponent] in P.
      apply bind_ok in P. destruct P as (b1 & P1 & P). apply bind_ok in P. destruct P as (? & _ & P).
      apply bind_ok in P. destruct P as (b2 & P2 & P).
      apply octets_bits_inv in P1; auto. apply octets_bits_inv in P2; auto. }
    destruct S12 as (S1 & S2).
    destruct (import_public_unfold n e Hn He S1 S2) as (A & B).
    destruct (public_usable_dec n e (limb_bits n)) as [U|U]; [|rewrite (B U) in P; discriminate].
    destruct (A U) as (E & W). cbv zeta in E, W. rewrite E in P. injection P as P. rewrite <- P.
    cbn [pk_n pk_e uval uprec]. split; [|auto]. destruct V as [->| ->]; auto.
  Qed.

  Lemma private_document tl l k : from_pkcs8_der mx tl l = Ok k ->
    exists ver opt v d p q dp dq qi, accepted_alg v /\ (ver = 0 \/ ver = 1) /\ tl ver opt = true /\
    let n := uval (pk_n (sk_pub k)) in let e := uval (pk_e (sk_pub k)) in
    l = der (key_doc ver opt v n e d p q dp dq qi) /\ stored_as k n e d p q /\ importable n e d p q /\
    validate k = Ok tt /\ sane_priv k.
  Proof.
    intros H. assert (M : mx < 2 ^ 32) by lia.
    destruct (private_der_inv mx M tl l k H) as (ver & opt & v & n & e & d & p & q & dp & dq & qi & V & Hver & T & Hn & He & Hd & Hp & Hq & Hdp & Hdq & Hqi & El & P & _).
    assert (S12 : 8 * octet_size n < 2 ^ 32 /\ 8 * octet_size e < 2 ^ 32).
    { pose proof P as PP. unfold private_from_pkcs1, p1_of in PP.
      cbn [pp_multi pp_modulus pp_public_exponent] in PP.
      apply bind_ok in PP. destruct PP as (b1 & P1 & PP). apply bind_ok in PP. destruct PP as (? & _ & PP).
      apply bind_ok in PP. destruct PP as (? & _ & PP). apply bind_ok in PP. destruct PP as (b2 & P2 & PP).
      apply octets_bits_inv in P1; auto. apply octets_bits_inv in P2; auto. }
    destruct S12 as (S1 & S2). pose proof (import_only n e d p q dp dq qi k Hn He Hd Hp Hq S1 S2 P) as I.
    destruct (import_exact n e d p q dp dq qi Hn He Hd Hp Hq S1 S2) as (X & _).
    destruct (X I) as (k' & E & St & Va & Sa & _). rewrite P in E. injection E as <-.
    exists ver, opt, v, d, p, q, dp, dq, qi. split; [exact V|]. split; [exact Hver|]. split; [exact T|]. cbv zeta. pose proof St as (E1 & E2 & _).
    rewrite E1, E2. cbn [uval]. auto.
  Qed.

  Lemma public_reencode l k : 2 ^ 21 <= mx -> from_public_key_der mx l = Ok k ->
    to_public_key_der mx k = Ok (der (public_doc rsa_AlgorithmIdentifier (uval (pk_n k)) (uval (pk_e k)))).
  Proof.
    intros HM H. destruct (public_document l k H) as (_ & U & W & P1 & P2).
    apply public_round_trip; auto; try lia.
    - rewrite P1. destruct U as (U & _). lia.
    - rewrite P2. destruct U as (_ & _ & _ & _ & _ & U).
      pose proof (octet_size_u64 (uval (pk_e k)) ltac:(destruct W as (_ & ((? & _) & _) & _); lia)) as S1.
      assert (octet_size (uval (pk_e k)) <= 5).
      { apply octet_size_le; [destruct W as (_ & ((? & _) & _) & _); lia|lia|]. lia. }
      unfold limb_bits. Z.div_mod_to_equations. lia.
  Qed.

  Lemma private_reencode tl l k p q : tl 0 [] = true -> 2 ^ 21 <= mx -> from_pkcs8_der mx tl l = Ok k ->
    map uval (sk_primes k) = [p; q] -> Z.gcd p q = 1 ->
    let n := uval (pk_n (sk_pub k)) in let e := uval (pk_e (sk_pub k)) in let d := uval (sk_d k) in
    exists qi k', 0 <= qi < p /\ (q * qi) mod p = 1 /\
    let doc := der (private_doc rsa_AlgorithmIdentifier n e d p q (d mod (p - 1)) (d mod (q - 1)) qi) in
    to_pkcs8_der mx k = Ok doc /\ from_pkcs8_der mx tl doc = Ok k' /\ priv_eqb k' k = true.
  Proof.
    intros T0 HM H EP G. destruct (private_document tl l k H) as (ver & opt & v & d & p' & q' & dp & dq & qi & V & _ & _ & El & St & I & Va & Sa).
    destruct St as (E1 & E2 & E3 & E4). rewrite E4 in EP. cbn [map uval] in EP. injection EP as -> ->.
    destruct Sa as (Wp & Wd & Wpr & Sa). rewrite E4 in Wpr. rewrite !Forall_cons_iff in Wpr. destruct Wpr as (W1 & W2 & _).
    pose proof I as (U & I1 & I2 & I3 & _). destruct U as (U & _).
    destruct (export_round_trip mx tl k _ _ T0 ltac:(lia) Wp Wd ltac:(rewrite E3; cbn [uprec]; lia) E4 W1 W2 Va
      ltac:(rewrite E3; cbn [uprec]; lia) eq_refl G) as (qi' & Q1 & Q2 & X & Y & _).
    cbn [uval] in *. rewrite E3 in Y at 1. cbn [uval] in Y. destruct (Y (conj I1 (conj I2 I3))) as (k' & K1 & K2 & _).
    exists qi', k'. auto 10.
  Qed.
End Documents.
