(** Proofs for C105: why an encoded key is refused. *)
From Coq Require Import String ZArith List Bool Lia.
From Coq Require Import Init.Byte.
From Verif Require Import Base Bigint SpecRFC SpecKey SpecDer SpecSerde SpecRefusal MHash MPkcs1 MRsa MGenerate MKey MApi MWrap
  MDer MEncoding MSerde KeyDefs BytesLemmas BigintLemmas PSig PSign PKey PPub PDer PEncoding PCodec PWrapEnc PSerde.
Import ListNotations.
Local Open Scope list_scope.
Local Open Scope Z_scope.

Lemma bind_err {A B} (m : outcome A) (f : A -> outcome B) e : bind m f = Err e ->
  m = Err e \/ exists a, m = Ok a /\ f a = Err e.
Proof. destruct m; cbn [bind]; intros H; try discriminate; [right; eauto|left; congruence]. Qed.

Lemma guard_err b e0 e : guard b e0 = Err e -> b = false /\ e = e0.
Proof. unfold guard. destruct b; intros H; [discriminate|]. injection H as <-. auto. Qed.

Ltac err H := apply bind_err in H; destruct H as [H|(? & ? & H)].

(** ** Everything the decoder itself refuses is one error *)
Section Decode.
  Context (mx : Z).

  Lemma finish_err l e : finish l = Err e -> e = ErrAsn1.
  Proof. destruct l; intros H; [discriminate|]. injection H as <-. reflexivity. Qed.

  Lemma long_err k l e : long_length mx k l = Err e -> e = ErrAsn1.
  Proof.
    unfold long_length, guard. intros H.
    repeat (match type of H with
            | context [if ?x then _ else _] => destruct x
            | context [match ?x with _ => _ end] => destruct x
            end; cbn [bind] in H; try discriminate; try (injection H as <-; reflexivity)).
  Qed.

  Lemma length_err l e : decode_length mx l = Err e -> e = ErrAsn1.
  Proof.
    unfold decode_length. destruct l as [|b l]; cbv zeta; [intros H; injection H as <-; reflexivity|].
    destruct (_ <? _).
    { intros H. err H; [apply guard_err in H; apply H|discriminate]. }
    do 4 (destruct (_ =? _); [apply long_err|]). intros H; injection H as <-; reflexivity.
  Qed.

  Lemma tlv_err l e : decode_tlv mx l = Err e -> e = ErrAsn1.
  Proof.
    unfold decode_tlv. destruct l as [|t l]; intros H; [injection H as <-; reflexivity|].
    err H; [eapply length_err; exact H|]. destruct x as (n & rest).
    destruct (_ <? _); [injection H as <-; reflexivity|discriminate].
  Qed.

  Lemma tagged_err t l e : decode_tagged mx t l = Err e -> e = ErrAsn1.
  Proof.
    unfold decode_tagged. intros H. err H; [eapply tlv_err; exact H|]. destruct x as ((t' & c) & rest).
    destruct (byte_eqb _ _); [discriminate|injection H as <-; reflexivity].
  Qed.

  Lemma value_err c e : uint_value c = Err e -> e = ErrAsn1.
  Proof.
    unfold uint_value, guard. intros H.
    repeat (match type of H with
            | context [if ?x then _ else _] => destruct x
            | context [match ?x with _ => _ end] => destruct x
            end; cbn [bind] in H; try discriminate; try (injection H as <-; reflexivity)).
  Qed.

  Lemma uint_err l e : decode_uint mx l = Err e -> e = ErrAsn1.
  Proof.
    unfold decode_uint. intros H. err H; [eapply tagged_err; exact H|]. destruct x as (c & rest).
    err H; [eapply value_err; exact H|]. discriminate.
  Qed.

  Lemma alg_err l e : decode_alg_id mx l = Err e -> e = ErrAsn1.
  Proof.
    unfold decode_alg_id. intros H. err H; [eapply tagged_err; exact H|]. destruct x as (b & r).
    err H; [eapply tagged_err; exact H|]. destruct x as (oid & b1).
    destruct b1; [discriminate|]. err H; [eapply tlv_err; exact H|]. destruct x as ((t & v) & b2).
    err H; [eapply finish_err; exact H|]. discriminate.
  Qed.

  Lemma p1_public_err l e : decode_p1_public mx l = Err e -> e = ErrAsn1.
  Proof.
    unfold decode_p1_public. intros H. err H; [eapply tagged_err; exact H|]. destruct x as (b & r).
    do 2 (err H; [eapply uint_err; exact H|]; destruct x as (? & ?)).
    do 2 (err H; [eapply finish_err; exact H|]). discriminate.
  Qed.

  Lemma p1_private_err l e : decode_p1_private mx l = Err e -> e = ErrAsn1.
  Proof.
    unfold decode_p1_private. intros H. err H; [eapply tagged_err; exact H|]. destruct x as (b & r).
    do 9 (err H; [eapply uint_err; exact H|]; destruct x as (? & ?)).
    err H.
    - destruct l0 as [|y [|]]; try (injection H as <-; reflexivity).
      destruct (byte_eqb y x00); [err H; [eapply finish_err; exact H|discriminate]|].
      destruct (byte_eqb y x01); [discriminate|injection H as <-; reflexivity].
    - err H; [eapply finish_err; exact H|]. discriminate.
  Qed.

  Lemma info_err tl l e : decode_key_info mx tl l = Err e -> e = ErrAsn1.
  Proof.
    unfold decode_key_info. intros H. err H; [eapply tagged_err; exact H|]. destruct x as (b & r).
    err H; [eapply uint_err; exact H|]. destruct x as (v & b1).
    err H.
    { destruct v as [|y [|]]; try (injection H as <-; reflexivity).
      destruct (byte_eqb y x00); [discriminate|].
      destruct (byte_eqb y x01); [discriminate|injection H as <-; reflexivity]. }
    err H; [eapply alg_err; exact H|]. destruct x0 as (a & b2).
    err H; [eapply tagged_err; exact H|]. destruct x0 as (key & b3).
    err H; [apply guard_err in H; apply H|].
    err H; [eapply finish_err; exact H|]. discriminate.
  Qed.

  Lemma spki_err l e : decode_spki mx l = Err e -> e = ErrAsn1.
  Proof.
    unfold decode_spki. intros H. err H; [eapply tagged_err; exact H|]. destruct x as (b & r).
    err H; [eapply alg_err; exact H|]. destruct x as (a & b1).
    err H; [eapply tagged_err; exact H|]. destruct x as (c & b2).
    do 2 (err H; [eapply finish_err; exact H|]).
    destruct c as [|u key]; [injection H as <-; reflexivity|].
    destruct (_ || _); [injection H as <-; reflexivity|discriminate].
  Qed.

End Decode.

(** ** What was read before the refusal *)
Section Shape.
  Context (mx : Z) (Hmx : mx < 2 ^ 32).

  (** The parameters as octets. *)
  Definition params_of (a : alg_id) : option (byte * list byte) :=
    match alg_params a with None => None | Some p => Some (any_tag p, any_value p) end.

  Lemma alg_shape l a rest : decode_alg_id mx l = Ok (a, rest) ->
    l = der (AlgorithmIdentifier (alg_oid a) (params_of a)) ++ rest.
  Proof.
    unfold decode_alg_id. intros H. apply bind_ok in H. destruct H as ((b & r) & H0 & H).
    apply bind_ok in H. destruct H as ((oid & b1) & H1 & H).
    apply (decode_tagged_inv mx Hmx) in H0. apply (decode_tagged_inv mx Hmx) in H1.
    unfold AlgorithmIdentifier, params_of. destruct b1 as [|x b1].
    - injection H as <- <-. cbn [alg_oid alg_params der map concat]. subst b. exact H0.
    - apply bind_ok in H. destruct H as (((t & v) & b2) & H2 & H). apply (decode_tlv_inv mx Hmx) in H2.
      apply bind_ok in H. destruct H as ([] & F & H). apply finish_ok in F. injection H as <- <-.
      cbn [alg_oid alg_params any_tag any_value der map concat]. subst b b2. rewrite H2 in H0. exact H0.
  Qed.

  Lemma spki_shape l s : decode_spki mx l = Ok s ->
    exists u, si_unused s = b2z u /\
      l = der (PublicKeyDocument (AlgorithmIdentifier (alg_oid (si_alg s)) (params_of (si_alg s))) u (si_key s)).
  Proof.
    unfold decode_spki. intros HS. apply bind_ok in HS. destruct HS as ((b & r) & H0 & HS).
    apply bind_ok in HS. destruct HS as ((a & b1) & H1 & HS).
    apply bind_ok in HS. destruct HS as ((c & b2) & H2 & HS).
    apply bind_ok in HS. destruct HS as ([] & F1 & HS). apply bind_ok in HS. destruct HS as ([] & F2 & HS).
    apply finish_ok in F1. apply finish_ok in F2. subst b2 r.
    destruct c as [|u key]; [discriminate|]. destruct (_ || _); [discriminate|]. injection HS as <-.
    cbn [si_alg si_unused si_key]. exists u. split; [reflexivity|].
    apply (decode_tagged_inv mx Hmx) in H0. apply (decode_tagged_inv mx Hmx) in H2. apply alg_shape in H1.
    rewrite app_nil_r in H0. rewrite H0, H1, H2. reflexivity.
  Qed.

  Lemma info_shape tl l s : decode_key_info mx tl l = Ok s ->
    exists ver opt, (ver = 0 \/ ver = 1) /\ tl ver opt = true /\
      l = der (OneAsymmetricKey ver (AlgorithmIdentifier (alg_oid (ki_alg s)) (params_of (ki_alg s))) (ki_key s) opt).
  Proof.
    intros HS. unfold decode_key_info in HS. apply bind_ok in HS. destruct HS as ((b & r) & H0 & HS).
    apply bind_ok in HS. destruct HS as ((vv & bv) & Hv & HS).
    apply bind_ok in HS. destruct HS as (ver & Hz & HS).
    apply bind_ok in HS. destruct HS as ((a & b1) & H1 & HS).
    apply bind_ok in HS. destruct HS as ((c & b2) & H2 & HS).
    apply bind_ok in HS. destruct HS as ([] & F1 & HS). apply bind_ok in HS. destruct HS as ([] & F2 & HS).
    apply guard_ok in F1. apply finish_ok in F2. subst r. injection HS as <-.
    cbn [ki_alg ki_key] in *.
    assert (Vv : (ver = 0 /\ vv = [x00]) \/ (ver = 1 /\ vv = [x01])).
    { destruct vv as [|x [|y vv]]; try discriminate.
      destruct (byte_eqb x x00) eqn:E0; [apply byte_eqb_eq in E0; subst x; injection Hz as <-; auto|].
      destruct (byte_eqb x x01) eqn:E1; [apply byte_eqb_eq in E1; subst x; injection Hz as <-; auto|].
      discriminate. }
    apply (decode_tagged_inv mx Hmx) in H0. apply (decode_tagged_inv mx Hmx) in H2. apply (decode_uint_inv mx Hmx) in Hv.
    destruct Hv as (z & Hz0 & Ez & ->).
    assert (z = ver) as ->.
    { apply (f_equal os2ip) in Ez. rewrite min_octets_value in Ez by auto. rewrite <- Ez.
      destruct Vv as [(-> & ->)|(-> & ->)]; reflexivity. }
    apply alg_shape in H1.
    exists ver, b2. split; [destruct Vv as [(-> & _)|(-> & _)]; auto|]. split; [exact F1|].
    rewrite app_nil_r in H0. rewrite H0, H1, H2.
    unfold OneAsymmetricKey. cbn [der map concat]. rewrite app_nil_r. reflexivity.
  Qed.

  Lemma multi_shape l k : decode_p1_private mx l = Ok k -> pp_multi k = true ->
    exists n e d p q dp dq qi others,
      Forall (fun z => 0 <= z) [n; e; d; p; q; dp; dq; qi] /\
      l = der (RSAPrivateKey_multi n e d p q dp dq qi others).
  Proof.
    unfold decode_p1_private. intros H. apply bind_ok in H. destruct H as ((b & r) & H0 & H).
    apply bind_ok in H. destruct H as ((vv & bv) & Hv & H).
    apply bind_ok in H. destruct H as ((vn & b1) & H1 & H).
    apply bind_ok in H. destruct H as ((ve & b2) & H2 & H).
    apply bind_ok in H. destruct H as ((vd & b3) & H3 & H).
    apply bind_ok in H. destruct H as ((vp & b4) & H4 & H).
    apply bind_ok in H. destruct H as ((vq & b5) & H5 & H).
    apply bind_ok in H. destruct H as ((vdp & b6) & H6 & H).
    apply bind_ok in H. destruct H as ((vdq & b7) & H7 & H).
    apply bind_ok in H. destruct H as ((vqi & b8) & H8 & H).
    apply bind_ok in H. destruct H as (multi & HM & H).
    apply bind_ok in H. destruct H as ([] & F2 & H). injection H as <-. cbn [pp_multi].
    intros ->. apply finish_ok in F2. subst r.
    assert (V : vv = [x01]).
    { destruct vv as [|x [|y vv]]; try discriminate. destruct (byte_eqb x x00) eqn:E.
      - apply bind_ok in HM. destruct HM as (? & _ & HM). discriminate.
      - destruct (byte_eqb x x01) eqn:E1; [|discriminate]. apply byte_eqb_eq in E1. subst x. reflexivity. }
    subst vv.
    apply (decode_tagged_inv mx Hmx) in H0. apply (decode_uint_inv mx Hmx) in Hv, H1, H2, H3, H4, H5, H6, H7, H8.
    destruct H1 as (n & Hn & -> & ->). destruct H2 as (e & He & -> & ->). destruct H3 as (d & Hd & -> & ->).
    destruct H4 as (p & Hp & -> & ->). destruct H5 as (q & Hq & -> & ->). destruct H6 as (dp & Hdp & -> & ->).
    destruct H7 as (dq & Hdq & -> & ->). destruct H8 as (qi & Hqi & -> & ->).
    destruct Hv as (z & Hz & Ez & ->).
    assert (z = 1) as ->.
    { apply (f_equal os2ip) in Ez. rewrite min_octets_value in Ez by auto. rewrite <- Ez. reflexivity. }
    exists n, e, d, p, q, dp, dq, qi, b8. split; [repeat constructor; assumption|].
    rewrite app_nil_r in H0. rewrite H0. unfold RSAPrivateKey_multi. cbn [der map concat].
    rewrite app_nil_r. reflexivity.
  Qed.
End Shape.

(** ** The identifier *)
Lemma identifier_err a e : verify_algorithm_id a = Err e ->
  (e = ErrOidUnknown /\ ~ rsa_oid (alg_oid a)) \/
  (e = ErrParametersMalformed /\ alg_oid a = rsaEncryption /\ params_of a = None) \/
  (e = ErrKeyMalformed /\ wrong_params (alg_oid a) (params_of a)).
Proof.
  intros H. destruct (c34_error a) as [E|[E|[E|(E & N1 & N2)]]]; try (rewrite E in H; discriminate);
    pose proof E as E0; rewrite E in H; injection H as <-.
  - right; right. split; [reflexivity|]. unfold verify_algorithm_id in E. unfold wrong_params, params_of.
    change rsaEncryption with oid_rsa_encryption. change id_RSASSA_PSS with oid_rsassa_pss.
    destruct (bytes_eqb (alg_oid a) oid_rsa_encryption) eqn:B1.
    + apply bytes_eqb_eq in B1. left. split; [exact B1|]. destruct (alg_params a) as [p|]; [|discriminate E].
      split; [discriminate|]. intros X. injection X as X1 X2.
      destruct p as [t v]. cbn [any_tag any_value] in *. subst. discriminate E.
    + destruct (bytes_eqb (alg_oid a) oid_rsassa_pss) eqn:B2; [|discriminate].
      apply bytes_eqb_eq in B2. right. split; [exact B2|]. destruct (alg_params a); [discriminate|discriminate E].
  - right; left. split; [reflexivity|]. unfold verify_algorithm_id in E. unfold params_of.
    change rsaEncryption with oid_rsa_encryption.
    destruct (bytes_eqb (alg_oid a) oid_rsa_encryption) eqn:B1.
    + apply bytes_eqb_eq in B1. split; [exact B1|]. destruct (alg_params a) as [p|]; [|reflexivity].
      destruct (negb _); discriminate.
    + destruct (bytes_eqb (alg_oid a) oid_rsassa_pss); [destruct (alg_params a)|]; discriminate.
  - left. split; [reflexivity|]. intros [X|X]; contradiction.
Qed.

(** ** The numbers *)
Lemma octets_bits_err l e : octets_bits l = Err e -> e = ErrKeyMalformed.
Proof.
  unfold octets_bits. intros H. err H; [apply guard_err in H; apply H|]. err H; [|discriminate].
  unfold assert_ in H. match type of H with context [if ?b then _ else _] => destruct b end; discriminate H.
Qed.
Lemma map_err_err {A} (f : error -> error) (m : outcome A) e0 e : (forall x, f x = e0) ->
  map_err f m = Err e -> e = e0.
Proof. intros F. destruct m; cbn [map_err]; intros H; try discriminate. injection H as <-. apply F. Qed.

Lemma public_err k e : public_from_pkcs1 k = Err e -> e = ErrKeyMalformed.
Proof.
  unfold public_from_pkcs1, uint_from_slice. intros H.
  err H; [eapply octets_bits_err; exact H|]. err H; [eapply map_err_err; [|exact H]; reflexivity|].
  err H; [eapply octets_bits_err; exact H|]. err H; [eapply map_err_err; [|exact H]; reflexivity|].
  eapply map_err_err; [|exact H]. reflexivity.
Qed.
Lemma private_err k e : private_from_pkcs1 k = Err e ->
  (e = ErrPkcs1Version /\ pp_multi k = true) \/ (e = ErrKeyMalformed /\ pp_multi k = false).
Proof.
  unfold private_from_pkcs1, uint_from_slice. destruct (pp_multi k); intros H; [injection H as <-; auto|].
  right. split; [|reflexivity].
  err H; [eapply octets_bits_err; exact H|]. err H; [eapply map_err_err; [|exact H]; reflexivity|].
  err H; [apply guard_err in H; apply H|].
  err H; [eapply octets_bits_err; exact H|].
  do 4 (err H; [eapply map_err_err; [|exact H]; reflexivity|]).
  eapply map_err_err; [|exact H]. reflexivity.
Qed.

Lemma usable_sizes n e : 0 <= n -> 0 <= e -> public_usable n e (limb_bits n) ->
  8 * octet_size n < 2 ^ 32 /\ 8 * octet_size e < 2 ^ 32.
Proof.
  intros Hn He (A & _ & _ & _ & _ & B). split.
  - pose proof (octet_size_pos n). unfold limb_bits in A.
    pose proof (Z.div_mod (8 * octet_size n + 63) 64 ltac:(lia)).
    pose proof (Z.mod_pos_bound (8 * octet_size n + 63) 64 ltac:(lia)). lia.
  - apply octet_size_u64. lia.
Qed.

(** ** Documents with any identifier *)
Section Read.
  Context (mx : Z) (Hmx : mx < 2 ^ 32).
  Notation fits v := (Z.of_nat (length (der v)) <= mx).

  Definition any_of (params : option (byte * list byte)) : option any :=
    match params with None => None | Some (t, c) => Some (mkAny t c) end.
  Lemma any_of_params oid params : params_of (mkAlg oid (any_of params)) = params.
  Proof. destruct params as [(t & c)|]; reflexivity. Qed.

  Lemma alg_read oid params rest : fits (AlgorithmIdentifier oid params) ->
    decode_alg_id mx (der (AlgorithmIdentifier oid params) ++ rest) = Ok (mkAlg oid (any_of params), rest).
  Proof.
    unfold AlgorithmIdentifier. intros F. unfold decode_alg_id.
    assert (F1 : fits (AOid oid)) by (apply (fits_in mx _ _ F); simpl; auto).
    cbn [der] in F1. destruct params as [(t & c)|]; cbn [der map concat any_of] in *.
    - assert (F2 : Z.of_nat (length (der_tlv t c)) <= mx).
      { apply (fits_in mx [AOid oid; ARaw (der_tlv t c)] (ARaw (der_tlv t c)) F). simpl. auto. }
      rewrite app_nil_r in *. change x30 with tag_sequence in *.
      rewrite decode_tagged_ok by (auto; eapply der_fits; exact F). cbn [bind].
      change x06 with tag_oid. rewrite decode_tagged_ok by (auto; eapply der_fits; exact F1). cbn [bind].
      pose proof (decode_tlv_ok mx Hmx t c []) as D. rewrite app_nil_r in D.
      unfold der_tlv at 1. fold (der_tlv t c).
      rewrite D by (eapply der_fits; exact F2). reflexivity.
    - change x30 with tag_sequence in *.
      rewrite decode_tagged_ok by (auto; eapply der_fits; exact F). cbn [bind].
      change x06 with tag_oid. rewrite decode_tagged_ok by (auto; eapply der_fits; exact F1). reflexivity.
  Qed.

  Lemma spki_read oid params u key : b2z u <= 7 -> (u <> x00 -> key <> []) ->
    fits (PublicKeyDocument (AlgorithmIdentifier oid params) u key) ->
    decode_spki mx (der (PublicKeyDocument (AlgorithmIdentifier oid params) u key)) =
    Ok (mkSpki (mkAlg oid (any_of params)) (b2z u) key).
  Proof.
    intros U K F. unfold decode_spki.
    assert (F1 : fits (AlgorithmIdentifier oid params)) by (apply (fits_in mx _ _ F); simpl; auto).
    assert (F2 : fits (ARaw (der_tlv x03 (u :: key)))) by (apply (fits_in mx _ _ F); simpl; auto).
    unfold PublicKeyDocument in *. set (a := AlgorithmIdentifier oid params) in *.
    assert (E : der (ASequence [a; ARaw (der_tlv x03 (u :: key))]) =
      der_tlv x30 (der a ++ der_tlv x03 (u :: key) ++ [])) by reflexivity.
    rewrite E in *. change x30 with tag_sequence in *.
    rewrite <- (app_nil_r (der_tlv _ (der a ++ _))).
    rewrite decode_tagged_ok by (auto; eapply der_fits; exact F). cbn [bind].
    unfold a in *. rewrite alg_read by auto. cbn [bind].
    change x03 with tag_bit_string. cbn [der] in F2.
    rewrite decode_tagged_ok by (auto; eapply der_fits; exact F2). cbn [bind finish].
    destruct (Z.ltb_spec 7 (b2z u)); [lia|]. cbn [orb].
    destruct (Z.ltb_spec 0 (b2z u)) as [P|P]; cbn [andb]; [|reflexivity].
    destruct key; [|reflexivity]. exfalso. apply K; [|reflexivity]. intros ->. vm_compute in P. discriminate P.
  Qed.

  Lemma info_read tl ver oid params key opt : ver = 0 \/ ver = 1 -> tl ver opt = true ->
    fits (OneAsymmetricKey ver (AlgorithmIdentifier oid params) key opt) ->
    decode_key_info mx tl (der (OneAsymmetricKey ver (AlgorithmIdentifier oid params) key opt)) =
    Ok (mkKI (mkAlg oid (any_of params)) key).
  Proof.
    intros Hv T F. unfold decode_key_info. unfold OneAsymmetricKey in *.
    set (v := AlgorithmIdentifier oid params) in *.
    assert (F0 : fits (AInteger ver)) by (apply (fits_in mx _ _ F); simpl; auto).
    assert (F1 : fits v) by (apply (fits_in mx _ _ F); simpl; auto).
    assert (F2 : fits (AOctets key)) by (apply (fits_in mx _ _ F); simpl; auto).
    assert (E : der (ASequence [AInteger ver; v; AOctets key; ARaw opt]) =
      der_tlv x30 (der (AInteger ver) ++ der v ++ der_tlv x04 key ++ opt))
      by (cbn [der map concat]; rewrite app_nil_r; reflexivity).
    rewrite E in *. change x30 with tag_sequence in *.
    rewrite <- (app_nil_r (der_tlv _ (der (AInteger ver) ++ _))).
    rewrite decode_tagged_ok by (auto; eapply der_fits; exact F). cbn [bind].
    rewrite decode_uint_ok by (auto; lia). cbn [bind].
    assert (Ev : match min_octets ver with
                 | [b] => if byte_eqb b x00 then Ok 0 else if byte_eqb b x01 then Ok 1 else Err ErrAsn1
                 | _ => Err ErrAsn1
                 end = Ok ver) by (destruct Hv as [->| ->]; reflexivity).
    rewrite Ev. cbn [bind].
    unfold v in *. rewrite alg_read by auto. cbn [bind].
    change x04 with tag_octet_string. rewrite decode_tagged_ok by (auto; eapply der_fits; exact F2).
    cbn [bind]. rewrite T. reflexivity.
  Qed.
End Read.

Lemma identifier_report a :
  (~ rsa_oid (alg_oid a) -> verify_algorithm_id a = Err ErrOidUnknown) /\
  (alg_oid a = rsaEncryption -> params_of a = None -> verify_algorithm_id a = Err ErrParametersMalformed) /\
  (wrong_params (alg_oid a) (params_of a) -> verify_algorithm_id a = Err ErrKeyMalformed).
Proof.
  destruct a as [oid params]. cbn [alg_oid]. unfold params_of, verify_algorithm_id. cbn [alg_oid alg_params].
  change oid_rsa_encryption with rsaEncryption. change oid_rsassa_pss with id_RSASSA_PSS.
  split; [|split].
  - intros N. destruct (bytes_eqb oid rsaEncryption) eqn:E; [apply bytes_eqb_eq in E; exfalso; apply N; left; exact E|].
    destruct (bytes_eqb oid id_RSASSA_PSS) eqn:E2; [apply bytes_eqb_eq in E2; exfalso; apply N; right; exact E2|].
    reflexivity.
  - intros ->. destruct params; [discriminate|]. reflexivity.
  - intros [(-> & N1 & N2)|(-> & N1)].
    + replace (bytes_eqb rsaEncryption rsaEncryption) with true by reflexivity.
      destruct params as [[t c]|]; [|contradiction N1; reflexivity]. cbn [any_tag any_value] in N2.
      destruct (any_eqb (mkAny t c) any_null) eqn:E; [|reflexivity]. exfalso. apply N2.
      unfold any_eqb in E. cbn [any_tag any_value any_null] in E. apply andb_prop in E. destruct E as (E1 & E2).
      apply byte_eqb_eq in E1. apply bytes_eqb_eq in E2. subst. reflexivity.
    + replace (bytes_eqb id_RSASSA_PSS rsaEncryption) with false by reflexivity.
      replace (bytes_eqb id_RSASSA_PSS id_RSASSA_PSS) with true by reflexivity.
      destruct params; [reflexivity|]. contradiction N1. reflexivity.
Qed.

(** ** The two decoders *)
Section Decoders.
  Context (mx : Z) (Hmx : mx < 2 ^ 29).
  Notation fits v := (Z.of_nat (length (der v)) <= mx).
  Let M : mx < 2 ^ 32. Proof. lia. Qed.

  Lemma public_refusal l err : from_public_key_der mx l = Err err ->
    (err = ErrAsn1 /\ forall v n e, accepted_alg v -> 0 <= n -> 0 <= e -> fits (public_doc v n e) -> l <> der (public_doc v n e)) \/
    (exists oid params u key, l = der (PublicKeyDocument (AlgorithmIdentifier oid params) u key) /\
      ((err = ErrOidUnknown /\ ~ rsa_oid oid) \/
       (err = ErrParametersMalformed /\ oid = rsaEncryption /\ params = None) \/
       (err = ErrKeyMalformed /\
        (wrong_params oid params \/
         (rsa_oid oid /\ u <> x00) \/
         (rsa_oid oid /\ u = x00 /\ exists n e, 0 <= n /\ 0 <= e /\ key = der (RSAPublicKey n e) /\
            ~ public_usable n e (limb_bits n)))))).
  Proof.
    intros H. pose proof H as H0.
    assert (W : err = ErrAsn1 -> err = ErrAsn1 /\ forall v n e, accepted_alg v -> 0 <= n -> 0 <= e ->
       fits (public_doc v n e) -> l <> der (public_doc v n e)).
    { intros ->. split; [reflexivity|]. intros v n e V Hn He F ->.
      rewrite (import_public_doc mx M) in H0 by auto. apply public_err in H0. discriminate. }
    unfold from_public_key_der in H. apply bind_err in H. destruct H as [H|(s & HS & H)].
    { left. apply W. eapply spki_err. exact H. }
    destruct (spki_shape mx M l s HS) as (u & Hu & El).
    unfold public_try_from in H. apply bind_err in H. destruct H as [H|([] & V & H)].
    { right. exists (alg_oid (si_alg s)), (params_of (si_alg s)), u, (si_key s). split; [exact El|].
      destruct (identifier_err _ _ H) as [(-> & X)|[(-> & X)|(-> & X)]]; auto 6. }
    assert (RO : rsa_oid (alg_oid (si_alg s))).
    { apply c34_exact in V. destruct V as [(X & _)|(X & _)]; [left|right]; exact X. }
    apply bind_err in H. destruct H as [H|([] & U & H)].
    { right. exists (alg_oid (si_alg s)), (params_of (si_alg s)), u, (si_key s). split; [exact El|].
      apply guard_err in H. destruct H as (H & ->). right. right. split; [reflexivity|]. right. left. split; [exact RO|].
      intros ->. rewrite Hu in H. discriminate. }
    apply bind_err in H. destruct H as [H|(pk & HP & H)].
    { left. apply W. eapply p1_public_err. exact H. }
    right. exists (alg_oid (si_alg s)), (params_of (si_alg s)), u, (si_key s). split; [exact El|].
    right. right. pose proof (public_err _ _ H) as ->. split; [reflexivity|]. right. right. split; [exact RO|].
    apply guard_ok in U. apply Z.eqb_eq in U.
    split; [apply b2z_inj; rewrite <- Hu, U; reflexivity|].
    destruct (decode_public_inv mx M _ _ HP) as (n & e & Hn & He & E & ->).
    exists n, e. split; [exact Hn|]. split; [exact He|]. split; [exact E|]. intros X.
    destruct (usable_sizes n e Hn He X) as (S1 & S2).
    destruct (import_public_unfold n e Hn He S1 S2) as (A & _). destruct (A X) as (A1 & _). rewrite A1 in H. discriminate.
  Qed.

  Lemma private_refusal tl l err : from_pkcs8_der mx tl l = Err err ->
    (err = ErrAsn1 /\ forall ver opt v n e d p q dp dq qi, accepted_alg v -> ver = 0 \/ ver = 1 -> tl ver opt = true ->
       Forall (fun z => 0 <= z) [n; e; d; p; q; dp; dq; qi] -> fits (key_doc ver opt v n e d p q dp dq qi) ->
       l <> der (key_doc ver opt v n e d p q dp dq qi)) \/
    (exists ver opt oid params key, (ver = 0 \/ ver = 1) /\ tl ver opt = true /\
      l = der (OneAsymmetricKey ver (AlgorithmIdentifier oid params) key opt) /\
      ((err = ErrOidUnknown /\ ~ rsa_oid oid) \/
       (err = ErrParametersMalformed /\ oid = rsaEncryption /\ params = None) \/
       (err = ErrPkcs1Version /\ rsa_oid oid /\ exists n e d p q dp dq qi others,
          key = der (RSAPrivateKey_multi n e d p q dp dq qi others)) \/
       (err = ErrKeyMalformed /\
        (wrong_params oid params \/
         (rsa_oid oid /\ exists n e d p q dp dq qi, Forall (fun z => 0 <= z) [n; e; d; p; q; dp; dq; qi] /\
            key = der (RSAPrivateKey n e d p q dp dq qi) /\ ~ importable n e d p q))))).
  Proof.
    intros H. pose proof H as H0.
    assert (W : err = ErrAsn1 -> err = ErrAsn1 /\ forall ver opt v n e d p q dp dq qi, accepted_alg v -> ver = 0 \/ ver = 1 -> tl ver opt = true ->
       Forall (fun z => 0 <= z) [n; e; d; p; q; dp; dq; qi] -> fits (key_doc ver opt v n e d p q dp dq qi) ->
       l <> der (key_doc ver opt v n e d p q dp dq qi)).
    { intros ->. split; [reflexivity|]. intros ver opt v n e d p q dp dq qi V Hver T F8 F ->.
      rewrite !Forall_cons_iff in F8. destruct F8 as (A1 & A2 & A3 & A4 & A5 & A6 & A7 & A8 & _).
      rewrite (import_key_doc mx M) in H0 by auto. apply private_err in H0. destruct H0 as [(X & _)|(X & _)]; discriminate. }
    unfold from_pkcs8_der in H. apply bind_err in H. destruct H as [H|(s & HS & H)].
    { left. apply W. eapply info_err. exact H. }
    destruct (info_shape mx M tl l s HS) as (ver & opt & Hver & T & El).
    unfold private_try_from in H. apply bind_err in H. destruct H as [H|([] & V & H)].
    { right. exists ver, opt, (alg_oid (ki_alg s)), (params_of (ki_alg s)), (ki_key s).
      split; [exact Hver|]. split; [exact T|]. split; [exact El|].
      destruct (identifier_err _ _ H) as [(-> & X)|[(-> & X)|(-> & X)]]; auto 6. }
    assert (RO : rsa_oid (alg_oid (ki_alg s))).
    { apply c34_exact in V. destruct V as [(X & _)|(X & _)]; [left|right]; exact X. }
    apply bind_err in H. destruct H as [H|(pk & HP & H)].
    { left. apply W. eapply p1_private_err. exact H. }
    right. exists ver, opt, (alg_oid (ki_alg s)), (params_of (ki_alg s)), (ki_key s).
    split; [exact Hver|]. split; [exact T|]. split; [exact El|].
    destruct (private_err _ _ H) as [(-> & Mu)|(-> & Mu)].
    - right. right. left. split; [reflexivity|]. split; [exact RO|].
      destruct (multi_shape mx M _ _ HP Mu) as (n & e & d & p & q & dp & dq & qi & o & _ & E). eauto 12.
    - right. right. right. split; [reflexivity|]. right. split; [exact RO|].
      destruct (decode_private_inv mx M _ _ HP Mu) as
        (n & e & d & p & q & dp & dq & qi & G1 & G2 & G3 & G4 & G5 & G6 & G7 & G8 & Ek & Epk).
      exists n, e, d, p, q, dp, dq, qi. split; [repeat constructor; assumption|]. split; [exact Ek|].
      intros X. pose proof X as (PU & _). destruct (usable_sizes n e G1 G2 PU) as (S1 & S2).
      destruct (import_exact n e d p q dp dq qi G1 G2 G3 G4 G5 S1 S2) as (A & _).
      destruct (A X) as (k & A1 & _). rewrite Epk in H. rewrite A1 in H. discriminate.
  Qed.

  Lemma public_report oid params u key : b2z u <= 7 -> (u <> x00 -> key <> []) ->
    fits (PublicKeyDocument (AlgorithmIdentifier oid params) u key) ->
    let r := from_public_key_der mx (der (PublicKeyDocument (AlgorithmIdentifier oid params) u key)) in
    (~ rsa_oid oid -> r = Err ErrOidUnknown) /\
    (oid = rsaEncryption -> params = None -> r = Err ErrParametersMalformed) /\
    (wrong_params oid params -> r = Err ErrKeyMalformed) /\
    (rsa_oid oid -> u <> x00 -> ~ (oid = rsaEncryption /\ params = None) -> r = Err ErrKeyMalformed).
  Proof.
    intros U K F r. unfold r, from_public_key_der. rewrite (spki_read mx M) by auto. cbn [bind].
    unfold public_try_from. cbn [si_alg si_unused si_key].
    destruct (identifier_report (mkAlg oid (any_of params))) as (A & B & C).
    rewrite any_of_params in B, C. cbn [alg_oid] in A, B, C.
    split; [intros X; rewrite (A X); reflexivity|]. split; [intros X Y; rewrite (B X Y); reflexivity|].
    split; [intros X; rewrite (C X); reflexivity|]. intros X Y Z.
    destruct (verify_algorithm_id (mkAlg oid (any_of params))) as [[]| | |] eqn:E.
    - cbn [bind]. destruct (Z.eqb_spec (b2z u) 0) as [E0|E0]; [|reflexivity].
      exfalso. apply Y. apply b2z_inj. rewrite E0. reflexivity.
    - destruct (identifier_err _ _ E) as [(_ & N)|[(-> & N1 & N2)|(-> & _)]].
      + contradiction.
      + exfalso. apply Z. rewrite any_of_params in N2. auto.
      + reflexivity.
    - destruct (c34_error (mkAlg oid (any_of params))) as [Q|[Q|[Q|(Q & _)]]]; congruence.
    - destruct (c34_error (mkAlg oid (any_of params))) as [Q|[Q|[Q|(Q & _)]]]; congruence.
  Qed.

  Lemma private_report tl ver opt oid params key : ver = 0 \/ ver = 1 -> tl ver opt = true ->
    fits (OneAsymmetricKey ver (AlgorithmIdentifier oid params) key opt) ->
    let r := from_pkcs8_der mx tl (der (OneAsymmetricKey ver (AlgorithmIdentifier oid params) key opt)) in
    (~ rsa_oid oid -> r = Err ErrOidUnknown) /\
    (oid = rsaEncryption -> params = None -> r = Err ErrParametersMalformed) /\
    (wrong_params oid params -> r = Err ErrKeyMalformed).
  Proof.
    intros Hv T F r. unfold r, from_pkcs8_der. rewrite (info_read mx M) by auto. cbn [bind].
    unfold private_try_from. cbn [ki_alg ki_key].
    destruct (identifier_report (mkAlg oid (any_of params))) as (A & B & C).
    rewrite any_of_params in B, C. cbn [alg_oid] in A, B, C.
    split; [intros X; rewrite (A X); reflexivity|]. split; [intros X Y; rewrite (B X Y); reflexivity|].
    intros X; rewrite (C X); reflexivity.
  Qed.
End Decoders.

(** ** Serialised keys *)
Lemma hex_err l e : hex_decode l = Err e -> e = ErrSerde.
Proof.
  assert (G : forall m l, (length l < m)%nat -> hex_decode l = Err e -> e = ErrSerde).
  { induction m as [|m IH]; intros [|a [|b l']] L H; cbn [length] in L; try lia.
    - discriminate.
    - injection H as <-. reflexivity.
    - cbn [hex_decode] in H. destruct (hex_value a); [|injection H as <-; reflexivity].
      destruct (hex_value b); [|injection H as <-; reflexivity].
      err H; [eapply IH; [|exact H]; lia|]. discriminate. }
  apply (G (S (length l))). lia.
Qed.
Lemma de_bytes_err human v e : de_bytes human v = Err e -> e = ErrSerde.
Proof.
  unfold de_bytes. destruct human, v; intros H; try (injection H as <-; reflexivity); try discriminate.
  eapply hex_err. exact H.
Qed.

Lemma de_refusal {A} human v (f : list byte -> outcome A) e :
  (let* b := de_bytes human v in f b) = Err e <->
  (e = ErrSerde /\ forall b, ~ carries human v b) \/ (exists b, carries human v b /\ f b = Err e).
Proof.
  split.
  - intros H. apply bind_err in H. destruct H as [H|(b & Hb & H)].
    + left. split; [eapply de_bytes_err; exact H|]. intros b C. apply de_bytes_exact in C. congruence.
    + right. exists b. split; [apply de_bytes_exact; exact Hb|exact H].
  - intros [(-> & N)|(b & C & H)].
    + destruct (de_bytes human v) as [b|e| |] eqn:E; cbn [bind].
      * exfalso. apply (N b). apply de_bytes_exact. exact E.
      * pose proof (de_bytes_err _ _ _ E) as ->. reflexivity.
      * exfalso. unfold de_bytes in E. destruct human, v; try discriminate.
        destruct (hex_decode_settled s) as [(? & X)|(? & X)]; congruence.
      * exfalso. unfold de_bytes in E. destruct human, v; try discriminate.
        destruct (hex_decode_settled s) as [(? & X)|(? & X)]; congruence.
    + apply de_bytes_exact in C. rewrite C. exact H.
Qed.

Lemma values_cons name n v fields : In v (values name ((n, v) :: fields)) <-> n = name \/ In v (values name fields).
Proof.
  unfold values. cbn [filter fst]. destruct (string_dec n name) as [E|E].
  - cbn [map snd In]. tauto.
  - tauto.
Qed.
Lemma values_skip name n v w fields : In w (values name fields) -> In w (values name ((n, v) :: fields)).
Proof. unfold values. cbn [filter fst]. destruct (string_dec n name); cbn [map snd In]; auto. Qed.

Section Structs.
  Context {A : Type} (de : sval -> outcome A).
  Local Open Scope string_scope.

  Lemma once_err {B} (old : option B) (v : outcome B) e : once old v = Err e -> e = ErrSerde \/ v = Err e.
  Proof.
    destruct old; cbn [once]; intros H; [injection H as <-; auto|]. err H; [auto|discriminate].
  Qed.
  Lemma label_err v e : de_label v = Err e -> e = ErrSerde.
  Proof.
    destruct v as [| | | |w| | |]; cbn [de_label]; intros H; try discriminate; try (injection H as <-; reflexivity).
    destruct w; try discriminate; injection H as <-; reflexivity.
  Qed.
  Lemma phantom_err v e : de_phantom v = Err e -> e = ErrSerde.
  Proof. destruct v; cbn [de_phantom]; intros H; try discriminate; injection H as <-; reflexivity. Qed.
  Lemma required_err {B} (o : option B) e : required o = Err e -> e = ErrSerde.
  Proof. destruct o; intros H; [discriminate|]. injection H as <-. reflexivity. Qed.

  Lemma visit_one_err fields : forall acc e, visit_one de fields acc = Err e ->
    e = ErrSerde \/ exists w, In w (values "inner" fields) /\ de w = Err e.
  Proof.
    induction fields as [|(n & v) fields IH]; intros acc e H; cbn [visit_one] in H.
    - left. eapply required_err. exact H.
    - destruct (string_dec n "inner") as [E|E].
      + err H.
        * apply once_err in H. destruct H as [->|H]; [auto|]. right. exists v. split; [|exact H].
          apply values_cons. auto.
        * destruct (IH _ _ H) as [->|(w & I & D)]; [auto|]. right. exists w. split; [apply values_skip; exact I|exact D].
      + destruct (IH _ _ H) as [->|(w & I & D)]; [auto|]. right. exists w. split; [apply values_skip; exact I|exact D].
  Qed.

  Lemma visit_four_err fields : forall acc e, visit_four de fields acc = Err e ->
    e = ErrSerde \/ exists w, In w (values "inner" fields) /\ de w = Err e.
  Proof.
    induction fields as [|(n & v) fields IH]; intros [i l p m] e H; cbn [visit_four] in H.
    - left. repeat (err H; [eapply required_err; exact H|]). discriminate.
    - assert (R : forall acc, visit_four de fields acc = Err e ->
        e = ErrSerde \/ exists w, In w (values "inner" ((n, v) :: fields)) /\ de w = Err e).
      { intros acc X. destruct (IH _ _ X) as [->|(w & I & D)]; [auto|]. right. exists w.
        split; [apply values_skip; exact I|exact D]. }
      destruct (string_dec n "inner") as [E|E].
      { err H; [|apply (R _ H)]. apply once_err in H. destruct H as [->|H]; [auto|].
        right. exists v. split; [apply values_cons; auto|exact H]. }
      destruct (string_dec n "label").
      { err H; [|apply (R _ H)]. apply once_err in H. left. destruct H as [H|H]; [exact H|eapply label_err; exact H]. }
      destruct (string_dec n "phantom").
      { err H; [|apply (R _ H)]. apply once_err in H. left. destruct H as [H|H]; [exact H|eapply phantom_err; exact H]. }
      destruct (string_dec n "mg_phantom").
      { err H; [|apply (R _ H)]. apply once_err in H. left. destruct H as [H|H]; [exact H|eapply phantom_err; exact H]. }
      apply (R _ H).
  Qed.

  Lemma struct_one_err {B} (mk : A -> B) v e :
    match v with
    | SStruct _ fields => let* i := visit_one de fields None in Ok (mk i)
    | STuple fields => let* i := visit_seq_one de fields in Ok (mk i)
    | _ => Err ErrSerde
    end = Err e -> e = ErrSerde \/ exists w, inner_value v w /\ de w = Err e.
  Proof.
    destruct v; cbn [inner_value]; intros H; try (injection H as <-; auto; fail).
    - err H; [|discriminate]. eapply visit_one_err. exact H.
    - err H; [|discriminate]. destruct fields as [|w fields]; cbn [visit_seq_one] in H; [injection H as <-; auto|].
      right. exists w. auto.
  Qed.

  Lemma struct_four_err {B} (mk : A -> option (list byte) -> B) v e :
    match v with
    | SStruct _ fields => let* (i, l) := visit_four de fields (mkSeen _ None None None None) in Ok (mk i l)
    | STuple fields => let* (i, l) := visit_seq_four de fields in Ok (mk i l)
    | _ => Err ErrSerde
    end = Err e -> e = ErrSerde \/ exists w, inner_value v w /\ de w = Err e.
  Proof.
    destruct v; cbn [inner_value]; intros H; try (injection H as <-; auto; fail).
    - err H; [|destruct x; discriminate]. eapply visit_four_err. exact H.
    - err H; [|destruct x; discriminate]. destruct fields as [|w fields]; cbn [visit_seq_four] in H; [injection H as <-; auto|].
      err H; [right; exists w; auto|]. left.
      destruct fields as [|a [|b [|c fields]]]; try (injection H as <-; reflexivity).
      err H; [eapply label_err; exact H|]. err H; [eapply phantom_err; exact H|].
      err H; [eapply phantom_err; exact H|]. discriminate.
  Qed.
End Structs.

(** ** PKCS#1 documents *)
Lemma pkcs1_public_refusal mx : mx < 2 ^ 29 -> forall l err, from_pkcs1_public_der mx l = Err err ->
  (err = ErrAsn1 /\ forall n e, 0 <= n -> 0 <= e -> Z.of_nat (length l) <= mx -> l <> der (RSAPublicKey n e)) \/
  (err = ErrKeyMalformed /\ exists n e, 0 <= n /\ 0 <= e /\ l = der (RSAPublicKey n e) /\ ~ public_usable n e (limb_bits n)).
Proof.
  intros Hmx l err H. assert (M : mx < 2 ^ 32) by lia. unfold from_pkcs1_public_der in H. err H.
  { apply guard_err in H. destruct H as (H & ->). left. split; [reflexivity|]. intros n e _ _ L. apply Z.leb_gt in H. lia. }
  unfold public_try_from in H. cbn [si_alg si_unused si_key] in H.
  replace (verify_algorithm_id rsa_algorithm_id) with (Ok tt) in H by reflexivity. cbn [bind Z.eqb] in H.
  err H; [discriminate|]. err H.
  - left. pose proof (p1_public_err _ _ _ H) as ->. split; [reflexivity|]. intros n e Hn He L ->.
    rewrite (decode_public_ok mx M) in H by auto. discriminate.
  - right. pose proof (public_err _ _ H) as ->. split; [reflexivity|].
    match goal with X : decode_p1_public _ _ = Ok _ |- _ =>
      destruct (decode_public_inv mx M _ _ X) as (n & e & Hn & He & E & ->) end.
    exists n, e. split; [exact Hn|]. split; [exact He|]. split; [exact E|]. intros X.
    destruct (usable_sizes n e Hn He X) as (S1 & S2).
    destruct (import_public_unfold n e Hn He S1 S2) as (Y & _). destruct (Y X) as (A1 & _). rewrite A1 in H. discriminate.
Qed.
Lemma pkcs1_private_refusal mx : mx < 2 ^ 29 -> forall l err, from_pkcs1_der mx l = Err err ->
  (err = ErrAsn1 /\ forall n e d p q dp dq qi, Forall (fun z => 0 <= z) [n; e; d; p; q; dp; dq; qi] ->
     Z.of_nat (length l) <= mx -> l <> der (RSAPrivateKey n e d p q dp dq qi)) \/
  (err = ErrPkcs1Version /\ exists n e d p q dp dq qi others, l = der (RSAPrivateKey_multi n e d p q dp dq qi others)) \/
  (err = ErrKeyMalformed /\ exists n e d p q dp dq qi, Forall (fun z => 0 <= z) [n; e; d; p; q; dp; dq; qi] /\
     l = der (RSAPrivateKey n e d p q dp dq qi) /\ ~ importable n e d p q).
Proof.
  intros Hmx l err H. assert (M : mx < 2 ^ 32) by lia. unfold from_pkcs1_der in H. err H.
  { apply guard_err in H. destruct H as (H & ->). left. split; [reflexivity|].
    intros n e d p q dp dq qi _ L. apply Z.leb_gt in H. lia. }
  unfold private_try_from in H. cbn [ki_alg ki_key] in H.
  replace (verify_algorithm_id rsa_algorithm_id) with (Ok tt) in H by reflexivity. cbn [bind] in H.
  apply bind_err in H. destruct H as [H|(pk & HP & H)].
  - left. pose proof (p1_private_err _ _ _ H) as ->. split; [reflexivity|]. intros n e d p q dp dq qi F8 L ->.
    rewrite !Forall_cons_iff in F8. destruct F8 as (A1 & A2 & A3 & A4 & A5 & A6 & A7 & A8 & _).
    rewrite (decode_private_ok mx M) in H by auto. discriminate.
  - right. destruct (private_err _ _ H) as [(-> & Mu)|(-> & Mu)].
    + left. split; [reflexivity|].
      destruct (multi_shape mx M _ _ HP Mu) as (n & e & d & p & q & dp & dq & qi & o & _ & E). eauto 12.
    + right. split; [reflexivity|].
      destruct (decode_private_inv mx M _ _ HP Mu) as
        (n & e & d & p & q & dp & dq & qi & G1 & G2 & G3 & G4 & G5 & G6 & G7 & G8 & Ek & Epk).
      exists n, e, d, p, q, dp, dq, qi. split; [repeat constructor; assumption|]. split; [exact Ek|].
      intros X. pose proof X as (PU & _). destruct (usable_sizes n e G1 G2 PU) as (S1 & S2).
      destruct (import_exact n e d p q dp dq qi G1 G2 G3 G4 G5 S1 S2) as (A & _).
      destruct (A X) as (k & A1 & _). rewrite Epk in H. rewrite A1 in H. discriminate.
Qed.

Lemma multi_read mx n e d p q dp dq qi others : mx < 2 ^ 32 ->
  Forall (fun z => 0 <= z) [n; e; d; p; q; dp; dq; qi] ->
  Z.of_nat (length (der (RSAPrivateKey_multi n e d p q dp dq qi others))) <= mx ->
  exists k, decode_p1_private mx (der (RSAPrivateKey_multi n e d p q dp dq qi others)) = Ok k /\ pp_multi k = true.
Proof.
  intros M F8 F. rewrite !Forall_cons_iff in F8. destruct F8 as (A1 & A2 & A3 & A4 & A5 & A6 & A7 & A8 & _).
  unfold decode_p1_private.
  assert (X : forall z, In (AInteger z) [AInteger 1; AInteger n; AInteger e; AInteger d; AInteger p; AInteger q;
           AInteger dp; AInteger dq; AInteger qi; ARaw others] -> Z.of_nat (length (der (AInteger z))) <= mx)
    by (intros z I; apply (fits_in mx _ _ F); exact I).
  unfold RSAPrivateKey_multi in *.
  assert (E : der (ASequence [AInteger 1; AInteger n; AInteger e; AInteger d; AInteger p; AInteger q;
           AInteger dp; AInteger dq; AInteger qi; ARaw others]) =
    der_tlv x30 (der (AInteger 1) ++ der (AInteger n) ++ der (AInteger e) ++ der (AInteger d) ++
      der (AInteger p) ++ der (AInteger q) ++ der (AInteger dp) ++ der (AInteger dq) ++ der (AInteger qi) ++ others ++ []))
    by reflexivity.
  rewrite E in *. change x30 with tag_sequence in *.
  rewrite <- (app_nil_r (der_tlv _ _)). rewrite decode_tagged_ok by (auto; eapply der_fits; exact F).
  cbn [bind].
  do 9 (rewrite decode_uint_ok by (auto; try lia; apply X; simpl; tauto); cbn [bind]).
  replace (min_octets 1) with [x01] by reflexivity. eexists. split; reflexivity.
Qed.

Lemma multi_report mx : mx < 2 ^ 29 -> forall tl ver opt v n e d p q dp dq qi others,
  accepted_alg v -> ver = 0 \/ ver = 1 -> tl ver opt = true ->
  Forall (fun z => 0 <= z) [n; e; d; p; q; dp; dq; qi] ->
  let key := der (RSAPrivateKey_multi n e d p q dp dq qi (der (OtherPrimeInfos others))) in
  Z.of_nat (length (der (OneAsymmetricKey ver v key opt))) <= mx ->
  from_pkcs8_der mx tl (der (OneAsymmetricKey ver v key opt)) = Err ErrPkcs1Version /\
  from_pkcs1_der mx key = Err ErrPkcs1Version.
Proof.
  intros Hmx tl ver opt v n e d p q dp dq qi others V Hver T F8 key F. assert (M : mx < 2 ^ 32) by lia.
  pose proof (fits_key_doc mx ver v key opt F) as FK.
  destruct (multi_read mx n e d p q dp dq qi (der (OtherPrimeInfos others)) M F8 FK) as (k & E & Mu). fold key in E.
  destruct (accepted_pair v V) as (a & A & VA). split.
  - unfold from_pkcs8_der. rewrite (decode_info_ok mx M tl ver a v) by auto. cbn [bind].
    unfold private_try_from. cbn [ki_alg ki_key]. rewrite VA. cbn [bind]. rewrite E. cbn [bind].
    unfold private_from_pkcs1. rewrite Mu. reflexivity.
  - unfold from_pkcs1_der. unfold guard. destruct (Z.leb_spec (Z.of_nat (length key)) mx); [|lia]. cbn [bind].
    unfold private_try_from. cbn [ki_alg ki_key].
    replace (verify_algorithm_id rsa_algorithm_id) with (Ok tt) by reflexivity. cbn [bind]. rewrite E. cbn [bind].
    unfold private_from_pkcs1. rewrite Mu. reflexivity.
Qed.

(** ** PKCS#1 v1.5 key objects *)
Lemma pkcs1v15_refusal mx : mx < 2 ^ 29 -> forall tl hd oid l err,
  let pss_public := exists params unused key,
    l = der (PublicKeyDocument (AlgorithmIdentifier id_RSASSA_PSS params) unused key) in
  let pss_private := exists version optional params key,
    l = der (OneAsymmetricKey version (AlgorithmIdentifier id_RSASSA_PSS params) key optional) in
  (p1vk_from_public_key_der mx hd oid l = Err err ->
   from_public_key_der mx l = Err err \/ (err = ErrOidUnknown /\ pss_public)) /\
  (from_public_key_der mx l = Err err ->
   p1vk_from_public_key_der mx hd oid l = Err err \/
   (p1vk_from_public_key_der mx hd oid l = Err ErrOidUnknown /\ pss_public)) /\
  (p1sk_from_pkcs8_der mx tl hd oid l = Err err ->
   from_pkcs8_der mx tl l = Err err \/ (err = ErrOidUnknown /\ pss_private)) /\
  (from_pkcs8_der mx tl l = Err err ->
   p1sk_from_pkcs8_der mx tl hd oid l = Err err \/
   (p1sk_from_pkcs8_der mx tl hd oid l = Err ErrOidUnknown /\ pss_private)).
Proof.
  intros Hmx tl hd oid l err pss_public pss_private. assert (M : mx < 2 ^ 32) by lia.
  assert (PX : forall o n e, pkcs1v15_generate_prefix o n <> Err e).
  { intros o n e. unfold pkcs1v15_generate_prefix, u8_add. cbv zeta.
    repeat match goal with |- context [if ?b then _ else _] => destruct b; cbn [bind]; try discriminate end. }
  assert (OID : forall a, bytes_eqb (alg_oid a) oid_rsa_encryption = false ->
    verify_algorithm_id a = Err ErrOidUnknown \/ alg_oid a = id_RSASSA_PSS).
  { intros a E. unfold verify_algorithm_id. rewrite E.
    destruct (bytes_eqb (alg_oid a) oid_rsassa_pss) eqn:E2; [|left; reflexivity].
    right. apply bytes_eqb_eq in E2. exact E2. }
  assert (A : (p1vk_from_public_key_der mx hd oid l = Err ErrOidUnknown /\ pss_public) \/
              (forall e, p1vk_from_public_key_der mx hd oid l = Err e <-> from_public_key_der mx l = Err e)).
  { unfold p1vk_from_public_key_der, from_public_key_der.
    destruct (decode_spki mx l) as [s|x| |] eqn:HS; cbn [bind]; try (right; intros e; split; intros H; congruence).
    unfold p1vk_try_from, assert_algorithm_oid, guard.
    destruct (bytes_eqb (alg_oid (si_alg s)) oid_rsa_encryption) eqn:E; cbn [bind].
    - right. intros e. destruct (public_try_from mx s) as [k|x| |]; cbn [bind]; try (split; intros H; congruence).
      unfold p1vk_new. split; intros H; [|discriminate]. exfalso. apply bind_err in H.
      destruct H as [H|(y & _ & H)]; [exact (PX _ _ _ H)|discriminate].
    - destruct (OID _ E) as [V|V].
      + right. intros e. unfold public_try_from. rewrite V. cbn [bind]. split; intros H; congruence.
      + left. split; [reflexivity|]. destruct (spki_shape mx M l s HS) as (u & _ & El). rewrite V in El.
        unfold pss_public. eauto. }
  assert (B : (p1sk_from_pkcs8_der mx tl hd oid l = Err ErrOidUnknown /\ pss_private) \/
              (forall e, p1sk_from_pkcs8_der mx tl hd oid l = Err e <-> from_pkcs8_der mx tl l = Err e)).
  { unfold p1sk_from_pkcs8_der, from_pkcs8_der.
    destruct (decode_key_info mx tl l) as [s|x| |] eqn:HS; cbn [bind]; try (right; intros e; split; intros H; congruence).
    unfold p1sk_try_from, assert_algorithm_oid, guard.
    destruct (bytes_eqb (alg_oid (ki_alg s)) oid_rsa_encryption) eqn:E; cbn [bind].
    - right. intros e. destruct (private_try_from mx s) as [k|x| |]; cbn [bind]; try (split; intros H; congruence).
      unfold p1sk_new. split; intros H; [|discriminate]. exfalso. apply bind_err in H.
      destruct H as [H|(y & _ & H)]; [exact (PX _ _ _ H)|discriminate].
    - destruct (OID _ E) as [V|V].
      + right. intros e. unfold private_try_from. rewrite V. cbn [bind]. split; intros H; congruence.
      + left. split; [reflexivity|]. destruct (info_shape mx M tl l s HS) as (ver & opt & _ & _ & El). rewrite V in El.
        unfold pss_private. eauto 6. }
  split; [|split; [|split]]; intros H.
  - destruct A as [(E & P)|E]; [right; split; [congruence|exact P]|left; apply E; exact H].
  - destruct A as [A|E]; [right; exact A|left; apply E; exact H].
  - destruct B as [(E & P)|E]; [right; split; [congruence|exact P]|left; apply E; exact H].
  - destruct B as [B|E]; [right; exact B|left; apply E; exact H].
Qed.
