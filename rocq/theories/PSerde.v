(** Lemmas about serialisation (MSerde.v) and PKCS#1 documents.  Theorems are in
    PropSerde.v. *)
From Coq Require Import String ZArith List Bool Lia Znumtheory.
From Coq Require Import Init.Byte.
From Verif Require Import Base Bigint SpecRFC SpecHex SpecSerde SpecOid SpecKey SpecDer SpecGen MHash MPkcs1 MRsa MGenerate
  MKey MApi MWrap MDer MEncoding MSerde KeyDefs NumTheory.
From Verif Require Import BytesLemmas BigintLemmas PSign PSig PKey PDer PEncoding PCodec PWrapEnc PWrap.
Import ListNotations.
Local Open Scope string_scope.
Local Open Scope list_scope.
Local Open Scope Z_scope.

(** ** Hexadecimal text *)

Lemma octet_val_b2z b : octet_val b = b2z b.
Proof. reflexivity. Qed.

Lemma hex_value_range c v : hex_value c = Some v -> 0 <= v < 16.
Proof.
  unfold hex_value. cbv zeta. intros H.
  destruct (Z.leb_spec 48 (b2z c)), (Z.leb_spec (b2z c) 57); cbn [andb] in H; try (injection H as <-; lia);
  destruct (Z.leb_spec 97 (b2z c)), (Z.leb_spec (b2z c) 102); cbn [andb] in H; try (injection H as <-; lia);
  destruct (Z.leb_spec 65 (b2z c)), (Z.leb_spec (b2z c) 70); cbn [andb] in H; try discriminate;
  injection H as <-; lia.
Qed.

Lemma hex_value_means c v : hex_value c = Some v <-> digit_means c v.
Proof.
  unfold digit_means. split.
  - intros H. split; [eapply hex_value_range; exact H|].
    destruct c; vm_compute in H; try discriminate; injection H as <-; vm_compute; auto.
  - intros (R & H).
    assert (V : In v [0; 1; 2; 3; 4; 5; 6; 7; 8; 9; 10; 11; 12; 13; 14; 15]) by (simpl; lia).
    simpl in V. repeat destruct V as [<-|V]; try contradiction; destruct H as [->| ->]; reflexivity.
Qed.

Lemma two_halves b : z2b (16 * (b2z b / 16) + b2z b mod 16) = b.
Proof. rewrite <- Z.div_mod by lia. apply z2b_b2z. Qed.

Lemma halves a b : 0 <= a < 16 -> 0 <= b < 16 ->
  b2z (z2b (16 * a + b)) / 16 = a /\ b2z (z2b (16 * a + b)) mod 16 = b.
Proof.
  intros Ha Hb. rewrite b2z_z2b by lia. split.
  - symmetry. apply (Z.div_unique _ _ _ b); lia.
  - symmetry. apply (Z.mod_unique _ _ a); lia.
Qed.

Lemma hex_decode_exact : forall s l, hex_decode s = Ok l <-> reads_as s l.
Proof.
  assert (X : forall n s, (length s <= n)%nat -> forall l, hex_decode s = Ok l <-> reads_as s l).
  { induction n as [|n IH]; intros [|a [|b s]] L l; cbn [length] in L; try lia.
    - cbn [hex_decode]. split; [intros H; injection H as <-; constructor|intros H; inversion H; reflexivity].
    - cbn [hex_decode]. split; [intros H; injection H as <-; constructor|intros H; inversion H; reflexivity].
    - cbn [hex_decode]. split; [discriminate|intros H; inversion H].
    - cbn [hex_decode]. split.
      + intros H. destruct (hex_value a) as [va|] eqn:Ea; [|discriminate].
        destruct (hex_value b) as [vb|] eqn:Eb; [|discriminate].
        apply bind_ok in H. destruct H as (r & Hr & H). injection H as <-.
        pose proof (hex_value_range _ _ Ea) as Ra. pose proof (hex_value_range _ _ Eb) as Rb.
        destruct (halves va vb Ra Rb) as (E1 & E2).
        constructor; [rewrite octet_val_b2z, E1; apply hex_value_means; exact Ea
                     |rewrite octet_val_b2z, E2; apply hex_value_means; exact Eb|].
        apply IH; [lia|exact Hr].
      + intros H. inversion H as [|? ? ? c l' Ha Hb Hr]. subst.
        apply hex_value_means in Ha. apply hex_value_means in Hb. rewrite Ha, Hb.
        apply IH in Hr; [|lia]. rewrite Hr. cbn [bind]. rewrite !octet_val_b2z, two_halves. reflexivity. }
  intros s l. apply (X (length s)). lia.
Qed.

Lemma hex_decode_settled s : settled (hex_decode s).
Proof.
  assert (X : forall n s, (length s <= n)%nat -> settled (hex_decode s)).
  { induction n as [|n IH]; intros [|a [|b t]] L; cbn [length] in L; try lia; cbn [hex_decode];
      try (left; eexists; reflexivity); try (right; eexists; reflexivity).
    destruct (hex_value a); [|right; eexists; reflexivity]. destruct (hex_value b); [|right; eexists; reflexivity].
    apply settled_bind; [apply IH; lia|]. intros. left; eexists; reflexivity. }
  apply (X (length s)). lia.
Qed.

Lemma hex_text_reads l : reads_as (hex_text lower_digits l) l /\ reads_as (hex_text upper_digits l) l.
Proof.
  assert (X : forall d, (d = lower_digits \/ d = upper_digits) -> reads_as (hex_text d l) l).
  { intros d Hd. induction l as [|b l IH]; [constructor|].
    unfold hex_text in *. cbn [flat_map app]. pose proof (b2z_range b) as Rg. rewrite octet_val_b2z.
    assert (0 <= b2z b / 16 < 16) by (split; [apply Z.div_pos; lia|apply Z.div_lt_upper_bound; lia]).
    assert (0 <= b2z b mod 16 < 16) by (apply Z.mod_pos_bound; lia).
    constructor; try exact IH; split; auto; destruct Hd as [->| ->]; auto. }
  auto.
Qed.

Lemma reads_as_fun s l : reads_as s l -> forall l', reads_as s l' -> l = l'.
Proof. intros H l' H'. apply hex_decode_exact in H. apply hex_decode_exact in H'. congruence. Qed.

(** ** Byte strings *)

Lemma de_bytes_exact human v b : de_bytes human v = Ok b <-> carries human v b.
Proof.
  unfold de_bytes, carries. destruct human, v; split; intros H; try discriminate;
    try (destruct H as (? & H & _); discriminate).
  - exists s. split; auto. apply hex_decode_exact. exact H.
  - destruct H as (t & H & R). injection H as ->. apply hex_decode_exact. exact R.
  - injection H as ->. reflexivity.
  - injection H as ->. reflexivity.
Qed.

Lemma de_bytes_settled human v : settled (de_bytes human v).
Proof.
  destruct human, v; cbn [de_bytes]; try (right; eexists; reflexivity); try (left; eexists; reflexivity).
  apply hex_decode_settled.
Qed.

Lemma ser_carries human b : carries human (ser_bytes human b) b.
Proof.
  unfold ser_bytes, carries. destruct human; [|reflexivity].
  eexists. split; [reflexivity|]. rewrite hex_exact. apply hex_text_reads.
Qed.

Lemma de_ser_bytes human b : de_bytes human (ser_bytes human b) = Ok b.
Proof. apply de_bytes_exact, ser_carries. Qed.

Lemma ser_bytes_text b : ser_bytes true b = SStr (hex_text lower_digits b).
Proof. unfold ser_bytes. f_equal. apply (hex_exact false). Qed.

(** Deserialising through bytes. *)
Lemma de_via {A} human v (f : list byte -> outcome A) x :
  (let* b := de_bytes human v in f b) = Ok x <-> exists b, carries human v b /\ f b = Ok x.
Proof.
  split.
  - intros H. apply bind_ok in H. destruct H as (b & Hb & H). exists b. split; auto. apply de_bytes_exact. exact Hb.
  - intros (b & Hb & H). apply de_bytes_exact in Hb. rewrite Hb. exact H.
Qed.
Lemma ser_via {A} human (w : outcome (list byte)) (f : list byte -> outcome A) v :
  (let* b := w in Ok (ser_bytes human b)) = Ok v ->
  exists b, w = Ok b /\ v = ser_bytes human b /\ (let* b := de_bytes human v in f b) = f b.
Proof.
  intros H. apply bind_ok in H. destruct H as (b & Hb & H). injection H as <-.
  exists b. rewrite de_ser_bytes. auto.
Qed.

(** ** Structures with named fields *)

Lemma values_cons name f v fields :
  values name ((f, v) :: fields) = if string_dec f name then v :: values name fields else values name fields.
Proof. unfold values. cbn [filter fst]. destruct (string_dec f name); reflexivity. Qed.

Section Fields.
  Context {A : Type} (de : sval -> outcome A).

  (** What may still be found for a field: nothing if seen already. *)
  Definition rest_of {B} (f : sval -> outcome B) (acc : option B) (vs : list sval) (x : B) : Prop :=
    match acc with
    | Some y => vs = [] /\ x = y
    | None => exists v, vs = [v] /\ f v = Ok x
    end.

  Lemma rest_once {B} (f : sval -> outcome B) acc v vs x :
    rest_of f acc (v :: vs) x <-> exists acc', once acc (f v) = Ok acc' /\ rest_of f acc' vs x.
  Proof.
    unfold once. destruct acc as [y|]; cbn [rest_of].
    - split; [intros (H & _); discriminate|intros (? & H & _); discriminate].
    - split.
      + intros (w & H & E). injection H as -> ->. rewrite E. cbn [bind]. eexists. split; [reflexivity|]. split; auto.
      + intros (acc' & H & E). apply bind_ok in H. destruct H as (z & Hz & H). injection H as <-.
        cbn [rest_of] in E. destruct E as (-> & ->). exists v. auto.
  Qed.

  Lemma visit_one_exact fields : forall acc x,
    visit_one de fields acc = Ok x <-> rest_of de acc (values "inner" fields) x.
  Proof.
    induction fields as [|(f & v) fields IH]; intros acc x; cbn [visit_one].
    - change (values "inner" []) with (@nil sval). unfold required, rest_of. destruct acc as [y|].
      + split; [intros H; injection H as ->; auto|intros (_ & ->); auto].
      + split; [discriminate|intros (v & H & _); discriminate].
    - rewrite values_cons. destruct (string_dec f "inner"); [|apply IH].
      rewrite rest_once. split.
      + intros H. apply bind_ok in H. destruct H as (a & Ha & H). exists a. split; auto. apply IH. exact H.
      + intros (a & Ha & H). rewrite Ha. cbn [bind]. apply IH. exact H.
  Qed.

  (** The label may be missing. *)
  Definition rest_label (acc : option (option (list byte))) (vs : list sval) (x : option (list byte)) : Prop :=
    match acc with
    | Some y => vs = [] /\ x = y
    | None => (vs = [] /\ x = None) \/ exists v, vs = [v] /\ de_label v = Ok x
    end.
  Lemma rest_label_once acc v vs x :
    rest_label acc (v :: vs) x <-> exists acc', once acc (de_label v) = Ok acc' /\ rest_label acc' vs x.
  Proof.
    unfold once. destruct acc as [y|]; cbn [rest_label].
    - split; [intros (H & _); discriminate|intros (? & H & _); discriminate].
    - split.
      + intros [(H & _)|(w & H & E)]; [discriminate|]. injection H as -> ->. rewrite E. cbn [bind].
        eexists. split; [reflexivity|]. split; auto.
      + intros (acc' & H & E). apply bind_ok in H. destruct H as (z & Hz & H). injection H as <-.
        cbn [rest_label] in E. destruct E as (-> & ->). right. exists v. auto.
  Qed.

  Definition four (acc : seen A) (fields : list (string * sval)) (i : A) (l : option (list byte)) : Prop :=
    rest_of de (seen_inner A acc) (values "inner" fields) i /\
    rest_label (seen_label A acc) (values "label" fields) l /\
    rest_of de_phantom (seen_phantom A acc) (values "phantom" fields) tt /\
    rest_of de_phantom (seen_mg A acc) (values "mg_phantom" fields) tt.

  Lemma required_ok {B} (o : option B) x : required o = Ok x <-> o = Some x.
  Proof. destruct o; cbn [required]; split; intros H; inversion H; reflexivity. Qed.

  Lemma visit_four_exact fields : forall acc i l,
    visit_four de fields acc = Ok (i, l) <-> four acc fields i l.
  Proof.
    induction fields as [|(f & v) fields IH]; intros [ai al ap am] i l.
    - cbn [visit_four]. unfold four. cbn [seen_inner seen_label seen_phantom seen_mg].
      change (values _ []) with (@nil sval). split.
      + intros H. apply bind_ok in H. destruct H as (i' & Hi & H). apply bind_ok in H. destruct H as ([] & Hp & H).
        apply bind_ok in H. destruct H as ([] & Hm & H).
        apply required_ok in Hi, Hp, Hm. subst ai ap am. injection H as -> <-. cbn [rest_of].
        split; [auto|]. split; [|auto]. unfold rest_label. destruct al; auto.
      + intros (Hi & Hl & Hp & Hm).
        destruct ai as [yi|]; cbn [rest_of] in Hi; [|destruct Hi as (? & Hi & _); discriminate].
        destruct ap as [[]|]; cbn [rest_of] in Hp; [|destruct Hp as (? & Hp & _); discriminate].
        destruct am as [[]|]; cbn [rest_of] in Hm; [|destruct Hm as (? & Hm & _); discriminate].
        destruct Hi as (_ & ->). cbn [required bind]. f_equal. f_equal.
        unfold rest_label in Hl. destruct al as [y|].
        * destruct Hl as (_ & ->). reflexivity.
        * destruct Hl as [(_ & ->)|(? & Hl & _)]; [reflexivity|discriminate].
    - cbn [visit_four].
      assert (G : forall {B} (x : outcome B) (k : B -> outcome (A * option (list byte))) (P : B -> Prop) Q,
        (forall b, k b = Ok (i, l) <-> P b) -> (Q <-> exists b, x = Ok b /\ P b) -> (bind x k = Ok (i, l) <-> Q)).
      { intros B x k P Q Hk HQ. rewrite HQ. split.
        - intros H. apply bind_ok in H. destruct H as (b & Hb & H). exists b. split; auto. apply Hk. exact H.
        - intros (b & Hb & H). rewrite Hb. cbn [bind]. apply Hk. exact H. }
      unfold four in *. cbn [seen_inner seen_label seen_phantom seen_mg] in *.
      destruct (string_dec f "inner") as [->|N1].
      { eapply G; [intros b; apply IH|]. cbn [seen_inner seen_label seen_phantom seen_mg].
        rewrite !values_cons. cbn. rewrite rest_once.
        split; [intros ((a & Ha & H) & T); exists a; auto|intros (a & Ha & H & T); split; [exists a; auto|exact T]]. }
      destruct (string_dec f "label") as [->|N2].
      { eapply G; [intros b; apply IH|]. cbn [seen_inner seen_label seen_phantom seen_mg].
        rewrite !values_cons. cbn. rewrite rest_label_once.
        split; [intros (T1 & (a & Ha & H) & T); exists a; auto|intros (a & Ha & T1 & H & T); split; [exact T1|split; [exists a; auto|exact T]]]. }
      destruct (string_dec f "phantom") as [->|N3].
      { eapply G; [intros b; apply IH|]. cbn [seen_inner seen_label seen_phantom seen_mg].
        rewrite !values_cons. cbn. rewrite rest_once.
        split; [intros (T1 & T2 & (a & Ha & H) & T); exists a; auto|intros (a & Ha & T1 & T2 & H & T)].
        split; [exact T1|]. split; [exact T2|]. split; [exists a; auto|exact T]. }
      destruct (string_dec f "mg_phantom") as [->|N4].
      { eapply G; [intros b; apply IH|]. cbn [seen_inner seen_label seen_phantom seen_mg].
        rewrite !values_cons. cbn. rewrite rest_once.
        split; [intros (T1 & T2 & T3 & (a & Ha & H)); exists a; auto|intros (a & Ha & T1 & T2 & T3 & H)].
        split; [exact T1|]. split; [exact T2|]. split; [exact T3|]. exists a; auto. }
      rewrite IH. cbn [seen_inner seen_label seen_phantom seen_mg]. rewrite !values_cons.
      destruct (string_dec f "inner"); [contradiction|]. destruct (string_dec f "label"); [contradiction|].
      destruct (string_dec f "phantom"); [contradiction|]. destruct (string_dec f "mg_phantom"); [contradiction|].
      reflexivity.
  Qed.
End Fields.

(** ** PKCS#1 documents *)

Section Pkcs1Documents.
  Context (mx : Z).
  Hypothesis Hmx : mx < 2 ^ 29.
  Notation fits v := (Z.of_nat (length (der v)) <= mx).

  Lemma mx32 : mx < 2 ^ 32. Proof. lia. Qed.

  Lemma rsa_verified : verify_algorithm_id rsa_algorithm_id = Ok tt.
  Proof. reflexivity. Qed.

  Lemma pkcs1_via_pkcs8 tl l : tl 0 [] = true -> fits (PrivateKeyInfo rsa_AlgorithmIdentifier l) ->
    from_pkcs1_der mx l = from_pkcs8_der mx tl (der (PrivateKeyInfo rsa_AlgorithmIdentifier l)).
  Proof.
    intros T F. unfold from_pkcs1_der, from_pkcs8_der, guard.
    pose proof (fits_key mx _ _ F) as L. destruct (Z.leb_spec (Z.of_nat (length l)) mx); [|lia]. cbn [bind].
    rewrite <- plain_key, (decode_info_ok mx mx32 tl 0 rsa_algorithm_id rsa_AlgorithmIdentifier l []); auto.
    left. auto.
  Qed.

  Lemma pkcs1_public_via_spki l : fits (SubjectPublicKeyInfo rsa_AlgorithmIdentifier l) ->
    from_pkcs1_public_der mx l = from_public_key_der mx (der (SubjectPublicKeyInfo rsa_AlgorithmIdentifier l)).
  Proof.
    intros F. unfold from_pkcs1_public_der, from_public_key_der, guard.
    pose proof (fits_bits mx _ _ F) as L. destruct (Z.leb_spec (Z.of_nat (length l)) mx); [|lia]. cbn [bind].
    rewrite (decode_spki_ok mx mx32 rsa_algorithm_id rsa_AlgorithmIdentifier l); auto.
    left. auto.
  Qed.

  Lemma pkcs1_document l k : from_pkcs1_der mx l = Ok k ->
    exists d p q dp dq qi,
    let n := uval (pk_n (sk_pub k)) in let e := uval (pk_e (sk_pub k)) in
    l = der (RSAPrivateKey n e d p q dp dq qi) /\ stored_as k n e d p q /\ importable n e d p q /\
    validate k = Ok tt /\ sane_priv k.
  Proof.
    intros H. unfold from_pkcs1_der in H. apply bind_ok in H. destruct H as ([] & _ & H).
    unfold private_try_from in H. cbn [ki_alg ki_key] in H. rewrite rsa_verified in H. cbn [bind] in H.
    apply bind_ok in H. destruct H as (s & D & P).
    destruct (pp_multi s) eqn:M; [unfold private_from_pkcs1 in P; rewrite M in P; discriminate|].
    destruct (decode_private_inv mx mx32 l s D M) as (n & e & d & p & q & dp & dq & qi & Hn & He & Hd & Hp & Hq & Hdp & Hdq & Hqi & El & Es).
    subst s.
    assert (S12 : 8 * octet_size n < 2 ^ 32 /\ 8 * octet_size e < 2 ^ 32).
    { pose proof P as PP. unfold private_from_pkcs1, p1_of in PP.
      cbn [pp_multi pp_modulus pp_public_exponent] in PP.
      apply bind_ok in PP. destruct PP as (b1 & P1 & PP). apply bind_ok in PP. destruct PP as (? & _ & PP).
      apply bind_ok in PP. destruct PP as (? & _ & PP). apply bind_ok in PP. destruct PP as (b2 & P2 & PP).
      apply octets_bits_inv in P1; auto. apply octets_bits_inv in P2; auto. }
    destruct S12 as (S1 & S2). pose proof (import_only n e d p q dp dq qi k Hn He Hd Hp Hq S1 S2 P) as I.
    destruct (import_exact n e d p q dp dq qi Hn He Hd Hp Hq S1 S2) as (X & _).
    destruct (X I) as (k' & E & St & Va & Sa & _). rewrite P in E. injection E as <-.
    exists d, p, q, dp, dq, qi. cbv zeta. pose proof St as (E1 & E2 & _).
    rewrite E1, E2. cbn [uval]. auto.
  Qed.

  Lemma pkcs1_import n e d p q dp dq qi :
    Forall (fun z => 0 <= z) [n; e; d; p; q; dp; dq; qi] ->
    fits (RSAPrivateKey n e d p q dp dq qi) ->
    let r := from_pkcs1_der mx (der (RSAPrivateKey n e d p q dp dq qi)) in
    (importable n e d p q -> exists k, r = Ok k /\ stored_as k n e d p q /\ validate k = Ok tt /\ sane_priv k /\
       (prime p -> prime q -> p <> q -> p * q = n -> good_priv k) /\
       (sk_pre k <> None <-> Z.gcd p q = 1)) /\
    (~ importable n e d p q -> p <> 1 -> q <> 1 -> r = Err ErrKeyMalformed).
  Proof.
    intros F8 F. rewrite !Forall_cons_iff in F8. destruct F8 as (A1 & A2 & A3 & A4 & A5 & A6 & A7 & A8 & _).
    cbv zeta. unfold from_pkcs1_der, guard.
    destruct (Z.leb_spec (Z.of_nat (length (der (RSAPrivateKey n e d p q dp dq qi)))) mx); [|lia]. cbn [bind].
    unfold private_try_from. cbn [ki_alg ki_key]. rewrite rsa_verified. cbn [bind].
    rewrite (decode_private_ok mx mx32) by auto. cbn [bind].
    assert (F1 : fits (AInteger n)) by (apply (fits_in mx _ (AInteger n) F); simpl; tauto).
    assert (F2 : fits (AInteger e)) by (apply (fits_in mx _ (AInteger e) F); simpl; tauto).
    apply int_fits_size in F1; auto. apply int_fits_size in F2; auto.
    apply import_exact; auto; lia.
  Qed.

  Lemma pkcs1_public_document l k : from_pkcs1_public_der mx l = Ok k ->
    let n := uval (pk_n k) in let e := uval (pk_e k) in
    l = der (RSAPublicKey n e) /\ public_usable n e (limb_bits n) /\ wf_pub k /\
    uprec (pk_n k) = limb_bits n /\ uprec (pk_e k) = limb_bits e.
  Proof.
    intros H. unfold from_pkcs1_public_der in H. apply bind_ok in H. destruct H as ([] & _ & H).
    unfold public_try_from in H. cbn [si_alg si_key si_unused] in H. rewrite rsa_verified in H. cbn [bind] in H.
    apply bind_ok in H. destruct H as ([] & _ & H). apply bind_ok in H. destruct H as (s & D & P).
    destruct (decode_public_inv mx mx32 l s D) as (n & e & Hn & He & El & ->).
    assert (S12 : 8 * octet_size n < 2 ^ 32 /\ 8 * octet_size e < 2 ^ 32).
    { pose proof P as PP. unfold public_from_pkcs1 in PP. cbn [p1_modulus p1_public_exponent] in PP.
      apply bind_ok in PP. destruct PP as (b1 & P1 & PP). apply bind_ok in PP. destruct PP as (? & _ & PP).
      apply bind_ok in PP. destruct PP as (b2 & P2 & PP).
      apply octets_bits_inv in P1; auto. apply octets_bits_inv in P2; auto. }
    destruct S12 as (S1 & S2). destruct (import_public_unfold n e Hn He S1 S2) as (A & B).
    destruct (public_usable_dec n e (limb_bits n)) as [U|U]; [|rewrite (B U) in P; discriminate].
    destruct (A U) as (E & W). cbv zeta in E, W. rewrite E in P. injection P as P. rewrite <- P.
    cbn [pk_n pk_e uval uprec]. auto.
  Qed.

  Lemma pkcs1_public_import n e : 0 <= n -> 0 <= e -> fits (RSAPublicKey n e) ->
    let r := from_pkcs1_public_der mx (der (RSAPublicKey n e)) in
    (public_usable n e (limb_bits n) -> exists k, r = Ok k /\ wf_pub k /\
       pk_n k = mkU n (limb_bits n) /\ pk_e k = mkU e (limb_bits e)) /\
    (~ public_usable n e (limb_bits n) -> r = Err ErrKeyMalformed).
  Proof.
    intros Hn He F. cbv zeta. unfold from_pkcs1_public_der, guard.
    destruct (Z.leb_spec (Z.of_nat (length (der (RSAPublicKey n e)))) mx); [|lia]. cbn [bind].
    unfold public_try_from. cbn [si_alg si_key si_unused]. rewrite rsa_verified. cbn [bind Z.eqb guard].
    rewrite (decode_public_ok mx mx32) by auto. cbn [bind].
    assert (F1 : fits (AInteger n)) by (apply (fits_in mx _ (AInteger n) F); simpl; tauto).
    assert (F2 : fits (AInteger e)) by (apply (fits_in mx _ (AInteger e) F); simpl; tauto).
    apply int_fits_size in F1; auto. apply int_fits_size in F2; auto.
    destruct (import_public_unfold n e) as (A & B); auto; try lia.
    split; [|exact B]. intros U. destruct (A U) as (E & W). cbv zeta in E, W.
    eexists. split; [exact E|]. auto.
  Qed.

  Lemma exported_fits k doc : to_pkcs8_der mx k = Ok doc -> Z.of_nat (length doc) <= mx.
  Proof.
    intros H. unfold to_pkcs8_der in H. apply bind_ok in H. destruct H as (s & _ & H).
    apply bind_ok in H. destruct H as (key & _ & H). apply bind_ok in H. destruct H as (_ & _ & H).
    unfold encode_key_info in H. apply bind_ok in H. destruct H as (? & _ & H).
    apply bind_ok in H. destruct H as (? & _ & H). apply bind_ok in H. destruct H as (? & _ & H).
    apply encode_tlv_inv in H; [|exact mx32]. apply H.
  Qed.
  Lemma exported_public_fits k doc : to_public_key_der mx k = Ok doc -> Z.of_nat (length doc) <= mx.
  Proof.
    intros H. unfold to_public_key_der in H. apply bind_ok in H. destruct H as (s & _ & H).
    apply bind_ok in H. destruct H as (e & _ & H).
    apply bind_ok in H. destruct H as (key & _ & H). apply bind_ok in H. destruct H as (_ & _ & H).
    unfold encode_spki in H. apply bind_ok in H. destruct H as (? & _ & H).
    apply bind_ok in H. destruct H as (? & _ & H).
    apply encode_tlv_inv in H; [|exact mx32]. apply H.
  Qed.

  Lemma pkcs1_export tl k n e d p q dp dq qi : tl 0 [] = true ->
    Forall (fun z => 0 <= z) [n; e; d; p; q; dp; dq; qi] ->
    to_pkcs8_der mx k = Ok (der (PrivateKeyInfo rsa_AlgorithmIdentifier (der (RSAPrivateKey n e d p q dp dq qi)))) ->
    to_pkcs1_der mx tl k = Ok (der (RSAPrivateKey n e d p q dp dq qi)).
  Proof.
    intros T F8 H. rewrite !Forall_cons_iff in F8. destruct F8 as (A1 & A2 & A3 & A4 & A5 & A6 & A7 & A8 & _).
    pose proof (exported_fits _ _ H) as F. unfold to_pkcs1_der. rewrite H. cbn [bind].
    pose proof (fits_key mx _ _ F) as L.
    rewrite <- plain_key in F |- *. rewrite (decode_info_ok mx mx32 tl 0 rsa_algorithm_id rsa_AlgorithmIdentifier _ []); auto.
    2:{ left. auto. }
    cbn [bind ki_key]. rewrite (decode_private_ok mx mx32) by auto. cbn [bind]. apply encode_private_ok; auto; exact mx32.
  Qed.
  Lemma pkcs1_public_export k n e : 0 <= n -> 0 <= e ->
    to_public_key_der mx k = Ok (der (SubjectPublicKeyInfo rsa_AlgorithmIdentifier (der (RSAPublicKey n e)))) ->
    to_pkcs1_public_der mx k = Ok (der (RSAPublicKey n e)).
  Proof.
    intros Hn He H. pose proof (exported_public_fits _ _ H) as F. unfold to_pkcs1_public_der. rewrite H. cbn [bind].
    pose proof (fits_bits mx _ _ F) as L.
    rewrite (decode_spki_ok mx mx32 rsa_algorithm_id rsa_AlgorithmIdentifier); auto.
    2:{ left. auto. }
    cbn [bind si_key]. rewrite (decode_public_ok mx mx32) by auto. cbn [bind]. apply encode_public_ok; auto; exact mx32.
  Qed.
  Lemma pkcs1_export_fails tl k e : to_pkcs8_der mx k = Err e -> to_pkcs1_der mx tl k = Err e.
  Proof. intros H. unfold to_pkcs1_der. rewrite H. reflexivity. Qed.
End Pkcs1Documents.

(** ** Object identifiers *)

Lemma b2z_more v : b2z (z2b (128 + v mod 128)) = 128 + v mod 128.
Proof. rewrite b2z_z2b. apply Z.mod_small. pose proof (Z.mod_pos_bound v 128 eq_refl). lia. Qed.

Lemma base128_more_ok fuel : forall v, 0 <= v < 128 ^ Z.of_nat fuel ->
  Forall (fun b => 128 <= octet_val b) (base128_more fuel v) /\
  fold_left (fun a b => 128 * a + (octet_val b - 128)) (base128_more fuel v) 0 = v /\
  hd_error (base128_more fuel v) <> Some x80 /\ (v <> 0 -> base128_more fuel v <> []).
Proof.
  induction fuel as [|fuel IH]; intros v Hv.
  - cbn in *. assert (v = 0) by lia. subst. repeat split; auto; try discriminate.
  - cbn [base128_more]. destruct (Z.eqb_spec v 0) as [->|N].
    + repeat split; auto; try discriminate.
    + rewrite Nat2Z.inj_succ, Z.pow_succ_r in Hv by lia.
      destruct (IH (v / 128)) as (A & B & C & D).
      { split; [apply Z.div_pos; lia|apply Z.div_lt_upper_bound; lia]. }
      split; [|split; [|split]].
      * apply Forall_app. split; [exact A|]. constructor; [|constructor].
        rewrite octet_val_b2z, b2z_more. pose proof (Z.mod_pos_bound v 128 eq_refl). lia.
      * rewrite fold_left_app, B. cbn [fold_left]. rewrite octet_val_b2z, b2z_more.
        pose proof (Z.div_mod v 128). lia.
      * destruct (Z.eq_dec (v / 128) 0) as [E0|E0].
        -- rewrite E0. replace (base128_more fuel 0) with (@nil byte) by (destruct fuel; reflexivity). cbn [app hd_error].
           intros H. injection H as H. apply (f_equal b2z) in H. rewrite b2z_more in H. change (b2z x80) with 128 in H.
           pose proof (Z.div_mod v 128). lia.
        -- specialize (D E0). destruct (base128_more fuel (v / 128)); [contradiction|]. exact C.
      * intros _ H. apply app_eq_nil in H. destruct H; discriminate.
Qed.

Lemma base128_ok v : 0 <= v < 2 ^ 35 -> subidentifier v (base128 v).
Proof.
  intros Hv. destruct (base128_more_ok 4 (v / 128)) as (A & B & C & _).
  { split; [apply Z.div_pos; lia|apply Z.div_lt_upper_bound; [lia|]; change (128 * 128 ^ Z.of_nat 4) with (2 ^ 35); lia]. }
  unfold base128. assert (L : octet_val (z2b (v mod 128)) = v mod 128).
  { rewrite octet_val_b2z, b2z_z2b. apply Z.mod_small. pose proof (Z.mod_pos_bound v 128 eq_refl). lia. }
  assert (E : v = fold_left (fun a b => 128 * a + (octet_val b - 128)) (base128_more 4 (v / 128)) 0 * 128
                  + octet_val (z2b (v mod 128))).
  { rewrite B, L. pose proof (Z.div_mod v 128). lia. }
  rewrite E at 1. constructor; auto. rewrite L. apply Z.mod_pos_bound. lia.
Qed.

Lemma oid_octets_ok a b rest : 0 <= a <= 2 -> 0 <= b < 40 -> Forall (fun v => 0 <= v < 2 ^ 32) rest ->
  oid_encoding (a :: b :: rest) (oid_octets (a :: b :: rest)).
Proof.
  intros Ha Hb F. constructor; try lia. cbn [oid_octets].
  assert (E : z2b (40 * a + b) = z2b ((40 * a + b) mod 128)) by (f_equal; symmetry; apply Z.mod_small; lia).
  rewrite E. change (z2b ((40 * a + b) mod 128) :: flat_map base128 rest) with ([z2b ((40 * a + b) mod 128)] ++ flat_map base128 rest).
  constructor.
  - replace [z2b ((40 * a + b) mod 128)] with (base128 (40 * a + b)); [apply base128_ok; lia|].
    unfold base128. replace ((40 * a + b) / 128) with 0 by (symmetry; apply Z.div_small; lia). reflexivity.
  - induction F as [|v rest Hv F IH]; cbn [flat_map]; constructor; auto. apply base128_ok. lia.
Qed.

(** An encoding determines the arcs. *)
Lemma octets_split more : forall more' last last' (r r' : list byte),
  Forall (fun b => 128 <= octet_val b) more -> Forall (fun b => 128 <= octet_val b) more' ->
  octet_val last < 128 -> octet_val last' < 128 ->
  (more ++ [last]) ++ r = (more' ++ [last']) ++ r' -> more = more' /\ last = last' /\ r = r'.
Proof.
  induction more as [|m more IH]; intros [|m' more'] last last' r r' F F' L L' E; cbn [app] in E.
  - injection E as -> ->. auto.
  - injection E as E1 _. subst. inversion F'. lia.
  - injection E as E1 _. subst. inversion F. lia.
  - injection E as -> E. inversion F. inversion F'. subst.
    destruct (IH more' last last' r r') as (-> & -> & ->); auto.
Qed.

Lemma subidentifiers_inj vs l : subidentifiers vs l -> forall vs', subidentifiers vs' l -> vs = vs'.
Proof.
  assert (N : forall v l, subidentifier v l -> l <> []).
  { intros v l0 H. inversion H. intros E. apply app_eq_nil in E. destruct E; discriminate. }
  induction 1 as [|v vs l ls H Hs IH]; intros vs' H'.
  - inversion H' as [|v' vs'' l' ls' V Vs A B]; [reflexivity|]. apply app_eq_nil in B. destruct B as (-> & _).
    apply N in V. contradiction.
  - inversion H' as [A B|v' vs'' l' ls' V Vs A B].
    + symmetry in B. apply app_eq_nil in B. destruct B as (-> & _). apply N in H. contradiction.
    + inversion H as [m1 t1 F1 L1 _ E1 E2]. inversion V as [m2 t2 F2 L2 _ E3 E4]. subst l l'.
      destruct (octets_split m2 m1 t2 t1 ls' ls F2 F1 L2 L1 B) as (-> & -> & ->).
      f_equal. apply IH. exact Vs.
Qed.

Lemma oid_encoding_inj arcs arcs' l : oid_encoding arcs l -> oid_encoding arcs' l -> arcs = arcs'.
Proof.
  intros H H'. inversion H as [a b r l0 A1 A2 A3 A4]. inversion H' as [a' b' r' l0' B1 B2 B3 B4]. subst.
  pose proof (subidentifiers_inj _ _ A4 _ B4) as E. injection E as E ->.
  assert (a = a' /\ b = b') as (-> & ->); [|reflexivity].
  clear - A1 A2 A3 B1 B2 B3 E. lia.
Qed.
