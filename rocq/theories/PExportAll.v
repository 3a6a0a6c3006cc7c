(** Proofs for C106: every outcome of an export. *)
From Coq Require Import ZArith List Bool Lia Znumtheory.
From Coq Require Import Init.Byte.
From Verif Require Import Base Bigint BytesLemmas NumTheory SpecRFC SpecKey SpecDer BigintLemmas
  MHash MPkcs1 MRsa MKey MApi MWrap MDer MEncoding MSerde KeyDefs PKey PPub PDer PEncoding PCodec PExport PSerde PLeakExport.
Import ListNotations.
Local Open Scope Z_scope.

Section WithMax.
  Context (mx : Z).
  Hypothesis Hmx : mx < 2 ^ 32.

  Lemma ref_cases u : wf_uint u ->
    uint_ref_new mx (to_be_bytes u) = Ok (min_octets (uval u)) \/ uint_ref_new mx (to_be_bytes u) = Err ErrAsn1.
  Proof.
    intros W. unfold uint_ref_new. cbv zeta. rewrite stripped by exact W. destruct (_ <? _); auto.
  Qed.

  Lemma tlv_cases tag c : encode_tlv mx tag c = Ok (der_tlv tag c) \/ encode_tlv mx tag c = Err ErrAsn1.
  Proof.
    destruct (encode_tlv_err mx tag c) as [(r & E)|E]; [|auto]. left. rewrite E.
    apply (encode_tlv_inv mx Hmx) in E. destruct E as (-> & _). reflexivity.
  Qed.

  Lemma uint_cases z : 0 <= z ->
    encode_uint mx (min_octets z) = Ok (der (AInteger z)) \/ encode_uint mx (min_octets z) = Err ErrAsn1.
  Proof. intros H. unfold encode_uint. rewrite uint_content_spec by exact H. apply tlv_cases. Qed.

  Lemma alg_cases : encode_alg_id mx rsa_algorithm_id = Ok (der rsa_AlgorithmIdentifier) \/
    encode_alg_id mx rsa_algorithm_id = Err ErrAsn1.
  Proof.
    unfold encode_alg_id, rsa_algorithm_id. cbn [alg_oid alg_params].
    repeat match goal with
    | |- context [encode_tlv mx ?t ?c] => destruct (tlv_cases t c) as [E|E]; rewrite E; clear E; cbn [bind]; [|right; reflexivity]
    end. left. reflexivity.
  Qed.

  Lemma guard_cases b : guard b ErrAsn1 = Ok tt \/ guard b ErrAsn1 = Err ErrAsn1.
  Proof. destruct b; auto. Qed.

  Ltac go :=
    match goal with
    | |- context [bind (uint_ref_new mx (to_be_bytes ?u)) _] =>
        destruct (ref_cases u ltac:(assumption)) as [E|E]; rewrite E; clear E; cbn [bind]; [|right; reflexivity]
    | |- context [bind (encode_uint mx (min_octets ?z)) _] =>
        destruct (uint_cases z ltac:(first [assumption|lia])) as [E|E]; rewrite E; clear E; cbn [bind]; [|right; reflexivity]
    | |- context [bind (encode_tlv mx ?t ?c) _] =>
        destruct (tlv_cases t c) as [E|E]; rewrite E; clear E; cbn [bind]; [|right; reflexivity]
    | |- context [bind (encode_alg_id mx rsa_algorithm_id) _] =>
        destruct alg_cases as [E|E]; rewrite E; clear E; cbn [bind]; [|right; reflexivity]
    | |- context [bind (guard ?b ErrAsn1) _] =>
        destruct (guard_cases b) as [E|E]; rewrite E; clear E; cbn [bind]; [|right; reflexivity]
    end.

  Lemma public_or k : wf_pub k ->
    to_public_key_der mx k = Ok (der (SubjectPublicKeyInfo rsa_AlgorithmIdentifier (der (RSAPublicKey (uval (pk_n k)) (uval (pk_e k)))))) \/
    to_public_key_der mx k = Err ErrAsn1.
  Proof.
    intros (Wn & We & _). pose proof Wn as (N0 & _). pose proof We as (E0 & _).
    unfold to_public_key_der. do 2 go. unfold encode_p1_public. cbn [p1_modulus p1_public_exponent].
    assert (0 <= uval (pk_n k)) by apply N0. assert (0 <= uval (pk_e k)) by apply E0. do 2 go.
    match goal with |- context [encode_tlv mx ?t ?c] => destruct (tlv_cases t c) as [E|E]; rewrite E; clear E; cbn [bind]; [|right; reflexivity] end.
    go. unfold encode_spki. cbn [si_alg si_unused si_key]. do 2 go.
    match goal with |- context [encode_tlv mx ?t ?c] => destruct (tlv_cases t c) as [E|E]; rewrite E; clear E; cbn [bind]; [|right; reflexivity] end.
    left. unfold SubjectPublicKeyInfo, RSAPublicKey.
    set (a1 := AInteger (uval (pk_n k))). set (a2 := AInteger (uval (pk_e k))). set (al := rsa_AlgorithmIdentifier).
    clearbody a1 a2 al. cbn [der map concat]. rewrite !app_nil_r. reflexivity.
  Qed.

  Lemma private_or k p q qi :
    wf_pub (sk_pub k) -> wf_uint (sk_d k) -> sk_primes k = [p; q] -> wf_uint p -> wf_uint q ->
    2 <= uval p -> 2 <= uval q -> uprec p <= uprec (sk_d k) -> uprec q = uprec p ->
    0 <= qi < uval p -> (uval q * qi) mod uval p = 1 ->
    to_pkcs8_der mx k = Ok (der (private_doc rsa_AlgorithmIdentifier (uval (pk_n (sk_pub k))) (uval (pk_e (sk_pub k)))
                 (uval (sk_d k)) (uval p) (uval q) (uval (sk_d k) mod (uval p - 1)) (uval (sk_d k) mod (uval q - 1)) qi)) \/
    to_pkcs8_der mx k = Err ErrAsn1.
  Proof.
    intros (Wn & We & _) Wd EP Wp Wq Hp2 Hq2 PP PQ Hqi Eqi.
    destruct (crt_exponent_ok (sk_d k) p Wd Wp Hp2 PP) as (C1 & W1).
    destruct (crt_exponent_ok (sk_d k) q Wd Wq Hq2 ltac:(lia)) as (C2 & W2).
    unfold to_pkcs8_der, private_to_pkcs1. rewrite EP. cbn [length Nat.ltb Nat.leb].
    cbv zeta. cbn [get_idx nth_error bind]. rewrite C1. cbn [bind]. rewrite C2. cbn [bind].
    assert (CC : crt_coefficient k = Ok (Some (mkU qi (uprec p))) /\ wf_uint (mkU qi (uprec p))).
    { unfold crt_coefficient. rewrite EP. cbn [get_idx nth_error bind]. unfold uinv_mod.
      destruct (Z.eqb_spec (uprec q) (uprec p)) as [_|]; [|contradiction].
      assert (Z : zinv (uval q) (uval p) = Some qi).
      { destruct (zinv (uval q) (uval p)) as [z|] eqn:Z.
        - apply zinv_some in Z. destruct Z as (A & B & C). f_equal.
          eapply PCodec.inverse_unique; [exact A|exact B|exact Hqi|exact C|].
          rewrite Eqi. symmetry. apply Z.mod_small. lia.
        - exfalso. apply zinv_none in Z; [|lia]. apply Z. clear -Eqi Hp2.
          apply Zgcd_1_rel_prime. apply bezout_rel_prime.
          apply (Bezout_intro (uval q) (uval p) 1 qi (- ((uval q * qi) / uval p))).
          pose proof (Z.div_mod (uval q * qi) (uval p) ltac:(lia)). nia. }
      rewrite Z. split; [reflexivity|]. destruct Wp as (V1 & V2 & V3). split; [cbn [uval uprec]; lia|auto]. }
    destruct CC as (CC & WC). rewrite CC. cbn [bind]. clear CC C1 C2.
    pose proof Wn as ((N0 & _) & _). pose proof We as ((E0 & _) & _). pose proof Wd as ((D0 & _) & _).
    pose proof Wp as ((P0 & _) & _). pose proof Wq as ((Q0 & _) & _). pose proof W1 as ((X0 & _) & _).
    pose proof W2 as ((Y0 & _) & _). destruct Hqi as (I0 & _). cbn [uval] in X0, Y0.
    do 8 go. cbn [uval]. unfold encode_p1_private.
    cbn [pp_modulus pp_public_exponent pp_private_exponent pp_prime1 pp_prime2 pp_exponent1 pp_exponent2 pp_coefficient].
    rewrite <- min_octets_0. do 9 go.
    match goal with |- context [encode_tlv mx ?t ?c] => destruct (tlv_cases t c) as [E|E]; rewrite E; clear E; cbn [bind]; [|right; reflexivity] end.
    go. unfold encode_key_info. cbn [ki_alg ki_key]. rewrite <- min_octets_0. do 3 go.
    match goal with |- context [encode_tlv mx ?t ?c] => destruct (tlv_cases t c) as [E|E]; rewrite E; clear E; cbn [bind]; [|right; reflexivity] end.
    left. unfold private_doc, PrivateKeyInfo, RSAPrivateKey.
    set (a0 := AInteger 0). set (a1 := AInteger (uval (pk_n (sk_pub k)))). set (a2 := AInteger (uval (pk_e (sk_pub k)))).
    set (a3 := AInteger (uval (sk_d k))). set (a4 := AInteger (uval p)). set (a5 := AInteger (uval q)).
    set (a6 := AInteger (uval (sk_d k) mod (uval p - 1))). set (a7 := AInteger (uval (sk_d k) mod (uval q - 1))).
    set (a8 := AInteger qi). set (al := rsa_AlgorithmIdentifier).
    clearbody a0 a1 a2 a3 a4 a5 a6 a7 a8 al. cbn [der map concat]. rewrite !app_nil_r, <- ?app_assoc. reflexivity.
  Qed.

  Lemma private_fits k doc : to_pkcs8_der mx k = Ok doc -> Z.of_nat (length doc) <= mx.
  Proof.
    intros H. unfold to_pkcs8_der in H. apply bind_ok in H. destruct H as (s & _ & H).
    apply bind_ok in H. destruct H as (key & _ & H). apply bind_ok in H. destruct H as (_ & _ & H).
    unfold encode_key_info in H. apply bind_ok in H. destruct H as (? & _ & H).
    apply bind_ok in H. destruct H as (? & _ & H). apply bind_ok in H. destruct H as (? & _ & H).
    apply encode_tlv_inv in H; [|exact Hmx]. apply H.
  Qed.
  Lemma public_fits k doc : to_public_key_der mx k = Ok doc -> Z.of_nat (length doc) <= mx.
  Proof.
    intros H. unfold to_public_key_der in H. apply bind_ok in H. destruct H as (s & _ & H).
    apply bind_ok in H. destruct H as (e & _ & H).
    apply bind_ok in H. destruct H as (key & _ & H). apply bind_ok in H. destruct H as (_ & _ & H).
    unfold encode_spki in H. apply bind_ok in H. destruct H as (? & _ & H).
    apply bind_ok in H. destruct H as (? & _ & H).
    apply encode_tlv_inv in H; [|exact Hmx]. apply H.
  Qed.

  Lemma exact_public k : wf_pub k ->
    let doc := der (SubjectPublicKeyInfo rsa_AlgorithmIdentifier (der (RSAPublicKey (uval (pk_n k)) (uval (pk_e k))))) in
    to_public_key_der mx k = if Z.of_nat (length doc) <=? mx then Ok doc else Err ErrAsn1.
  Proof.
    intros W. cbv zeta. set (doc := der _).
    destruct (Z.leb_spec (Z.of_nat (length doc)) mx) as [L|L]; [apply (export_public_ok mx Hmx k W L)|].
    destruct (public_or k W) as [E|E]; [|exact E]. fold doc in E. apply public_fits in E. lia.
  Qed.

  Lemma exact_private k p q qi :
    wf_pub (sk_pub k) -> wf_uint (sk_d k) -> sk_primes k = [p; q] -> wf_uint p -> wf_uint q ->
    2 <= uval p -> 2 <= uval q -> uprec p <= uprec (sk_d k) -> uprec q = uprec p ->
    0 <= qi < uval p -> (uval q * qi) mod uval p = 1 ->
    let doc := der (private_doc rsa_AlgorithmIdentifier (uval (pk_n (sk_pub k))) (uval (pk_e (sk_pub k)))
                 (uval (sk_d k)) (uval p) (uval q) (uval (sk_d k) mod (uval p - 1)) (uval (sk_d k) mod (uval q - 1)) qi) in
    to_pkcs8_der mx k = if Z.of_nat (length doc) <=? mx then Ok doc else Err ErrAsn1.
  Proof.
    intros W Wd EP Wp Wq Hp2 Hq2 PP PQ Hqi Eqi. cbv zeta. set (doc := der _).
    destruct (Z.leb_spec (Z.of_nat (length doc)) mx) as [L|L];
      [apply (export_ok mx Hmx k p q qi W Wd EP Wp Wq Hp2 Hq2 PP PQ Hqi Eqi L)|].
    destruct (private_or k p q qi W Wd EP Wp Wq Hp2 Hq2 PP PQ Hqi Eqi) as [E|E]; [|exact E].
    fold doc in E. apply private_fits in E. lia.
  Qed.
End WithMax.

Lemma crt_exponent_small d p : wf_uint p -> uval p < 2 -> crt_exponent d p = Panic.
Proof.
  intros ((V0 & _) & _) H. unfold crt_exponent, widen. destruct (_ <=? _); [|reflexivity]. cbn [bind].
  unfold usub_big. cbn [uval u_of_u64].
  assert (C : uval p = 0 \/ uval p = 1) by lia. destruct C as [E|E]; rewrite E; reflexivity.
Qed.

Lemma export_unstorable mx k p q : wf_uint (sk_d k) -> sk_primes k = [p; q] -> wf_uint p -> wf_uint q ->
  ~ (2 <= uval p /\ 2 <= uval q /\ uprec p <= uprec (sk_d k) /\ uprec q = uprec p) -> to_pkcs8_der mx k = Panic.
Proof.
  intros Wd EP Wp Wq H.
  destruct (Z.le_gt_cases 2 (uval p)) as [P2|P2].
  2:{ unfold to_pkcs8_der, private_to_pkcs1. rewrite EP. cbn [length Nat.ltb Nat.leb].
      cbv zeta. cbn [get_idx nth_error bind]. rewrite crt_exponent_small by auto. reflexivity. }
  destruct (Z.le_gt_cases 2 (uval q)) as [Q2|Q2].
  2:{ unfold to_pkcs8_der, private_to_pkcs1. rewrite EP. cbn [length Nat.ltb Nat.leb].
      cbv zeta. cbn [get_idx nth_error bind].
      destruct (Z.le_gt_cases (uprec p) (uprec (sk_d k))) as [PP|PP].
      - destruct (crt_exponent_ok (sk_d k) p Wd Wp P2 PP) as (C1 & _). rewrite C1. cbn [bind].
        rewrite crt_exponent_small by auto. reflexivity.
      - rewrite crt_exponent_wide by lia. reflexivity. }
  apply (export_widths mx k p q); auto.
  destruct (Z.le_gt_cases (uprec p) (uprec (sk_d k))); [|auto].
  destruct (Z.eq_dec (uprec q) (uprec p)); [exfalso; apply H; auto|auto].
Qed.

Lemma export_few mx k : (length (sk_primes k) < 2)%nat -> to_pkcs8_der mx k = Panic.
Proof.
  intros H. unfold to_pkcs8_der, private_to_pkcs1. destruct (sk_primes k) as [|p [|q l]]; [reflexivity|reflexivity|].
  cbn [length] in H. lia.
Qed.
