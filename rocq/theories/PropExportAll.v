(** C106: every outcome of exporting a key, and its cause.  [mx] is the largest length the DER
    library handles (2^28 - 1 in the pinned version). *)
From Coq Require Import ZArith List Bool Lia Znumtheory.
From Coq Require Import Init.Byte.
From Verif Require Import Base Bigint NumTheory SpecRFC SpecKey SpecDer SpecSerde MHash MPkcs1 MRsa MKey MApi MWrap MDer MEncoding MSerde
  KeyDefs PKey PPub PDer PEncoding PCodec PSerde PropEncoding KeyExamples PExportAll.
Import ListNotations.
Local Open Scope Z_scope.

(** [o] is [Ok doc] if that is short enough, and otherwise the ASN.1 error. *)
Definition written (mx : Z) (doc : list byte) (o : outcome (list byte)) : Prop :=
  (Z.of_nat (length doc) <= mx -> o = Ok doc) /\ (mx < Z.of_nat (length doc) -> o = Err ErrAsn1).

Theorem C106_public : forall mx k, mx < 2 ^ 32 -> wf_pub k ->
  written mx (der (SubjectPublicKeyInfo rsa_AlgorithmIdentifier (der (RSAPublicKey (uval (pk_n k)) (uval (pk_e k))))))
          (to_public_key_der mx k).
Proof.
  intros mx k M W. rewrite (exact_public mx M k W). cbv zeta. split; intros H.
  - apply Z.leb_le in H. rewrite H. reflexivity.
  - apply Z.leb_gt in H. rewrite H. reflexivity.
Qed.

(** Two primes are exportable when neither is 0 or 1, both are stored at one width and that
    is at most the width of d; otherwise the call panics. *)
Theorem C106_private : forall mx k, mx < 2 ^ 32 ->
  wf_pub (sk_pub k) -> wf_uint (sk_d k) -> Forall wf_uint (sk_primes k) ->
  let n := uval (pk_n (sk_pub k)) in let e := uval (pk_e (sk_pub k)) in let d := uval (sk_d k) in
  match sk_primes k with
  | [] | [_] => to_pkcs8_der mx k = Panic
  | [p; q] =>
      let exportable := 2 <= uval p /\ 2 <= uval q /\ uprec p = uprec q /\ uprec p <= uprec (sk_d k) in
      (~ exportable -> to_pkcs8_der mx k = Panic) /\
      (exportable -> Z.gcd (uval p) (uval q) <> 1 -> to_pkcs8_der mx k = Err ErrPkcs1Crypto) /\
      (exportable -> Z.gcd (uval p) (uval q) = 1 ->
       exists qi, 0 <= qi < uval p /\ (uval q * qi) mod uval p = 1 /\
         written mx (der (PrivateKeyInfo rsa_AlgorithmIdentifier (der (RSAPrivateKey n e d (uval p) (uval q)
                            (d mod (uval p - 1)) (d mod (uval q - 1)) qi))))
                 (to_pkcs8_der mx k))
  | _ => to_pkcs8_der mx k = Err ErrPkcs1Version
  end.
Proof.
  intros mx k M W Wd F n e d. destruct (sk_primes k) as [|p [|q [|r l]]] eqn:EP.
  1,2: apply export_few; rewrite EP; cbn [length]; lia.
  2:{ apply export_multi_prime. rewrite EP. cbn [length]. lia. }
  rewrite !Forall_cons_iff in F. destruct F as (Wp & Wq & _). cbv zeta.
  split; [|split].
  - intros H. apply (export_unstorable mx k p q); auto. intros (A & B & C & D). apply H. auto.
  - intros (A & B & C & D) G. apply (export_not_coprime mx k p q); auto.
  - intros (A & B & C & D) G.
    destruct (zinv_exists (uval q) (uval p)) as (qi & Z); [lia|rewrite Z.gcd_comm; exact G|].
    apply zinv_some in Z. destruct Z as (_ & Rq & Eq). rewrite (Z.mod_small 1) in Eq by lia.
    exists qi. split; [exact Rq|]. split; [exact Eq|].
    rewrite (exact_private mx M k p q qi W Wd EP Wp Wq A B D (eq_sym C) Rq Eq). cbv zeta. unfold private_doc. fold n e d.
    split; intros H.
    + apply Z.leb_le in H. rewrite H. reflexivity.
    + apply Z.leb_gt in H. rewrite H. reflexivity.
Qed.

(** Keys whose numbers have at most 2^20 bits never meet the length limit, if that is at
    least 2^21 octets. *)
Theorem C106_no_length_error : forall mx k, 2 ^ 21 <= mx < 2 ^ 32 ->
  (forall pk, wf_pub pk -> uprec (pk_n pk) <= 2 ^ 20 -> uprec (pk_e pk) <= 2 ^ 20 ->
   exists doc, to_public_key_der mx pk = Ok doc) /\
  (wf_pub (sk_pub k) -> wf_uint (sk_d k) -> Forall wf_uint (sk_primes k) ->
   uprec (pk_n (sk_pub k)) <= 2 ^ 20 -> uprec (pk_e (sk_pub k)) <= 2 ^ 20 -> uprec (sk_d k) <= 2 ^ 20 ->
   to_pkcs8_der mx k <> Err ErrAsn1).
Proof.
  intros mx k M. assert (M32 : mx < 2 ^ 32) by apply M. split.
  - intros pk W Bn Be. pose proof W as ((N0 & _) & (E0 & _) & _). eexists. apply (C106_public mx pk M32 W).
    eapply Z.le_trans; [apply public_doc_bound; [left; reflexivity|]|apply M].
    pose proof (below_2_20 _ _ N0 Bn) as A. pose proof (below_2_20 _ _ E0 Be) as B.
    apply Forall_cons; [exact A|]. apply Forall_cons; [exact B|]. apply Forall_nil.
  - intros W Wd F Bn Be Bd E. pose proof (C106_private mx k M32 W Wd F) as P. cbv zeta in P.
    destruct (sk_primes k) as [|p [|q [|r l]]] eqn:EP; rewrite E in P; try discriminate P.
    destruct P as (P1 & P2 & P3).
    assert (D : 2 <= uval p /\ 2 <= uval q /\ uprec p = uprec q /\ uprec p <= uprec (sk_d k)).
    { destruct (Z.le_gt_cases 2 (uval p)) as [X1|X1]; [|exfalso; assert (Q : Err ErrAsn1 = @Panic (list byte)) by (apply P1; clear - X1; lia); discriminate Q].
      destruct (Z.le_gt_cases 2 (uval q)) as [X2|X2]; [|exfalso; assert (Q : Err ErrAsn1 = @Panic (list byte)) by (apply P1; clear - X2; lia); discriminate Q].
      destruct (Z.eq_dec (uprec p) (uprec q)) as [X3|X3]; [|exfalso; assert (Q : Err ErrAsn1 = @Panic (list byte)) by (apply P1; clear - X3; lia); discriminate Q].
      destruct (Z.le_gt_cases (uprec p) (uprec (sk_d k))) as [X4|X4]; [auto|exfalso; assert (Q : Err ErrAsn1 = @Panic (list byte)) by (apply P1; clear - X4; lia); discriminate Q]. }
    destruct (Z.eq_dec (Z.gcd (uval p) (uval q)) 1) as [G|G]; [|discriminate (P2 D G)].
    destruct (P3 D G) as (qi & Rq & _ & (FIT & _)).
    rewrite !Forall_cons_iff in F. destruct F as (Wp & Wq & _). destruct D as (D1 & D2 & D3 & D4).
    pose proof W as ((N0 & _) & (E0 & _) & _). pose proof Wd as (V0 & _). pose proof Wp as (P0 & _). pose proof Wq as (Q0 & _).
    assert (X2 : uprec p <= 2 ^ 20) by (clear - D4 Bd; lia). assert (X3 : uprec q <= 2 ^ 20) by (clear - D3 X2; lia).
    pose proof (below_2_20 _ _ N0 Bn) as A1. pose proof (below_2_20 _ _ E0 Be) as A2. pose proof (below_2_20 _ _ V0 Bd) as A3.
    pose proof (below_2_20 _ _ P0 X2) as A4. pose proof (below_2_20 _ _ Q0 X3) as A5.
    assert (Q : @Err (list byte) ErrAsn1 = Ok (der (PrivateKeyInfo rsa_AlgorithmIdentifier (der (RSAPrivateKey (uval (pk_n (sk_pub k)))
      (uval (pk_e (sk_pub k))) (uval (sk_d k)) (uval p) (uval q) (uval (sk_d k) mod (uval p - 1)) (uval (sk_d k) mod (uval q - 1)) qi))))).
    { apply FIT. eapply Z.le_trans; [apply private_doc_bound; [left; reflexivity|]|apply M].
      assert (R1 : 0 <= uval (sk_d k) mod (uval p - 1) <= uval (sk_d k)).
      { pose proof (Z.mod_pos_bound (uval (sk_d k)) (uval p - 1) ltac:(clear - D1; lia)) as X.
        split; [apply X|]. apply Z.mod_le; [apply V0|clear - D1; lia]. }
      assert (R2 : 0 <= uval (sk_d k) mod (uval q - 1) <= uval (sk_d k)).
      { pose proof (Z.mod_pos_bound (uval (sk_d k)) (uval q - 1) ltac:(clear - D2; lia)) as X.
        split; [apply X|]. apply Z.mod_le; [apply V0|clear - D2; lia]. }
      set (T := 2 ^ 2 ^ 20) in *. clearbody T.
      repeat (apply Forall_cons; [first [assumption|clear - A3 A4 R1 R2 Rq; lia]|]). apply Forall_nil. }
    discriminate Q.
Qed.

(** PKCS#1 documents are cut out of the PKCS#8 or SPKI ones: they are produced, refused and
    panic together, whatever their own length. *)
Theorem C106_pkcs1 : forall mx tl, mx < 2 ^ 29 -> tl 0 [] = true ->
  (forall k, wf_pub (sk_pub k) -> wf_uint (sk_d k) -> Forall wf_uint (sk_primes k) ->
   match to_pkcs8_der mx k with
   | Ok doc => exists key, doc = der (PrivateKeyInfo rsa_AlgorithmIdentifier key) /\ to_pkcs1_der mx tl k = Ok key
   | o => to_pkcs1_der mx tl k = o
   end) /\
  (forall k, wf_pub k ->
   match to_public_key_der mx k with
   | Ok doc => exists key, doc = der (SubjectPublicKeyInfo rsa_AlgorithmIdentifier key) /\ to_pkcs1_public_der mx k = Ok key
   | o => to_pkcs1_public_der mx k = o
   end).
Proof.
  intros mx tl M T. assert (M32 : mx < 2 ^ 32) by (clear - M; lia). split.
  - intros k W Wd F. destruct (to_pkcs8_der mx k) as [doc|x| |] eqn:E.
    2,3,4: unfold to_pkcs1_der; rewrite E; reflexivity.
    pose proof (C106_private mx k M32 W Wd F) as P. cbv zeta in P.
    destruct (sk_primes k) as [|p [|q [|r l]]] eqn:EP; try (rewrite E in P; discriminate P).
    destruct P as (P1 & P2 & P3).
    rewrite !Forall_cons_iff in F. destruct F as (Wp & Wq & _).
    assert (D : 2 <= uval p /\ 2 <= uval q /\ uprec p = uprec q /\ uprec p <= uprec (sk_d k)).
    { rewrite E in P1. clear - P1.
      destruct (Z.le_gt_cases 2 (uval p)) as [X1|X1]; [|exfalso; assert (Q : Ok doc = @Panic (list byte)) by (apply P1; lia); discriminate Q].
      destruct (Z.le_gt_cases 2 (uval q)) as [X2|X2]; [|exfalso; assert (Q : Ok doc = @Panic (list byte)) by (apply P1; lia); discriminate Q].
      destruct (Z.eq_dec (uprec p) (uprec q)) as [X3|X3]; [|exfalso; assert (Q : Ok doc = @Panic (list byte)) by (apply P1; lia); discriminate Q].
      destruct (Z.le_gt_cases (uprec p) (uprec (sk_d k))) as [X4|X4]; [auto|exfalso; assert (Q : Ok doc = @Panic (list byte)) by (apply P1; lia); discriminate Q]. }
    destruct (Z.eq_dec (Z.gcd (uval p) (uval q)) 1) as [G|G]; [|rewrite E in P2; discriminate (P2 D G)].
    destruct (P3 D G) as (qi & Rq & _ & (FIT & BIG)).
    match type of FIT with Z.of_nat (length ?x) <= mx -> _ => set (dd := x) in *; destruct (Z.le_gt_cases (Z.of_nat (length dd)) mx) as [L|L] end.
    2:{ rewrite (BIG L) in E. discriminate E. }
    assert (EQ : doc = dd) by (rewrite (FIT L) in E; congruence). exists (der (RSAPrivateKey (uval (pk_n (sk_pub k)))
      (uval (pk_e (sk_pub k))) (uval (sk_d k)) (uval p) (uval q) (uval (sk_d k) mod (uval p - 1)) (uval (sk_d k) mod (uval q - 1)) qi)).
    split; [exact EQ|]. apply (pkcs1_export mx M); [exact T| |exact (FIT L)].
    pose proof W as (((N0 & _) & _) & ((E0 & _) & _) & _). destruct Wd as ((V0 & _) & _). destruct Wp as ((Q1 & _) & _). destruct Wq as ((Q2 & _) & _).
    destruct D as (D1 & D2 & _). clear - N0 E0 V0 Q1 Q2 D1 D2 Rq.
    pose proof (Z.mod_pos_bound (uval (sk_d k)) (uval p - 1) ltac:(lia)). pose proof (Z.mod_pos_bound (uval (sk_d k)) (uval q - 1) ltac:(lia)).
    repeat (apply Forall_cons; [lia|]). apply Forall_nil.
  - intros k W. destruct (to_public_key_der mx k) as [doc|x| |] eqn:E.
    2,3,4: unfold to_pkcs1_public_der; rewrite E; reflexivity.
    destruct (C106_public mx k M32 W) as (FIT & BIG). 
    match type of FIT with Z.of_nat (length ?x) <= mx -> _ => set (dd := x) in *; destruct (Z.le_gt_cases (Z.of_nat (length dd)) mx) as [L|L] end.
    2:{ rewrite (BIG L) in E. discriminate E. }
    assert (EQ : doc = dd) by (rewrite (FIT L) in E; congruence). exists (der (RSAPublicKey (uval (pk_n k)) (uval (pk_e k)))).
    split; [exact EQ|]. pose proof W as (((N0 & _) & _) & ((E0 & _) & _) & _). apply (pkcs1_public_export mx M); auto.
Qed.

(** [b] fails just as [a] does. *)
Definition fails_like {A B} (a : outcome A) (b : outcome B) : Prop :=
  ((exists x, a = Ok x) <-> (exists y, b = Ok y)) /\ (forall e, a = Err e <-> b = Err e) /\ (a = Panic <-> b = Panic).

(** Serialising, and the exports and serialisations of the wrapper types, fail with the error
    of the key inside. *)
Theorem C106_wrappers : forall mx human,
  (forall k, fails_like (to_public_key_der mx k) (ser_public mx human k) /\
     (forall w, p1vk_inner w = k -> fails_like (to_public_key_der mx k) (p1vk_to_public_key_der mx w) /\
                                   fails_like (to_public_key_der mx k) (ser_p1vk mx human w)) /\
     (forall w, psvk_inner w = k -> fails_like (to_public_key_der mx k) (psvk_to_public_key_der mx w) /\
                                   fails_like (to_public_key_der mx k) (ser_psvk mx human w)) /\
     (forall w, p1ek_inner w = k -> fails_like (to_public_key_der mx k) (ser_p1ek mx human w)) /\
     (forall w, oek_inner w = k -> fails_like (to_public_key_der mx k) (ser_oek mx human w))) /\
  (forall k, fails_like (to_pkcs8_der mx k) (ser_private mx human k) /\
     (forall w, p1sk_inner w = k -> fails_like (to_pkcs8_der mx k) (p1sk_to_pkcs8_der mx w) /\
                                   fails_like (to_pkcs8_der mx k) (ser_p1sk mx human w)) /\
     (forall w, pssk_inner w = k -> fails_like (to_pkcs8_der mx k) (pssk_to_pkcs8_der mx w) /\
                                   fails_like (to_pkcs8_der mx k) (ser_pssk mx human w)) /\
     (forall w, p1dk_inner w = k -> fails_like (to_pkcs8_der mx k) (ser_p1dk mx human w)) /\
     (forall w, odk_inner w = k -> fails_like (to_pkcs8_der mx k) (ser_odk mx human w))).
Proof.
  intros mx human.
  assert (X : forall A B C (o : outcome A) (f : A -> B) (h : B -> C),
    fails_like o o /\ fails_like o (let* a := o in Ok (f a)) /\ fails_like o (let* b := (let* a := o in Ok (f a)) in Ok (h b))).
  { intros A B C o f h. unfold fails_like. destruct o; cbn [bind]; repeat split;
      try (intros (? & ?); discriminate); try discriminate; try (intros; congruence); intros; eauto. }
  split; intros k.
  - split; [apply (X _ _ sval); exact (fun _ => SNone)|]. split; [|split; [|split]]; intros w <-.
    + split; [apply (X _ _ sval _ (fun _ => tt)); exact (fun _ => SNone)|apply (X _ _ sval); exact (fun _ => SNone)].
    + split; [apply (X _ _ sval _ (fun _ => tt)); exact (fun _ => SNone)|apply (X _ _ sval); exact (fun _ => SNone)].
    + apply X.
    + apply X.
  - split; [apply (X _ _ sval); exact (fun _ => SNone)|]. split; [|split; [|split]]; intros w <-.
    + split; [apply (X _ _ sval _ (fun _ => tt)); exact (fun _ => SNone)|apply (X _ _ sval); exact (fun _ => SNone)].
    + split; [apply (X _ _ sval _ (fun _ => tt)); exact (fun _ => SNone)|apply (X _ _ sval); exact (fun _ => SNone)].
    + apply X.
    + apply X.
Qed.

(** * Concrete cases *)

(** The key of 64 bits is written in 86 octets, and refused under a limit of 85; its primes stored
    at different widths make the call panic, equal primes the cryptography error. *)
Example C106_case :
  wf_pub (sk_pub key64) /\ wf_uint (sk_d key64) /\ Forall wf_uint (sk_primes key64) /\
  (exists doc, to_pkcs8_der 86 key64 = Ok doc) /\ to_pkcs8_der 85 key64 = Err ErrAsn1 /\
  to_pkcs1_der 85 opt28 key64 = Err ErrAsn1 /\
  (exists doc, to_public_key_der 38 pub64 = Ok doc) /\ to_public_key_der 37 pub64 = Err ErrAsn1 /\
  to_pkcs8_der mx28 (mkPriv pub64 d64 [p64; mkU (uval q64) 128] None) = Panic /\
  to_pkcs8_der mx28 (mkPriv pub64 d64 [p64] None) = Panic /\
  to_pkcs8_der mx28 (mkPriv pub64 d64 [mkU 1 64; q64] None) = Panic /\
  to_pkcs8_der mx28 (mkPriv pub64 d64 [p64; p64] None) = Err ErrPkcs1Crypto /\
  to_pkcs8_der mx28 key91 = Err ErrPkcs1Version.
Proof.
  destruct good64 as (Wp & Wd & Wpr & _).
  split; [exact Wp|]. split; [exact Wd|]. split; [exact Wpr|].
  split; [eexists; vm_compute; reflexivity|]. split; [vm_compute; reflexivity|]. split; [vm_compute; reflexivity|].
  split; [eexists; vm_compute; reflexivity|]. split; [vm_compute; reflexivity|]. split; [vm_compute; reflexivity|].
  split; [vm_compute; reflexivity|]. split; [vm_compute; reflexivity|]. split; vm_compute; reflexivity.
Qed.

Print Assumptions C106_public.
Print Assumptions C106_private.
Print Assumptions C106_no_length_error.
Print Assumptions C106_pkcs1.
Print Assumptions C106_wrappers.
