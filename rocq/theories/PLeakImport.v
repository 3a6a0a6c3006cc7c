(** What importing a private key document shows. *)
From Coq Require Import ZArith List Bool Lia.
From Coq Require Import Init.Byte.
From Verif Require Import Base Bigint BytesLemmas BigintLemmas NumTheory SpecRFC SpecDer SpecKey SpecExport KeyDefs MHash MRsa MKey
  MApi MDer MEncoding MLeak MLeakKey MLeakImport PKey PDer PEncoding PCodec PWrapEnc PLeak PLeakRel PLeakApi PLeakKey PLeakExport.
Import ListNotations.
Local Open Scope Z_scope.

(** * Same results *)

Section Results.
  Context (mx : Z) (tl : Z -> list byte -> bool).

  Lemma rf_guard b e : result (l_guard b e) = guard b e.
  Proof. destruct b; reflexivity. Qed.

  Lemma rf_long n l : result (l_long_length mx n l) = long_length mx n l.
  Proof.
    unfold l_long_length, long_length. rf1. destruct (length l <? n)%nat; [reflexivity|]. cbv zeta.
    eapply rf_bind; [apply rf_guard|intros ? _]. eapply rf_bind; [apply rf_guard|intros ? _]. reflexivity.
  Qed.

  Lemma rf_dlength l : result (l_decode_length mx l) = decode_length mx l.
  Proof.
    unfold l_decode_length, decode_length. destruct l as [|b l]; [reflexivity|]. cbv zeta.
    rf1. destruct (b2z b <? 128); [eapply rf_bind; [apply rf_guard|intros ? _]; reflexivity|].
    rf1. destruct (b2z b =? 129); [apply rf_long|]. rf1. destruct (b2z b =? 130); [apply rf_long|].
    rf1. destruct (b2z b =? 131); [apply rf_long|]. rf1. destruct (b2z b =? 132); [apply rf_long|]. reflexivity.
  Qed.

  Lemma rf_dtlv l : result (l_decode_tlv mx l) = decode_tlv mx l.
  Proof.
    unfold l_decode_tlv, decode_tlv. destruct l as [|b l]; [reflexivity|].
    eapply rf_bind; [apply rf_dlength|intros (n & r) _]. rf1. destruct (_ <? n); reflexivity.
  Qed.

  Lemma rf_tagged t l : result (l_decode_tagged mx t l) = decode_tagged mx t l.
  Proof.
    unfold l_decode_tagged, decode_tagged. eapply rf_bind; [apply rf_dtlv|intros ((t' & c) & r) _].
    rf1. destruct (byte_eqb t' t); reflexivity.
  Qed.

  Lemma rf_uvalue c : result (l_uint_value c) = uint_value c.
  Proof.
    unfold l_uint_value, uint_value. destruct c as [|a [|b c]]; [reflexivity| |].
    - rf1. destruct (b2z a <? 128); reflexivity.
    - rf1. destruct (byte_eqb a x00); [rf1; destruct (b2z b <? 128); reflexivity|].
      rf1. destruct (b2z a <? 128); reflexivity.
  Qed.

  Lemma rf_duint l : result (l_decode_uint mx l) = decode_uint mx l.
  Proof.
    unfold l_decode_uint, decode_uint. eapply rf_bind; [apply rf_tagged|intros (c & r) _].
    eapply rf_bind; [apply rf_uvalue|intros ? _]. reflexivity.
  Qed.

  Lemma rf_finish l : result (l_finish l) = finish l.
  Proof. unfold l_finish, finish. rf1. destruct l; reflexivity. Qed.

  Lemma rf_dalg l : result (l_decode_alg_id mx l) = decode_alg_id mx l.
  Proof.
    unfold l_decode_alg_id, decode_alg_id. eapply rf_bind; [apply rf_tagged|intros (c & r) _].
    eapply rf_bind; [apply rf_tagged|intros (o & b) _]. rf1. destruct b as [|x b]; [reflexivity|].
    cbn [length Nat.eqb]. eapply rf_bind; [apply rf_dtlv|intros ((t & v) & b') _].
    eapply rf_bind; [apply rf_finish|intros ? _]. reflexivity.
  Qed.

  Lemma rf_dp1 l : result (l_decode_p1_private mx l) = decode_p1_private mx l.
  Proof.
    unfold l_decode_p1_private, decode_p1_private. eapply rf_bind; [apply rf_tagged|intros (b & r) _].
    eapply rf_bind; [apply rf_duint|intros (v & b0) _].
    do 8 (eapply rf_bind; [apply rf_duint|intros (? & ?) _]).
    eapply rf_bind.
    - destruct v as [|x [|y v]]; [reflexivity| |reflexivity]. rf1. destruct (byte_eqb x x00).
      + eapply rf_bind; [apply rf_finish|intros ? _]. reflexivity.
      + rf1. destruct (byte_eqb x x01); reflexivity.
    - intros ? _. eapply rf_bind; [apply rf_finish|intros ? _]. reflexivity.
  Qed.

  Lemma rf_dinfo l : result (l_decode_key_info mx tl l) = decode_key_info mx tl l.
  Proof.
    unfold l_decode_key_info, decode_key_info. eapply rf_bind; [apply rf_tagged|intros (b & r) _].
    eapply rf_bind; [apply rf_duint|intros (v & b0) _].
    eapply rf_bind.
    - destruct v as [|x [|y v]]; [reflexivity| |reflexivity]. rf1. destruct (byte_eqb x x00); [reflexivity|].
      rf1. destruct (byte_eqb x x01); reflexivity.
    - intros ver _. eapply rf_bind; [apply rf_dalg|intros (a & b1) _].
      eapply rf_bind; [apply rf_tagged|intros (k & b2) _]. eapply rf_bind; [reflexivity|intros ? _].
      eapply rf_bind; [apply rf_finish|intros ? _]. reflexivity.
  Qed.

  Lemma rf_from_slice l b : result (l_uint_from_slice l b) = uint_from_slice l b.
  Proof.
    unfold l_uint_from_slice, uint_from_slice. rewrite <- rf_from_be.
    destruct (l_from_be_slice l b). reflexivity.
  Qed.

  Lemma rf_bits l : result (l_octets_bits l) = octets_bits l.
  Proof.
    unfold l_octets_bits, octets_bits. cbv zeta. eapply rf_bind; [apply rf_guard|intros ? _]. rf1. reflexivity.
  Qed.

  Lemma rf_from_p1 k : result (l_private_from_pkcs1 k) = private_from_pkcs1 k.
  Proof.
    unfold l_private_from_pkcs1, private_from_pkcs1. rf1. destruct (pp_multi k); [reflexivity|].
    eapply rf_bind; [apply rf_bits|intros ? _]. eapply rf_bind; [apply rf_from_slice|intros ? _].
    eapply rf_bind; [apply rf_guard|intros ? _]. eapply rf_bind; [apply rf_bits|intros ? _].
    do 4 (eapply rf_bind; [apply rf_from_slice|intros ? _]).
    rewrite <- rf_from_components. destruct (l_from_components _ _ _ _). reflexivity.
  Qed.

  Lemma rf_import l : result (l_from_pkcs8_der mx tl l) = from_pkcs8_der mx tl l.
  Proof.
    unfold l_from_pkcs8_der, from_pkcs8_der. eapply rf_bind; [apply rf_dinfo|intros i _].
    unfold l_private_try_from, private_try_from. eapply rf_bind; [reflexivity|intros ? _].
    eapply rf_bind; [apply rf_dp1|intros k _]. apply rf_from_p1.
  Qed.
End Results.

(** * Backward: what looks alike leaves the same trace *)

Lemma al_guard b b' e : alike eq (l_guard b e) (l_guard b' e).
Proof. intros [] [] E E'. destruct b; [|discriminate]. destruct b'; [|discriminate]. auto. Qed.

Section Alike.
  Context (mx : Z).
  Hypothesis Hmx : mx < 2 ^ 32.

  Lemma al_long n l l' : alike (fun _ _ => True) (l_long_length mx n l) (l_long_length mx n l').
  Proof.
    unfold l_long_length. apply al_check. cbv zeta.
    eapply al_bind; [apply al_guard|intros ? ? _ _ _]. eapply al_bind; [apply al_guard|intros ? ? _ _ _].
    apply al_ret. exact I.
  Qed.

  Lemma al_dlength b l l' : alike (fun _ _ => True) (l_decode_length mx (b :: l)) (l_decode_length mx (b :: l')).
  Proof.
    unfold l_decode_length. cbv zeta.
    apply al_same. intros c _. destruct c; [apply al_same; intros ? _; apply al_ret; exact I|].
    apply al_same. intros c _. destruct c; [apply al_long|].
    apply al_same. intros c _. destruct c; [apply al_long|].
    apply al_same. intros c _. destruct c; [apply al_long|].
    apply al_same. intros c _. destruct c; [apply al_long|]. apply al_err.
  Qed.

  Lemma der_length_cons n : exists b l, der_length n = b :: l.
  Proof. unfold der_length. destruct (n <? 128)%nat; eauto. Qed.

  Lemma dlength_ok n rest : Z.of_nat n <= mx ->
    result (l_decode_length mx (der_length n ++ rest)) = Ok (Z.of_nat n, rest).
  Proof. intros H. rewrite rf_dlength. apply decode_length_ok; auto. Qed.

  (** one header and value with known parts *)
  Definition tlv_pair (t : byte) (c r c' r' : list byte) (x x' : byte * list byte * list byte) : Prop :=
    x = (t, c, r) /\ x' = (t, c', r').

  Lemma al_dtlv t c r c' r' : Z.of_nat (length c) <= mx -> length c = length c' -> length r = length r' ->
    alike (tlv_pair t c r c' r') (l_decode_tlv mx (der_tlv t c ++ r)) (l_decode_tlv mx (der_tlv t c' ++ r')).
  Proof.
    intros H L R x x' E E'.
    assert (Ex : x = (t, c, r)) by (rewrite rf_dtlv, decode_tlv_ok in E by auto; congruence).
    assert (Ex' : x' = (t, c', r')) by (rewrite rf_dtlv, decode_tlv_ok in E' by (auto; lia); congruence).
    split; [|split; assumption]. clear E E' Ex Ex' x x'.
    unfold der_tlv. cbn [app l_decode_tlv]. rewrite <- !app_assoc.
    pose proof (dlength_ok (length c) (c ++ r) H) as D. pose proof (dlength_ok (length c') (c' ++ r') ltac:(lia)) as D'.
    rewrite !trace_bind, D, D'. f_equal.
    - rewrite <- L in *. destruct (der_length_cons (length c)) as (b & l & E). rewrite E in *. cbn [app] in *.
      exact (proj1 (al_dlength b _ _ _ _ D D')).
    - rewrite !app_length, <- L, <- R.
      destruct (Z.ltb_spec (Z.of_nat (length c + length r)) (Z.of_nat (length c))); [lia|]. reflexivity.
  Qed.

  Definition pair_is {A B} (a : A) (b : B) (a' : A) (b' : B) (x x' : A * B) : Prop := x = (a, b) /\ x' = (a', b').

  Lemma al_tagged t c r c' r' : Z.of_nat (length c) <= mx -> length c = length c' -> length r = length r' ->
    alike (pair_is c r c' r') (l_decode_tagged mx t (der_tlv t c ++ r)) (l_decode_tagged mx t (der_tlv t c' ++ r')).
  Proof.
    intros H L R. unfold l_decode_tagged. eapply al_bind; [apply al_dtlv; eassumption|].
    intros x x' _ _ (-> & ->). apply al_same. intros b _. destruct b; [apply al_ret; split; reflexivity|apply al_err].
  Qed.

  Lemma uvalue_trace l : canonical l -> trace (l_uint_value (uint_content l)) =
    (let n := length (uint_content l) in
     if top_clear l then
       match l with [_] => [EBranch true] | _ => [EBranch false; EBranch true] end ++ [ERange 0 n n]
     else [EBranch true; EBranch false; ERange 1 n n]).
  Proof.
    destruct l as [|a r]; intros C; [contradiction|]. cbv zeta. unfold top_clear. cbn [uint_content].
    destruct (Z.ltb_spec (b2z a) 128) as [T|T].
    - destruct r as [|b r].
      + unfold l_uint_value. destruct (Z.ltb_spec (b2z a) 128); [reflexivity|lia].
      + cbn [canonical] in C. unfold l_uint_value, byte_eqb. change (b2z x00) with 0.
        destruct (Z.eqb_spec (b2z a) 0); [lia|]. destruct (Z.ltb_spec (b2z a) 128); [reflexivity|lia].
    - unfold l_uint_value. rewrite byte_eqb_refl. destruct (Z.ltb_spec (b2z a) 128); [lia|reflexivity].
  Qed.

  Lemma al_duint z z' r r' : 0 <= z -> 0 <= z' -> Z.of_nat (length (int_octets z)) <= mx ->
    looks z = looks z' -> length r = length r' ->
    alike (pair_is (min_octets z) r (min_octets z') r')
      (l_decode_uint mx (der (AInteger z) ++ r)) (l_decode_uint mx (der (AInteger z') ++ r')).
  Proof.
    intros H H' F L R. pose proof (proj2 (seem_looks z z' H H') L) as S.
    unfold looks in L. injection L as _ L.
    unfold l_decode_uint. cbn [der]. change x02 with tag_integer. eapply al_bind; [apply al_tagged; eassumption|].
    intros x x' _ _ (-> & ->).
    rewrite <- !uint_content_spec by assumption.
    eapply (al_bind (fun a b => a = min_octets z /\ b = min_octets z')).
    - intros a b E E'. rewrite rf_uvalue, uint_value_ok in E by (apply min_canonical; assumption).
      rewrite rf_uvalue, uint_value_ok in E' by (apply min_canonical; assumption).
      split; [|split; congruence].
      rewrite !uvalue_trace by (apply min_canonical; assumption). cbv zeta.
      rewrite <- (seem_top _ _ S). destruct S as (S1 & S2). rewrite <- S2.
      destruct (min_octets z) as [|? [|? ?]], (min_octets z') as [|? [|? ?]]; try discriminate S1; reflexivity.
    - intros a b _ _ (-> & ->). apply al_ret. split; reflexivity.
  Qed.

  Lemma al_finish l l' : alike eq (l_finish l) (l_finish l').
  Proof.
    intros [] [] E E'. rewrite rf_finish in E. rewrite rf_finish in E'. apply finish_ok in E. apply finish_ok in E'.
    subst. auto.
  Qed.
End Alike.

Section Documents.
  Context (mx : Z).
  Hypothesis Hmx : mx < 2 ^ 32.
  Notation fits v := (Z.of_nat (length (der v)) <= mx).

  Lemma fits_int z : fits (AInteger z) -> Z.of_nat (length (int_octets z)) <= mx.
  Proof. cbn [der]. apply der_fits. Qed.

  Lemma private_shape n e d p q dp dq qi : der (RSAPrivateKey n e d p q dp dq qi) =
    der_tlv tag_sequence (der (AInteger 0) ++ der (AInteger n) ++ der (AInteger e) ++ der (AInteger d) ++
        der (AInteger p) ++ der (AInteger q) ++ der (AInteger dp) ++ der (AInteger dq) ++ der (AInteger qi) ++ []).
  Proof. reflexivity. Qed.

  Lemma looks_der z z' : looks z = looks z' -> length (der (AInteger z)) = length (der (AInteger z')).
  Proof.
    unfold looks. intros E. injection E as _ E. cbn [der]. unfold der_tlv. cbn [length].
    rewrite !app_length, E. reflexivity.
  Qed.

  Lemma al_dp1 n e d p q dp dq qi n' e' d' p' q' dp' dq' qi' :
    Forall (fun z => 0 <= z) [n; e; d; p; q; dp; dq; qi] ->
    Forall (fun z => 0 <= z) [n'; e'; d'; p'; q'; dp'; dq'; qi'] ->
    fits (RSAPrivateKey n e d p q dp dq qi) ->
    map looks [n; e; d; p; q; dp; dq; qi] = map looks [n'; e'; d'; p'; q'; dp'; dq'; qi'] ->
    alike (fun a b => a = p1_of n e d p q dp dq qi /\ b = p1_of n' e' d' p' q' dp' dq' qi')
      (l_decode_p1_private mx (der (RSAPrivateKey n e d p q dp dq qi)))
      (l_decode_p1_private mx (der (RSAPrivateKey n' e' d' p' q' dp' dq' qi'))).
  Proof.
    intros P P' F L.
    assert (X : forall z, In (AInteger z) [AInteger 0; AInteger n; AInteger e; AInteger d; AInteger p; AInteger q;
             AInteger dp; AInteger dq; AInteger qi] -> Z.of_nat (length (int_octets z)) <= mx)
      by (intros z I; apply fits_int; apply (fits_in _ _ _ F); exact I).
    repeat match goal with H : Forall _ (_ :: _) |- _ => inversion H; clear H; subst end.
    cbn [map] in L.
    assert (L1 : looks n = looks n') by congruence. assert (L2 : looks e = looks e') by congruence.
    assert (L3 : looks d = looks d') by congruence. assert (L4 : looks p = looks p') by congruence.
    assert (L5 : looks q = looks q') by congruence. assert (L6 : looks dp = looks dp') by congruence.
    assert (L7 : looks dq = looks dq') by congruence. assert (L8 : looks qi = looks qi') by congruence. clear L.
    pose proof (looks_der _ _ L1) as M1. pose proof (looks_der _ _ L2) as M2. pose proof (looks_der _ _ L3) as M3.
    pose proof (looks_der _ _ L4) as M4. pose proof (looks_der _ _ L5) as M5. pose proof (looks_der _ _ L6) as M6.
    pose proof (looks_der _ _ L7) as M7. pose proof (looks_der _ _ L8) as M8.
    rewrite private_shape in F. rewrite !private_shape. apply der_fits in F.
    unfold l_decode_p1_private.
    rewrite <- (app_nil_r (der_tlv tag_sequence (der (AInteger 0) ++ der (AInteger n) ++ _))).
    rewrite <- (app_nil_r (der_tlv tag_sequence (der (AInteger 0) ++ der (AInteger n') ++ _))).
    eapply al_bind; [apply al_tagged; auto; rewrite !app_length; congruence|]. intros x x' _ _ (-> & ->); cbv beta iota.
    eapply al_bind; [apply (al_duint mx Hmx); [lia|lia|apply X; simpl; tauto|reflexivity|rewrite !app_length; congruence]|].
    intros x x' _ _ (-> & ->); cbv beta iota.
    do 8 (eapply al_bind; [apply (al_duint mx Hmx); [assumption|assumption|apply X; simpl; tauto|assumption|rewrite ?app_length; congruence]|];
          intros x x' _ _ (-> & ->); cbv beta iota).
    rewrite min_octets_0. apply al_same. intros b E.
    rewrite res_bind in E. cbn in E. injection E as <-.
    apply al_same. intros _ _. apply al_ret. unfold p1_of. auto.
  Qed.

  Lemma al_dalg a v r r' : alg_pair a v -> fits v -> length r = length r' ->
    alike (pair_is a r a r') (l_decode_alg_id mx (der v ++ r)) (l_decode_alg_id mx (der v ++ r')).
  Proof.
    intros A F R x x' E E'.
    pose proof E as G. rewrite rf_dalg, (decode_alg_ok mx Hmx a v r A F) in G. injection G as <-.
    pose proof E' as G. rewrite rf_dalg, (decode_alg_ok mx Hmx a v r' A F) in G. injection G as <-.
    split; [|split; reflexivity]. revert E E'.
    assert (V : exists c, der v = der_tlv tag_sequence c) by (destruct A as [(_ & ->)|(_ & ->)]; eexists; reflexivity).
    destruct V as (c & V). rewrite V in *. apply der_fits in F.
    intros E E'.
    assert (Z : alike (fun _ _ => True) (l_decode_alg_id mx (der_tlv tag_sequence c ++ r))
                      (l_decode_alg_id mx (der_tlv tag_sequence c ++ r'))); [|exact (proj1 (Z _ _ E E'))]. clear E E'.
    unfold l_decode_alg_id. eapply al_bind; [apply al_tagged; auto|]. intros y y' _ _ (-> & ->); cbv beta iota.
    apply al_same. intros (oid & body) _. apply al_same. intros b _. destruct b; [apply al_ret; exact I|].
    apply al_same. intros ((t & w) & b) _. apply al_same. intros _ _. apply al_ret. exact I.
  Qed.

  Lemma info_shape ver v key opt : der (OneAsymmetricKey ver v key opt) =
    der_tlv tag_sequence (der (AInteger ver) ++ der v ++ der_tlv tag_octet_string key ++ opt).
  Proof. unfold OneAsymmetricKey. cbn [der map concat]. rewrite app_nil_r. reflexivity. Qed.

  Lemma tlv_length t c c' : length c = length c' -> length (der_tlv t c) = length (der_tlv t c').
  Proof. intros E. unfold der_tlv. cbn [length]. rewrite !app_length, E. reflexivity. Qed.

  Lemma al_dinfo tl ver a v opt key key' : alg_pair a v -> ver = 0 \/ ver = 1 ->
    fits (OneAsymmetricKey ver v key opt) -> length key = length key' ->
    alike (fun i i' => i = mkKI a key /\ i' = mkKI a key')
      (l_decode_key_info mx tl (der (OneAsymmetricKey ver v key opt)))
      (l_decode_key_info mx tl (der (OneAsymmetricKey ver v key' opt))).
  Proof.
    intros A Hv F L.
    assert (F0 : fits (AInteger ver)) by (apply (fits_in _ _ _ F); simpl; tauto).
    assert (F1 : fits v) by (apply (fits_in _ _ _ F); simpl; tauto).
    assert (F2 : fits (AOctets key)) by (apply (fits_in _ _ _ F); simpl; tauto).
    rewrite info_shape in F. rewrite !info_shape. apply der_fits in F. cbn [der] in F2. apply der_fits in F2.
    pose proof (tlv_length tag_octet_string key key' L) as M.
    unfold l_decode_key_info.
    rewrite <- (app_nil_r (der_tlv tag_sequence (der (AInteger ver) ++ der v ++ der_tlv tag_octet_string key ++ opt))).
    rewrite <- (app_nil_r (der_tlv tag_sequence (der (AInteger ver) ++ der v ++ der_tlv tag_octet_string key' ++ opt))).
    eapply al_bind; [apply al_tagged; auto; rewrite !app_length; congruence|]. intros x x' _ _ (-> & ->); cbv beta iota.
    eapply al_bind; [apply (al_duint mx Hmx); [lia|lia|apply fits_int; exact F0|reflexivity|rewrite !app_length; congruence]|].
    intros x x' _ _ (-> & ->); cbv beta iota. apply al_same. intros ver' _.
    eapply al_bind; [apply al_dalg; [exact A|exact F1|rewrite !app_length; congruence]|]. intros x x' _ _ (-> & ->); cbv beta iota.
    eapply al_bind; [apply al_tagged; auto|]. intros x x' _ _ (-> & ->); cbv beta iota.
    apply al_same. intros _ _. apply al_same. intros _ _. apply al_ret. auto.
  Qed.

  Lemma al_slice l l' b : length l = length l' ->
    alike same_prec (l_uint_from_slice l b) (l_uint_from_slice l' b).
  Proof.
    intros L a a' E E'. unfold l_uint_from_slice, l_from_be_slice in *. rewrite <- L in *.
    cbn [lbind l_op emit snd fst result trace app] in *.
    destruct (from_be_slice l b) as [x| | |] eqn:Ex; try discriminate.
    destruct (from_be_slice l' b) as [x'| | |] eqn:Ex'; try discriminate.
    injection E as <-. injection E' as <-. split; [reflexivity|].
    unfold from_be_slice in Ex, Ex'. rewrite <- L in Ex'. unfold same_prec.
    repeat match type of Ex with context [if ?c then _ else _] => destruct c; try discriminate end;
    repeat match type of Ex' with context [if ?c then _ else _] => destruct c; try discriminate end;
    injection Ex as <-; injection Ex' as <-; reflexivity.
  Qed.
End Documents.

(** * Forward: where the slices end tells how the numbers look *)

Definition ranges (t : list event) : list (nat * nat) :=
  flat_map (fun ev => match ev with ERange a b _ => [(a, b)] | _ => [] end) t.

Lemma ranges_bind {A B} (m : leaky A) (k : A -> leaky B) a : result m = Ok a ->
  ranges (trace (lbind m k)) = ranges (trace m) ++ ranges (trace (k a)).
Proof. intros E. rewrite trace_bind, E. apply flat_map_app. Qed.

Definition no_range {A} (m : leaky A) : Prop := ranges (trace m) = [].
Lemma no_range_bind {A B} (m : leaky A) (k : A -> leaky B) :
  no_range m -> (forall a, no_range (k a)) -> no_range (lbind m k).
Proof.
  unfold no_range, ranges. intros H K. rewrite trace_bind, flat_map_app, H.
  destruct (result m) as [a| | |]; [apply K|reflexivity..].
Qed.

Section Forward.
  Context (mx : Z).
  Hypothesis Hmx : mx < 2 ^ 32.
  Notation fits v := (Z.of_nat (length (der v)) <= mx).

  Lemma nr_guard b e : no_range (l_guard b e).
  Proof. destruct b; reflexivity. Qed.

  Lemma nr_long n l : no_range (l_long_length mx n l).
  Proof.
    unfold l_long_length. apply no_range_bind; [reflexivity|]. intros []; [reflexivity|]. cbv zeta.
    apply no_range_bind; [apply nr_guard|]. intros ?. apply no_range_bind; [apply nr_guard|]. reflexivity.
  Qed.

  Lemma nr_length l : no_range (l_decode_length mx l).
  Proof.
    unfold l_decode_length. destruct l as [|b l]; [reflexivity|]. cbv zeta.
    apply no_range_bind; [reflexivity|]. intros []; [apply no_range_bind; [apply nr_guard|reflexivity]|].
    do 4 (apply no_range_bind; [reflexivity|]; intros []; [apply nr_long|]). reflexivity.
  Qed.

  Lemma r_dtlv t c r : Z.of_nat (length c) <= mx ->
    ranges (trace (l_decode_tlv mx (der_tlv t c ++ r))) = [(0%nat, length c)].
  Proof.
    intros H. unfold der_tlv. cbn [app l_decode_tlv]. rewrite <- app_assoc.
    rewrite (ranges_bind _ _ _ (dlength_ok mx Hmx (length c) (c ++ r) H)), nr_length.
    cbn [app]. rewrite trace_bind. cbn [l_if emit trace result fst snd app]. rewrite app_length.
    destruct (Z.ltb_spec (Z.of_nat (length c + length r)) (Z.of_nat (length c))); [lia|].
    cbn. rewrite Nat2Z.id. reflexivity.
  Qed.

  Lemma tagged_res t c r : Z.of_nat (length c) <= mx -> result (l_decode_tagged mx t (der_tlv t c ++ r)) = Ok (c, r).
  Proof. intros H. rewrite rf_tagged. apply decode_tagged_ok; auto. Qed.

  Lemma r_tagged t c r : Z.of_nat (length c) <= mx ->
    ranges (trace (l_decode_tagged mx t (der_tlv t c ++ r))) = [(0%nat, length c)].
  Proof.
    intros H. unfold l_decode_tagged.
    assert (E : result (l_decode_tlv mx (der_tlv t c ++ r)) = Ok (t, c, r)) by (rewrite rf_dtlv; apply decode_tlv_ok; auto).
    rewrite (ranges_bind _ _ _ E), r_dtlv by exact H. cbv beta iota.
    assert (N : no_range (let! b := l_if (byte_eqb t t) in if b then lret (c, r) else @lerr (list byte * list byte) ErrAsn1))
      by (apply no_range_bind; [reflexivity|intros []; reflexivity]).
    rewrite N. reflexivity.
  Qed.

  (** what the parsing of z shows *)
  Definition field_ranges (z : Z) : list (nat * nat) :=
    let n := length (int_octets z) in [(0%nat, n); ((if top_clear (min_octets z) then 0 else 1)%nat, n)].

  Lemma uint_res z r : 0 <= z -> fits (AInteger z) ->
    result (l_decode_uint mx (der (AInteger z) ++ r)) = Ok (min_octets z, r).
  Proof. intros H F. rewrite rf_duint. apply decode_uint_ok; auto. Qed.

  Lemma r_duint z r : 0 <= z -> fits (AInteger z) ->
    ranges (trace (l_decode_uint mx (der (AInteger z) ++ r))) = field_ranges z.
  Proof.
    intros H F. apply fits_int in F. unfold l_decode_uint. cbn [der]. change x02 with tag_integer.
    rewrite (ranges_bind _ _ _ (tagged_res tag_integer _ r F)), r_tagged by exact F. cbv beta iota.
    pose proof (min_canonical z H) as C.
    assert (E : result (l_uint_value (int_octets z)) = Ok (min_octets z)).
    { rewrite rf_uvalue, <- uint_content_spec by exact H. apply uint_value_ok, C. }
    rewrite (ranges_bind _ _ _ E). rewrite <- uint_content_spec by exact H. rewrite uvalue_trace by exact C.
    unfold field_ranges. rewrite <- uint_content_spec by exact H. cbv zeta.
    destruct (top_clear (min_octets z)); [|reflexivity].
    destruct (min_octets z) as [|? [|? ?]]; reflexivity.
  Qed.

  Lemma field_ranges_inj z z' r r' : 0 <= z -> 0 <= z' -> field_ranges z ++ r = field_ranges z' ++ r' ->
    looks z = looks z' /\ r = r'.
  Proof.
    intros H H'. unfold field_ranges. cbv zeta. cbn [app]. intros E. injection E as A B _ C. split; [|exact C].
    apply seem_looks; auto. rewrite <- !uint_content_spec in A by assumption.
    split; [|exact A]. rewrite !content_top in A.
    destruct (top_clear (min_octets z)), (top_clear (min_octets z')); try discriminate; cbn [length] in A; congruence.
  Qed.

  Lemma r_dp1 n e d p q dp dq qi : Forall (fun z => 0 <= z) [n; e; d; p; q; dp; dq; qi] ->
    fits (RSAPrivateKey n e d p q dp dq qi) ->
    exists first last, ranges (trace (l_decode_p1_private mx (der (RSAPrivateKey n e d p q dp dq qi)))) =
    first :: field_ranges 0 ++ field_ranges n ++ field_ranges e ++ field_ranges d ++ field_ranges p ++
      field_ranges q ++ field_ranges dp ++ field_ranges dq ++ field_ranges qi ++ last.
  Proof.
    intros P F.
    assert (X : forall z, In (AInteger z) [AInteger 0; AInteger n; AInteger e; AInteger d; AInteger p; AInteger q;
             AInteger dp; AInteger dq; AInteger qi] -> fits (AInteger z))
      by (intros z I; apply (fits_in _ _ _ F); exact I).
    repeat match goal with H : Forall _ (_ :: _) |- _ => inversion H; clear H; subst end.
    rewrite private_shape in F. rewrite private_shape. apply der_fits in F.
    unfold l_decode_p1_private.
    rewrite <- (app_nil_r (der_tlv tag_sequence (der (AInteger 0) ++ der (AInteger n) ++ _))).
    eexists. eexists.
    rewrite (ranges_bind _ _ _ (tagged_res tag_sequence _ [] F)), r_tagged by exact F. cbv beta iota.
    cbn [app]. f_equal.
    rewrite (ranges_bind _ _ _ (uint_res 0 _ ltac:(lia) (X 0 ltac:(simpl; tauto)))), r_duint
      by (try lia; apply X; simpl; tauto). cbv beta iota. f_equal.
    do 8 (match goal with |- context [l_decode_uint mx (der (AInteger ?z) ++ ?r)] =>
      rewrite (ranges_bind _ _ _ (uint_res z r ltac:(assumption) (X z ltac:(simpl; tauto)))), r_duint
        by (try assumption; apply X; simpl; tauto) end; cbv beta iota; f_equal).
  Qed.

  Lemma r_dalg a v : alg_pair a v -> fits v ->
    forall r, ranges (trace (l_decode_alg_id mx (der v ++ r))) = ranges (trace (l_decode_alg_id mx (der v ++ []))).
  Proof.
    intros A F r.
    assert (V : exists c, der v = der_tlv tag_sequence c) by (destruct A as [(_ & ->)|(_ & ->)]; eexists; reflexivity).
    destruct V as (c & V). rewrite V in *. apply der_fits in F. unfold l_decode_alg_id.
    rewrite (ranges_bind _ _ _ (tagged_res tag_sequence c r F)), (ranges_bind _ _ _ (tagged_res tag_sequence c [] F)).
    rewrite !r_tagged by exact F. cbv beta iota. do 2 f_equal. rewrite !trace_bind.
    destruct (result (l_decode_tagged mx tag_oid c)) as [(oid & body)| | |]; [|reflexivity..]. f_equal.
    rewrite !trace_bind. destruct (result (l_if _)) as [[|]| | |]; [reflexivity| |reflexivity..]. f_equal.
    rewrite !trace_bind. destruct (result (l_decode_tlv mx body)) as [((t & w) & b)| | |]; [|reflexivity..]. f_equal.
    rewrite !trace_bind. destruct (result (l_finish b)) as [[]| | |]; reflexivity.
  Qed.

  Lemma r_dinfo tl ver a v opt key : alg_pair a v -> ver = 0 \/ ver = 1 -> tl ver opt = true ->
    fits (OneAsymmetricKey ver v key opt) ->
    exists first, ranges (trace (l_decode_key_info mx tl (der (OneAsymmetricKey ver v key opt)))) =
    first :: field_ranges ver ++ ranges (trace (l_decode_alg_id mx (der v ++ []))) ++ [(0%nat, length key)].
  Proof.
    intros A Hv T F.
    assert (F0 : fits (AInteger ver)) by (apply (fits_in _ _ _ F); simpl; tauto).
    assert (F1 : fits v) by (apply (fits_in _ _ _ F); simpl; tauto).
    assert (F2 : fits (AOctets key)) by (apply (fits_in _ _ _ F); simpl; tauto).
    rewrite info_shape in F. rewrite info_shape. apply der_fits in F. cbn [der] in F2. apply der_fits in F2.
    unfold l_decode_key_info.
    rewrite <- (app_nil_r (der_tlv tag_sequence (der (AInteger ver) ++ _))).
    eexists. rewrite (ranges_bind _ _ _ (tagged_res tag_sequence _ [] F)), r_tagged by exact F. cbv beta iota.
    cbn [app]. f_equal.
    rewrite (ranges_bind _ _ _ (uint_res ver _ ltac:(lia) F0)), r_duint by (try lia; exact F0). cbv beta iota. f_equal.
    match goal with |- ranges (trace (lbind ?m _)) = _ => assert (Ev : result m = Ok ver /\ ranges (trace m) = []) end.
    { destruct Hv as [->| ->]; split; reflexivity. }
    destruct Ev as (Ev & Rv). rewrite (ranges_bind _ _ _ Ev), Rv. cbn [app].
    match goal with |- context [l_decode_alg_id mx (der v ++ ?r)] =>
      assert (Ea : result (l_decode_alg_id mx (der v ++ r)) = Ok (a, r)) by (rewrite rf_dalg; apply decode_alg_ok; auto) end.
    rewrite (ranges_bind _ _ _ Ea), (r_dalg a v A F1). cbv beta iota. f_equal.
    rewrite (ranges_bind _ _ _ (tagged_res tag_octet_string key opt F2)), r_tagged by exact F2. cbv beta iota.
    rewrite T. reflexivity.
  Qed.
End Forward.

(** * Both together *)

Section Import.
  Context (mx : Z).
  Hypothesis Hmx : mx < 2 ^ 32.
  Notation fits v := (Z.of_nat (length (der v)) <= mx).

  Lemma import_trace tl ver a v opt n e d p q dp dq qi :
    alg_pair a v -> verify_algorithm_id a = Ok tt -> ver = 0 \/ ver = 1 -> tl ver opt = true ->
    Forall (fun z => 0 <= z) [n; e; d; p; q; dp; dq; qi] ->
    fits (key_doc ver opt v n e d p q dp dq qi) ->
    trace (l_from_pkcs8_der mx tl (der (key_doc ver opt v n e d p q dp dq qi))) =
    trace (l_decode_key_info mx tl (der (key_doc ver opt v n e d p q dp dq qi))) ++
    trace (l_decode_p1_private mx (der (RSAPrivateKey n e d p q dp dq qi))) ++
    trace (l_private_from_pkcs1 (p1_of n e d p q dp dq qi)).
  Proof.
    intros A V Hv T P F. unfold key_doc in *. pose proof (fits_key_doc mx _ _ _ _ F) as F2.
    repeat match goal with H : Forall _ (_ :: _) |- _ => inversion H; clear H; subst end.
    unfold l_from_pkcs8_der. rewrite trace_bind, rf_dinfo, (decode_info_ok mx Hmx tl ver a v) by auto. f_equal.
    unfold l_private_try_from. rewrite trace_bind. cbn [ki_alg ki_key]. rewrite V. cbn [l_public trace result fst snd app].
    rewrite trace_bind, rf_dp1, decode_private_ok by auto. reflexivity.
  Qed.

  Lemma key_length n e d p q dp dq qi n' e' d' p' q' dp' dq' qi' :
    map looks [n; e; d; p; q; dp; dq; qi] = map looks [n'; e'; d'; p'; q'; dp'; dq'; qi'] ->
    length (der (RSAPrivateKey n e d p q dp dq qi)) = length (der (RSAPrivateKey n' e' d' p' q' dp' dq' qi')).
  Proof.
    cbn [map]. intros L. rewrite !private_shape. apply tlv_length. rewrite !app_length.
    rewrite (looks_der n n') by congruence. rewrite (looks_der e e') by congruence.
    rewrite (looks_der d d') by congruence. rewrite (looks_der p p') by congruence.
    rewrite (looks_der q q') by congruence. rewrite (looks_der dp dp') by congruence.
    rewrite (looks_der dq dq') by congruence. rewrite (looks_der qi qi') by congruence. reflexivity.
  Qed.

  Lemma map_ok {A} (o : outcome A) f a : map_err f o = Ok a -> o = Ok a.
  Proof. destruct o; cbn; congruence. Qed.

  (** the last part, for one pair of primes *)
  Lemma al_from_p1 n e d p q dp dq qi d' dp' dq' qi' k k' : looks d = looks d' -> 0 <= d -> 0 <= d' ->
    private_from_pkcs1 (p1_of n e d p q dp dq qi) = Ok k ->
    private_from_pkcs1 (p1_of n e d' p q dp' dq' qi') = Ok k' ->
    trace (l_private_from_pkcs1 (p1_of n e d p q dp dq qi)) = trace (l_private_from_pkcs1 (p1_of n e d' p q dp' dq' qi')).
  Proof.
    intros L Hd Hd' E E'. rewrite <- rf_from_p1 in E, E'.
    assert (Z : alike (fun _ _ => True) (l_private_from_pkcs1 (p1_of n e d p q dp dq qi))
                      (l_private_from_pkcs1 (p1_of n e d' p q dp' dq' qi'))); [|exact (proj1 (Z _ _ E E'))].
    clear E E'. unfold l_private_from_pkcs1, p1_of.
    cbn [pp_multi pp_modulus pp_public_exponent pp_private_exponent pp_prime1 pp_prime2].
    apply seem_looks in L; auto. destruct L as (L & _).
    apply al_same. intros b _. destruct b; [apply al_err|]. apply al_same. intros bits _. apply al_same. intros n0 _.
    apply al_same. intros _ _. apply al_same. intros be _. apply al_same. intros e0 _.
    eapply al_bind; [apply al_slice; exact L|]. intros d0 d0' _ _ Pd. apply al_same. intros p0 _. apply al_same. intros q0 _.
    intros x x' Ex Ex'. split; [|exact I].
    pose proof (rf_from_components n0 e0 d0 [p0; q0]) as R. pose proof (rf_from_components n0 e0 d0' [p0; q0]) as R'.
    pose proof (load_hides n0 e0 d0 d0' [p0; q0]) as T.
    destruct (l_from_components n0 e0 d0 [p0; q0]) as (t & o).
    destruct (l_from_components n0 e0 d0' [p0; q0]) as (t' & o'). cbn [trace result fst snd] in *.
    apply map_ok in Ex. apply map_ok in Ex'. apply (T x x' Pd); [simpl; lia|congruence|congruence].
  Qed.

  Lemma import_hides tl ver v opt n e d p q dp dq qi d' dp' dq' qi' k k' :
    accepted_alg v -> ver = 0 \/ ver = 1 -> tl ver opt = true ->
    Forall (fun z => 0 <= z) [n; e; d; p; q; dp; dq; qi] -> Forall (fun z => 0 <= z) [d'; dp'; dq'; qi'] ->
    fits (key_doc ver opt v n e d p q dp dq qi) -> fits (key_doc ver opt v n e d' p q dp' dq' qi') ->
    from_pkcs8_der mx tl (der (key_doc ver opt v n e d p q dp dq qi)) = Ok k ->
    from_pkcs8_der mx tl (der (key_doc ver opt v n e d' p q dp' dq' qi')) = Ok k' ->
    map looks [d; dp; dq; qi] = map looks [d'; dp'; dq'; qi'] ->
    trace (l_from_pkcs8_der mx tl (der (key_doc ver opt v n e d p q dp dq qi))) =
    trace (l_from_pkcs8_der mx tl (der (key_doc ver opt v n e d' p q dp' dq' qi'))).
  Proof.
    intros Hv Hver T P P' F F' E E' L. destruct (accepted_pair v Hv) as (a & A & V).
    assert (Q : Forall (fun z => 0 <= z) [n; e; d'; p; q; dp'; dq'; qi']).
    { repeat match goal with H : Forall _ (_ :: _) |- _ => inversion H; clear H; subst end. repeat constructor; assumption. }
    assert (L8 : map looks [n; e; d; p; q; dp; dq; qi] = map looks [n; e; d'; p; q; dp'; dq'; qi'])
      by (cbn [map] in *; congruence).
    rewrite !(import_trace tl ver a v) by assumption.
    assert (FP := fits_key_doc mx _ _ _ _ F). assert (FP' := fits_key_doc mx _ _ _ _ F').
    assert (Xp : forall n e d p q dp dq qi, Forall (fun z => 0 <= z) [n; e; d; p; q; dp; dq; qi] ->
      fits (RSAPrivateKey n e d p q dp dq qi) ->
      result (l_decode_p1_private mx (der (RSAPrivateKey n e d p q dp dq qi))) = Ok (p1_of n e d p q dp dq qi)).
    { intros. rewrite rf_dp1. repeat match goal with H : Forall _ (_ :: _) |- _ => inversion H; clear H; subst end.
      apply decode_private_ok; auto. }
    f_equal; [|f_equal].
    - unfold key_doc in *. apply (al_dinfo mx Hmx tl ver a v opt _ _ A Hver F (key_length _ _ _ _ _ _ _ _ _ _ _ _ _ _ _ _ L8)
        (mkKI a (der (RSAPrivateKey n e d p q dp dq qi))) (mkKI a (der (RSAPrivateKey n e d' p q dp' dq' qi'))));
        rewrite rf_dinfo; apply decode_info_ok; auto.
    - apply (al_dp1 mx Hmx _ _ _ _ _ _ _ _ _ _ _ _ _ _ _ _ P Q FP L8 _ _ (Xp _ _ _ _ _ _ _ _ P FP) (Xp _ _ _ _ _ _ _ _ Q FP')).
    - rewrite import_key_doc in E, E'; auto;
        try (repeat match goal with H : Forall _ (_ :: _) |- _ => inversion H; clear H; subst end; assumption).
      cbn [map] in L. apply (al_from_p1 n e d p q dp dq qi d' dp' dq' qi' k k'); auto; [congruence| |];
        repeat match goal with H : Forall _ (_ :: _) |- _ => inversion H; clear H; subst end; assumption.
  Qed.
End Import.

(** * What shows for certain: the primes *)

Lemma wf_slice data bits u : 0 <= bits -> uint_from_slice data bits = Ok u -> wf_uint u.
Proof.
  intros B. unfold uint_from_slice. rewrite from_be_slice_spec by exact B.
  destruct (_ && _); [intros [= <-]; repeat split; cbn; lia|].
  destruct (_ <? _); [discriminate|]. destruct (Z.leb_spec (2 ^ bits) (os2ip data)); [discriminate|].
  intros [= <-]. destruct (prec_for_wf bits) as (P1 & P2). pose proof (prec_for_ge bits).
  pose proof (os2ip_range data). split; [cbn [uval uprec]|split; assumption].
  assert (2 ^ bits <= 2 ^ prec_for bits) by (apply Z.pow_le_mono_r; lia). lia.
Qed.

Lemma bits_nonneg l b : octets_bits l = Ok b -> 0 <= b.
Proof.
  unfold octets_bits, guard, assert_. destruct (_ <? _); cbn [bind]; [|discriminate].
  destruct (_ <? _); cbn [bind]; [|discriminate]. intros [= <-]. lia.
Qed.

Section Reads.
  Context (mx : Z) (tl : Z -> list byte -> bool).

  Lemma nd_guard b e : divs (l_guard b e) = [].
  Proof. destruct b; reflexivity. Qed.
  Lemma nd_long n l : divs (l_long_length mx n l) = [].
  Proof.
    unfold l_long_length. apply nodiv_bind; [reflexivity|]. intros [] _; [reflexivity|]. cbv zeta.
    apply nodiv_bind; [apply nd_guard|]. intros ? _. apply nodiv_bind; [apply nd_guard|]. reflexivity.
  Qed.
  Lemma nd_length l : divs (l_decode_length mx l) = [].
  Proof.
    unfold l_decode_length. destruct l as [|b l]; [reflexivity|]. cbv zeta.
    apply nodiv_bind; [reflexivity|]. intros [] _; [apply nodiv_bind; [apply nd_guard|reflexivity]|].
    do 4 (apply nodiv_bind; [reflexivity|]; intros [] _; [apply nd_long|]). reflexivity.
  Qed.
  Lemma nd_tlv l : divs (l_decode_tlv mx l) = [].
  Proof.
    unfold l_decode_tlv. destruct l as [|b l]; [reflexivity|].
    apply nodiv_bind; [apply nd_length|]. intros (n & r) _. apply nodiv_bind; [reflexivity|]. intros [] _; reflexivity.
  Qed.
  Lemma nd_tagged t l : divs (l_decode_tagged mx t l) = [].
  Proof.
    unfold l_decode_tagged. apply nodiv_bind; [apply nd_tlv|]. intros ((a & b) & c) _.
    apply nodiv_bind; [reflexivity|]. intros [] _; reflexivity.
  Qed.
  Lemma nd_uvalue l : divs (l_uint_value l) = [].
  Proof.
    unfold l_uint_value. destruct l as [|b [|c l]]; [reflexivity| |].
    - apply nodiv_bind; [reflexivity|]. intros [] _; reflexivity.
    - apply nodiv_bind; [reflexivity|]. intros [] _; (apply nodiv_bind; [reflexivity|]; intros [] _; reflexivity).
  Qed.
  Lemma nd_uint l : divs (l_decode_uint mx l) = [].
  Proof.
    unfold l_decode_uint. apply nodiv_bind; [apply nd_tagged|]. intros (a & b) _.
    apply nodiv_bind; [apply nd_uvalue|]. reflexivity.
  Qed.
  Lemma nd_finish l : divs (l_finish l) = [].
  Proof. unfold l_finish. apply nodiv_bind; [reflexivity|]. intros [] _; reflexivity. Qed.
  Lemma nd_alg l : divs (l_decode_alg_id mx l) = [].
  Proof.
    unfold l_decode_alg_id. apply nodiv_bind; [apply nd_tagged|]. intros (a & b) _.
    apply nodiv_bind; [apply nd_tagged|]. intros (c & d) _. apply nodiv_bind; [reflexivity|]. intros [] _; [reflexivity|].
    apply nodiv_bind; [apply nd_tlv|]. intros ((t & v) & r) _. apply nodiv_bind; [apply nd_finish|]. reflexivity.
  Qed.
  Lemma nd_p1 l : divs (l_decode_p1_private mx l) = [].
  Proof.
    unfold l_decode_p1_private. apply nodiv_bind; [apply nd_tagged|]. intros (b0 & r0) _.
    do 9 (apply nodiv_bind; [apply nd_uint|]; intros (? & ?) _).
    apply nodiv_bind; [|intros ? _; apply nodiv_bind; [apply nd_finish|reflexivity]].
    match goal with |- divs (match ?v with [] => _ | _ => _ end) = _ => destruct v as [|x [|y w]]; [reflexivity| |reflexivity] end.
    apply nodiv_bind; [reflexivity|]. intros [] _; [apply nodiv_bind; [apply nd_finish|reflexivity]|].
    apply nodiv_bind; [reflexivity|]. intros [] _; reflexivity.
  Qed.
  Lemma nd_info l : divs (l_decode_key_info mx tl l) = [].
  Proof.
    unfold l_decode_key_info. apply nodiv_bind; [apply nd_tagged|]. intros (b0 & r0) _.
    apply nodiv_bind; [apply nd_uint|]. intros (v & b1) _.
    apply nodiv_bind.
    { destruct v as [|x [|y w]]; [reflexivity| |reflexivity].
      apply nodiv_bind; [reflexivity|]. intros [] _; [reflexivity|]. apply nodiv_bind; [reflexivity|]. intros [] _; reflexivity. }
    intros ver _. apply nodiv_bind; [apply nd_alg|]. intros (a & b2) _. apply nodiv_bind; [apply nd_tagged|]. intros (k & b3) _.
    apply nodiv_bind; [reflexivity|]. intros ? _. apply nodiv_bind; [apply nd_finish|]. reflexivity.
  Qed.

  Lemma nd_bits l : divs (l_octets_bits l) = [].
  Proof. unfold l_octets_bits. cbv zeta. apply nodiv_bind; [apply nd_guard|]. intros ? _. apply nodiv_bind; reflexivity. Qed.
  Lemma nd_slice l b : divs (l_uint_from_slice l b) = [].
  Proof. reflexivity. Qed.

  Lemma p1_reads s k : private_from_pkcs1 s = Ok k ->
    read_primes (trace (l_private_from_pkcs1 s)) = map uval (sk_primes k).
  Proof.
    intros E. pose proof E as R. rewrite <- rf_from_p1 in R.
    unfold private_from_pkcs1 in E. destruct (pp_multi s) eqn:M; [discriminate|].
    apply bind_ok in E. destruct E as (bits & E1 & E). apply bind_ok in E. destruct E as (n & E2 & E).
    apply bind_ok in E. destruct E as ([] & E3 & E). apply bind_ok in E. destruct E as (be & E4 & E).
    apply bind_ok in E. destruct E as (e & E5 & E). apply bind_ok in E. destruct E as (d & E6 & E).
    apply bind_ok in E. destruct E as (p & E7 & E). apply bind_ok in E. destruct E as (q & E8 & E).
    pose proof (bits_nonneg _ _ E1) as B. pose proof (bits_nonneg _ _ E4) as Be.
    pose proof (wf_slice _ _ _ B E2) as Wn. pose proof (wf_slice _ _ _ Be E5) as We.
    pose proof (wf_slice _ _ _ B E6) as Wd. pose proof (wf_slice _ _ _ B E7) as Wp. pose proof (wf_slice _ _ _ B E8) as Wq.
    assert (O : Z.odd (uval n) = true).
    { revert E3. unfold guard, uis_odd. destruct (Z.odd (uval n)); [reflexivity|discriminate]. }
    apply map_ok in E.
    destruct (fc_ok n e d [p; q] k Wn We Wd ltac:(auto) O ltac:(simpl; lia) E) as (_ & F).
    assert (S : sk_primes k = [p; q]) by (clear - F; intuition congruence).
    rewrite S. apply read_primes_spec; [simpl; lia|].
    rewrite <- (from_components_divs n e d [p; q] k Wn We Wd ltac:(auto) O ltac:(simpl; lia) E).
    fold (divs (l_private_from_pkcs1 s)). unfold l_private_from_pkcs1.
    erewrite divs_step; [|reflexivity|reflexivity]. rewrite M. cbv iota.
    erewrite divs_step; [|apply nd_bits|rewrite rf_bits; exact E1].
    erewrite divs_step; [|apply nd_slice|rewrite rf_from_slice; exact E2].
    erewrite divs_step; [|apply nd_guard|rewrite rf_guard; exact E3].
    erewrite divs_step; [|apply nd_bits|rewrite rf_bits; exact E4].
    erewrite divs_step; [|apply nd_slice|rewrite rf_from_slice; exact E5].
    erewrite divs_step; [|apply nd_slice|rewrite rf_from_slice; exact E6].
    erewrite divs_step; [|apply nd_slice|rewrite rf_from_slice; exact E7].
    erewrite divs_step; [|apply nd_slice|rewrite rf_from_slice; exact E8].
    unfold divs. destruct (l_from_components n e d [p; q]). reflexivity.
  Qed.

  Lemma import_reads l k : from_pkcs8_der mx tl l = Ok k ->
    read_primes (trace (l_from_pkcs8_der mx tl l)) = map uval (sk_primes k).
  Proof.
    intros E. unfold from_pkcs8_der in E. apply bind_ok in E. destruct E as (i & E1 & E).
    unfold private_try_from in E. apply bind_ok in E. destruct E as ([] & E2 & E). apply bind_ok in E.
    destruct E as (s & E3 & E). pose proof (p1_reads _ _ E) as R.
    unfold read_primes in *. rewrite <- R.
    assert (X : divisors (trace (l_from_pkcs8_der mx tl l)) = divisors (trace (l_private_from_pkcs1 s))); [|rewrite X; reflexivity].
    fold (divs (l_from_pkcs8_der mx tl l)). unfold l_from_pkcs8_der.
    erewrite divs_step; [|apply nd_info|rewrite rf_dinfo; exact E1]. unfold l_private_try_from.
    erewrite divs_step; [|reflexivity|exact E2].
    erewrite divs_step; [|apply nd_p1|rewrite rf_dp1; exact E3]. reflexivity.
  Qed.
End Reads.

(** * What shows of the other numbers: their sizes *)

Section Shows.
  Context (mx : Z).
  Hypothesis Hmx : mx < 2 ^ 32.
  Notation fits v := (Z.of_nat (length (der v)) <= mx).

  Lemma tails {A} (x y : A) l m : x :: l = y :: m -> l = m.
  Proof. congruence. Qed.

  Lemma import_shows tl ver v opt n e d p q dp dq qi n' e' d' p' q' dp' dq' qi' :
    accepted_alg v -> ver = 0 \/ ver = 1 -> tl ver opt = true ->
    Forall (fun z => 0 <= z) [n; e; d; p; q; dp; dq; qi] -> Forall (fun z => 0 <= z) [n'; e'; d'; p'; q'; dp'; dq'; qi'] ->
    fits (key_doc ver opt v n e d p q dp dq qi) -> fits (key_doc ver opt v n' e' d' p' q' dp' dq' qi') ->
    trace (l_from_pkcs8_der mx tl (der (key_doc ver opt v n e d p q dp dq qi))) =
    trace (l_from_pkcs8_der mx tl (der (key_doc ver opt v n' e' d' p' q' dp' dq' qi'))) ->
    map looks [n; e; d; p; q; dp; dq; qi] = map looks [n'; e'; d'; p'; q'; dp'; dq'; qi'].
  Proof.
    intros Hv Hver T P P' F F' E. destruct (accepted_pair v Hv) as (a & A & V).
    rewrite !(import_trace mx Hmx tl ver a v) in E by assumption.
    apply (f_equal ranges) in E. unfold ranges in E. rewrite !flat_map_app in E.
    repeat match type of E with context [flat_map _ ?t] => progress fold (ranges t) in E end.
    assert (FP := fits_key_doc mx _ _ _ _ F). assert (FP' := fits_key_doc mx _ _ _ _ F').
    unfold key_doc in *.
    destruct (r_dinfo mx Hmx tl ver a v opt _ A Hver T F) as (i & R). destruct (r_dinfo mx Hmx tl ver a v opt _ A Hver T F') as (i' & R').
    destruct (r_dp1 mx Hmx _ _ _ _ _ _ _ _ P FP) as (j & w & S). destruct (r_dp1 mx Hmx _ _ _ _ _ _ _ _ P' FP') as (j' & w' & S').
    rewrite R, R', S, S' in E. clear R R' S S'. cbn [app] in E. apply tails in E. rewrite <- !app_assoc in E.
    apply app_inv_head in E. apply app_inv_head in E. cbn [app] in E. apply tails in E. apply tails in E.
    apply app_inv_head in E.
    repeat match goal with H : Forall _ (_ :: _) |- _ => inversion H; clear H; subst end.
    do 8 (apply field_ranges_inj in E; [|assumption|assumption]; destruct E as (?L & E)).
    cbn [map]. congruence.
  Qed.
End Shows.

(** the primes of the imported key are those of the document *)
Lemma import_primes mx : mx < 2 ^ 32 -> forall tl ver v opt n e d p q dp dq qi k,
  accepted_alg v -> ver = 0 \/ ver = 1 -> tl ver opt = true ->
  Forall (fun z => 0 <= z) [n; e; d; p; q; dp; dq; qi] ->
  Z.of_nat (length (der (key_doc ver opt v n e d p q dp dq qi))) <= mx ->
  from_pkcs8_der mx tl (der (key_doc ver opt v n e d p q dp dq qi)) = Ok k ->
  map uval (sk_primes k) = [p; q].
Proof.
  intros Hmx tl ver v opt n e d p q dp dq qi k Hv Hver T P F E.
  rewrite !Forall_cons_iff in P. destruct P as (P1 & P2 & P3 & P4 & P5 & P6 & P7 & P8 & _).
  rewrite (import_key_doc mx Hmx) in E by auto.
  assert (S12 : 8 * octet_size n < 2 ^ 32 /\ 8 * octet_size e < 2 ^ 32).
  { pose proof E as PP. unfold private_from_pkcs1, p1_of in PP.
    cbn [pp_multi pp_modulus pp_public_exponent] in PP.
    apply bind_ok in PP. destruct PP as (b1 & B1 & PP). apply bind_ok in PP. destruct PP as (? & _ & PP).
    apply bind_ok in PP. destruct PP as (? & _ & PP). apply bind_ok in PP. destruct PP as (b2 & B2 & PP).
    apply octets_bits_inv in B1; auto. apply octets_bits_inv in B2; auto. }
  destruct S12 as (S1 & S2). pose proof (import_only n e d p q dp dq qi k P1 P2 P3 P4 P5 S1 S2 E) as I.
  destruct (import_exact n e d p q dp dq qi P1 P2 P3 P4 P5 S1 S2) as (X & _).
  destruct (X I) as (k' & E' & St & _). rewrite E in E'. injection E' as <-.
  destruct St as (_ & _ & _ & ->). reflexivity.
Qed.
