(** What exporting and comparing private keys shows. *)
From Coq Require Import ZArith List Bool Lia.
From Coq Require Import Init.Byte.
From Verif Require Import Base Bigint BytesLemmas BigintLemmas NumTheory SpecRFC SpecDer SpecKey SpecExport KeyDefs MHash MRsa MKey
  MApi MDer MEncoding MLeak MLeakKey MLeakExport PDer PCodec PLeak PLeakRel PLeakApi PLeakKey.
Import ListNotations.
Local Open Scope Z_scope.

(** * Same results *)

Section Results.
  Context (mx : Z).

  Lemma rf_strip l : result (l_strip_zeros l) = Ok (strip_zeros l).
  Proof.
    induction l as [|a [|b l] IH]; [reflexivity..|].
    change (l_strip_zeros (a :: b :: l)) with
      (let! c := l_if (byte_eqb a x00) in if c then l_strip_zeros (b :: l) else lret (a :: b :: l)).
    change (strip_zeros (a :: b :: l)) with (if byte_eqb a x00 then strip_zeros (b :: l) else a :: b :: l).
    rf1. destruct (byte_eqb a x00); [exact IH|reflexivity].
  Qed.

  Lemma rf_ref l : result (l_uint_ref_new mx l) = uint_ref_new mx l.
  Proof.
    unfold l_uint_ref_new, uint_ref_new. cbv zeta. eapply rf_val; [apply rf_strip|]. rf1.
    destruct (mx <? _); reflexivity.
  Qed.

  Lemma rf_tlv t c : result (l_encode_tlv mx t c) = encode_tlv mx t c.
  Proof. unfold l_encode_tlv, encode_tlv. cbv zeta. rf1. destruct (mx <? _); reflexivity. Qed.

  Lemma rf_uint l : result (l_encode_uint mx l) = encode_uint mx l.
  Proof.
    unfold l_encode_uint, encode_uint, uint_content. rf1. rf1. rewrite rf_tlv.
    destruct l as [|b l]; [reflexivity|]. destruct (b2z b <? 128); reflexivity.
  Qed.

  Lemma rf_crt d p : result (l_crt_exponent d p) = crt_exponent d p.
  Proof. unfold l_crt_exponent, crt_exponent. rfk. rfk. rfk. rfk. apply rf_opc. Qed.

  Lemma rf_to_pkcs1 k : result (l_private_to_pkcs1 mx k) = private_to_pkcs1 mx k.
  Proof.
    unfold l_private_to_pkcs1, private_to_pkcs1. cbv zeta. rfk.
    destruct (2 <? length (sk_primes k))%nat; [reflexivity|].
    do 3 (eapply rf_val; [reflexivity|]). rfk. eapply rf_val; [reflexivity|]. rfk. eapply rf_val; [reflexivity|].
    eapply rf_bind; [apply rf_crt|intros dp _]. eapply rf_val; [reflexivity|].
    eapply rf_bind; [apply rf_crt|intros dq _]. eapply rf_val; [reflexivity|].
    eapply rf_bind; [apply rf_crt_coefficient|intros [c|] _]; [|reflexivity].
    eapply rf_val; [reflexivity|].
    do 8 (eapply rf_bind; [apply rf_ref|intros ? _]). reflexivity.
  Qed.

  Lemma rf_p1 s : result (l_encode_p1_private mx s) = encode_p1_private mx s.
  Proof.
    unfold l_encode_p1_private, encode_p1_private.
    do 9 (eapply rf_bind; [apply rf_uint|intros ? _]). apply rf_tlv.
  Qed.

  Lemma rf_info i : result (l_encode_key_info mx i) = encode_key_info mx i.
  Proof.
    unfold l_encode_key_info, encode_key_info. eapply rf_bind; [apply rf_uint|intros ? _].
    eapply rf_bind; [reflexivity|intros ? _]. eapply rf_bind; [apply rf_tlv|intros ? _]. apply rf_tlv.
  Qed.

  Lemma rf_export k : result (l_to_pkcs8_der mx k) = to_pkcs8_der mx k.
  Proof.
    unfold l_to_pkcs8_der, to_pkcs8_der. eapply rf_bind; [apply rf_to_pkcs1|intros s _].
    eapply rf_bind; [apply rf_p1|intros d _]. rf1.
    rewrite (Z.leb_antisym mx). destruct (mx <? _); [reflexivity|]. apply rf_info.
  Qed.
End Results.

(** * Facts about the exported octets *)

Lemma crt_exponent_inv d p x : wf_uint d -> wf_uint p -> crt_exponent d p = Ok x ->
  wf_uint x /\ uval x = uval d mod (uval p - 1) /\ uprec x = uprec d.
Proof.
  intros Wd Wp E.
  assert (H : uprec p <= uprec d /\ 2 <= uval p).
  { unfold crt_exponent, widen in E. destruct (Z.leb_spec (uprec p) (uprec d)) as [L|L]; [|discriminate].
    cbn [bind] in E. unfold usub_big in E. cbn [uval u_of_u64] in E.
    destruct (Z.leb_spec 1 (uval p)) as [L1|L1]; [|discriminate]. cbn [bind] in E.
    split; [exact L|]. unfold uis_zero in E. cbn [uval] in E.
    destruct (Z.eqb_spec (uval p - 1) 0); [discriminate|]. lia. }
  destruct H as (HP & H2). destruct (crt_exponent_ok d p Wd Wp H2 HP) as (C & W).
  rewrite C in E. injection E as <-. auto.
Qed.

Lemma coefficient_inv k p q c : wf_uint p -> sk_primes k = [p; q] -> crt_coefficient k = Ok (Some c) ->
  wf_uint c /\ 0 <= uval c < uval p /\ (uval q * uval c) mod uval p = 1 mod uval p /\ uprec c = uprec p.
Proof.
  intros Wp EP E. unfold crt_coefficient in E. rewrite EP in E. cbn [get_idx nth_error bind] in E.
  unfold uinv_mod in E. destruct (uprec q =? uprec p); [|discriminate].
  destruct (zinv (uval q) (uval p)) as [z|] eqn:Z; [|discriminate]. injection E as <-.
  apply zinv_some in Z. destruct Z as (A & B & C). cbn [uval uprec].
  destruct Wp as (W1 & W2 & W3). split; [|auto]. split; [cbn [uval uprec]; lia|auto].
Qed.

Lemma to_be_value u : wf_uint u -> to_be_bytes u <> [] /\ os2ip (to_be_bytes u) = uval u.
Proof.
  intros W. split.
  - intros E. apply (f_equal (@length byte)) in E. unfold to_be_bytes in E.
    rewrite be_bytes_length in E. cbn [length] in E. destruct W as (_ & W & _).
    assert (8 <= uprec u / 8) by (apply Z.div_le_lower_bound; lia). lia.
  - unfold to_be_bytes. rewrite os2ip_be_bytes. destruct W as (W1 & W2 & W3).
    rewrite Z2Nat.id by (apply Z.div_pos; lia). rewrite pow256_2 by (apply Z.div_pos; lia).
    replace (8 * (uprec u / 8)) with (uprec u); [apply Z.mod_small; lia|].
    assert (M : uprec u mod 8 = 0).
    { apply Z.mod_divide; [lia|]. apply Z.mod_divide in W3; [|lia]. destruct W3 as (x & ->).
      exists (x * 8). ring. }
    pose proof (Z.div_mod (uprec u) 8 ltac:(lia)). lia.
Qed.

Lemma stripped u : wf_uint u -> strip_zeros (to_be_bytes u) = min_octets (uval u).
Proof. intros W. destruct (to_be_value u W) as (N & V). rewrite strip_min, V by exact N. reflexivity. Qed.

Lemma ref_inv mx u l : wf_uint u -> uint_ref_new mx (to_be_bytes u) = Ok l -> l = min_octets (uval u).
Proof.
  intros W. unfold uint_ref_new. cbv zeta. rewrite stripped by exact W.
  destruct (_ <? _); [discriminate|]. intros [= <-]. reflexivity.
Qed.

(** Octet strings an observer cannot tell apart *)
Definition seem (l l' : list byte) : Prop :=
  length l = length l' /\ length (uint_content l) = length (uint_content l').

Lemma seem_looks z z' : 0 <= z -> 0 <= z' -> (seem (min_octets z) (min_octets z') <-> looks z = looks z').
Proof.
  intros H H'. unfold seem, looks. rewrite !uint_content_spec, !min_octets_length by auto.
  unfold octet_size. pose proof (Z.log2_nonneg z). pose proof (Z.log2_nonneg z').
  assert (0 <= Z.log2 z / 8) by (apply Z.div_pos; lia). assert (0 <= Z.log2 z' / 8) by (apply Z.div_pos; lia).
  split.
  - intros (A & B). f_equal; [lia|exact B].
  - intros E. injection E as A B. split; [rewrite A; reflexivity|exact B].
Qed.

Definition top_clear (l : list byte) : bool := match l with b :: _ => b2z b <? 128 | [] => true end.

Lemma content_top l : uint_content l = if top_clear l then l else x00 :: l.
Proof. destruct l; reflexivity. Qed.

Lemma seem_top l l' : seem l l' -> top_clear l = top_clear l'.
Proof.
  intros (A & B). rewrite !content_top in B.
  destruct (top_clear l), (top_clear l'); cbn [length] in B; auto; lia.
Qed.

(** * Backward: what looks alike leaves the same trace *)

Lemma strip_le l : (length (strip_zeros l) <= length l)%nat.
Proof.
  induction l as [|a [|b l] IH]; [auto..|].
  change (strip_zeros (a :: b :: l)) with (if byte_eqb a x00 then strip_zeros (b :: l) else a :: b :: l).
  destruct (byte_eqb a x00); [|lia]. cbn [length] in *. lia.
Qed.

Lemma trace_strip l : forall l', length l = length l' -> length (strip_zeros l) = length (strip_zeros l') ->
  trace (l_strip_zeros l) = trace (l_strip_zeros l').
Proof.
  induction l as [|a [|b l] IH]; intros l' L S.
  - destruct l'; [reflexivity|discriminate].
  - destruct l' as [|a' [|]]; [discriminate|reflexivity|discriminate].
  - destruct l' as [|a' [|b' l']]; [discriminate..|].
    change (l_strip_zeros (a :: b :: l)) with
      (let! c := l_if (byte_eqb a x00) in if c then l_strip_zeros (b :: l) else lret (a :: b :: l)).
    change (l_strip_zeros (a' :: b' :: l')) with
      (let! c := l_if (byte_eqb a' x00) in if c then l_strip_zeros (b' :: l') else lret (a' :: b' :: l')).
    change (strip_zeros (a :: b :: l)) with (if byte_eqb a x00 then strip_zeros (b :: l) else a :: b :: l) in S.
    change (strip_zeros (a' :: b' :: l')) with (if byte_eqb a' x00 then strip_zeros (b' :: l') else a' :: b' :: l') in S.
    pose proof (strip_le (b :: l)) as X. pose proof (strip_le (b' :: l')) as Y. cbn [length] in X, Y, L.
    rewrite !trace_bind. cbn [l_if emit trace result fst snd].
    destruct (byte_eqb a x00), (byte_eqb a' x00).
    + f_equal. apply IH; [cbn [length]; lia|exact S].
    + cbn [length] in S. lia.
    + cbn [length] in S. lia.
    + reflexivity.
Qed.

Section Alike.
  Context (mx : Z).

  Lemma al_check {A B} (P : A -> B -> Prop) c c' e e' K K' : alike P K K' ->
    alike P (let! x := l_if c in if x then lerr e else K) (let! x := l_if c' in if x then lerr e' else K').
  Proof.
    intros HK u v Eu Ev. rewrite res_bind in Eu. rewrite res_bind in Ev. cbn in Eu, Ev.
    destruct c; [discriminate|]. destruct c'; [discriminate|].
    destruct (HK u v Eu Ev) as (T & X). split; [|exact X].
    rewrite !trace_bind. cbn. rewrite T. reflexivity.
  Qed.

  Lemma al_ref u u' : wf_uint u -> wf_uint u' -> same_prec u u' -> looks (uval u) = looks (uval u') ->
    alike seem (l_uint_ref_new mx (to_be_bytes u)) (l_uint_ref_new mx (to_be_bytes u')).
  Proof.
    intros W W' P L. apply seem_looks in L; [|apply W|apply W'].
    unfold l_uint_ref_new. eapply (al_bind (fun a b => a = min_octets (uval u) /\ b = min_octets (uval u'))).
    - intros a b Ea Eb. rewrite rf_strip in Ea. rewrite rf_strip in Eb. injection Ea as <-. injection Eb as <-.
      rewrite !stripped by assumption. split; [|auto]. apply trace_strip.
      + unfold to_be_bytes. rewrite !be_bytes_length. unfold same_prec in P. rewrite P. reflexivity.
      + rewrite !stripped by assumption. apply L.
    - intros a b _ _ (-> & ->). apply al_check. apply al_ret. exact L.
  Qed.

  Lemma al_tlv t c c' : length c = length c' ->
    alike same_len (l_encode_tlv mx t c) (l_encode_tlv mx t c').
  Proof.
    intros L. unfold l_encode_tlv. cbv zeta. apply al_check. rewrite <- L.
    intros a b [= <-] [= <-]. unfold same_len. cbn [trace emit fst length]. rewrite !app_length, L. auto.
  Qed.

  Lemma al_uint l l' : seem l l' -> alike same_len (l_encode_uint mx l) (l_encode_uint mx l').
  Proof.
    intros S. unfold l_encode_uint. fold (top_clear l). fold (top_clear l'). rewrite <- (seem_top l l' S).
    apply al_same. intros c _. eapply (al_bind (fun a b => a = l /\ b = l')).
    - intros a b [= <-] [= <-]. cbn. destruct S as (-> & _). auto.
    - intros a b _ _ (-> & ->). apply al_tlv. destruct S as (S & _). destruct c; cbn [length]; lia.
  Qed.

  Lemma al_to_bytes u u' : same_prec u u' ->
    alike (fun a b => a = to_be_bytes u /\ b = to_be_bytes u') (l_to_be_bytes u) (l_to_be_bytes u').
  Proof. intros P a b [= <-] [= <-]. cbn. unfold same_prec in P. rewrite P. auto. Qed.

  Lemma al_crt d p d' p' : same_prec d d' -> same_prec p p' ->
    alike same_prec (l_crt_exponent d p) (l_crt_exponent d' p').
  Proof.
    intros D P. unfold l_crt_exponent. eapply al_bind; [apply al_widen; [exact P|exact D]|].
    intros a b _ _ Q. eapply al_bind; [apply al_usub; [exact Q|reflexivity]|].
    intros x y _ _ X. eapply (al_bind eq).
    { intros [] [] _ _. cbn. unfold same_prec in X. rewrite X. auto. }
    intros _ _ _ _ _. eapply (al_bind eq).
    { intros [] [] Ea Eb. unfold l_assert, assert_ in *. cbn in *.
      destruct (negb (uis_zero x)); [|discriminate]. destruct (negb (uis_zero y)); [|discriminate]. auto. }
    intros _ _ _ _ _. apply al_urem; assumption.
  Qed.

  Definition p1_seem (s s' : p1_private) : Prop :=
    seem (pp_modulus s) (pp_modulus s') /\ seem (pp_public_exponent s) (pp_public_exponent s') /\
    seem (pp_private_exponent s) (pp_private_exponent s') /\ seem (pp_prime1 s) (pp_prime1 s') /\
    seem (pp_prime2 s) (pp_prime2 s') /\ seem (pp_exponent1 s) (pp_exponent1 s') /\
    seem (pp_exponent2 s) (pp_exponent2 s') /\ seem (pp_coefficient s) (pp_coefficient s').

  Lemma al_p1 s s' : p1_seem s s' -> alike same_len (l_encode_p1_private mx s) (l_encode_p1_private mx s').
  Proof.
    intros (S1 & S2 & S3 & S4 & S5 & S6 & S7 & S8). unfold l_encode_p1_private. apply al_same. intros v _.
    do 8 (eapply al_bind; [apply al_uint; eassumption|intros ? ? _ _ ?]).
    apply al_tlv. unfold same_len in *. rewrite !app_length. congruence.
  Qed.

  Lemma al_info a l l' : length l = length l' ->
    alike same_len (l_encode_key_info mx (mkKI a l)) (l_encode_key_info mx (mkKI a l')).
  Proof.
    intros L. unfold l_encode_key_info. cbn [ki_alg ki_key]. apply al_same. intros v _. apply al_same. intros b _.
    eapply al_bind; [apply al_tlv; exact L|]. intros x y _ _ X. apply al_tlv. unfold same_len in X.
    rewrite !app_length. congruence.
  Qed.
End Alike.

(** * Forward: the sizes copied tell how the numbers look *)

Definition copies (t : list event) : list nat :=
  flat_map (fun ev => match ev with ECopy n => [n] | _ => [] end) t.

Definition quiet {A} (m : leaky A) : Prop := copies (trace m) = [].

Lemma quiet_bind {A B} (m : leaky A) (k : A -> leaky B) : quiet m -> (forall a, quiet (k a)) -> quiet (lbind m k).
Proof.
  unfold quiet, copies. intros H K. rewrite trace_bind, flat_map_app, H.
  destruct (result m) as [a| | |]; [apply K|reflexivity..].
Qed.

Lemma copies_bind {A B} (m : leaky A) (k : A -> leaky B) a : result m = Ok a ->
  copies (trace (lbind m k)) = copies (trace m) ++ copies (trace (k a)).
Proof. intros E. rewrite trace_bind, E. apply flat_map_app. Qed.

Lemma quiet_strip l : quiet (l_strip_zeros l).
Proof.
  induction l as [|a [|b l] IH]; [reflexivity..|].
  change (l_strip_zeros (a :: b :: l)) with
    (let! c := l_if (byte_eqb a x00) in if c then l_strip_zeros (b :: l) else lret (a :: b :: l)).
  apply quiet_bind; [reflexivity|]. intros []; [exact IH|reflexivity].
Qed.

Section Forward.
  Context (mx : Z).

  Lemma quiet_ref l : quiet (l_uint_ref_new mx l).
  Proof.
    unfold l_uint_ref_new. apply quiet_bind; [apply quiet_strip|]. intros a.
    apply quiet_bind; [reflexivity|]. intros []; reflexivity.
  Qed.

  Lemma quiet_crt d p : quiet (l_crt_exponent d p).
  Proof. unfold l_crt_exponent. repeat (apply quiet_bind; [reflexivity|intros]). reflexivity. Qed.

  Lemma quiet_coefficient k : quiet (l_crt_coefficient k).
  Proof. unfold l_crt_coefficient. repeat (apply quiet_bind; [reflexivity|intros]). reflexivity. Qed.

  Lemma quiet_to_pkcs1 k : quiet (l_private_to_pkcs1 mx k).
  Proof.
    unfold l_private_to_pkcs1. apply quiet_bind; [reflexivity|]. intros []; [reflexivity|].
    do 7 (apply quiet_bind; [reflexivity|intros]). do 2 (apply quiet_bind; [apply quiet_crt|intros]; apply quiet_bind; [reflexivity|intros]).
    apply quiet_bind; [apply quiet_coefficient|intros [c|]]; [|reflexivity].
    apply quiet_bind; [reflexivity|intros]. do 8 (apply quiet_bind; [apply quiet_ref|intros]). reflexivity.
  Qed.

  Definition tlv_size (n : nat) : nat := S (length (length_octets (Z.of_nat n)) + n).

  Lemma copies_tlv t c x : result (l_encode_tlv mx t c) = Ok x ->
    copies (trace (l_encode_tlv mx t c)) = [tlv_size (length c)].
  Proof.
    unfold l_encode_tlv. cbv zeta. rewrite res_bind. erewrite copies_bind by reflexivity.
    cbn [l_if emit result snd bind]. destruct (mx <? _); [discriminate|]. intros _.
    cbn [copies trace emit fst flat_map app length]. rewrite app_length. reflexivity.
  Qed.

  Lemma copies_uint l x : result (l_encode_uint mx l) = Ok x ->
    copies (trace (l_encode_uint mx l)) = [length l; tlv_size (length (uint_content l))].
  Proof.
    unfold l_encode_uint. fold (top_clear l). rewrite res_bind. cbn [l_if emit result snd bind].
    rewrite res_bind. cbn [emit result snd bind]. intros E.
    erewrite copies_bind by reflexivity. erewrite copies_bind by reflexivity. rewrite (copies_tlv _ _ _ E).
    rewrite content_top. reflexivity.
  Qed.

  Definition field_copies (l : list byte) : list nat := [length l; tlv_size (length (uint_content l))].

  Lemma copies_p1 s x : result (l_encode_p1_private mx s) = Ok x ->
    exists rest, copies (trace (l_encode_p1_private mx s)) =
    field_copies [x00] ++ field_copies (pp_modulus s) ++ field_copies (pp_public_exponent s)
    ++ field_copies (pp_private_exponent s) ++ field_copies (pp_prime1 s) ++ field_copies (pp_prime2 s)
    ++ field_copies (pp_exponent1 s) ++ field_copies (pp_exponent2 s) ++ field_copies (pp_coefficient s) ++ rest.
  Proof.
    unfold l_encode_p1_private. intros E.
    do 9 (rewrite res_bind in E; apply BytesLemmas.bind_ok in E;
          match type of E with exists a, _ => let a := fresh "a" in let H := fresh "H" in destruct E as (a & H & E) end).
    eexists. repeat (erewrite copies_bind by eassumption; erewrite copies_uint by eassumption; apply f_equal).
    reflexivity.
  Qed.

  Lemma tlv_size_inj a b : tlv_size a = tlv_size b -> a = b.
  Proof.
    unfold tlv_size, length_octets.
    repeat match goal with |- context [if ?x <? ?y then _ else _] => destruct (Z.ltb_spec x y) end;
      cbn [length]; lia.
  Qed.

  Lemma field_inj l l' r r' : field_copies l ++ r = field_copies l' ++ r' -> seem l l' /\ r = r'.
  Proof.
    unfold field_copies, seem. cbn [app]. intros E. injection E as A B C.
    split; [|exact C]. split; [exact A|]. apply tlv_size_inj. unfold tlv_size. rewrite B. reflexivity.
  Qed.

  Lemma export_copies k doc : to_pkcs8_der mx k = Ok doc ->
    exists s rest, private_to_pkcs1 mx k = Ok s /\ copies (trace (l_to_pkcs8_der mx k)) =
    field_copies [x00] ++ field_copies (pp_modulus s) ++ field_copies (pp_public_exponent s)
    ++ field_copies (pp_private_exponent s) ++ field_copies (pp_prime1 s) ++ field_copies (pp_prime2 s)
    ++ field_copies (pp_exponent1 s) ++ field_copies (pp_exponent2 s) ++ field_copies (pp_coefficient s) ++ rest.
  Proof.
    intros E. rewrite <- rf_export in E. unfold l_to_pkcs8_der in *.
    rewrite res_bind in E. apply BytesLemmas.bind_ok in E. destruct E as (s & E1 & E).
    rewrite res_bind in E. apply BytesLemmas.bind_ok in E. destruct E as (x & E2 & E).
    destruct (copies_p1 s x E2) as (rest & R).
    exists s. eexists. split; [rewrite <- rf_to_pkcs1; exact E1|].
    rewrite (copies_bind _ _ _ E1), (copies_bind _ _ _ E2), R, (quiet_to_pkcs1 k).
    rewrite app_nil_l, <- !app_assoc. reflexivity.
  Qed.
End Forward.

(** * Both together *)

Lemma exported_fields mx k p q c s : two_primes k p q -> coefficient_of (uval p) (uval q) c ->
  private_to_pkcs1 mx k = Ok s ->
  exists dp dq cc, crt_exponent (sk_d k) p = Ok dp /\ crt_exponent (sk_d k) q = Ok dq /\
    crt_coefficient k = Ok (Some cc) /\ wf_uint dp /\ wf_uint dq /\ wf_uint cc /\
    uval dp = uval (sk_d k) mod (uval p - 1) /\ uval dq = uval (sk_d k) mod (uval q - 1) /\ uval cc = c /\
    uprec dp = uprec (sk_d k) /\ uprec dq = uprec (sk_d k) /\ uprec cc = uprec p /\
    [pp_modulus s; pp_public_exponent s; pp_private_exponent s; pp_prime1 s; pp_prime2 s; pp_exponent1 s;
     pp_exponent2 s; pp_coefficient s] = map min_octets (exported k p q c).
Proof.
  intros (Wn & We & Wd & EP & Wp & Wq) (C1 & C2) E. unfold private_to_pkcs1 in E. rewrite EP in E.
  cbn [length Nat.ltb Nat.leb get_idx nth_error bind] in E. cbv zeta in E.
  apply BytesLemmas.bind_ok in E. destruct E as (dp & Edp & E).
  apply BytesLemmas.bind_ok in E. destruct E as (dq & Edq & E).
  apply BytesLemmas.bind_ok in E. destruct E as ([cc|] & Ecc & E); [|discriminate].
  destruct (crt_exponent_inv _ _ _ Wd Wp Edp) as (Wdp & Vdp & Pdp).
  destruct (crt_exponent_inv _ _ _ Wd Wq Edq) as (Wdq & Vdq & Pdq).
  destruct (coefficient_inv _ _ _ _ Wp EP Ecc) as (Wcc & Rcc & Mcc & Pcc).
  assert (Vcc : uval cc = c).
  { apply (inverse_unique (uval q) (uval p)); [clear - C1; lia|exact Rcc|exact C1|exact Mcc|]. rewrite C2. symmetry. apply Z.mod_small.
    assert (uval p <> 1) by (intros X; rewrite X, Z.mod_1_r in C2; discriminate). clear - C1 H. lia. }
  exists dp, dq, cc. repeat (split; [assumption|]).
  do 8 (apply BytesLemmas.bind_ok in E;
        match type of E with exists a, _ => let a := fresh "l" in let H := fresh "L" in
          destruct E as (a & H & E); apply ref_inv in H; [|assumption] end).
  injection E as <-. cbn [pp_modulus pp_public_exponent pp_private_exponent pp_prime1 pp_prime2 pp_exponent1
    pp_exponent2 pp_coefficient exported map]. unfold exported. cbv zeta. cbn [map].
  rewrite <- Vdp, <- Vdq, <- Vcc. congruence.
Qed.

Lemma map_seem l l' : Forall (fun z => 0 <= z) l -> Forall (fun z => 0 <= z) l' ->
  (Forall2 seem (map min_octets l) (map min_octets l') <-> map looks l = map looks l').
Proof.
  revert l'. induction l as [|z l IH]; intros [|z' l'] F F'.
  - split; [reflexivity|constructor].
  - split; [intros H; inversion H|discriminate].
  - split; [intros H; inversion H|discriminate].
  - inversion F; subst. inversion F'; subst. cbn [map]. split.
    + intros H. inversion H; subst. f_equal; [apply seem_looks; auto|]. apply IH; auto.
    + intros H. injection H as A1 A2 B. constructor; [apply seem_looks; auto; unfold looks; congruence|].
      apply IH; auto.
Qed.

Lemma exported_pos k p q c : two_primes k p q -> coefficient_of (uval p) (uval q) c -> 2 <= uval p -> 2 <= uval q ->
  Forall (fun z => 0 <= z) (exported k p q c).
Proof.
  intros (Wn & We & Wd & EP & Wp & Wq) (C & _) P Q. unfold exported. cbv zeta.
  repeat constructor; try apply Wn; try apply We; try apply Wd; try apply Wp; try apply Wq; try apply C;
    apply Z.mod_pos_bound; lia.
Qed.

Lemma crt_exponent_two d p x : crt_exponent d p = Ok x -> 0 <= uval p -> 2 <= uval p.
Proof.
  intros E H. unfold crt_exponent, widen in E. destruct (Z.leb_spec (uprec p) (uprec d)) as [L|L]; [|discriminate].
  cbn [bind] in E. unfold usub_big in E. cbn [uval u_of_u64] in E.
  destruct (Z.leb_spec 1 (uval p)) as [L1|L1]; [|discriminate]. cbn [bind] in E.
  unfold uis_zero in E. cbn [uval] in E.
  destruct (Z.eqb_spec (uval p - 1) 0); [discriminate|]. lia.
Qed.

Section Both.
  Variables (mx : Z) (k k' : privkey) (p q p' q' : uint) (c c' : Z) (doc doc' : list byte).
  Hypotheses (K : two_primes k p q) (K' : two_primes k' p' q')
    (C : coefficient_of (uval p) (uval q) c) (C' : coefficient_of (uval p') (uval q') c')
    (W : same_widths k k' p q p' q')
    (E : to_pkcs8_der mx k = Ok doc) (E' : to_pkcs8_der mx k' = Ok doc').

  Lemma export_shows : trace (l_to_pkcs8_der mx k) = trace (l_to_pkcs8_der mx k') ->
    map looks (exported k p q c) = map looks (exported k' p' q' c').
  Proof.
    intros T. destruct (export_copies mx k doc E) as (s & r & S & R).
    destruct (export_copies mx k' doc' E') as (s' & r' & S' & R').
    rewrite <- T, R in R'. destruct (exported_fields mx k p q c s K C S) as (dp & dq & cc & A1 & A2 & _ & _ & _ & _ & _ & _ & _ & _ & _ & _ & F).
    destruct (exported_fields mx k' p' q' c' s' K' C' S') as (dp' & dq' & cc' & A1' & A2' & _ & _ & _ & _ & _ & _ & _ & _ & _ & _ & F').
    apply map_seem.
    - apply exported_pos; auto; [apply (crt_exponent_two _ _ _ A1)|apply (crt_exponent_two _ _ _ A2)]; apply K.
    - apply exported_pos; auto; [apply (crt_exponent_two _ _ _ A1')|apply (crt_exponent_two _ _ _ A2')]; apply K'.
    - rewrite <- F, <- F'. apply field_inj in R'. destruct R' as (_ & R').
      repeat (apply field_inj in R'; let H := fresh "H" in destruct R' as (H & R'); constructor; [exact H|]).
      constructor.
  Qed.

  Lemma al_to_pkcs1 : map looks (exported k p q c) = map looks (exported k' p' q' c') ->
    alike p1_seem (l_private_to_pkcs1 mx k) (l_private_to_pkcs1 mx k').
  Proof.
    intros L. pose proof K as (Wn & We & Wd & EP & Wp & Wq). pose proof K' as (Wn' & We' & Wd' & EP' & Wp' & Wq').
    destruct W as (P1 & P2 & P3 & P4 & P5).
    intros s s' S S'. pose proof S as S0. pose proof S' as S0'. rewrite rf_to_pkcs1 in S, S'.
    destruct (exported_fields mx k p q c s K C S) as (dp & dq & cc & A1 & A2 & A3 & W1 & W2 & W3 & V1 & V2 & V3 & Q1 & Q2 & Q3 & _).
    destruct (exported_fields mx k' p' q' c' s' K' C' S') as (dp' & dq' & cc' & A1' & A2' & A3' & W1' & W2' & W3' & V1' & V2' & V3' & Q1' & Q2' & Q3' & _).
    unfold exported in L. cbv zeta in L. rewrite <- V1, <- V2, <- V3, <- V1', <- V2', <- V3' in L. cbn [map] in L.
    assert (L8 : looks (uval (pk_n (sk_pub k))) = looks (uval (pk_n (sk_pub k'))) /\
                 looks (uval (pk_e (sk_pub k))) = looks (uval (pk_e (sk_pub k'))) /\
                 looks (uval (sk_d k)) = looks (uval (sk_d k')) /\ looks (uval p) = looks (uval p') /\
                 looks (uval q) = looks (uval q') /\ looks (uval dp) = looks (uval dp') /\
                 looks (uval dq) = looks (uval dq') /\ looks (uval cc) = looks (uval cc')).
    { unfold looks in *. injection L as ? ? ? ? ? ? ? ? ? ? ? ? ? ? ? ?.
      repeat split; congruence. }
    clear L. destruct L8 as (L1 & L2 & L3 & L4 & L5 & L6 & L7 & L8).
    revert S0 S0'. generalize s, s'. fold (alike p1_seem (l_private_to_pkcs1 mx k) (l_private_to_pkcs1 mx k')).
    unfold l_private_to_pkcs1. rewrite EP, EP'. cbn [length Nat.ltb Nat.leb].
    apply al_same. intros [] Eb; [discriminate|clear Eb].
    eapply al_bind; [apply al_to_bytes; exact P1|]. intros ? ? _ _ (-> & ->).
    eapply al_bind; [apply al_to_bytes; exact P2|]. intros ? ? _ _ (-> & ->).
    eapply al_bind; [apply al_to_bytes; exact P3|]. intros ? ? _ _ (-> & ->).
    eapply (al_bind (fun a b => a = p /\ b = p')); [intros ? ? [= <-] [= <-]; cbn; auto|]. intros ? ? _ _ (-> & ->).
    eapply al_bind; [apply al_to_bytes; exact P4|]. intros ? ? _ _ (-> & ->).
    eapply (al_bind (fun a b => a = q /\ b = q')); [intros ? ? [= <-] [= <-]; cbn; auto|]. intros ? ? _ _ (-> & ->).
    eapply al_bind; [apply al_to_bytes; exact P5|]. intros ? ? _ _ (-> & ->).
    eapply al_bind; [apply al_crt; [exact P3|exact P4]|]. intros a b Ea Eb _.
    rewrite rf_crt in Ea, Eb. rewrite A1 in Ea. rewrite A1' in Eb. injection Ea as <-. injection Eb as <-.
    eapply al_bind; [apply al_to_bytes; unfold same_prec; congruence|]. intros ? ? _ _ (-> & ->).
    eapply al_bind; [apply al_crt; [exact P3|exact P5]|]. intros a b Ea Eb _.
    rewrite rf_crt in Ea, Eb. rewrite A2 in Ea. rewrite A2' in Eb. injection Ea as <-. injection Eb as <-.
    eapply al_bind; [apply al_to_bytes; unfold same_prec; congruence|]. intros ? ? _ _ (-> & ->).
    eapply (al_bind (fun a b => a = Some cc /\ b = Some cc')).
    { intros a b Ea Eb. rewrite rf_crt_coefficient in Ea, Eb. rewrite A3 in Ea. rewrite A3' in Eb.
      injection Ea as <-. injection Eb as <-. split; [|auto].
      apply (coefficient_trace k k' cc cc'); auto. rewrite EP, EP'. repeat constructor; assumption. }
    intros ? ? _ _ (-> & ->).
    eapply al_bind; [apply al_to_bytes; unfold same_prec; congruence|]. intros ? ? _ _ (-> & ->).
    eapply al_bind; [apply al_ref; try assumption|]. intros ? ? _ _ X1.
    eapply al_bind; [apply al_ref; try assumption|]. intros ? ? _ _ X2.
    eapply al_bind; [apply al_ref; try assumption|]. intros ? ? _ _ X3.
    eapply al_bind; [apply al_ref; try assumption|]. intros ? ? _ _ X4.
    eapply al_bind; [apply al_ref; try assumption|]. intros ? ? _ _ X5.
    eapply al_bind; [apply al_ref; try assumption; unfold same_prec; congruence|]. intros ? ? _ _ X6.
    eapply al_bind; [apply al_ref; try assumption; unfold same_prec; congruence|]. intros ? ? _ _ X7.
    eapply al_bind; [apply al_ref; try assumption; unfold same_prec; congruence|]. intros ? ? _ _ X8.
    apply al_ret. unfold p1_seem. cbn. repeat (split; [assumption|]). assumption.
  Qed.

  Lemma export_hides : map looks (exported k p q c) = map looks (exported k' p' q' c') ->
    trace (l_to_pkcs8_der mx k) = trace (l_to_pkcs8_der mx k').
  Proof.
    intros L. assert (A : alike same_len (l_to_pkcs8_der mx k) (l_to_pkcs8_der mx k')).
    { unfold l_to_pkcs8_der. eapply al_bind; [apply al_to_pkcs1; exact L|]. intros s s' _ _ S.
      eapply al_bind; [apply al_p1; exact S|]. intros x y _ _ X. apply al_check. apply al_info. exact X. }
    apply (A doc doc'); rewrite rf_export; assumption.
  Qed.
End Both.

(** * Comparison *)

Lemma ueqb_val a b : ueqb a b = (uval a =? uval b).
Proof. reflexivity. Qed.

Lemma rf_ueq a b : result (l_ueq a b) = Ok (ueqb a b).
Proof. reflexivity. Qed.

Lemma rf_uints_loop a : forall b, length a = length b -> result (l_uints_loop a b) = Ok (uints_eqb a b).
Proof.
  induction a as [|x a IH]; intros [|y b] L; try discriminate; [reflexivity|].
  cbn [l_uints_loop uints_eqb]. eapply rf_val; [apply rf_ueq|].
  destruct (ueqb x y); [|reflexivity]. apply IH. injection L. auto.
Qed.

Lemma uints_len a : forall b, uints_eqb a b = true -> length a = length b.
Proof.
  induction a as [|x a IH]; intros [|y b]; try discriminate; [reflexivity|]. cbn [uints_eqb].
  intros H. apply andb_prop in H. cbn [length]. f_equal. apply IH, H.
Qed.

Lemma rf_priv_eq a b : result (l_priv_eq a b) = Ok (priv_eqb a b).
Proof.
  unfold l_priv_eq, priv_eqb, pub_eqb. eapply rf_val; [apply rf_ueq|]. destruct (ueqb (pk_n _) _); [|reflexivity].
  eapply rf_val; [apply rf_ueq|]. destruct (ueqb (pk_e _) _); [|reflexivity].
  eapply rf_val; [apply rf_ueq|]. destruct (ueqb (sk_d _) _); [|reflexivity]. cbn [andb].
  unfold l_uints_eq. rf1. destruct (Nat.eqb_spec (length (sk_primes a)) (length (sk_primes b))) as [L|L].
  - apply rf_uints_loop, L.
  - destruct (uints_eqb _ _) eqn:E; [|reflexivity]. apply uints_len in E. contradiction.
Qed.

Lemma trace_ueq {A} a b (k : bool -> leaky A) :
  trace (lbind (l_ueq a b) k) = EUint OpCmp [uprec a; uprec b] :: EBranch (ueqb a b) :: trace (k (ueqb a b)).
Proof. rewrite trace_bind. reflexivity. Qed.

Lemma trace_if {A} c (k : bool -> leaky A) : trace (lbind (l_if c) k) = EBranch c :: trace (k c).
Proof. rewrite trace_bind. reflexivity. Qed.

(** One comparison and what follows *)
Lemma step_iff x y x' y' (m m' : leaky bool) (l l' r r' : list Z) : same_prec x x' -> same_prec y y' ->
  (trace m = trace m' <-> first_difference l r = first_difference l' r') ->
  trace (let! c := l_ueq x y in if c then m else lret false)
   = trace (let! c := l_ueq x' y' in if c then m' else lret false) <->
   first_difference (uval x :: l) (uval y :: r) = first_difference (uval x' :: l') (uval y' :: r').
Proof.
  intros X Y H. unfold same_prec in *. rewrite !trace_ueq, X, Y. cbn [first_difference].
  rewrite !ueqb_val. destruct (uval x =? uval y), (uval x' =? uval y').
  - split.
    + intros E. injection E as E. f_equal. apply H, E.
    + intros E. injection E as E. do 2 f_equal. apply H, E.
  - split; discriminate.
  - split; discriminate.
  - split; reflexivity.
Qed.

Lemma loop_iff l : forall m l' m', Forall2 same_prec l l' -> Forall2 same_prec m m' ->
  length l = length m ->
  (trace (l_uints_loop l m) = trace (l_uints_loop l' m') <->
   first_difference (map uval l) (map uval m) = first_difference (map uval l') (map uval m')).
Proof.
  induction l as [|x l IH]; intros [|y m] l' m' F G L; try discriminate.
  - inversion F; subst. inversion G; subst. split; reflexivity.
  - inversion F as [|? x' ? l2 X F2]; subst. inversion G as [|? y' ? m2 Y G2]; subst.
    cbn [l_uints_loop map]. injection L as L. apply (step_iff x y x' y' _ _ _ _ _ _ X Y), IH; auto.
Qed.

Lemma compare_iff a b a' b' : alike_keys a a' -> alike_keys b b' -> length (sk_primes a) = length (sk_primes b) ->
  (trace (l_priv_eq a b) = trace (l_priv_eq a' b') <->
   first_difference (secret_values a) (secret_values b) = first_difference (secret_values a') (secret_values b')).
Proof.
  intros (A1 & A2 & A3 & A4) (B1 & B2 & B3 & B4) L. unfold l_priv_eq, secret_values.
  apply (step_iff _ _ _ _ _ _ _ _ _ _ A1 B1).
  apply (step_iff _ _ _ _ _ _ _ _ _ _ A2 B2).
  apply (step_iff _ _ _ _ _ _ _ _ _ _ A3 B3).
  unfold l_uints_eq. rewrite !trace_if.
  assert (L' : length (sk_primes a') = length (sk_primes b')).
  { rewrite <- (F2_length _ _ _ A4), <- (F2_length _ _ _ B4). exact L. }
  rewrite (proj2 (Nat.eqb_eq _ _) L), (proj2 (Nat.eqb_eq _ _) L').
  rewrite <- (loop_iff _ _ _ _ A4 B4 L). split; [intros E; injection E; auto|intros ->; reflexivity].
Qed.
