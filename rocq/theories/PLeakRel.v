(** Two runs of the traced model leave the same trace. *)
From Coq Require Import ZArith List Bool Lia.
From Coq Require Import Init.Byte.
From Verif Require Import Base Bigint BigintLemmas BytesLemmas MHash MPad MMgf MPkcs1 MOaep MRsa
  MKey MApi MLeak PLeak SpecRFC SpecRng SpecLeak KeyDefs PRsa PApi.
Import ListNotations.
Local Open Scope Z_scope.

(** Same trace, and related results. *)
Definition agree {A B} (P : A -> B -> Prop) (m : leaky A) (m' : leaky B) : Prop :=
  trace m = trace m' /\
  match result m, result m' with
  | Ok a, Ok b => P a b
  | Err e, Err e' => e = e'
  | Panic, Panic => True
  | OutOfFuel, OutOfFuel => True
  | _, _ => False
  end.

Lemma ag_bind {A B C D} (P : A -> B -> Prop) (Q : C -> D -> Prop) m m' k k' :
  agree P m m' -> (forall a b, P a b -> agree Q (k a) (k' b)) ->
  agree Q (lbind m k) (lbind m' k').
Proof.
  unfold agree, trace, result, lbind. destruct m as [t o], m' as [t' o']. cbn [fst snd].
  intros (<- & H) K. destruct o, o'; cbn [fst snd]; try tauto; auto.
  specialize (K _ _ H). destruct (k a), (k' a0). cbn [fst snd] in *.
  destruct K as (-> & K). auto.
Qed.

Lemma ag_emit {A B} (P : A -> B -> Prop) ev o o' :
  match o, o' with
  | Ok a, Ok b => P a b
  | Err e, Err e' => e = e'
  | Panic, Panic => True
  | OutOfFuel, OutOfFuel => True
  | _, _ => False
  end -> agree P (emit ev o) (emit ev o').
Proof. intros H. split; [reflexivity|exact H]. Qed.

Lemma ag_ret {A B} (P : A -> B -> Prop) a b : P a b -> agree P (lret a) (lret b).
Proof. intros H. split; [reflexivity|exact H]. Qed.

Lemma ag_err {A B} (P : A -> B -> Prop) e : agree P (lerr e) (lerr e).
Proof. split; reflexivity. Qed.

Lemma ag_refl {A} (m : leaky A) : agree eq m m.
Proof. split; [reflexivity|]. destruct (result m); auto. Qed.

Lemma ag_weaken {A B} (P Q : A -> B -> Prop) m m' :
  (forall a b, P a b -> Q a b) -> agree P m m' -> agree Q m m'.
Proof. intros H (T & K). split; auto. destruct (result m), (result m'); auto. Qed.

Lemma ag_if b : agree (fun x y => x = b /\ y = b) (l_if b) (l_if b).
Proof. apply ag_emit. auto. Qed.

Lemma ag_trace {A B} (P : A -> B -> Prop) m m' : agree P m m' -> trace m = trace m'.
Proof. intros (H & _); auto. Qed.

(** the same public branch on both sides *)
Lemma ag_branch {A B} (P : A -> B -> Prop) b (k : bool -> leaky A) (k' : bool -> leaky B) :
  agree P (k b) (k' b) -> agree P (lbind (l_if b) k) (lbind (l_if b) k').
Proof. intros H. eapply ag_bind; [apply ag_if|]. intros ? ? (-> & ->). exact H. Qed.

(** the same event and the same value on both sides *)
Lemma ag_same {A B C} (P : B -> C -> Prop) (m : leaky A) (k : A -> leaky B) (k' : A -> leaky C) :
  (forall a, result m = Ok a -> agree P (k a) (k' a)) -> agree P (lbind m k) (lbind m k').
Proof.
  intros H. eapply (ag_bind (fun x y => x = y /\ result m = Ok x)).
  - split; [reflexivity|]. destruct (result m); auto.
  - intros a b (-> & E). auto.
Qed.

(** * Buffers *)

Definition same_len {A} (l l' : list A) : Prop := length l = length l'.

Lemma ag_get {A} (l l' : list A) i : same_len l l' ->
  agree (fun _ _ => True) (l_get l i) (l_get l' i).
Proof.
  intros H. unfold l_get. rewrite H. apply ag_emit. unfold get_idx.
  destruct (nth_error l i) eqn:E, (nth_error l' i) eqn:E'; auto.
  - apply nth_error_None in E'. assert (i < length l)%nat by (apply nth_error_Some; congruence).
    unfold same_len in H. lia.
  - apply nth_error_None in E. assert (i < length l')%nat by (apply nth_error_Some; congruence).
    unfold same_len in H. lia.
Qed.

Lemma set_len {A} (l : list A) i v l2 : set_idx l i v = Ok l2 -> length l2 = length l.
Proof.
  unfold set_idx. destruct (Nat.ltb_spec i (length l)) as [H|]; intros E0; [|discriminate].
  apply (f_equal (fun o => match o with Ok x => length x | _ => O end)) in E0.
  cbv beta iota in E0. rewrite <- E0.
  rewrite app_length, firstn_length, Nat.min_l by lia.
  assert (E : forall r : list A, length (v :: r) = S (length r)) by reflexivity.
  rewrite E, skipn_length. lia.
Qed.

Lemma ag_set {A} (l l' : list A) i v v' : same_len l l' ->
  agree (fun a b => length a = length l /\ length b = length l) (l_set l i v) (l_set l' i v').
Proof.
  intros H. unfold l_set. rewrite H. apply ag_emit. unfold same_len in H.
  destruct (Nat.ltb_spec i (length l')) as [L|L].
  - assert (exists x, set_idx l i v = Ok x) as (x & E).
    { unfold set_idx. destruct (Nat.ltb_spec i (length l)); [eauto|lia]. }
    assert (exists x, set_idx l' i v' = Ok x) as (x' & E').
    { unfold set_idx. destruct (Nat.ltb_spec i (length l')); [eauto|lia]. }
    rewrite E, E'. apply set_len in E. apply set_len in E'. lia.
  - unfold set_idx. rewrite H. destruct (Nat.ltb_spec i (length l')); [lia|exact I].
Qed.

Lemma ag_slice {A} (l l' : list A) a b : same_len l l' ->
  agree (fun x y => length x = (b - a)%nat /\ length y = (b - a)%nat) (l_slice l a b) (l_slice l' a b).
Proof.
  intros H. unfold l_slice. rewrite H. apply ag_emit. unfold slice. rewrite H.
  destruct ((a <=? b)%nat && (b <=? length l')%nat) eqn:E; [|exact I].
  apply andb_prop in E. destruct E as (E1 & E2). apply Nat.leb_le in E1, E2.
  unfold same_len in H. rewrite !firstn_length, !skipn_length. lia.
Qed.

Lemma ag_slice_from {A} (l l' : list A) a : same_len l l' ->
  agree (fun x y => length x = (length l - a)%nat /\ length y = (length l - a)%nat)
        (l_slice_from l a) (l_slice_from l' a).
Proof.
  intros H. unfold l_slice_from. rewrite H. apply ag_emit. unfold slice_from. rewrite H.
  destruct (a <=? length l')%nat; [|exact I]. rewrite !skipn_length. unfold same_len in H. lia.
Qed.

Lemma ag_split {A} (l l' : list A) i : same_len l l' ->
  agree (fun x y => length (fst x) = i /\ length (fst y) = i /\ length (snd x) = (length l - i)%nat
                    /\ length (snd y) = (length l - i)%nat)
        (l_split_at l i) (l_split_at l' i).
Proof.
  intros H. unfold l_split_at. rewrite H. apply ag_emit. unfold split_at. rewrite H.
  destruct (Nat.leb_spec i (length l')); [|exact I]. cbn [fst snd].
  unfold same_len in H. rewrite !firstn_length, !skipn_length. lia.
Qed.

Lemma copy_len {A} (l : list A) a b src l2 : copy_into l a b src = Ok l2 -> length l2 = length l.
Proof.
  unfold copy_into. destruct (_ && _) eqn:E; intros [= <-].
  apply andb_prop in E. destruct E as (E1 & E3). apply andb_prop in E1. destruct E1 as (E1 & E2).
  apply Nat.leb_le in E1, E2. apply Nat.eqb_eq in E3.
  rewrite !app_length, firstn_length, skipn_length. lia.
Qed.

Lemma ag_copy {A} (l l' : list A) a b src src' : same_len l l' -> same_len src src' ->
  agree (fun x y => length x = length l /\ length y = length l)
        (l_copy_into l a b src) (l_copy_into l' a b src').
Proof.
  intros H Hs. unfold l_copy_into. rewrite H. apply ag_same. intros _ _. rewrite Hs. apply ag_emit.
  unfold same_len in H, Hs.
  destruct (copy_into l a b src) eqn:E, (copy_into l' a b src') eqn:E';
    try (pose proof E as E2; pose proof E' as E3; unfold copy_into in E2, E3;
         rewrite H, Hs in E2; destruct (_ && _); discriminate); try exact I.
  apply copy_len in E. apply copy_len in E'. lia.
Qed.

Lemma ag_to_vec l l' : same_len l l' -> agree (fun a b => a = l /\ b = l') (l_to_vec l) (l_to_vec l').
Proof. intros H. unfold l_to_vec. rewrite H. apply ag_emit. auto. Qed.

Lemma ag_check {A B} (P : A -> B -> Prop) a b : P a b -> agree P (l_check (Ok a)) (l_check (Ok b)).
Proof. intros. apply ag_emit. auto. Qed.

(** * PKCS#1 v1.5 *)

Lemma ag_find_zero l : forall l' i len looking index looking' index',
  same_len l l' -> Z.of_nat (i + length l) < 2 ^ 31 ->
  0 <= index < 2 ^ 31 -> 0 <= index' < 2 ^ 31 ->
  agree (fun x y => 0 <= snd x < 2 ^ 31 /\ 0 <= snd y < 2 ^ 31)
        (l_find_zero l i len looking index) (l_find_zero l' i len looking' index').
Proof.
  induction l as [|el rest IH]; intros [|el' rest'] i len lo ix lo' ix' H Hi Hx Hx'; try discriminate.
  - apply ag_ret. auto.
  - cbn [l_find_zero]. apply ag_same. intros _ _. injection H as H.
    cbn [length] in Hi.
    assert (0 <= as_u32 (Z.of_nat i) < 2 ^ 31).
    { unfold as_u32. rewrite Z.mod_small; lia. }
    apply IH; auto; try lia; unfold ct_select.
    + destruct (lo && byte_eqb el x00); auto.
    + destruct (lo' && byte_eqb el' x00); auto.
Qed.

Lemma i32_small t : 0 <= t < 2 ^ 31 ->
  exists u, i32_sub 10 (as_i32 t) = Ok u /\ u = 10 - t /\ exists v, i32_sub u 1 = Ok v /\ v = 9 - t.
Proof.
  intros H. unfold as_i32. rewrite Z.mod_small by lia.
  destruct (Z.ltb_spec t (2 ^ 31)); [|lia]. unfold i32_sub.
  exists (10 - t).
  destruct (Z.leb_spec (- 2 ^ 31) (10 - t)); [|lia]. destruct (Z.ltb_spec (10 - t) (2 ^ 31)); [|lia].
  split; [reflexivity|]. split; [reflexivity|].
  exists (9 - t). replace (10 - t - 1) with (9 - t) by lia.
  destruct (Z.leb_spec (- 2 ^ 31) (9 - t)); [|lia]. destruct (Z.ltb_spec (9 - t) (2 ^ 31)); [|lia].
  auto.
Qed.

Lemma u32_small t s : 0 <= t < 2 ^ 31 -> 0 <= s < 2 ^ 31 -> u32_add t s = Ok (t + s).
Proof.
  intros. unfold u32_add. destruct (Z.ltb_spec (t + s) (2 ^ 32)); [reflexivity|lia].
Qed.

Lemma ag_pkcs1_inner em em' k : same_len em em' -> Z.of_nat (length em) < 2 ^ 31 ->
  agree (fun x y => snd (fst x) = em /\ snd (fst y) = em')
        (l_pkcs1_decrypt_inner em k) (l_pkcs1_decrypt_inner em' k).
Proof.
  intros H Hl. unfold l_pkcs1_decrypt_inner. apply ag_branch.
  destruct (k <? 11)%nat; [apply ag_err|].
  eapply ag_bind; [apply ag_get; auto|]. intros b0 b0' _.
  eapply ag_bind; [apply ag_get; auto|]. intros b1 b1' _. cbv zeta.
  rewrite H. eapply ag_bind.
  { apply (ag_find_zero (skipn 2 em) (skipn 2 em')); try lia.
    - unfold same_len in *. rewrite !skipn_length. lia.
    - rewrite skipn_length. destruct em as [|? [|? ?]]; cbn [length] in *; lia. }
  intros [lo ix] [lo' ix']. cbn [snd]. intros (Hx & Hx').
  destruct (i32_small ix Hx) as (u & -> & -> & v & E & ->).
  destruct (i32_small ix' Hx') as (u' & -> & -> & v' & E' & ->).
  eapply (ag_bind (fun a b => a = 10 - ix /\ b = 10 - ix')); [apply ag_check; auto|].
  intros ? ? (-> & ->). rewrite E, E'.
  eapply (ag_bind (fun a b => a = 9 - ix /\ b = 9 - ix')); [apply ag_check; auto|].
  intros ? ? (-> & ->). rewrite !u32_small by lia.
  eapply (ag_bind (fun a b => True)); [apply ag_check; auto|].
  intros a b _. apply ag_ret. auto.
Qed.

(** what follows a validity decision: a slice of the buffer is copied out *)
Lemma slice_trace (out out' : list byte) i i' m m' :
  same_len out out' -> slice_from out i = Ok m -> slice_from out' i' = Ok m' -> same_len m m' ->
  i = i'.
Proof.
  unfold slice_from, same_len. intros H.
  destruct (Nat.leb_spec i (length out)); [|discriminate]. intros [= <-].
  destruct (Nat.leb_spec i' (length out')); [|discriminate]. intros [= <-].
  rewrite !skipn_length. lia.
Qed.

Lemma l_copy_out_trace out out' i i' :
  same_len out out' ->
  same_answer (slice_from out i) (slice_from out' i') ->
  trace (lbind (l_slice_from out i) l_to_vec) = trace (lbind (l_slice_from out' i') l_to_vec).
Proof.
  intros H Sa.
  destruct (slice_from out i) as [m| | |] eqn:E;
    [|unfold slice_from in E; destruct (i <=? length out)%nat; discriminate
     |destruct (slice_from out' i'); contradiction
     |unfold slice_from in E; destruct (i <=? length out)%nat; discriminate].
  destruct (slice_from out' i') as [m'| | |] eqn:E'; try contradiction.
  cbn in Sa. pose proof (slice_trace out out' i i' m m' H E E' Sa). subst i'.
  unfold l_slice_from, lbind, emit, l_to_vec, trace. cbn [fst snd]. rewrite E, E'.
  unfold emit. cbn [fst]. rewrite H, Sa. reflexivity.
Qed.

Lemma trace_bind {A B} (m : leaky A) (k : A -> leaky B) :
  trace (lbind m k) = trace m ++ match result m with Ok a => trace (k a) | _ => [] end.
Proof.
  unfold trace, result, lbind. destruct m as [t o]. cbn [fst snd].
  destruct o; cbn [fst]; rewrite ?app_nil_r; auto. destruct (k a); reflexivity.
Qed.

Lemma trace_emit {A B} ev (a : A) (k : A -> leaky B) :
  trace (lbind (emit ev (Ok a)) k) = ev :: trace (k a).
Proof. rewrite trace_bind. reflexivity. Qed.

Lemma pkcs1_unpad_trace em em' k :
  same_len em em' -> Z.of_nat (length em) < 2 ^ 31 ->
  same_answer (pkcs1v15_encrypt_unpad em k) (pkcs1v15_encrypt_unpad em' k) ->
  trace (l_pkcs1v15_encrypt_unpad em k) = trace (l_pkcs1v15_encrypt_unpad em' k).
Proof.
  intros H Hl Sa. pose proof (ag_pkcs1_inner em em' k H Hl) as (T & K).
  unfold pkcs1v15_encrypt_unpad in Sa. rewrite <- !rf_pkcs1_inner in Sa.
  unfold l_pkcs1v15_encrypt_unpad. rewrite !trace_bind, T. f_equal.
  destruct (result (l_pkcs1_decrypt_inner em k)) as [[[v o] ix]| | |],
           (result (l_pkcs1_decrypt_inner em' k)) as [[[v' o'] ix']| | |]; try tauto; auto.
  cbn [bind fst snd] in *. destruct K as (-> & ->).
  unfold l_if. rewrite !trace_emit. destruct v, v'; auto.
  - f_equal. apply l_copy_out_trace; auto.
  - cbn in Sa. exfalso. unfold slice_from in Sa. destruct (Z.to_nat ix <=? length em)%nat; exact Sa.
  - cbn in Sa. exfalso. unfold slice_from in Sa. destruct (Z.to_nat ix' <=? length em')%nat; exact Sa.
Qed.

(** * Mask generation *)

Lemma ag_xor_block d : forall d' out out' i j len,
  same_len d d' -> same_len out out' ->
  agree (fun x y => snd x = snd y /\ length (fst x) = length out /\ length (fst y) = length out)
        (l_xor_block out i d j len) (l_xor_block out' i d' j len).
Proof.
  induction d as [|x rest IH]; intros [|x' rest'] out out' i j len Hd Ho; try discriminate;
    cbn [l_xor_block].
  - apply ag_same. intros _ _. apply ag_ret. unfold same_len in Ho. cbn [fst snd]. auto.
  - apply ag_same. intros _ _. rewrite Ho. apply ag_branch.
    destruct (length out' <=? i)%nat.
    { apply ag_ret. cbn [fst snd]. auto. }
    apply ag_same. intros _ _. eapply ag_bind; [apply ag_get; auto|]. intros b b' _.
    eapply ag_bind; [apply ag_set; auto|]. intros o o' (Lo & Lo').
    unfold same_len in Ho. eapply ag_weaken; [|apply IH].
    + cbn beta. intros u v (A & B & C). repeat split; congruence.
    + injection Hd; auto.
    + unfold same_len. congruence.
Qed.

Definition same_dg (d d' : digest) : Prop :=
  d_fn d = d_fn d' /\ length (d_pending d) = length (d_pending d').

Lemma ag_update d d' bs bs' : same_dg d d' -> same_len bs bs' ->
  agree same_dg (l_update d bs) (l_update d' bs').
Proof.
  intros (E & L) H. unfold l_update. rewrite H. apply ag_emit. split; [exact E|].
  cbn [digest_update d_pending]. rewrite !app_length. rewrite L, H. reflexivity.
Qed.

Lemma ag_final d d' : same_dg d d' ->
  agree (fun x y => same_len (fst x) (fst y) /\ snd x = snd y)
        (l_finalize_reset d) (l_finalize_reset d').
Proof.
  intros (E & L). unfold l_finalize_reset. rewrite L. apply ag_emit.
  unfold digest_finalize_reset. cbn [fst snd]. unfold same_len. rewrite !h_len, E. auto.
Qed.

Definition mgf_rel (n : nat) (x y : list byte * digest) : Prop :=
  length (fst x) = n /\ length (fst y) = n /\ same_dg (snd x) (snd y).

Lemma ag_mgf_loop fuel : forall out out' i c dg dg' seed seed',
  same_len out out' -> same_dg dg dg' -> same_len seed seed' ->
  agree (mgf_rel (length out)) (l_mgf1_xor_loop fuel out i c dg seed)
        (l_mgf1_xor_loop fuel out' i c dg' seed').
Proof.
  induction fuel as [|f IH]; intros out out' i c dg dg' seed seed' Ho Hd Hs;
    cbn [l_mgf1_xor_loop]; rewrite <- Ho; apply ag_branch; destruct (length out <=? i)%nat;
    try (apply ag_ret; unfold mgf_rel; cbn [fst snd]; auto).
  { split; [reflexivity|exact I]. }
  rewrite <- Hs. apply ag_same. intros di _.
  eapply ag_bind; [apply ag_copy; [reflexivity|auto]|]. intros di1 di1' (L1 & L1').
  rewrite L1, L1'. eapply ag_bind; [apply ag_copy; [unfold same_len; congruence|reflexivity]|].
  intros di2 di2' (L2 & L2').
  eapply ag_bind; [apply ag_update; [auto|unfold same_len; congruence]|]. intros d1 d1' Hd1.
  eapply ag_bind; [apply ag_final; auto|]. intros [h dg1] [h' dg1']. cbn [fst snd].
  intros (Lh & ->). rewrite Lh.
  eapply ag_bind; [apply ag_xor_block; auto|]. intros [o1 i1] [o1' i1']. cbn [fst snd].
  intros (-> & Lo1 & Lo1'). apply ag_same. intros c1 _.
  rewrite <- Lo1. apply IH; auto. { unfold same_len. congruence. }
  split; reflexivity.
Qed.

Lemma ag_mgf out out' dg dg' seed seed' :
  same_len out out' -> same_dg dg dg' -> same_len seed seed' ->
  agree (mgf_rel (length out)) (l_mgf1_xor out dg seed) (l_mgf1_xor out' dg' seed').
Proof.
  intros Ho Hd Hs. unfold l_mgf1_xor. rewrite <- Ho. apply ag_same. intros _ _.
  apply ag_mgf_loop; auto.
Qed.

Lemma ag_mgf_digest_loop fuel : forall out out' i c dg dg' seed seed',
  same_len out out' -> same_dg dg dg' -> same_len seed seed' ->
  agree (mgf_rel (length out)) (l_mgf1_xor_digest_loop fuel out i c dg seed)
        (l_mgf1_xor_digest_loop fuel out' i c dg' seed').
Proof.
  induction fuel as [|f IH]; intros out out' i c dg dg' seed seed' Ho Hd Hs;
    cbn [l_mgf1_xor_digest_loop]; rewrite <- Ho; apply ag_branch; destruct (length out <=? i)%nat;
    try (apply ag_ret; unfold mgf_rel; cbn [fst snd]; auto).
  { split; [reflexivity|exact I]. }
  eapply ag_bind; [apply ag_update; auto|]. intros d1 d1' Hd1.
  eapply ag_bind; [apply ag_update; [auto|reflexivity]|]. intros d2 d2' Hd2.
  eapply ag_bind; [apply ag_final; auto|]. intros [h dg1] [h' dg1']. cbn [fst snd].
  intros (Lh & ->). rewrite Lh.
  eapply ag_bind; [apply ag_xor_block; auto|]. intros [o1 i1] [o1' i1']. cbn [fst snd].
  intros (-> & Lo1 & Lo1'). apply ag_same. intros c1 _.
  rewrite <- Lo1. apply IH; auto. { unfold same_len. congruence. }
  split; reflexivity.
Qed.

Lemma ag_mgf_digest out out' dg dg' seed seed' :
  same_len out out' -> same_dg dg dg' -> same_len seed seed' ->
  agree (mgf_rel (length out)) (l_mgf1_xor_digest out dg seed) (l_mgf1_xor_digest out' dg' seed').
Proof.
  intros Ho Hd Hs. unfold l_mgf1_xor_digest. rewrite <- Ho. apply ag_same. intros _ _.
  apply ag_mgf_digest_loop; auto.
Qed.

(** * OAEP *)

Lemma ag_oaep_scan l : forall l' pos len i lo ix nz lo' ix' nz' M,
  same_len l l' -> 0 <= i -> i + Z.of_nat (length l) <= M -> M < 2 ^ 31 ->
  0 <= ix <= M -> 0 <= ix' <= M ->
  agree (fun x y => 0 <= snd (fst x) <= M /\ 0 <= snd (fst y) <= M)
        (l_oaep_scan l pos len i lo ix nz) (l_oaep_scan l' pos len i lo' ix' nz').
Proof.
  induction l as [|el rest IH]; intros [|el' rest'] pos len i lo ix nz lo' ix' nz' M H Hi HM HM2 Hx Hx';
    try discriminate.
  - apply ag_ret. auto.
  - cbn [l_oaep_scan]. apply ag_same. intros _ _. injection H as H.
    cbn [length] in HM.
    assert (0 <= as_u32 i <= M).
    { unfold as_u32. rewrite Z.mod_small; lia. }
    apply IH; auto; try lia; unfold ct_select.
    + destruct (lo && byte_eqb el x01); auto.
    + destruct (lo' && byte_eqb el' x01); auto.
Qed.

Definition lmgf_oblivious (mgf : list byte -> list byte -> leaky (list byte * list byte)) : Prop :=
  forall s s' d d', same_len s s' -> same_len d d' ->
  agree (fun x y => length (fst x) = length s /\ length (fst y) = length s /\
                    length (snd x) = length d /\ length (snd y) = length d)
        (mgf s d) (mgf s' d').

Lemma ag_oaep_inner em em' hs ph k mgf :
  lmgf_oblivious mgf -> same_len em em' -> Z.of_nat (length em) < 2 ^ 31 -> Z.of_nat k < 2 ^ 31 ->
  agree (fun x y => same_len (fst (fst x)) (fst (fst y)))
        (l_oaep_decrypt_inner em hs ph k mgf) (l_oaep_decrypt_inner em' hs ph k mgf).
Proof.
  intros Hm H Hl Hk. unfold l_oaep_decrypt_inner. apply ag_branch.
  destruct (k <? 11)%nat; [apply ag_err|]. apply ag_branch.
  destruct (Nat.ltb_spec k (hs * 2 + 2)); [apply ag_err|].
  eapply ag_bind; [apply ag_get; auto|]. intros b0 b0' _. cbv zeta.
  eapply ag_bind; [apply ag_split; auto|]. intros [hd pl] [hd' pl']. cbn [fst snd].
  intros (A1 & A2 & A3 & A4).
  eapply ag_bind; [apply ag_split; unfold same_len; congruence|]. intros [sd db] [sd' db']. cbn [fst snd].
  intros (B1 & B2 & B3 & B4).
  eapply ag_bind; [apply Hm; unfold same_len; congruence|]. intros [sd1 db1] [sd1' db1']. cbn [fst snd].
  intros (C1 & C2 & C3 & C4).
  eapply ag_bind; [apply ag_slice; unfold same_len; congruence|]. intros hh hh' (D1 & D2).
  eapply (ag_bind (fun _ _ => True)).
  { unfold l_ct_eq. rewrite D1, D2. apply ag_emit. exact I. }
  intros heq heq' _. rewrite C3, C4.
  eapply ag_bind.
  { apply (ag_oaep_scan (skipn hs db1) (skipn hs db1')) with (M := Z.of_nat (length em)); try lia.
    - unfold same_len. rewrite !skipn_length. lia.
    - rewrite skipn_length. lia. }
  intros [[lo ix] nz] [[lo' ix'] nz']. cbn [fst snd]. intros (Hx & Hx').
  eapply ag_bind.
  { apply ag_to_vec. unfold same_len. rewrite !app_length. lia. }
  intros o o' (-> & ->). rewrite !u32_small by lia.
  eapply (ag_bind (fun a b => a = ix + 2 /\ b = ix' + 2)); [apply ag_check; auto|].
  intros ? ? (-> & ->).
  assert (F : forall t, 0 <= t <= Z.of_nat (length em) ->
            u32_add (t + 2) (as_u32 (Z.of_nat (hs * 2))) = Ok (t + 2 + Z.of_nat (hs * 2))).
  { intros t Ht. unfold as_u32. rewrite Z.mod_small by lia. unfold u32_add.
    destruct (Z.ltb_spec (t + 2 + Z.of_nat (hs * 2)) (2 ^ 32)); [reflexivity|lia]. }
  rewrite !F by auto.
  eapply (ag_bind (fun _ _ => True)); [apply ag_check; auto|].
  intros ? ? _. apply ag_ret. unfold same_len. cbn [fst snd]. rewrite !app_length. lia.
Qed.

Lemma finish_trace r r' :
  same_len (fst (fst r)) (fst (fst r')) ->
  same_answer (result (l_oaep_finish r)) (result (l_oaep_finish r')) ->
  trace (l_oaep_finish r) = trace (l_oaep_finish r').
Proof.
  destruct r as [[o ix] v], r' as [[o' ix'] v']. cbn [fst snd]. intros H.
  rewrite !rf_oaep_finish. intros Sa. unfold l_oaep_finish.
  unfold l_if, l_assert. rewrite !trace_emit. destruct v, v'; cbn [negb assert_]; auto.
  - rewrite !trace_emit. do 2 f_equal. apply l_copy_out_trace; auto.
  - exfalso. cbn in Sa. unfold slice_from in Sa. destruct (Z.to_nat ix <=? length o)%nat; exact Sa.
  - exfalso. cbn in Sa. unfold slice_from in Sa. destruct (Z.to_nat ix' <=? length o')%nat; exact Sa.
Qed.

Lemma bind_finish_trace (m m' : leaky (list byte * Z * bool)) :
  agree (fun x y => same_len (fst (fst x)) (fst (fst y))) m m' ->
  same_answer (result (lbind m l_oaep_finish)) (result (lbind m' l_oaep_finish)) ->
  trace (lbind m l_oaep_finish) = trace (lbind m' l_oaep_finish).
Proof.
  intros (T & K). rewrite !res_bind, !trace_bind, T. intros Sa. f_equal.
  destruct (result m), (result m'); try tauto; auto. apply finish_trace; auto.
Qed.

(** a prefix shared by both runs does not matter *)
Lemma same_prefix {A} (m : leaky A) (k k' : A -> leaky (list byte)) :
  (forall a, result m = Ok a -> same_answer (result (k a)) (result (k' a)) -> trace (k a) = trace (k' a)) ->
  same_answer (result (lbind m k)) (result (lbind m k')) ->
  trace (lbind m k) = trace (lbind m k').
Proof.
  intros H. rewrite !res_bind, !trace_bind. destruct (result m); cbn [bind]; auto.
  intros Sa. f_equal. apply H; auto.
Qed.

Lemma lmgf_dyn mg : lmgf_oblivious (fun seed db =>
  let! (seed, md) := l_mgf1_xor seed mg db in
  let! (db, _) := l_mgf1_xor db md seed in lret (seed, db)).
Proof.
  intros s s' d d' Hs Hd.
  eapply ag_bind; [apply ag_mgf; [exact Hs|split; reflexivity|exact Hd]|].
  intros [s1 m1] [s1' m1'] (A & B & C). cbn [fst snd] in *.
  eapply ag_bind; [apply ag_mgf; [exact Hd|exact C|unfold same_len; congruence]|].
  intros [d1 m2] [d1' m2'] (D & E & F). cbn [fst snd] in *. apply ag_ret. auto.
Qed.

Lemma lmgf_digest hm : lmgf_oblivious (fun seed db =>
  let! (seed, md) := l_mgf1_xor_digest seed (digest_new hm) db in
  let! (db, _) := l_mgf1_xor_digest db md seed in lret (seed, db)).
Proof.
  intros s s' d d' Hs Hd.
  eapply ag_bind; [apply ag_mgf_digest; [exact Hs|split; reflexivity|exact Hd]|].
  intros [s1 m1] [s1' m1'] (A & B & C). cbn [fst snd] in *.
  eapply ag_bind; [apply ag_mgf_digest; [exact Hd|exact C|unfold same_len; congruence]|].
  intros [d1 m2] [d1' m2'] (D & E & F). cbn [fst snd] in *. apply ag_ret. auto.
Qed.

Lemma oaep_decrypt_trace em em' dg mg label k :
  same_len em em' -> Z.of_nat (length em) < 2 ^ 31 -> Z.of_nat k < 2 ^ 31 ->
  same_answer (oaep_decrypt em dg mg label k) (oaep_decrypt em' dg mg label k) ->
  trace (l_oaep_decrypt em dg mg label k) = trace (l_oaep_decrypt em' dg mg label k).
Proof.
  intros H Hl Hk. rewrite <- !rf_oaep_decrypt. unfold l_oaep_decrypt. cbv zeta.
  apply same_prefix. intros b _. destruct b; [reflexivity|].
  apply same_prefix. intros d1 _. apply same_prefix. intros [ph d2] _.
  apply bind_finish_trace. apply ag_oaep_inner; auto. apply lmgf_dyn.
Qed.

Lemma oaep_decrypt_digest_trace hd hm em em' label k :
  same_len em em' -> Z.of_nat (length em) < 2 ^ 31 -> Z.of_nat k < 2 ^ 31 ->
  same_answer (oaep_decrypt_digest hd hm em label k) (oaep_decrypt_digest hd hm em' label k) ->
  trace (l_oaep_decrypt_digest hd hm em label k) = trace (l_oaep_decrypt_digest hd hm em' label k).
Proof.
  intros H Hl Hk. rewrite <- !rf_oaep_decrypt_digest. unfold l_oaep_decrypt_digest. cbv zeta.
  apply same_prefix. intros b _. destruct b; [reflexivity|].
  apply same_prefix. intros ph _.
  apply bind_finish_trace. apply ag_oaep_inner; auto. apply lmgf_digest.
Qed.

(** * The private operation *)

Definition same_prec (u v : uint) : Prop := uprec u = uprec v.

Lemma ag_widen u v p : same_prec u v -> agree same_prec (l_widen u p) (l_widen v p).
Proof.
  intros H. unfold l_widen, l_op. rewrite H. apply ag_emit. unfold widen. rewrite H.
  destruct (uprec v <=? p); [reflexivity|exact I].
Qed.

Lemma ag_shorten u v p : same_prec u v -> agree same_prec (l_shorten u p) (l_shorten v p).
Proof.
  intros H. unfold l_shorten, l_op. rewrite H. apply ag_emit. unfold shorten. rewrite H.
  destruct (p <=? uprec v); [reflexivity|exact I].
Qed.

Definition mf_rel (z : Z) (f f' : mform) : Prop :=
  mp_prec (mf_params f) = z /\ mp_prec (mf_params f') = z.

Lemma ag_mf_new u v p p' : same_prec u v -> mp_prec p = mp_prec p' ->
  agree (mf_rel (mp_prec p)) (l_mf_new u p) (l_mf_new v p').
Proof.
  intros H E. unfold l_mf_new, l_op. rewrite H, <- E. apply ag_emit. unfold mf_new.
  rewrite H, <- E. destruct (uprec v =? mp_prec p); [|exact I]. unfold mf_rel. cbn [mf_params]. auto.
Qed.

Lemma ag_mf_pow z f f' e e' : mf_rel z f f' -> same_prec e e' ->
  agree (mf_rel z) (l_mf_pow f e) (l_mf_pow f' e').
Proof.
  intros (A & B) E. unfold l_mf_pow, l_op. rewrite A, B, E. apply ag_emit. split; auto.
Qed.

Lemma ag_mf_retrieve z f f' : mf_rel z f f' ->
  agree (fun u v => uprec u = z /\ uprec v = z) (l_mf_retrieve f) (l_mf_retrieve f').
Proof.
  intros (A & B). unfold l_mf_retrieve, l_op. rewrite A, B. apply ag_emit. split; auto.
Qed.

Lemma ag_mf_mul z y f f' e e' : mf_rel z f f' -> mf_rel y e e' ->
  agree (mf_rel z) (l_mf_mul f e) (l_mf_mul f' e').
Proof.
  intros (A & B) (C & D). unfold l_mf_mul, l_op. rewrite A, B, C, D. apply ag_emit. split; auto.
Qed.

Lemma ag_mf_sub z y f f' e e' : mf_rel z f f' -> mf_rel y e e' ->
  agree (mf_rel z) (l_mf_sub f e) (l_mf_sub f' e').
Proof.
  intros (A & B) (C & D). unfold l_mf_sub, l_op. rewrite A, B, C, D. apply ag_emit. split; auto.
Qed.

Lemma ag_rem u v m : same_prec u v -> agree same_prec (l_rem_vartime u m) (l_rem_vartime v m).
Proof.
  intros H. unfold l_rem_vartime. rewrite H. apply ag_emit. unfold urem.
  destruct (uval m =? 0); [exact I|reflexivity].
Qed.

Lemma ag_reduce u v p : same_prec u v ->
  agree (mf_rel (mp_prec p)) (l_reduce_vartime u p) (l_reduce_vartime v p).
Proof.
  intros H. unfold l_reduce_vartime. cbv zeta. rewrite H. apply ag_branch. apply ag_branch.
  eapply (ag_bind same_prec).
  { destruct (uprec v <? _); [apply ag_widen; auto|].
    destruct (uprec v =? _); [apply ag_ret; auto|apply ag_shorten; auto]. }
  intros a b Hab. eapply ag_bind; [apply ag_rem; auto|]. intros r r' Hr.
  eapply ag_bind; [apply ag_widen; auto|]. intros w w' Hw. apply ag_mf_new; auto.
Qed.

Lemma ag_pow u v e e' p : same_prec u v -> same_prec e e' ->
  agree (fun x y => uprec x = mp_prec p /\ uprec y = mp_prec p)
        (l_pow_mod_params u e p) (l_pow_mod_params v e' p).
Proof.
  intros H E. unfold l_pow_mod_params. eapply ag_bind; [apply ag_reduce; auto|]. intros f f' Hf.
  eapply ag_bind; [apply ag_mf_pow; eauto|]. intros r r' Hr. apply ag_mf_retrieve; auto.
Qed.

Lemma ag_mul u v u' v' p : same_prec u u' -> same_prec v v' ->
  agree (fun x y => uprec x = mp_prec p /\ uprec y = mp_prec p)
        (l_mul_mod_params u v p) (l_mul_mod_params u' v' p).
Proof.
  intros H E. unfold l_mul_mod_params.
  eapply ag_bind; [apply ag_mf_new; auto|]. intros f f' Hf.
  eapply ag_bind; [apply ag_mf_new; auto|]. intros f2 f2' Hf2.
  eapply ag_bind; [eapply ag_mf_mul; eauto|]. intros r r' Hr. apply ag_mf_retrieve; auto.
Qed.

Lemma ag_unblind u u' ir p : same_prec u u' ->
  agree same_prec (l_unblind u ir p) (l_unblind u' ir p).
Proof.
  intros H. unfold l_unblind. rewrite H. apply ag_same. intros _ _. apply ag_same. intros _ _.
  eapply ag_weaken; [|apply ag_mul; [exact H|reflexivity]].
  unfold same_prec. intros a b (A & B). congruence.
Qed.

Lemma ag_crt c c' pc pc' q q' :
  same_prec c c' -> same_prec q q' ->
  uprec (pc_dp pc) = uprec (pc_dp pc') -> uprec (pc_dq pc) = uprec (pc_dq pc') ->
  mp_prec (mf_params (pc_qinv pc)) = mp_prec (mf_params (pc_qinv pc')) ->
  mp_prec (pc_p_params pc) = mp_prec (pc_p_params pc') ->
  mp_prec (pc_q_params pc) = mp_prec (pc_q_params pc') ->
  agree same_prec (l_crt_pow c pc q) (l_crt_pow c' pc' q').
Proof.
  intros Hc Hq E1 E2 E3 E4 E5. unfold l_crt_pow.
  eapply ag_bind; [apply ag_mf_new; auto|]. intros cp cp' Hcp.
  eapply ag_bind; [apply ag_mf_pow; [exact Hcp|exact E1]|]. intros m1 m1' Hm1.
  eapply ag_bind; [apply ag_mf_new; auto|]. intros cq cq' Hcq.
  eapply ag_bind; [apply ag_mf_pow; [exact Hcq|exact E2]|]. intros m2 m2' Hm2.
  eapply ag_bind; [apply ag_mf_retrieve; exact Hm2|]. intros r2 r2' (R2 & R2').
  eapply ag_bind; [apply ag_mf_new; [unfold same_prec; congruence|auto]|]. intros m2r m2r' Hm2r.
  eapply ag_bind; [eapply ag_mf_sub; eauto|]. intros s s' Hs.
  eapply ag_bind; [eapply ag_mf_mul; [split; [reflexivity|symmetry; exact E3]|exact Hs]|].
  intros m m' Hm.
  eapply ag_bind; [apply ag_mf_retrieve; exact Hm|]. intros r r' (Rr & Rr').
  eapply (ag_bind same_prec).
  { unfold l_wrapping_mul, l_op. rewrite Rr, Rr', Hq. apply ag_emit.
    unfold same_prec, uwrapping_mul. cbn [uprec]. congruence. }
  intros w w' Hw. unfold l_wrapping_add, l_op. rewrite R2, R2', Hw. apply ag_emit.
  unfold same_prec, uwrapping_add. cbn [uprec]. rewrite R2, R2', Hw. reflexivity.
Qed.

Section Priv.
  Context {R : Type} (g : rng_ops R).

  Lemma ag_blind fuel st key c c' p : same_prec c c' ->
    agree (fun x y => same_prec (fst x) (fst y) /\ snd x = snd y)
          (l_blind g fuel st key c p) (l_blind g fuel st key c' p).
  Proof.
    intros H. unfold l_blind. cbv zeta. apply ag_same. intros _ _.
    apply ag_same. intros [[r ir] st'] _. apply ag_same. intros rp _.
    eapply ag_bind; [apply ag_mul; [exact H|reflexivity]|]. intros b b' (Hb & Hb').
    rewrite Hb, Hb'. apply ag_same. intros _ _. apply ag_same. intros _ _. apply ag_ret.
    cbn [fst snd]. unfold same_prec. split; congruence.
  Qed.

  Lemma ag_rsa_decrypt fuel rng k k' c c' :
    same_shape k k' -> same_prec c c' ->
    (uval c < uval (pk_n (sk_pub k)) <-> uval c' < uval (pk_n (sk_pub k))) ->
    agree same_prec (l_rsa_decrypt g fuel rng k c) (l_rsa_decrypt g fuel rng k' c').
  Proof.
    intros (Ep & Ed & Eps & Epre) Hc Hn. unfold l_rsa_decrypt. cbv zeta. rewrite <- Ep, <- Ed.
    assert (El : length (sk_primes k) = length (sk_primes k')).
    { rewrite <- (map_length uprec), Eps, map_length. reflexivity. }
    unfold l_cmp, l_op. rewrite Hc.
    assert (E : uleb (pk_n (sk_pub k)) c = uleb (pk_n (sk_pub k)) c').
    { unfold uleb. destruct (Z.leb_spec (uval (pk_n (sk_pub k))) (uval c)),
        (Z.leb_spec (uval (pk_n (sk_pub k))) (uval c')); auto; lia. }
    rewrite E. apply ag_same. intros b _. apply ag_branch. destruct b; [apply ag_err|].
    apply ag_same. intros _ _.
    eapply (ag_bind (fun x y => same_prec (fst x) (fst y) /\ snd x = snd y)).
    { destruct rng as [st|].
      - eapply ag_bind; [apply ag_blind; auto|]. intros [b u] [b' u'] (Hb & Hu). cbn [fst snd] in *.
        eapply ag_bind; [apply ag_widen; exact Hb|]. intros w w' Hw. apply ag_ret. cbn [fst snd].
        split; [exact Hw|congruence].
      - eapply ag_bind; [apply ag_widen; exact Hc|]. intros w w' Hw. apply ag_ret. cbn [fst snd].
        split; [exact Hw|reflexivity]. }
    intros [w ir] [w' ir'] (Hw & Hi). cbn [fst snd] in *. subst ir'.
    replace (match sk_pre k' with Some _ => true | None => false end)
      with (match sk_pre k with Some _ => true | None => false end)
      by (destruct (sk_pre k), (sk_pre k'); tauto).
    apply ag_same. intros _ _. eapply (ag_bind same_prec).
    { assert (Pw : agree same_prec (l_pow_mod_params w (sk_d k) (pk_params (sk_pub k)))
                         (l_pow_mod_params w' (sk_d k') (pk_params (sk_pub k)))).
      { eapply ag_weaken; [|apply ag_pow; [exact Hw|exact Ed]].
        unfold same_prec. intros a b (A & B). congruence. }
      destruct (sk_pre k) as [pc|], (sk_pre k') as [pc'|]; try tauto.
      rewrite <- El. apply ag_branch. destruct (2 <? length (sk_primes k))%nat; [exact Pw|].
      eapply ag_bind; [apply ag_get; exact El|]. intros p p' _.
      eapply (ag_bind same_prec).
      { unfold l_get. rewrite El. apply ag_emit. unfold get_idx.
        pose proof (map_nth_error uprec 1 (sk_primes k)) as M.
        pose proof (map_nth_error uprec 1 (sk_primes k')) as M'.
        destruct (nth_error (sk_primes k) 1) as [q|] eqn:N, (nth_error (sk_primes k') 1) as [q'|] eqn:N'.
        - specialize (M _ eq_refl). specialize (M' _ eq_refl). rewrite Eps, M' in M.
          injection M as M. symmetry. exact M.
        - apply nth_error_None in N'. assert (1 < length (sk_primes k))%nat by (apply nth_error_Some; congruence).
          lia.
        - apply nth_error_None in N. assert (1 < length (sk_primes k'))%nat by (apply nth_error_Some; congruence).
          lia.
        - exact I. }
      intros q q' Hq. destruct Epre as (A1 & A2 & A3 & A4 & A5). apply ag_crt; auto. }
    intros m m' Hm. eapply ag_bind; [apply ag_shorten; exact Hm|]. intros s s' Hs.
    apply ag_same. intros _ _. destruct ir; [apply ag_unblind; exact Hs|apply ag_ret; exact Hs].
  Qed.
End Priv.

(** * Whole operations *)

Lemma ag_refine {A B} (P : A -> B -> Prop) m m' :
  agree P m m' -> agree (fun a b => P a b /\ result m = Ok a /\ result m' = Ok b) m m'.
Proof. intros (T & H). split; auto. destruct (result m), (result m'); auto. Qed.

Lemma bind_trace {A B} (P : A -> B -> Prop) (m : leaky A) (m' : leaky B)
      (k : A -> leaky (list byte)) (k' : B -> leaky (list byte)) :
  agree P m m' ->
  (forall a b, P a b -> result m = Ok a -> result m' = Ok b ->
     same_answer (result (k a)) (result (k' b)) -> trace (k a) = trace (k' b)) ->
  same_answer (result (lbind m k)) (result (lbind m' k')) ->
  trace (lbind m k) = trace (lbind m' k').
Proof.
  intros (T & H) K. rewrite !res_bind, !trace_bind, T. intros Sa. f_equal.
  destruct (result m) eqn:E, (result m') eqn:E'; try tauto; auto.
Qed.

Lemma rsa_encrypt_kind k m :
  match rsa_encrypt k m with Ok _ | Panic => True | _ => False end.
Proof.
  unfold rsa_encrypt, pow_mod_params, reduce_vartime, widen, shorten, urem, mf_new.
  repeat (match goal with |- context [if ?x then _ else _] => destruct x end; cbn [bind]); exact I.
Qed.

Section Whole.
  Context {R : Type} (g : rng_ops R).

  Lemma ag_check_good fuel rng k k' c c' :
    (rng <> None -> rng_ok g) -> good_priv k -> good_priv k' -> same_shape k k' ->
    wf_uint c -> wf_uint c' ->
    uprec c = uprec (pk_n (sk_pub k)) -> uprec c' = uprec (pk_n (sk_pub k)) ->
    uval c < uval (pk_n (sk_pub k)) -> uval c' < uval (pk_n (sk_pub k)) ->
    agree (fun m m' =>
             m = mkU (RSADP (uval (pk_n (sk_pub k))) (uval (sk_d k)) (uval c)) (uprec (pk_n (sk_pub k))) /\
             m' = mkU (RSADP (uval (pk_n (sk_pub k))) (uval (sk_d k')) (uval c')) (uprec (pk_n (sk_pub k))))
          (l_rsa_decrypt_and_check g fuel k rng c) (l_rsa_decrypt_and_check g fuel k' rng c').
  Proof.
    intros Hr Hk Hk' Hs Hc Hc' Pc Pc' Lc Lc'. pose proof (proj1 Hs) as Ep.
    pose proof (rsa_decrypt_and_check_good g fuel rng k c Hr Hk Hc Pc Lc) as (A & B & C).
    pose proof (rsa_decrypt_and_check_good g fuel rng k' c' Hr Hk' Hc'
                  ltac:(rewrite <- Ep; auto) ltac:(rewrite <- Ep; auto)) as (A' & B' & C').
    rewrite <- Ep in A', B', C'.
    assert (D : agree same_prec (l_rsa_decrypt g fuel rng k c) (l_rsa_decrypt g fuel rng k' c')).
    { apply ag_rsa_decrypt; auto; [unfold same_prec; congruence|tauto]. }
    pose proof (rf_rsa_check g fuel k rng c) as F. pose proof (rf_rsa_check g fuel k' rng c') as F'.
    unfold l_rsa_decrypt_and_check in *. rewrite res_bind in F, F'.
    destruct D as (T & D). split.
    - rewrite !trace_bind, T. f_equal.
      destruct (result (l_rsa_decrypt g fuel rng k c)) as [m| | |],
               (result (l_rsa_decrypt g fuel rng k' c')) as [m'| | |]; try tauto; auto.
      cbn [bind] in F, F'. rewrite <- Ep in *.
      destruct (blinding_trichotomy g (uval (pk_n (sk_pub k))) rng fuel) as [H|[H|H]].
      + rewrite (A H) in F. rewrite (A' H) in F'.
        eapply ag_trace. eapply (ag_bind (fun a b => uprec a = uprec b /\ ueqb c a = true /\ ueqb c' b = true)).
        { pose proof (ag_pow m m' _ _ (pk_params (sk_pub k)) D (eq_refl (uprec (pk_e (sk_pub k))))) as E.
          apply ag_refine in E. eapply ag_weaken; [|exact E]. cbn beta.
          intros a b ((E1 & E2) & E3 & E4). split; [congruence|].
          unfold l_rsa_encrypt in F, F'. rewrite res_bind, E3 in F. rewrite res_bind, E4 in F'.
          cbn [bind] in F, F'. rewrite res_bind in F, F'. unfold l_cmp, l_op, l_if, emit, result in F, F'.
          cbn [snd bind lbind] in F, F'.
          destruct (ueqb c a), (ueqb c' b); cbn in F, F'; auto; discriminate. }
        intros a b (E1 & E2 & E3). unfold l_cmp, l_op. rewrite E1, E2, E3, Pc, Pc'. cbn [negb].
        apply ag_same. intros ? ?. apply ag_branch. unfold result, emit in H0. cbn in H0.
        injection H0 as <-. apply (ag_ret (fun _ _ => True)). exact I.
      + exfalso. rewrite (B H) in F. clear - F. rewrite res_bind in F.
        destruct (result (l_rsa_encrypt (sk_pub k) m)) eqn:E; cbn [bind] in F; try discriminate.
        * rewrite res_bind in F. unfold l_cmp, l_op, l_if, emit, result in F. cbn [snd bind lbind] in F.
          destruct (negb (ueqb c a)); cbn in F; discriminate.
        * pose proof (rsa_encrypt_kind (sk_pub k) m) as K. rewrite <- rf_encrypt, E in K. exact K.
      + exfalso. rewrite (C H) in F. clear - F. rewrite res_bind in F.
        destruct (result (l_rsa_encrypt (sk_pub k) m)) eqn:E; cbn [bind] in F; try discriminate.
        * rewrite res_bind in F. unfold l_cmp, l_op, l_if, emit, result in F. cbn [snd bind lbind] in F.
          destruct (negb (ueqb c a)); cbn in F; discriminate.
        * pose proof (rsa_encrypt_kind (sk_pub k) m) as K. rewrite <- rf_encrypt, E in K. exact K.
    - rewrite !res_bind, F, F'.
      destruct (blinding_trichotomy g (uval (pk_n (sk_pub k))) rng fuel) as [H|[H|H]].
      + rewrite (A H), (A' H). auto.
      + rewrite (B H), (B' H). reflexivity.
      + rewrite (C H), (C' H). exact I.
  Qed.
End Whole.
