(** Proofs about Debug output and dropped memory.  C37, C38. *)
From Coq Require Import ZArith List Bool String Lia Znumtheory.
From Coq Require Import Init.Byte.
From Verif Require Import Base Bigint BytesLemmas NumTheory SpecRFC BigintLemmas MHash MPkcs1 MRsa MGenerate
  MKey MApi MWrap MDebug KeyDefs PRsa PKey.
Import ListNotations.
Local Open Scope Z_scope.

(** * Debug *)

Lemma debug_pub_inj a b : debug_pub a = debug_pub b <-> a = b.
Proof.
  split; [|congruence]. destruct a, b. unfold debug_pub. cbn. intros H. injection H. intros. congruence.
Qed.

(** The numbers a tree shows. *)
Fixpoint shown (d : dbg) : list uint :=
  match d with
  | DbgUint u => [u]
  | DbgParams p => [mp_modulus p]
  | DbgSome d => shown d
  | DbgStruct _ fs => flat_map (fun f => shown (snd f)) fs
  | _ => []
  end.

Definition has_crt (k : privkey) : bool := match sk_pre k with Some _ => true | None => false end.

Lemma debug_priv_exact a b : debug_priv a = debug_priv b <-> sk_pub a = sk_pub b /\ has_crt a = has_crt b.
Proof.
  unfold debug_priv, has_crt. split.
  - intros H. injection H as H1 H2 H3 H4. split.
    + destruct (sk_pub a), (sk_pub b); cbn in *; congruence.
    + destruct (sk_pre a), (sk_pre b); congruence.
  - intros (-> & H). destruct (sk_pre a), (sk_pre b); congruence.
Qed.

Lemma shown_priv k : shown (debug_priv k) =
  [pk_n (sk_pub k); pk_e (sk_pub k); mp_modulus (pk_params (sk_pub k))].
Proof. reflexivity. Qed.

Definition field (i : nat) (d : dbg) : dbg :=
  match d with DbgStruct _ fs => nth i (map snd fs) DbgNone | _ => DbgNone end.
Definition struct_name (d : dbg) : string := match d with DbgStruct s _ => s | _ => EmptyString end.

Lemma debug_wrappers_exact :
  (forall a b, debug_p1sk a = debug_p1sk b <->
     sk_pub (p1sk_inner a) = sk_pub (p1sk_inner b) /\ has_crt (p1sk_inner a) = has_crt (p1sk_inner b) /\
     p1sk_prefix a = p1sk_prefix b) /\
  (forall a b, debug_p1dk a = debug_p1dk b <->
     sk_pub (p1dk_inner a) = sk_pub (p1dk_inner b) /\ has_crt (p1dk_inner a) = has_crt (p1dk_inner b)) /\
  (forall a b, debug_pssk a = debug_pssk b <->
     sk_pub (pssk_inner a) = sk_pub (pssk_inner b) /\ has_crt (pssk_inner a) = has_crt (pssk_inner b) /\
     pssk_salt_len a = pssk_salt_len b /\ pssk_blinded a = pssk_blinded b) /\
  (forall a b, debug_odk a = debug_odk b <->
     sk_pub (odk_inner a) = sk_pub (odk_inner b) /\ has_crt (odk_inner a) = has_crt (odk_inner b) /\
     odk_label a = odk_label b).
Proof.
  split; [|split; [|split]]; intros a b; split.
  - intros H. pose proof (f_equal (field 0) H) as H1. pose proof (f_equal (field 1) H) as H2.
    cbn in H2. change (debug_priv (p1sk_inner a) = debug_priv (p1sk_inner b)) in H1.
    apply debug_priv_exact in H1. injection H2 as H2. tauto.
  - intros (A & B & C). unfold debug_p1sk. rewrite (proj2 (debug_priv_exact _ _) (conj A B)), C. reflexivity.
  - intros H. pose proof (f_equal (field 0) H) as H1.
    change (debug_priv (p1dk_inner a) = debug_priv (p1dk_inner b)) in H1.
    apply debug_priv_exact in H1. tauto.
  - intros (A & B). unfold debug_p1dk. rewrite (proj2 (debug_priv_exact _ _) (conj A B)). reflexivity.
  - intros H. pose proof (f_equal (field 0) H) as H1. pose proof (f_equal (field 1) H) as H2.
    pose proof (f_equal struct_name H) as H0. cbn in H2. cbn [struct_name debug_pssk] in H0.
    change (debug_priv (pssk_inner a) = debug_priv (pssk_inner b)) in H1.
    apply debug_priv_exact in H1. injection H2 as H2.
    split; [tauto|]. split; [tauto|]. split; [auto|]. destruct (pssk_blinded a), (pssk_blinded b); try reflexivity; discriminate H0.
  - intros (A & B & C & D). unfold debug_pssk. rewrite (proj2 (debug_priv_exact _ _) (conj A B)), C, D. reflexivity.
  - intros H. pose proof (f_equal (field 0) H) as H1. pose proof (f_equal (field 1) H) as H2.
    change (debug_priv (odk_inner a) = debug_priv (odk_inner b)) in H1. cbn in H2.
    apply debug_priv_exact in H1.
    split; [tauto|]. split; [tauto|]. destruct (odk_label a), (odk_label b); cbn in H2; congruence.
  - intros (A & B & C). unfold debug_odk. rewrite (proj2 (debug_priv_exact _ _) (conj A B)), C. reflexivity.
Qed.

Lemma debug_public_exact :
  (forall a b, debug_p1vk a = debug_p1vk b <-> a = b) /\
  (forall a b, debug_p1ek a = debug_p1ek b <-> a = b) /\
  (forall a b, debug_psvk a = debug_psvk b <-> a = b) /\
  (forall a b, debug_oek a = debug_oek b <-> a = b).
Proof.
  split; [|split; [|split]]; intros a b; (split; [|congruence]); intros H.
  - pose proof (f_equal (field 0) H) as H1. pose proof (f_equal (field 1) H) as H2. cbn in H2.
    change (debug_pub (p1vk_inner a) = debug_pub (p1vk_inner b)) in H1.
    apply debug_pub_inj in H1. destruct a, b; cbn in *. congruence.
  - pose proof (f_equal (field 0) H) as H1.
    change (debug_pub (p1ek_inner a) = debug_pub (p1ek_inner b)) in H1.
    apply debug_pub_inj in H1. destruct a, b; cbn in *. congruence.
  - pose proof (f_equal (field 0) H) as H1. pose proof (f_equal (field 1) H) as H2. cbn in H2.
    change (debug_pub (psvk_inner a) = debug_pub (psvk_inner b)) in H1.
    apply debug_pub_inj in H1. destruct a, b; cbn in *. congruence.
  - pose proof (f_equal (field 0) H) as H1. pose proof (f_equal (field 1) H) as H2. cbn in H2.
    change (debug_pub (oek_inner a) = debug_pub (oek_inner b)) in H1.
    apply debug_pub_inj in H1. destruct a as [ia la], b as [ib lb]; cbn in *.
    destruct la, lb; cbn in H2; congruence.
Qed.

Lemma debug_parameters_exact :
  (forall a b, debug_oaep a = debug_oaep b <-> oa_label a = oa_label b) /\
  (forall a b, debug_pss a = debug_pss b <->
     ps_blinded a = ps_blinded b /\ ps_salt_len a = ps_salt_len b).
Proof.
  split; intros a b; split.
  - intros H. pose proof (f_equal (field 2) H) as H1. cbn in H1.
    destruct (oa_label a), (oa_label b); cbn in H1; congruence.
  - intros H. unfold debug_oaep. rewrite H. reflexivity.
  - intros H. pose proof (f_equal (field 0) H) as H1. pose proof (f_equal (field 2) H) as H2.
    cbn in H1, H2. split; congruence.
  - intros (A & B). unfold debug_pss. rewrite A, B. reflexivity.
Qed.

(** * Memory *)

Definition is_secret (s : piece) : bool :=
  match s with PieceD | PiecePrime _ | PieceDp | PieceDq => true | _ => false end.

Lemma drop_zeroize_spec m : drop_zeroize m = (fst m, if is_secret (fst m) then uzeroize (snd m) else snd m).
Proof. destruct m as (s & u). destruct s; reflexivity. Qed.

Lemma dropped_in k s u : In (s, u) (dropped_memory k) <->
  exists v, In (s, v) (key_memory k) /\ u = if is_secret s then uzeroize v else v.
Proof.
  unfold dropped_memory. rewrite in_map_iff. split.
  - intros ((s' & v) & E & I). rewrite drop_zeroize_spec in E. cbn [fst snd] in E. injection E as -> <-. eauto.
  - intros (v & I & ->). exists (s, v). rewrite drop_zeroize_spec. auto.
Qed.

(** Every secret piece is zero after the drop. *)
Lemma dropped_secret k s u : is_secret s = true -> In (s, u) (dropped_memory k) -> uval u = 0.
Proof. intros S I. apply dropped_in in I. destruct I as (v & _ & ->). rewrite S. reflexivity. Qed.

Lemma in_primes_pieces l : forall i s u, In (s, u) (primes_pieces i l) <->
  exists j, s = PiecePrime (i + j) /\ nth_error l j = Some u.
Proof.
  induction l as [|p l IH]; intros i s u; cbn [primes_pieces In].
  - split; [tauto|]. intros (j & _ & H). destruct j; discriminate.
  - rewrite IH. split.
    + intros [H|(j & -> & H)].
      * injection H as <- <-. exists 0%nat. rewrite Nat.add_0_r. auto.
      * exists (S j). rewrite <- plus_n_Sm. auto.
    + intros ([|j] & -> & H); cbn in H.
      * injection H as ->. rewrite Nat.add_0_r. auto.
      * right. exists j. rewrite <- plus_n_Sm. auto.
Qed.

(** All the places where d, the primes, dp and dq are kept are secret pieces. *)
Lemma key_memory_covers k :
  In (PieceD, sk_d k) (key_memory k) /\
  (forall i p, nth_error (sk_primes k) i = Some p -> In (PiecePrime i, p) (key_memory k)) /\
  (forall c, sk_pre k = Some c -> In (PieceDp, pc_dp c) (key_memory k) /\ In (PieceDq, pc_dq c) (key_memory k)).
Proof.
  unfold key_memory. split; [simpl; tauto|]. split.
  - intros i p H. apply in_or_app. right. apply in_or_app. left. apply in_primes_pieces. exists i. auto.
  - intros c ->. split; apply in_or_app; right; apply in_or_app; right; simpl; tauto.
Qed.

(** Without CRT values nothing but public numbers and sizes is left. *)
Lemma drop_primes l1 : forall l2 i, map uprec l1 = map uprec l2 ->
  map drop_zeroize (primes_pieces i l1) = map drop_zeroize (primes_pieces i l2).
Proof.
  induction l1 as [|a l1 IH]; intros [|b l2] i; cbn [map]; intros H; try discriminate; auto.
  injection H as H1 H2. cbn [primes_pieces map]. rewrite (IH l2 (S i) H2).
  rewrite !drop_zeroize_spec. cbn [fst snd is_secret]. unfold uzeroize. rewrite H1. reflexivity.
Qed.

Lemma dropped_plain a b : sk_pre a = None -> sk_pre b = None ->
  sk_pub a = sk_pub b -> uprec (sk_d a) = uprec (sk_d b) ->
  map uprec (sk_primes a) = map uprec (sk_primes b) -> dropped_memory a = dropped_memory b.
Proof.
  intros E1 E2 P D L. unfold dropped_memory, key_memory. rewrite E1, E2, P, !map_app, !app_nil_r.
  rewrite (drop_primes _ _ 0 L). f_equal. cbn [map]. rewrite !drop_zeroize_spec. cbn [fst snd is_secret].
  unfold uzeroize. rewrite D. reflexivity.
Qed.

(** With CRT values both factors are still there. *)
Lemma pre_params k c p q rest : wf_uint (sk_d k) -> Forall wf_uint (sk_primes k) ->
  sk_pre k = Some c -> pre_consistent k -> sk_primes k = p :: q :: rest ->
  uval (mp_modulus (pc_p_params c)) = uval p /\ uval (mp_modulus (pc_q_params c)) = uval q.
Proof.
  intros Wd Wp E [C|C] EP; [congruence|].
  destruct (precompute_inv (clear_precomputed k) k Wd Wp eq_refl C) as (p' & q' & rest' & qi & EP' & X).
  cbv zeta in X. destruct X as (_ & _ & _ & _ & _ & _ & _ & _ & X).
  cbn [clear_precomputed sk_primes] in EP'. rewrite EP in EP'. injection EP' as <- <- <-.
  rewrite X in E. cbn [sk_pre] in E. injection E as <-. auto.
Qed.

Lemma dropped_params k c p q rest : wf_uint (sk_d k) -> Forall wf_uint (sk_primes k) ->
  sk_pre k = Some c -> pre_consistent k -> sk_primes k = p :: q :: rest ->
  (exists u, In (PiecePParams, u) (dropped_memory k) /\ uval u = uval p) /\
  (exists u, In (PieceQParams, u) (dropped_memory k) /\ uval u = uval q).
Proof.
  intros Wd Wp E C EP. destruct (pre_params k c p q rest Wd Wp E C EP) as (A & B).
  split; eexists; (split; [apply dropped_in; eexists; split; [|cbn [is_secret]; reflexivity]|eassumption]);
    unfold key_memory; rewrite E; apply in_or_app; right; apply in_or_app; right; simpl; tauto.
Qed.

(** A program that reads the freed memory of a two-prime key and computes a private
    exponent. *)
Definition find_piece (P : piece -> bool) (m : memory) : option Z :=
  match find (fun x => P (fst x)) m with Some (_, u) => Some (uval u) | None => None end.
Definition is_e (s : piece) : bool := match s with PieceE => true | _ => false end.
Definition is_pp (s : piece) : bool := match s with PiecePParams => true | _ => false end.
Definition is_qp (s : piece) : bool := match s with PieceQParams => true | _ => false end.
Definition recover (m : memory) : option Z :=
  match find_piece is_e m,
        find_piece is_pp m,
        find_piece is_qp m with
  | Some e, Some p, Some q => zinv e ((p - 1) * (q - 1))
  | _, _, _ => None
  end.

Lemma find_primes P l : (forall i, P (PiecePrime i) = false) -> forall i r,
  find (fun x => P (fst x)) (map drop_zeroize (primes_pieces i l) ++ r) = find (fun x => P (fst x)) r.
Proof.
  intros H. induction l as [|p l IH]; intros i r; [reflexivity|]. cbn [primes_pieces map app find].
  rewrite drop_zeroize_spec. cbn [fst]. rewrite H. apply IH.
Qed.

Lemma recover_works k p q : good_priv k -> sk_pre k <> None -> sk_primes k = [p; q] ->
  exists d', recover (dropped_memory k) = Some d' /\
    valid_rsa_key (uval (pk_n (sk_pub k))) (uval (pk_e (sk_pub k))) d' [uval p; uval q].
Proof.
  intros (Wpub & Wd & Wpr & V & _ & C) NN EP.
  destruct (sk_pre k) as [c|] eqn:E; [|congruence].
  destruct (pre_params k c p q [] Wd Wpr E C EP) as (A & B).
  assert (R : recover (dropped_memory k) =
    zinv (uval (pk_e (sk_pub k))) ((uval p - 1) * (uval q - 1))).
  { unfold recover, find_piece, dropped_memory, key_memory. rewrite E, !map_app.
    cbn [map]. rewrite !drop_zeroize_spec. cbn [fst snd is_secret app find is_e is_pp is_qp].
    rewrite (find_primes is_pp), (find_primes is_qp) by reflexivity. cbn [map pre_memory]. rewrite !drop_zeroize_spec.
    cbn [fst snd is_secret find is_pp is_qp]. rewrite A, B. reflexivity. }
  rewrite R. rewrite EP in V. cbn [map] in V. destruct V as (L & Pr & ND & N & E0 & D0 & Co).
  inversion Pr as [|? ? Pp Pr2]; subst. inversion Pr2 as [|? ? Pq _]; subst.
  pose proof (prime_ge_2 _ Pp) as P2. pose proof (prime_ge_2 _ Pq) as Q2.
  pose proof (Co (uval p) (or_introl eq_refl)) as C1. pose proof (Co (uval q) (or_intror (or_introl eq_refl))) as C2.
  set (e := uval (pk_e (sk_pub k))) in *. set (d := uval (sk_d k)) in *.
  assert (G1 : Z.gcd e (uval p - 1) = 1) by (eapply inverse_gcd; [lia|exact C1]).
  assert (G2 : Z.gcd e (uval q - 1) = 1) by (eapply inverse_gcd; [lia|exact C2]).
  assert (G : Z.gcd e ((uval p - 1) * (uval q - 1)) = 1).
  { apply Zgcd_1_rel_prime. apply rel_prime_mult; apply Zgcd_1_rel_prime; auto. }
  destruct (zinv_exists e ((uval p - 1) * (uval q - 1)) ltac:(apply Z.mul_pos_pos; lia) G) as (d' & E').
  exists d'. split; [exact E'|]. apply zinv_some in E'. destruct E' as (M & R1 & R2).
  assert (Dv : ((uval p - 1) * (uval q - 1) | e * d' - 1)) by (apply divide_mod_eq; auto).
  split; [exact L|]. split; [exact Pr|]. split; [exact ND|]. split; [exact N|]. split; [exact E0|]. split.
  - destruct (Z.eq_dec d' 0) as [->|]; [|lia]. exfalso. rewrite Z.mul_0_r in Dv.
    apply Z.divide_opp_r in Dv. apply Z.divide_1_r_nonneg in Dv; [|lia].
    assert (P1 : uval p - 1 = 1 /\ uval q - 1 = 1) by (clear - Dv P2 Q2; nia).
    assert (uval p = uval q) by (clear - P1; lia). inversion ND as [|? ? NI _]. apply NI. left. auto.
  - intros x [<-|[<-|[]]]; apply divide_mod_eq; try lia; eapply Z.divide_trans; [|exact Dv| |exact Dv].
    + apply Z.divide_factor_l.
    + apply Z.divide_factor_r.
Qed.

(** The same for the memory [clear_precomputed] frees. *)
Lemma cleared_spec k s u : In (s, u) (cleared_memory k) <->
  exists c v, sk_pre k = Some c /\ In (s, v) (pre_memory c) /\ u = if is_secret s then uzeroize v else v.
Proof.
  unfold cleared_memory. destruct (sk_pre k) as [c|].
  - rewrite in_map_iff. split.
    + intros ((s' & v) & E & I). exists c, v. split; [reflexivity|].
      assert (s' = s /\ u = if is_secret s' then uzeroize v else v) as (-> & ->); [|auto].
      cbn [pre_memory In] in I.
      repeat (destruct I as [I|I]; [injection I as <- <-; cbn in E; injection E as <- <-; auto|]).
      destruct I.
    + intros (c' & v & E & I & ->). injection E as <-. exists (s, v). split; [|exact I].
      cbn [pre_memory In] in I. repeat (destruct I as [I|I]; [injection I as <- <-; reflexivity|]). destruct I.
  - split; [intros []|]. intros (c & v & E & _). discriminate.
Qed.
