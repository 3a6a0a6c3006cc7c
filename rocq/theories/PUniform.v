(** The padding string of PKCS#1 v1.5 encryption is unbiased. *)
From Coq Require Import ZArith List Bool Lia Permutation.
From Coq Require Import Init.Byte.
From Verif Require Import Base Bigint BytesLemmas BigintLemmas SpecRFC SpecRng SpecKey SpecBlind MHash MPad MPkcs1 MRsa MKey
  MApi KeyDefs PPkcs1 PRsa PApi PEnc PBlind.
Import ListNotations.
Local Open Scope Z_scope.

Lemma tape_ok : rng_ok tape.
Proof.
  split; cbn; intros r n ? ?.
  - destruct (n <=? length r)%nat eqn:E; [|discriminate]. intros H. injection H as <- _.
    apply firstn_length_le, Nat.leb_le; auto.
  - discriminate.
Qed.

Lemma in_all_tapes L : forall t, In t (all_tapes L) <-> length t = L.
Proof.
  induction L as [|L IH]; intros t; cbn [all_tapes].
  - split; [intros [<-|[]]; auto|]. destruct t; [left; auto|discriminate].
  - rewrite in_flat_map. split.
    + intros (s & Hs & H). apply in_map_iff in H. destruct H as (i & <- & _).
      cbn [length]. f_equal. apply IH; auto.
    + destruct t as [|b t]; [discriminate|]. intros H. injection H as H. exists t.
      split; [apply IH; auto|]. apply in_map_iff. exists (Z.to_nat (b2z b)).
      pose proof (b2z_range b). split; [|apply in_seq; lia].
      rewrite Z2Nat.id by lia. rewrite z2b_b2z. reflexivity.
Qed.

Lemma map_nodup_in {A B} (f : A -> B) l :
  (forall x y, In x l -> In y l -> f x = f y -> x = y) -> NoDup l -> NoDup (map f l).
Proof.
  intros HI HN. induction HN as [|a l Ha HN IH]; cbn; constructor.
  - intros H. apply in_map_iff in H. destruct H as (x & E & Hx). apply Ha.
    rewrite <- (HI x a); auto; [right|left]; auto.
  - apply IH. intros; apply HI; auto; right; auto.
Qed.

Lemma NoDup_app_intro {A} (l l' : list A) :
  NoDup l -> NoDup l' -> (forall x, In x l -> In x l' -> False) -> NoDup (l ++ l').
Proof.
  intros H H'. induction H as [|a l Ha H IH]; intros HD; cbn; auto. constructor.
  - rewrite in_app_iff. intros [X|X]; auto. apply (HD a); auto. left; auto.
  - apply IH. intros x X Y. apply (HD x); auto. right; auto.
Qed.

Lemma all_tapes_nodup L : NoDup (all_tapes L).
Proof.
  induction L as [|L IH]; cbn [all_tapes]; [repeat constructor; auto|].
  induction IH as [|t l Ht Hl IHl]; cbn [flat_map]; [constructor|].
  apply NoDup_app_intro; auto.
  - apply map_nodup_in; [|apply seq_NoDup].
    intros i j Hi Hj H. apply in_seq in Hi. apply in_seq in Hj.
    assert (E : z2b (Z.of_nat i) = z2b (Z.of_nat j)) by congruence.
    apply (f_equal b2z) in E. rewrite !b2z_z2b_small in E by lia. lia.
  - intros x Hx Hy. apply in_map_iff in Hx. destruct Hx as (i & <- & _).
    apply in_flat_map in Hy. destruct Hy as (s & Hs & Hy). apply in_map_iff in Hy.
    destruct Hy as (j & Hj & _). injection Hj as _ ->. auto.
Qed.

Lemma filter_map_length {A} (P Q : A -> bool) (f : A -> A) l :
  NoDup l -> (forall x, In x l -> In (f x) l) ->
  (forall x y, In x l -> In y l -> f x = f y -> x = y) ->
  (forall x, In x l -> P x = Q (f x)) ->
  length (filter P l) = length (filter Q l).
Proof.
  intros HN HM HI HP.
  assert (HNm : NoDup (map f l)) by (apply map_nodup_in; auto).
  assert (PM : Permutation (map f l) l).
  { apply NoDup_Permutation_bis; auto.
    - rewrite map_length. auto.
    - intros x Hx. apply in_map_iff in Hx. destruct Hx as (y & <- & Hy). auto. }
  assert (E : length (filter Q (map f l)) = length (filter Q l)).
  { clear - PM. induction PM; cbn; auto.
    - destruct (Q x); cbn; auto.
    - destruct (Q x), (Q y); cbn; auto.
    - congruence. }
  rewrite <- E. clear - HP. induction l as [|a l IH]; cbn; auto.
  rewrite (HP a (or_introl eq_refl)). destruct (Q (f a)); cbn; rewrite IH; auto; intros; apply HP; right; auto.
Qed.

(** ** Exchanging two padding strings *)

Definition swap (p : byte * byte) (x : byte) : byte :=
  if byte_eqb x (fst p) then snd p else if byte_eqb x (snd p) then fst p else x.

Definition nz_pair (p : byte * byte) : Prop := fst p <> x00 /\ snd p <> x00.

Lemma swap_inv p x : swap p (swap p x) = x.
Proof.
  unfold swap. destruct (byte_eqb_spec x (fst p)) as [->|N1].
  - destruct (byte_eqb_spec (snd p) (fst p)) as [E|N2]; [congruence|].
    destruct (byte_eqb_spec (snd p) (snd p)); [auto|congruence].
  - destruct (byte_eqb_spec x (snd p)) as [->|N2].
    + destruct (byte_eqb_spec (fst p) (fst p)); congruence.
    + destruct (byte_eqb_spec x (fst p)); [congruence|]. destruct (byte_eqb_spec x (snd p)); congruence.
Qed.

Lemma swap_zero p x : nz_pair p -> (swap p x = x00 <-> x = x00).
Proof.
  intros [A B]. unfold swap. destruct (byte_eqb_spec x (fst p)) as [->|N1]; [tauto|].
  destruct (byte_eqb_spec x (snd p)) as [->|N2]; tauto.
Qed.

Lemma swap_zero_b p x : nz_pair p -> byte_eqb (swap p x) x00 = byte_eqb x x00.
Proof.
  intros H. pose proof (swap_zero p x H) as E.
  destruct (byte_eqb_spec (swap p x) x00), (byte_eqb_spec x x00); auto; tauto.
Qed.

Lemma swap_fst p : swap p (fst p) = snd p.
Proof. unfold swap. destruct (byte_eqb_spec (fst p) (fst p)); congruence. Qed.

Fixpoint flip (pps : list (byte * byte)) (d : list byte) : list byte :=
  match pps, d with
  | p :: pps, x :: d => swap p x :: flip pps d
  | _, _ => d
  end.

(** The redraws for one position: zeros stay, the first other octet is exchanged. *)
Fixpoint redo (p : byte * byte) (r : list byte) (k : list byte -> list byte) : list byte :=
  match r with
  | [] => []
  | x :: r => if byte_eqb x x00 then x :: redo p r k else swap p x :: k r
  end.

Fixpoint walk (pps : list (byte * byte)) (d r : list byte) : list byte :=
  match pps, d with
  | p :: pps, x :: d => if byte_eqb x x00 then redo p r (walk pps d) else walk pps d r
  | _, _ => r
  end.

Definition exchange (pps : list (byte * byte)) (t : list byte) : list byte :=
  let n := length pps in
  flip pps (firstn n t) ++ walk pps (firstn n t) (skipn n t).

Lemma flip_length pps : forall d, length (flip pps d) = length d.
Proof. induction pps; intros [|x d]; cbn; auto. Qed.

Lemma redo_length p r k : (forall s, length (k s) = length s) -> length (redo p r k) = length r.
Proof. intros H. induction r as [|x r IH]; cbn; auto. destruct (byte_eqb x x00); cbn; auto. Qed.

Lemma walk_length pps : forall d r, length (walk pps d r) = length r.
Proof.
  induction pps as [|p pps IH]; intros [|x d] r; cbn [walk]; auto.
  destruct (byte_eqb x x00); auto. apply redo_length. auto.
Qed.

Lemma exchange_length pps t : length (exchange pps t) = length t.
Proof.
  unfold exchange. rewrite app_length, flip_length, walk_length, <- app_length, firstn_skipn. auto.
Qed.

Lemma flip_inv pps : forall d, flip pps (flip pps d) = d.
Proof. induction pps as [|p pps IH]; intros [|x d]; cbn [flip]; auto. rewrite swap_inv, IH; auto. Qed.

Lemma redo_inv p r k k' : nz_pair p -> (forall s, k' (k s) = s) -> redo p (redo p r k) k' = r.
Proof.
  intros Hp H. induction r as [|x r IH]; cbn [redo]; auto. destruct (byte_eqb x x00) eqn:E; cbn [redo].
  - rewrite E, IH. auto.
  - rewrite swap_zero_b, E, swap_inv, H by auto. auto.
Qed.

Lemma walk_inv pps : Forall nz_pair pps -> forall d r, walk pps (flip pps d) (walk pps d r) = r.
Proof.
  induction 1 as [|p pps Hp Hpp IH]; intros [|x d] r; cbn [flip walk]; auto.
  rewrite swap_zero_b by auto. destruct (byte_eqb x x00); auto. apply redo_inv; auto.
Qed.

Lemma exchange_inv pps t : Forall nz_pair pps -> (length pps <= length t)%nat ->
  exchange pps (exchange pps t) = t.
Proof.
  intros H HL. unfold exchange.
  assert (E : length (flip pps (firstn (length pps) t)) = length pps).
  { rewrite flip_length. apply firstn_length_le; auto. }
  set (n := length pps) in *.
  rewrite firstn_app, E, Nat.sub_diag. cbn [firstn]. rewrite app_nil_r.
  rewrite (firstn_all2 (flip pps (firstn n t))) by lia.
  rewrite skipn_app, E, Nat.sub_diag. cbn [skipn].
  rewrite (skipn_all2 (flip pps (firstn n t))) by lia. cbn [app].
  rewrite flip_inv, walk_inv by auto. apply firstn_skipn.
Qed.

Lemma fill_cons x r : rng_fill tape (x :: r) 1 = (Some [x], r).
Proof. reflexivity. Qed.

Lemma refill_redo p k f : nz_pair p -> forall r b r',
  refill tape f r = Ok (b, r') -> refill tape f (redo p r k) = Ok (swap p b, k r').
Proof.
  intros Hp. induction f as [|f IH]; intros r b r' H; [discriminate|]. cbn [refill] in *.
  destruct r as [|x r]; [discriminate|]. rewrite fill_cons in H. cbn [get_idx nth_error bind] in H.
  cbn [redo]. unfold get_idx in H. cbn [nth_error bind] in H. destruct (byte_eqb x x00) eqn:E.
  - rewrite fill_cons. unfold get_idx. cbn [nth_error bind]. rewrite E. apply IH; auto.
  - injection H as <- <-. rewrite fill_cons. unfold get_idx. cbn [nth_error bind].
    rewrite swap_zero_b, E by auto. reflexivity.
Qed.

Lemma nz_loop_walk f pps : Forall nz_pair pps -> forall d r out r', length d = length pps ->
  nz_loop tape f r d = Ok (out, r') ->
  exists s, nz_loop tape f (walk pps d r) (flip pps d) = Ok (flip pps out, s).
Proof.
  induction 1 as [|p pps Hp Hpp IH]; intros [|x d] r out r' HL H; try discriminate.
  - cbn in *. injection H as <- <-. eauto.
  - injection HL as HL. cbn [nz_loop] in H. cbn [flip walk nz_loop]. rewrite swap_zero_b by auto.
    destruct (byte_eqb x x00) eqn:E.
    + destruct (refill tape f r) as [[b r1]| | |] eqn:E1; try discriminate. cbn [bind] in H.
      destruct (nz_loop tape f r1 d) as [[o r2]| | |] eqn:E2; try discriminate. cbn [bind] in H.
      injection H as <- <-. rewrite (refill_redo p (walk pps d) f Hp _ _ _ E1). cbn [bind].
      destruct (IH _ _ _ _ HL E2) as (s & ->). cbn [bind flip]. eauto.
    + cbn [bind] in *. destruct (nz_loop tape f r d) as [[o r2]| | |] eqn:E2; try discriminate.
      cbn [bind] in H. injection H as <- <-. destruct (IH _ _ _ _ HL E2) as (s & ->).
      cbn [bind flip]. eauto.
Qed.

Lemma fill_split n t d r : rng_fill tape t n = (Some d, r) -> (n <= length t)%nat /\ d = firstn n t /\ r = skipn n t.
Proof.
  cbn. destruct (n <=? length t)%nat eqn:E; [|discriminate]. intros H. injection H as <- <-.
  apply Nat.leb_le in E. auto.
Qed.

Lemma nz_exchange f pps t out s : Forall nz_pair pps ->
  non_zero_random_bytes tape f t (length pps) = Ok (out, s) ->
  exists s', non_zero_random_bytes tape f (exchange pps t) (length pps) = Ok (flip pps out, s').
Proof.
  intros Hp. unfold non_zero_random_bytes. destruct (rng_fill tape t (length pps)) as [[d|] r] eqn:E; [|discriminate].
  apply fill_split in E. destruct E as (HL & -> & ->). intros H.
  assert (L1 : length (firstn (length pps) t) = length pps) by (apply firstn_length_le; auto).
  destruct (nz_loop_walk f pps Hp _ _ _ _ L1 H) as (s' & E').
  assert (F : rng_fill tape (exchange pps t) (length pps)
              = (Some (flip pps (firstn (length pps) t)), walk pps (firstn (length pps) t) (skipn (length pps) t))).
  { cbn [rng_fill tape]. rewrite exchange_length. apply Nat.leb_le in HL as ->. unfold exchange.
    assert (L2 : length (flip pps (firstn (length pps) t)) = length pps) by (rewrite flip_length; auto).
    rewrite firstn_app, skipn_app, L2, Nat.sub_diag. cbn [firstn skipn].
    rewrite firstn_all2, skipn_all2 by lia. rewrite app_nil_r. reflexivity. }
  rewrite F. eauto.
Qed.

Lemma flip_combine a : forall b, length a = length b -> flip (combine a b) a = b.
Proof.
  induction a as [|x a IH]; intros [|y b] H; cbn [combine flip]; auto; try discriminate.
  injection H as H. rewrite IH by auto. f_equal. apply (swap_fst (x, y)).
Qed.

Lemma combine_nz a : forall b, Forall (fun x => x <> x00) a -> Forall (fun x => x <> x00) b ->
  Forall nz_pair (combine a b).
Proof.
  induction a as [|x a IH]; intros [|y b] Ha Hb; cbn; auto. inversion Ha; inversion Hb; subst.
  constructor; auto. split; auto.
Qed.

Definition padding_is (f w : nat) (PS t : list byte) : bool :=
  match non_zero_random_bytes tape f t w with Ok (x, _) => bytes_eqb x PS | _ => false end.

Lemma padding_exchange f PS PS' t :
  Forall (fun x => x <> x00) PS -> Forall (fun x => x <> x00) PS' -> length PS = length PS' ->
  padding_is f (length PS) PS t = true ->
  padding_is f (length PS) PS' (exchange (combine PS PS') t) = true.
Proof.
  intros H1 H2 HL. unfold padding_is.
  assert (Lc : length (combine PS PS') = length PS) by (rewrite combine_length; lia).
  destruct (non_zero_random_bytes tape f t (length PS)) as [[x s]| | |] eqn:E; try discriminate.
  intros H. apply bytes_eqb_eq in H. subst x. rewrite <- Lc in E.
  destruct (nz_exchange f _ t PS s (combine_nz _ _ H1 H2) E) as (s' & E').
  rewrite Lc in E'. rewrite E', flip_combine by auto. apply bytes_eqb_refl.
Qed.

Lemma flip_sym PS : forall PS' d, flip (combine PS' PS) d = flip (combine PS PS') d.
Proof.
  induction PS as [|p PS IH]; intros [|p' PS'] [|x d]; cbn [combine flip]; auto. rewrite IH. f_equal.
  unfold swap. cbn [fst snd].
  destruct (byte_eqb_spec x p'), (byte_eqb_spec x p); congruence.
Qed.

Lemma swap_sym p q x : swap (q, p) x = swap (p, q) x.
Proof. unfold swap. cbn [fst snd]. destruct (byte_eqb_spec x q), (byte_eqb_spec x p); congruence. Qed.

Lemma redo_ext p q r k k' : (forall s, k s = k' s) -> redo (q, p) r k = redo (p, q) r k'.
Proof.
  intros H. induction r as [|x r IH]; cbn [redo]; auto. destruct (byte_eqb x x00); [rewrite IH; auto|].
  rewrite swap_sym, H. auto.
Qed.

Lemma walk_sym PS : forall PS' d r, walk (combine PS' PS) d r = walk (combine PS PS') d r.
Proof.
  induction PS as [|p PS IH]; intros [|p' PS'] [|x d] r; cbn [combine walk]; auto.
  destruct (byte_eqb x x00); auto. apply redo_ext. auto.
Qed.

Lemma exchange_sym PS PS' t : exchange (combine PS' PS) t = exchange (combine PS PS') t.
Proof. unfold exchange. rewrite flip_sym, walk_sym, !combine_length, Nat.min_comm. reflexivity. Qed.

Lemma padding_is_long f w PS t : padding_is f w PS t = true -> (w <= length t)%nat.
Proof.
  unfold padding_is, non_zero_random_bytes. destruct (rng_fill tape t w) as [[d|] r] eqn:E; [|discriminate].
  intros _. apply fill_split in E. tauto.
Qed.

Lemma padding_count f L PS PS' :
  Forall (fun x => x <> x00) PS -> Forall (fun x => x <> x00) PS' -> length PS = length PS' ->
  length (filter (padding_is f (length PS) PS) (all_tapes L)) =
  length (filter (padding_is f (length PS) PS') (all_tapes L)).
Proof.
  intros H1 H2 HL.
  assert (Lc : length (combine PS PS') = length PS) by (rewrite combine_length; lia).
  pose proof (combine_nz _ _ H1 H2) as Hc.
  destruct (Nat.le_gt_cases (length PS) L) as [HLe|HLt].
  - apply (filter_map_length _ _ (exchange (combine PS PS'))).
    + apply all_tapes_nodup.
    + intros x Hx. apply in_all_tapes. rewrite exchange_length. apply in_all_tapes; auto.
    + intros x y Hx Hy E. apply in_all_tapes in Hx. apply in_all_tapes in Hy.
      rewrite <- (exchange_inv _ x Hc), <- (exchange_inv _ y Hc) by lia. congruence.
    + intros t Ht. apply in_all_tapes in Ht.
      destruct (padding_is f (length PS) PS t) eqn:A.
      { symmetry. apply padding_exchange; auto. }
      destruct (padding_is f (length PS) PS' (exchange (combine PS PS') t)) eqn:B; auto.
      exfalso. rewrite HL in B. apply padding_exchange with (PS' := PS) in B; auto.
      rewrite exchange_sym, exchange_inv in B by (auto; lia). rewrite <- HL in B. congruence.
  - rewrite !filter_none; auto.
    + intros t Ht. apply in_all_tapes in Ht. destruct (padding_is f (length PS) PS' t) eqn:A; auto.
      apply padding_is_long in A. lia.
    + intros t Ht. apply in_all_tapes in Ht. destruct (padding_is f (length PS) PS t) eqn:A; auto.
      apply padding_is_long in A. lia.
Qed.

Lemma padding_possible f L PS : Forall (fun x => x <> x00) PS -> (length PS <= L)%nat ->
  (0 < length (filter (padding_is f (length PS) PS) (all_tapes L)))%nat.
Proof.
  intros H HL. assert (I : In (PS ++ repeat x00 (L - length PS)) (filter (padding_is f (length PS) PS) (all_tapes L))).
  { apply filter_In. split.
    - apply in_all_tapes. rewrite app_length, repeat_length. lia.
    - unfold padding_is, non_zero_random_bytes. cbn [rng_fill tape].
      rewrite app_length. destruct (Nat.leb_spec (length PS) (length PS + length (repeat x00 (L - length PS)))); [|lia].
      rewrite firstn_app, Nat.sub_diag. cbn [firstn]. rewrite firstn_all2, app_nil_r by lia.
      rewrite nz_loop_nonzero by auto. apply bytes_eqb_refl. }
  destruct (filter _ _); [destruct I|cbn; lia].
Qed.

(** ** At the API *)

Lemma block_below_n pk PS msg : wf_pub pk -> (length msg + 11 <= key_size pk)%nat ->
  length PS = (key_size pk - length msg - 3)%nat ->
  os2ip (eme_pkcs1 PS msg) < uval (pk_n pk).
Proof.
  intros Hk HL HP. destruct (key_size_octets pk Hk) as (HO & _).
  unfold eme_pkcs1. rewrite os2ip_cons. change (b2z x00) with 0. rewrite Z.mul_0_l, Z.add_0_l.
  match goal with |- os2ip ?l < _ => pose proof (os2ip_range l) as R end.
  cbn [length] in R. rewrite app_length in R. cbn [length] in R.
  replace (Z.of_nat (S (length PS + S (length msg)))) with (Z.of_nat (key_size pk) - 1) in R by lia.
  lia.
Qed.

Lemma ciphertext_block k PS PS' msg msg' : good_priv k ->
  (length msg + 11 <= key_size (sk_pub k))%nat -> (length msg' + 11 <= key_size (sk_pub k))%nat ->
  length PS = (key_size (sk_pub k) - length msg - 3)%nat ->
  length PS' = (key_size (sk_pub k) - length msg' - 3)%nat ->
  pkcs1_ciphertext (sk_pub k) PS msg = pkcs1_ciphertext (sk_pub k) PS' msg' ->
  PS ++ x00 :: msg = PS' ++ x00 :: msg'.
Proof.
  intros Hk L L' P P' E. unfold pkcs1_ciphertext in E. pose proof (good_pub k Hk) as Hp.
  assert (B : Ok (eme_pkcs1 PS msg) = Ok (eme_pkcs1 PS' msg')).
  { rewrite <- (decrypt_of_encrypt tape 0 None k (eme_pkcs1 PS msg)), <- (decrypt_of_encrypt tape 0 None k (eme_pkcs1 PS' msg')).
    - rewrite E. reflexivity.
    - congruence.
    - auto.
    - rewrite eme_pkcs1_length. lia.
    - apply block_below_n; auto.
    - exact I.
    - congruence.
    - auto.
    - rewrite eme_pkcs1_length. lia.
    - apply block_below_n; auto.
    - exact I. }
  unfold eme_pkcs1 in B. congruence.
Qed.

Lemma ciphertext_inj k PS PS' msg msg' : good_priv k ->
  (length msg + 11 <= key_size (sk_pub k))%nat -> (length msg' + 11 <= key_size (sk_pub k))%nat ->
  length PS = (key_size (sk_pub k) - length msg - 3)%nat ->
  length PS' = (key_size (sk_pub k) - length msg' - 3)%nat ->
  Forall (fun b => b <> x00) PS -> Forall (fun b => b <> x00) PS' ->
  pkcs1_ciphertext (sk_pub k) PS msg = pkcs1_ciphertext (sk_pub k) PS' msg' -> PS = PS' /\ msg = msg'.
Proof.
  intros Hk L L' P P' F F' E. apply ciphertext_block in E; auto. rename E into B'.
  clear - F F' B'. revert PS' F' B'. induction F as [|x PS Hx F IH]; intros [|y PS'] F' B'; cbn in B'.
  - split; congruence.
  - inversion F'; subst. congruence.
  - congruence.
  - inversion F'; subst. injection B' as -> B'. destruct (IH PS') as [-> ->]; auto.
Qed.

Lemma encrypt_padding k f PS msg t : good_priv k -> usable_key (sk_pub k) ->
  (length msg + 11 <= key_size (sk_pub k))%nat ->
  let w := (key_size (sk_pub k) - length msg - 3)%nat in
  length PS = w -> Forall (fun b => b <> x00) PS ->
  match public_encrypt tape f t (sk_pub k) PadPkcs1v15 msg with
  | Ok x => bytes_eqb x (pkcs1_ciphertext (sk_pub k) PS msg) | _ => false end = padding_is f w PS t.
Proof.
  intros Hk Hu HL w HP HF. pose proof (good_pub k Hk) as Hp. cbn [public_encrypt].
  destruct (pkcs1v15_encrypt_exact tape f t (sk_pub k) msg tape_ok Hp Hu) as (_ & A).
  destruct (A HL) as (A1 & A2 & A3). fold w in A1, A2, A3. unfold padding_is.
  unfold non_zero_random_bytes.
  destruct (padding_trichotomy tape tape_ok f t w) as [(PS0 & G)|[G|G]].
  - rewrite (A1 PS0 G). destruct (padding_gives_props _ _ _ _ _ tape_ok G) as [L0 F0].
    destruct G as (d & s1 & s2 & E & G). rewrite E, (nz_loop_patched _ _ _ _ _ _ G).
    destruct (bytes_eqb PS0 PS) eqn:B.
    + apply bytes_eqb_eq in B. subst PS0. apply bytes_eqb_refl.
    + match goal with |- bytes_eqb ?a ?b = false => destruct (bytes_eqb a b) eqn:C; auto end.
      apply bytes_eqb_eq in C. apply (ciphertext_inj k PS0 PS msg msg) in C; auto.
      destruct C as [-> _]. rewrite bytes_eqb_refl in B. discriminate.
  - rewrite (A2 G). destruct G as [(s & E)|(d & s & E & G)]; rewrite E; auto.
    rewrite (nz_loop_fails _ _ _ _ G). reflexivity.
  - rewrite (A3 G). destruct G as (d & s & E & G); rewrite E.
    rewrite (nz_loop_stuck _ _ _ _ G). reflexivity.
Qed.

Lemma uniform_padding k f L PS PS' msg : good_priv k -> usable_key (sk_pub k) ->
  (length msg + 11 <= key_size (sk_pub k))%nat ->
  let w := (key_size (sk_pub k) - length msg - 3)%nat in
  length PS = w -> length PS' = w ->
  Forall (fun b => b <> x00) PS -> Forall (fun b => b <> x00) PS' ->
  let run t := public_encrypt tape f t (sk_pub k) PadPkcs1v15 msg in
  tapes_giving L run (pkcs1_ciphertext (sk_pub k) PS msg) =
  tapes_giving L run (pkcs1_ciphertext (sk_pub k) PS' msg) /\
  ((w <= L)%nat -> (0 < tapes_giving L run (pkcs1_ciphertext (sk_pub k) PS msg))%nat).
Proof.
  intros Hk Hu HL w HP HP' F F' run.
  assert (E : forall Q, length Q = w -> Forall (fun b => b <> x00) Q ->
    tapes_giving L run (pkcs1_ciphertext (sk_pub k) Q msg) = length (filter (padding_is f w Q) (all_tapes L))).
  { intros Q HQ FQ. unfold tapes_giving. f_equal. apply filter_ext. intros t. apply encrypt_padding; auto. }
  rewrite !E by auto. rewrite <- HP. split.
  - apply padding_count; auto. congruence.
  - apply padding_possible; auto.
Qed.

Lemma zero_padding k f L PS msg : good_priv k -> usable_key (sk_pub k) ->
  (length msg + 11 <= key_size (sk_pub k))%nat ->
  length PS = (key_size (sk_pub k) - length msg - 3)%nat -> In x00 PS ->
  tapes_giving L (fun t => public_encrypt tape f t (sk_pub k) PadPkcs1v15 msg)
    (pkcs1_ciphertext (sk_pub k) PS msg) = 0%nat.
Proof.
  intros Hk Hu HL HP HI. pose proof (good_pub k Hk) as Hp. unfold tapes_giving.
  rewrite filter_none; auto. intros t _. cbn [public_encrypt].
  destruct (pkcs1v15_encrypt_exact tape f t (sk_pub k) msg tape_ok Hp Hu) as (_ & A).
  destruct (A HL) as (A1 & A2 & A3).
  destruct (padding_trichotomy tape tape_ok f t (key_size (sk_pub k) - length msg - 3)) as [(PS0 & G)|[G|G]].
  - rewrite (A1 PS0 G). destruct (padding_gives_props _ _ _ _ _ tape_ok G) as [L0 F0].
    match goal with |- bytes_eqb ?a ?b = false => destruct (bytes_eqb a b) eqn:C; auto end.
    apply bytes_eqb_eq in C. apply (ciphertext_block k PS0 PS msg msg) in C; auto.
    apply app_inj_len in C; [|congruence]. destruct C as [-> _].
    rewrite Forall_forall in F0. apply F0 in HI. contradiction.
  - rewrite (A2 G). reflexivity.
  - rewrite (A3 G). reflexivity.
Qed.
