(** How many modular exponentiations a call makes, and how wide they are. *)
From Coq Require Import ZArith List Bool Lia.
From Coq Require Import Init.Byte.
From Verif Require Import Base Bigint BytesLemmas BigintLemmas SpecRFC SpecKey SpecRng SpecSig SpecWork KeyDefs MHash MPad MMgf MPkcs1
  MOaep MPss MRsa MKey MApi MLeak MLeakEnc PRsa PPkcs1 PPss POaep PApi PSig PLeak PLeakEnc PLeakKey.
Import ListNotations.
Local Open Scope Z_scope.

Lemma exps_app t t' : exponentiations (t ++ t') = exponentiations t ++ exponentiations t'.
Proof.
  induction t as [|e t IH]; [reflexivity|]. cbn [app]. destruct e; try exact IH.
  destruct op; try exact IH. destruct precs as [|a [|b [|? ?]]]; try exact IH.
  cbn. rewrite IH. reflexivity.
Qed.

Definition work {A} (m : leaky A) : list (Z * Z) := exponentiations (trace m).

Lemma work_bind {A B} (m : leaky A) (k : A -> leaky B) :
  work (lbind m k) = work m ++ match result m with Ok a => work (k a) | _ => [] end.
Proof. unfold work. rewrite trace_bind, exps_app. destruct (result m); reflexivity. Qed.

Lemma idle_bind {A B} (m : leaky A) (k : A -> leaky B) :
  work m = [] -> (forall a, work (k a) = []) -> work (lbind m k) = [].
Proof. intros H K. rewrite work_bind, H. destruct (result m); auto. cbn [app]. auto. Qed.

Lemma work_step {A B} (m : leaky A) (k : A -> leaky B) a :
  work m = [] -> result m = Ok a -> work (lbind m k) = work (k a).
Proof. intros H E. rewrite work_bind, H, E. reflexivity. Qed.

(** a step that is idle, followed by something that succeeds *)
Lemma work_pass {A B} (m : leaky A) (k : A -> leaky B) b w :
  work m = [] -> result (lbind m k) = Ok b ->
  (forall a, result m = Ok a -> result (k a) = Ok b -> work (k a) = w) -> work (lbind m k) = w.
Proof.
  intros H E K. rewrite res_bind in E. apply bind_ok in E. destruct E as (a & E1 & E2).
  rewrite (work_step m k a); auto.
Qed.

Lemma work_seq {A B} (m : leaky A) (k : A -> leaky B) b w w' :
  result (lbind m k) = Ok b -> (forall a, result m = Ok a -> work m = w) ->
  (forall a, result m = Ok a -> result (k a) = Ok b -> work (k a) = w') -> work (lbind m k) = w ++ w'.
Proof.
  intros E H K. rewrite res_bind in E. apply bind_ok in E. destruct E as (a & E1 & E2).
  rewrite work_bind, E1, (H a E1), (K a E1 E2). reflexivity.
Qed.

Ltac idle := repeat first
  [ reflexivity | assumption
  | match goal with |- work (let '(_, _) := ?x in _) = [] => destruct x end
  | apply idle_bind; [reflexivity|intros]
  | match goal with |- work (if ?b then _ else _) = [] => destruct b end
  | match goal with |- work (match ?r with Some _ => _ | None => _ end) = [] => destruct r end ].

(** * The padding code does none *)

Lemma idle_left_pad i k : work (l_left_pad i k) = [].
Proof. unfold l_left_pad. idle. Qed.
Lemma idle_be_pad u k : work (l_uint_to_be_pad u k) = [].
Proof. unfold l_uint_to_be_pad. do 3 (apply idle_bind; [reflexivity|intros]). apply idle_left_pad. Qed.
Lemma idle_find_zero l : forall i len lk ix, work (l_find_zero l i len lk ix) = [].
Proof. induction l; intros; [reflexivity|]. cbn [l_find_zero]. apply idle_bind; [reflexivity|]. intros. apply IHl. Qed.
Lemma idle_unpad em k : work (l_pkcs1v15_encrypt_unpad em k) = [].
Proof.
  unfold l_pkcs1v15_encrypt_unpad. apply idle_bind; [|intros ((? & ?) & ?); idle].
  unfold l_pkcs1_decrypt_inner. apply idle_bind; [reflexivity|intros c]. destruct c; [reflexivity|].
  do 2 (apply idle_bind; [reflexivity|intros]). cbv zeta.
  apply idle_bind; [apply idle_find_zero|intros (? & ?)]. idle.
Qed.
Lemma idle_sign_pad p h k : work (l_pkcs1v15_sign_pad p h k) = [].
Proof. unfold l_pkcs1v15_sign_pad. cbv zeta. idle. Qed.

Section Pad.
  Context {R : Type} (g : rng_ops R).
  Lemma idle_refill f : forall r, work (l_refill g f r) = [].
  Proof.
    induction f; intros; [reflexivity|]. cbn [l_refill]. apply idle_bind; [reflexivity|intros (? & ?)].
    do 2 (apply idle_bind; [reflexivity|intros]). destruct a0; auto.
  Qed.
  Lemma idle_nz_loop f d : forall r, work (l_nz_loop g f r d) = [].
  Proof.
    induction d; intros; [reflexivity|]. cbn [l_nz_loop]. apply idle_bind; [reflexivity|intros c].
    apply idle_bind; [destruct c; [apply idle_refill|reflexivity]|intros (? & ?)].
    apply idle_bind; [auto|intros (? & ?)]. reflexivity.
  Qed.
  Lemma idle_encrypt_pad f r msg k : work (l_pkcs1v15_encrypt_pad g f r msg k) = [].
  Proof.
    unfold l_pkcs1v15_encrypt_pad. apply idle_bind; [reflexivity|intros c]. destruct c; [reflexivity|].
    do 5 (apply idle_bind; [reflexivity|intros]).
    apply idle_bind; [|intros (? & ?); idle].
    unfold l_non_zero_random_bytes. apply idle_bind; [reflexivity|intros (? & ?)]. apply idle_nz_loop.
  Qed.
End Pad.

Lemma idle_inc i : forall c, work (l_inc_counter_from i c) = [].
Proof.
  induction i; intros; [reflexivity|]. cbn [l_inc_counter_from]. apply idle_bind; [reflexivity|intros]. cbv zeta.
  apply idle_bind; [reflexivity|intros c0]. destruct c0; auto.
Qed.
Lemma idle_xor_block d : forall out i j len, work (l_xor_block out i d j len) = [].
Proof.
  induction d; intros; [reflexivity|]. cbn [l_xor_block]. apply idle_bind; [reflexivity|intros].
  apply idle_bind; [reflexivity|intros c]. destruct c; [reflexivity|].
  do 3 (apply idle_bind; [reflexivity|intros]). apply IHd.
Qed.
Lemma idle_mgf out dg seed : work (l_mgf1_xor out dg seed) = [].
Proof.
  unfold l_mgf1_xor. apply idle_bind; [reflexivity|intros _].
  generalize (length out) at 1. intros f. generalize 0%nat [x00; x00; x00; x00]. revert out dg.
  induction f; intros; cbn [l_mgf1_xor_loop]; (apply idle_bind; [reflexivity|intros c]); destruct c; try reflexivity.
  do 4 (apply idle_bind; [reflexivity|intros]). apply idle_bind; [reflexivity|intros (? & ?)].
  apply idle_bind; [apply idle_xor_block|intros (? & ?)]. apply idle_bind; [apply idle_inc|intros]. apply IHf.
Qed.
Lemma idle_mgf_digest out dg seed : work (l_mgf1_xor_digest out dg seed) = [].
Proof.
  unfold l_mgf1_xor_digest. apply idle_bind; [reflexivity|intros _].
  generalize (length out) at 1. intros f. generalize 0%nat [x00; x00; x00; x00]. revert out dg.
  induction f; intros; cbn [l_mgf1_xor_digest_loop]; (apply idle_bind; [reflexivity|intros c]); destruct c; try reflexivity.
  do 2 (apply idle_bind; [reflexivity|intros]). apply idle_bind; [reflexivity|intros (? & ?)].
  apply idle_bind; [apply idle_xor_block|intros (? & ?)]. apply idle_bind; [apply idle_inc|intros]. apply IHf.
Qed.
Lemma idle_scan l : forall pos len i lk ix nz, work (l_oaep_scan l pos len i lk ix nz) = [].
Proof. induction l; intros; [reflexivity|]. cbn [l_oaep_scan]. apply idle_bind; [reflexivity|]. intros. apply IHl. Qed.

Lemma idle_oaep_inner em h ph k mgf : (forall s d, work (mgf s d) = []) ->
  work (l_oaep_decrypt_inner em h ph k mgf) = [].
Proof.
  intros M. unfold l_oaep_decrypt_inner. apply idle_bind; [reflexivity|intros c]. destruct c; [reflexivity|].
  apply idle_bind; [reflexivity|intros c]. destruct c; [reflexivity|].
  apply idle_bind; [reflexivity|intros]. cbv zeta.
  do 2 (apply idle_bind; [reflexivity|intros (? & ?)]). apply idle_bind; [apply M|intros (? & ?)].
  do 2 (apply idle_bind; [reflexivity|intros]). apply idle_bind; [apply idle_scan|intros ((? & ?) & ?)]. idle.
Qed.
Lemma idle_oaep_finish r : work (l_oaep_finish r) = [].
Proof. destruct r as ((? & ?) & ?). unfold l_oaep_finish. idle. Qed.
Lemma idle_oaep_decrypt em dg mg label k : work (l_oaep_decrypt em dg mg label k) = [].
Proof.
  unfold l_oaep_decrypt. cbv zeta. apply idle_bind; [reflexivity|intros c]. destruct c; [reflexivity|].
  apply idle_bind; [reflexivity|intros]. apply idle_bind; [reflexivity|intros (? & ?)].
  apply idle_bind; [|intros; apply idle_oaep_finish]. apply idle_oaep_inner. intros ? ?.
  apply idle_bind; [apply idle_mgf|intros (? & ?)]. apply idle_bind; [apply idle_mgf|intros (? & ?)]. reflexivity.
Qed.
Lemma idle_oaep_decrypt_digest hd hm em label k : work (l_oaep_decrypt_digest hd hm em label k) = [].
Proof.
  unfold l_oaep_decrypt_digest. cbv zeta. apply idle_bind; [reflexivity|intros c]. destruct c; [reflexivity|].
  apply idle_bind; [reflexivity|intros].
  apply idle_bind; [|intros; apply idle_oaep_finish]. apply idle_oaep_inner. intros ? ?.
  apply idle_bind; [apply idle_mgf_digest|intros (? & ?)]. apply idle_bind; [apply idle_mgf_digest|intros (? & ?)].
  reflexivity.
Qed.

Section OaepEnc.
  Context {R : Type} (g : rng_ops R).
  Lemma idle_oaep_enc_inner r msg ph h k mgf : (forall s d, work (mgf s d) = []) ->
    work (l_oaep_encrypt_internal g r msg ph h k mgf) = [].
  Proof.
    intros M. unfold l_oaep_encrypt_internal. apply idle_bind; [reflexivity|intros c]. destruct c; [reflexivity|].
    apply idle_bind; [reflexivity|intros]. do 3 (apply idle_bind; [reflexivity|intros (? & ?)]).
    do 7 (apply idle_bind; [reflexivity|intros]). apply idle_bind; [apply M|intros (? & ?)]. reflexivity.
  Qed.
  Lemma idle_oaep_encrypt r msg dg mg label k : work (l_oaep_encrypt g r msg dg mg label k) = [].
  Proof.
    unfold l_oaep_encrypt. cbv zeta. apply idle_bind; [reflexivity|intros c]. destruct c; [reflexivity|].
    apply idle_bind; [reflexivity|intros]. apply idle_bind; [reflexivity|intros (? & ?)].
    apply idle_oaep_enc_inner. intros ? ?.
    apply idle_bind; [apply idle_mgf|intros (? & ?)]. apply idle_bind; [apply idle_mgf|intros (? & ?)]. reflexivity.
  Qed.
  Lemma idle_oaep_encrypt_digest hd hm r msg label k : work (l_oaep_encrypt_digest g hd hm r msg label k) = [].
  Proof.
    unfold l_oaep_encrypt_digest. cbv zeta. apply idle_bind; [reflexivity|intros c]. destruct c; [reflexivity|].
    apply idle_bind; [reflexivity|intros]. apply idle_oaep_enc_inner. intros ? ?.
    apply idle_bind; [apply idle_mgf_digest|intros (? & ?)]. apply idle_bind; [apply idle_mgf_digest|intros (? & ?)].
    reflexivity.
  Qed.
End OaepEnc.

Lemma idle_pss_encode mh eb salt dg : work (l_emsa_pss_encode mh eb salt dg) = [].
Proof.
  unfold l_emsa_pss_encode. cbv zeta.
  repeat first [ reflexivity | apply idle_mgf
               | apply idle_bind; [first [reflexivity|apply idle_mgf]|intros]
               | match goal with |- work (let '(_, _) := ?x in _) = [] => destruct x end
               | match goal with |- work (if ?b then _ else _) = [] => destruct b end ].
Qed.
Lemma idle_pss_encode_digest hd mh eb salt : work (l_emsa_pss_encode_digest hd mh eb salt) = [].
Proof.
  unfold l_emsa_pss_encode_digest. cbv zeta.
  repeat first [ reflexivity | apply idle_mgf_digest
               | apply idle_bind; [first [reflexivity|apply idle_mgf_digest]|intros]
               | match goal with |- work (let '(_, _) := ?x in _) = [] => destruct x end
               | match goal with |- work (if ?b then _ else _) = [] => destruct b end ].
Qed.

(** * The private operation *)

Lemma idle_reduce n p : work (l_reduce_vartime n p) = [].
Proof.
  unfold l_reduce_vartime. cbv zeta. do 2 (apply idle_bind; [reflexivity|intros]).
  apply idle_bind; [destruct a; [reflexivity|destruct a0; reflexivity]|intros]. idle.
Qed.

Lemma mf_new_params x p f : mf_new x p = Ok f -> mf_params f = p.
Proof. unfold mf_new. destruct (_ =? _); [|discriminate]. intros H. injection H as <-. reflexivity. Qed.

Lemma reduce_params n p f : reduce_vartime n p = Ok f -> mf_params f = p.
Proof.
  intros H. rewrite <- rf_reduce in H. unfold l_reduce_vartime in H. cbv zeta in H.
  repeat (rewrite res_bind in H; apply bind_ok in H; destruct H as (? & _ & H)).
  apply mf_new_params in H. exact H.
Qed.

Lemma work_pow_mod b e p r : pow_mod_params b e p = Ok r -> work (l_pow_mod_params b e p) = [(mp_prec p, uprec e)].
Proof.
  intros H. rewrite <- rf_pow in H. unfold l_pow_mod_params in *.
  eapply work_pass; [apply idle_reduce|exact H|]. intros f Hf _. rewrite rf_reduce in Hf.
  cbn. rewrite (reduce_params _ _ _ Hf). reflexivity.
Qed.

Lemma idle_mul_mod a b p : work (l_mul_mod_params a b p) = [].
Proof. unfold l_mul_mod_params. idle. Qed.
Lemma idle_unblind m u p : work (l_unblind m u p) = [].
Proof. unfold l_unblind. do 2 (apply idle_bind; [reflexivity|intros]). apply idle_mul_mod. Qed.

Section Private.
  Context {R : Type} (g : rng_ops R).

  Lemma idle_blind_loop f : forall st key, work (l_blind_loop g f st key) = [].
  Proof.
    induction f; intros; [reflexivity|]. cbn [l_blind_loop]. apply idle_bind; [reflexivity|intros (? & ?)].
    do 2 (apply idle_bind; [reflexivity|intros]). cbv zeta. do 2 (apply idle_bind; [reflexivity|intros]).
    destruct a1; [reflexivity|apply IHf].
  Qed.

  Lemma work_blind f st key c p b :
    blind g f st key c p = Ok b -> work (l_blind g f st key c p) = [(mp_prec p, uprec (pk_e key))].
  Proof.
    intros H. rewrite <- rf_blind in H. unfold l_blind in *. cbv zeta in *.
    eapply work_pass; [reflexivity|exact H|]. clear H. intros u _ H. cbv beta in H.
    eapply work_pass; [apply idle_blind_loop|exact H|]. clear H. intros ((r & ir) & st') _ H. cbv beta iota in *.
    rewrite work_bind. rewrite res_bind in H. apply bind_ok in H. destruct H as (x & E & _). rewrite E.
    rewrite rf_pow in E. rewrite (work_pow_mod _ _ _ _ E). cbn [app]. f_equal.
    apply idle_bind; [apply idle_mul_mod|intros]. idle.
  Qed.

  Lemma idle_blind f st key c p : (forall x, blind_loop g f st key <> Ok x) ->
    work (l_blind g f st key c p) = [].
  Proof.
    intros H. unfold l_blind. cbv zeta. apply idle_bind; [reflexivity|intros _].
    rewrite work_bind, idle_blind_loop, rf_blind_loop. destruct (blind_loop g f st key); try reflexivity.
    exfalso. eapply H. reflexivity.
  Qed.

  Lemma work_crt c pc q m : crt_pow c pc q = Ok m ->
    work (l_crt_pow c pc q) = [(mp_prec (pc_p_params pc), uprec (pc_dp pc)); (mp_prec (pc_q_params pc), uprec (pc_dq pc))].
  Proof.
    intros H. rewrite <- rf_crt in H. unfold l_crt_pow in *.
    eapply work_pass; [reflexivity|exact H|]. clear H. intros cp Hp H. apply mf_new_params in Hp.
    rewrite work_bind. rewrite res_bind in H. apply bind_ok in H. destruct H as (m1 & E & H). rewrite E.
    transitivity ([(mp_prec (mf_params cp), uprec (pc_dp pc))] ++ [(mp_prec (pc_q_params pc), uprec (pc_dq pc))]).
    2:{ rewrite Hp. reflexivity. }
    f_equal. eapply work_pass; [reflexivity|exact H|]. clear H. intros cq Hq H. apply mf_new_params in Hq.
    rewrite work_bind. rewrite res_bind in H. apply bind_ok in H. destruct H as (m2 & E' & H). rewrite E'.
    transitivity ([(mp_prec (mf_params cq), uprec (pc_dq pc))] ++ []).
    2:{ rewrite Hq. reflexivity. }
    f_equal. idle.
  Qed.

  Definition widths_agree (k : privkey) : Prop :=
    match sk_pre k with
    | Some pc => mp_prec (pc_p_params pc) = uprec (sk_d k) /\ mp_prec (pc_q_params pc) = uprec (sk_d k) /\
                 uprec (pc_dp pc) = uprec (sk_d k) /\ uprec (pc_dq pc) = uprec (sk_d k)
    | None => True
    end.

  Lemma work_decrypt f rng k c m : wf_pub (sk_pub k) -> widths_agree k ->
    rsa_decrypt g f rng k c = Ok m ->
    work (l_rsa_decrypt g f rng k c)
    = match rng with Some _ => public_work (sk_pub k) | None => [] end ++ private_work k.
  Proof.
    intros ((_ & P1 & P2) & _ & Hpar & _) W H. rewrite <- (rf_rsa_decrypt g) in H.
    assert (MP : mp_prec (pk_params (sk_pub k)) = uprec (pk_n (sk_pub k))).
    { rewrite Hpar. reflexivity. }
    unfold l_rsa_decrypt in *. cbv zeta in *.
    eapply work_pass; [reflexivity|exact H|]. clear H. intros c0 _ H. cbv beta in H.
    eapply work_pass; [reflexivity|exact H|]. clear H. intros ge _ H. cbv beta in H.
    destruct ge; [discriminate|].
    eapply work_pass; [reflexivity|exact H|]. clear H. intros b0 _ H. cbv beta in H.
    eapply work_seq; [exact H| |]; clear H.
    - intros (c1, ir) E. destruct rng as [st|]; [|idle].
      rewrite res_bind in E. apply bind_ok in E. destruct E as ((bl & un) & E & _).
      rewrite work_bind, E. rewrite rf_blind in E. rewrite (work_blind _ _ _ _ _ _ E), MP.
      rewrite idle_bind; auto.
    - intros (c1, ir) E H. cbv beta iota in H.
      eapply work_pass; [reflexivity|exact H|]. clear H. intros b1 _ H. cbv beta in H.
      rewrite <- (app_nil_r (private_work k)). eapply work_seq; [exact H| |].
      + intros m1 E1. unfold private_work. unfold widths_agree in W. destruct (sk_pre k) as [pc|].
        * destruct W as (W1 & W2 & W3 & W4). revert E1. intros E1.
          eapply work_pass; [reflexivity|exact E1|]. clear E1. intros mp Hmp E1. injection Hmp as Hmp.
          cbv beta in E1. rewrite Hmp. destruct mp.
          -- rewrite rf_pow in E1. rewrite (work_pow_mod _ _ _ _ E1), MP. reflexivity.
          -- eapply work_pass; [reflexivity|exact E1|]. clear E1. intros pp _ E1. cbv beta in E1.
             eapply work_pass; [reflexivity|exact E1|]. clear E1. intros q _ E1. cbv beta in E1.
             rewrite rf_crt in E1. rewrite (work_crt _ _ _ _ E1), W1, W2, W3, W4. reflexivity.
        * rewrite rf_pow in E1. rewrite (work_pow_mod _ _ _ _ E1), MP. reflexivity.
      + intros m1 _ _. do 2 (apply idle_bind; [reflexivity|intros]). destruct ir; [apply idle_unblind|reflexivity].
  Qed.

  Lemma work_check f rng k c m : wf_pub (sk_pub k) -> widths_agree k ->
    rsa_decrypt_and_check g f k rng c = Ok m ->
    work (l_rsa_decrypt_and_check g f k rng c) = operation_work rng k.
  Proof.
    intros Hp W H. pose proof Hp as ((_ & P1 & P2) & _ & Hpar & _). rewrite <- (rf_rsa_check g) in H.
    assert (MP : mp_prec (pk_params (sk_pub k)) = uprec (pk_n (sk_pub k))).
    { rewrite Hpar. reflexivity. }
    unfold l_rsa_decrypt_and_check in *. unfold operation_work. rewrite app_assoc.
    eapply work_seq; [exact H| |]; clear H.
    - intros m1 E. rewrite rf_rsa_decrypt in E. eapply work_decrypt; eauto.
    - intros m1 _ H. rewrite <- (app_nil_r (public_work _)). eapply work_seq; [exact H| |].
      + intros ch E. rewrite rf_encrypt in E. unfold l_rsa_encrypt. unfold rsa_encrypt in E.
        rewrite (work_pow_mod _ _ _ _ E), MP. reflexivity.
      + intros. idle.
  Qed.

  Lemma good_widths k : good_priv k -> widths_agree k.
  Proof.
    intros (_ & Hd & HF & _ & _ & Hc). unfold widths_agree. destruct (sk_pre k) as [pc|] eqn:E; auto.
    destruct (pre_consistent_inv k pc Hd HF Hc E) as (p & q & rest & qinv & _ & H). cbv zeta in H.
    destruct H as (_ & _ & _ & _ & _ & _ & ->). cbn [pc_p_params pc_q_params pc_dp pc_dq uprec].
    auto.
  Qed.

  Lemma idle_range f rng k c : uval (pk_n (sk_pub k)) <= uval c ->
    work (l_rsa_decrypt_and_check g f k rng c) = [].
  Proof.
    intros H. unfold l_rsa_decrypt_and_check. rewrite work_bind, rf_rsa_decrypt, rsa_decrypt_range by auto.
    rewrite app_nil_r. unfold l_rsa_decrypt. cbv zeta. eapply eq_trans; [eapply work_step; reflexivity|].
    eapply eq_trans; [eapply work_step; reflexivity|]. unfold uleb.
    rewrite (proj2 (Z.leb_le _ _) H). reflexivity.
  Qed.

  (** with a valid key the operation does all of its work, or none *)
  Lemma work_operation f rng k c :
    (rng <> None -> rng_ok g) -> good_priv k -> wf_uint c -> uprec c = uprec (pk_n (sk_pub k)) ->
    uval c < uval (pk_n (sk_pub k)) ->
    work (l_rsa_decrypt_and_check g f k rng c)
    = match rsa_decrypt_and_check g f k rng c with Ok _ => operation_work rng k | _ => [] end.
  Proof.
    intros Hr Hk Hc Hcp Hcn. pose proof (good_pub k Hk) as Hp. pose proof (good_gt1 k Hk) as H1.
    pose proof (rsa_decrypt_and_check_good g f rng k c Hr Hk Hc Hcp Hcn) as (A & B & C).
    pose proof (rsa_decrypt_good g f rng k c Hr Hk Hc Hcp Hcn) as (_ & B' & C').
    assert (X : forall x, rsa_decrypt_and_check g f k rng c = Ok x ->
                work (l_rsa_decrypt_and_check g f k rng c) = operation_work rng k)
      by (intros; eapply work_check; eauto using good_widths).
    destruct (blinding_trichotomy g (uval (pk_n (sk_pub k))) rng f) as [T|T].
    { rewrite (A T). eapply X. apply A; auto. }
    destruct rng as [st|]; [|destruct T as [[]|[]]]. cbn [blinding_fails blinding_undecided] in *.
    assert (N : forall x, blind_loop g f st (sk_pub k) <> Ok x).
    { intros x E. destruct T as [(j & Hj & T)|T].
      - rewrite (blind_loop_fails g _ (proj1 Hp) H1 _ _ T f Hj) in E. discriminate.
      - rewrite (blind_loop_unusable g _ (proj1 Hp) H1 _ _ T) in E. discriminate. }
    assert (Z : work (l_rsa_decrypt_and_check g f k (Some st) c) = []).
    { unfold l_rsa_decrypt_and_check. rewrite work_bind, rf_rsa_decrypt.
      replace (match rsa_decrypt g f (Some st) k c with Ok a => _ | _ => [] end) with (@nil (Z * Z))
        by (destruct T as [T|T]; [rewrite (B' T)|rewrite (C' T)]; reflexivity).
      rewrite app_nil_r. unfold l_rsa_decrypt. cbv zeta. eapply eq_trans; [eapply work_step; reflexivity|].
      eapply eq_trans; [eapply work_step; reflexivity|]. unfold uleb.
      rewrite (proj2 (Z.leb_gt _ _) Hcn). eapply eq_trans; [eapply work_step; reflexivity|].
      cbv beta iota. rewrite work_bind, res_bind, rf_blind. rewrite work_bind, idle_blind by auto. rewrite rf_blind.
      replace (blind g f st (sk_pub k) c (pk_params (sk_pub k))) with
        (match blind_loop g f st (sk_pub k) with Ok _ => @Panic (uint * uint) | Err e => Err e | Panic => Panic | OutOfFuel => OutOfFuel end).
      - destruct (blind_loop g f st (sk_pub k)) eqn:E; try reflexivity.
      - unfold blind. destruct (assert_ _) eqn:E'.
        2-4: exfalso; unfold assert_, ueqb in E'; rewrite (proj1 (proj2 (proj2 Hp))) in E'; cbn [mp_modulus] in E';
             rewrite Z.eqb_refl in E'; discriminate.
        cbn [bind]. destruct (blind_loop g f st (sk_pub k)) as [[[? ?] ?]| | |] eqn:E; cbn [bind]; try reflexivity.
        exfalso. eapply N. reflexivity. }
    destruct T as [T|T]; [rewrite (B T)|rewrite (C T)]; exact Z.
  Qed.

  (** the same, from octets to octets, whatever is done with them afterwards *)
  Lemma work_core {A} f rng k ct (rd : leaky uint) (next : list byte -> leaky A) :
    (rng <> None -> rng_ok g) -> good_priv k ->
    work rd = [] -> result rd = from_be_slice ct (n_bits_precision (sk_pub k)) ->
    (forall em, work (next em) = []) ->
    8 * Z.of_nat (length ct) <= uprec (pk_n (sk_pub k)) -> os2ip ct < uval (pk_n (sk_pub k)) ->
    work (let! c := rd in
          let! m := l_rsa_decrypt_and_check g f k rng c in
          let! em := l_uint_to_be_pad m (key_size (sk_pub k)) in next em)
    = match decrypt_core g f rng k ct with Ok _ => operation_work rng k | _ => [] end.
  Proof.
    intros Hr Hk W E Hn Hl Hc. pose proof (good_pub k Hk) as Hp. pose proof Hp as ((Hv & Hp1 & Hm) & _).
    unfold n_bits_precision in E. rewrite from_be_slice_fits in E by auto.
    rewrite (work_step _ _ _ W E). rewrite work_bind.
    assert (Wf : wf_uint (mkU (os2ip ct) (uprec (pk_n (sk_pub k))))) by (apply os2ip_wf; auto).
    rewrite (work_operation f rng k _ Hr Hk Wf eq_refl Hc).
    unfold decrypt_core, n_bits_precision. rewrite from_be_slice_fits by auto. cbn [bind].
    rewrite rf_rsa_check. destruct (rsa_decrypt_and_check_good g f rng k _ Hr Hk Wf eq_refl Hc) as (A1 & A2 & A3).
    destruct (blinding_trichotomy g (uval (pk_n (sk_pub k))) rng f) as [T|[T|T]].
    - destruct (decrypt_core_good g f rng k ct Hr Hk Hl Hc) as (D & _). specialize (D T).
      unfold decrypt_core, n_bits_precision in D. rewrite from_be_slice_fits in D by auto. cbn [bind] in D.
      rewrite (A1 T) in *. cbn [bind] in *. rewrite D.
      rewrite (idle_bind _ _ (idle_be_pad _ _)) by auto. apply app_nil_r.
    - rewrite (A2 T). reflexivity.
    - rewrite (A3 T). reflexivity.
  Qed.

  (** refused before the operation *)
  Lemma idle_core {A} f rng k ct (rd : leaky uint) (next : list byte -> leaky A) :
    wf_pub (sk_pub k) ->
    work rd = [] -> result rd = from_be_slice ct (n_bits_precision (sk_pub k)) ->
    uprec (pk_n (sk_pub k)) < 8 * Z.of_nat (length ct) \/ uval (pk_n (sk_pub k)) <= os2ip ct ->
    work (let! c := rd in
          let! m := l_rsa_decrypt_and_check g f k rng c in
          let! em := l_uint_to_be_pad m (key_size (sk_pub k)) in next em) = [].
  Proof.
    intros Hp W E H. pose proof Hp as ((Hv & Hp1 & Hm) & _).
    rewrite work_bind, W, E. cbn [app].
    destruct (Z.le_gt_cases (8 * Z.of_nat (length ct)) (uprec (pk_n (sk_pub k)))) as [L|L].
    - unfold n_bits_precision. rewrite from_be_slice_fits by auto. rewrite work_bind, rf_rsa_check, idle_range by (cbn [uval]; lia).
      rewrite rsa_decrypt_and_check_range by (cbn [uval]; lia). reflexivity.
    - pose proof (decrypt_core_long g f rng k ct Hp L) as D. unfold decrypt_core in D.
      destruct (from_be_slice _ _) as [u| | |] eqn:Eu; try reflexivity.
      exfalso. cbn [bind] in D. destruct (wf_prec _ (proj1 Hp)) as (j & Hj & Hj1).
      unfold n_bits_precision in Eu. rewrite from_be_slice_spec in Eu by lia.
      destruct (Z.eqb_spec (Z.of_nat (length ct)) 0); [lia|]. cbn [andb] in Eu.
      replace ((uprec (pk_n (sk_pub k)) + 7) / 8) with (8 * j) in Eu
        by (rewrite Hj; apply Z.div_unique with 7; lia).
      destruct (Z.ltb_spec (8 * j) (Z.of_nat (length ct))); [discriminate|lia].
  Qed.
End Private.

(** * The calls *)

Lemma work_encrypt_core pk em (rd : leaky uint) :
  wf_pub pk -> length em = key_size pk ->
  work rd = [] -> result rd = from_be_slice em (n_bits_precision pk) ->
  work (let! int := rd in let! c := l_rsa_encrypt pk int in l_uint_to_be_pad c (key_size pk)) = public_work pk.
Proof.
  intros Hp Hl W E. pose proof (encrypt_core_ok pk em Hp Hl) as X. unfold encrypt_core in X.
  destruct (from_be_slice em (n_bits_precision pk)) as [u| | |]; try discriminate. cbn [bind] in X.
  rewrite (work_step _ _ _ W E). destruct (rsa_encrypt pk u) as [c| | |] eqn:Ec; try discriminate.
  rewrite work_bind, rf_encrypt, Ec, idle_be_pad, app_nil_r. unfold l_rsa_encrypt. unfold rsa_encrypt in Ec.
  rewrite (work_pow_mod _ _ _ _ Ec). destruct Hp as (_ & _ & -> & _). reflexivity.
Qed.

Section Calls.
  Context {R : Type} (g : rng_ops R).

  Lemma work_public {A B} (o : outcome A) (k : A -> leaky B) :
    work (lbind (l_public o) k) = match o with Ok a => work (k a) | _ => [] end.
  Proof. rewrite work_bind. reflexivity. Qed.

  Lemma pkcs1_encrypt_work f st pk msg : rng_ok g -> wf_pub pk ->
    work (l_pkcs1v15_encrypt g f st pk msg)
    = match pkcs1v15_encrypt g f st pk msg with Ok _ => public_work pk | _ => [] end.
  Proof.
    intros Hg Hp. rewrite pkcs1v15_encrypt_core. unfold l_pkcs1v15_encrypt. rewrite work_public.
    destruct (check_public pk); try reflexivity. cbn [bind].
    rewrite work_bind, idle_encrypt_pad, rf_encrypt_pad. cbn [app].
    destruct (pkcs1v15_encrypt_pad g f st msg (key_size pk)) as [em| | |] eqn:E; try reflexivity. cbn [bind].
    assert (L : length em = key_size pk) by (apply encrypt_pad_ok in E; [apply E|auto]).
    rewrite encrypt_core_ok by auto. apply work_encrypt_core with em; auto.
  Qed.

  Lemma oaep_encrypt_work st pk msg hd hm label : rng_ok g -> (0 < h_size hm)%nat -> wf_pub pk ->
    work (l_oaep_api_encrypt_digest g hd hm st pk msg label)
    = match oaep_api_encrypt_digest g hd hm st pk msg label with Ok _ => public_work pk | _ => [] end /\
    work (l_oaep_api_encrypt g st pk msg (digest_new hd) (digest_new hm) label)
    = match oaep_api_encrypt_digest g hd hm st pk msg label with Ok _ => public_work pk | _ => [] end.
  Proof.
    intros Hg Hm Hp.
    assert (L : forall em, check_public pk = Ok tt ->
                oaep_encrypt_digest g hd hm st msg label (key_size pk) = Ok em -> length em = key_size pk).
    { intros em Hu. apply check_public_ok in Hu; auto. pose proof (usable_size _ Hp Hu).
      rewrite oaep_encrypt_digest_spec by (auto; lia). destruct (2 ^ 61 <=? _); [discriminate|].
      destruct (Nat.ltb_spec (key_size pk) (length msg + 2 * h_size hd + 2)); [discriminate|].
      destruct (rng_fill g st (h_size hd)) as [[seed|] st'] eqn:E; [|discriminate].
      intros X. injection X as <-. apply oaep_encode_length; auto. eapply (proj1 Hg); eauto. }
    rewrite oaep_api_encrypt_core. unfold l_oaep_api_encrypt_digest, l_oaep_api_encrypt. rewrite !work_public.
    destruct (check_public pk) as [[]| | |]; try (split; reflexivity). cbn [bind]. specialize (fun em => L em eq_refl).
    rewrite !work_bind, idle_oaep_encrypt_digest, idle_oaep_encrypt, rf_oaep_encrypt_digest, rf_oaep_encrypt. cbn [app].
    rewrite oaep_encrypt_agree.
    destruct (oaep_encrypt_digest g hd hm st msg label (key_size pk)) as [em| | |]; try (split; reflexivity). cbn [bind].
    specialize (L em eq_refl). rewrite encrypt_core_ok by auto.
    split; apply work_encrypt_core with em; auto.
  Qed.

  Lemma pkcs1_decrypt_work f rng k ct :
    (rng <> None -> rng_ok g) -> good_priv k ->
    public_usable (uval (pk_n (sk_pub k))) (uval (pk_e (sk_pub k))) (uprec (pk_n (sk_pub k))) ->
    work (l_pkcs1v15_decrypt g f rng k ct)
    = match decrypt_core g f rng k ct with Ok _ => operation_work rng k | _ => [] end.
  Proof.
    intros Hr Hk Hu. pose proof (good_pub k Hk) as Hp. apply check_public_ok in Hu; auto.
    unfold l_pkcs1v15_decrypt. cbv zeta. rewrite work_public, Hu.
    destruct (Z.le_gt_cases (8 * Z.of_nat (length ct)) (uprec (pk_n (sk_pub k)))) as [L|L].
    - destruct (Z.le_gt_cases (uval (pk_n (sk_pub k))) (os2ip ct)) as [C|C].
      + rewrite decrypt_core_range by auto. apply idle_core with ct; auto.
      + apply work_core; auto. intros. apply idle_unpad.
    - rewrite decrypt_core_long by auto. apply idle_core with ct; auto.
  Qed.

  Lemma oaep_decrypt_work f rng k ct hd hm dg mg label :
    (rng <> None -> rng_ok g) -> good_priv k ->
    let W := if (length ct =? key_size (sk_pub k))%nat
             then match decrypt_core g f rng k ct with Ok _ => operation_work rng k | _ => [] end else [] in
    work (l_oaep_api_decrypt g f rng k ct dg mg label) = W /\
    (public_usable (uval (pk_n (sk_pub k))) (uval (pk_e (sk_pub k))) (uprec (pk_n (sk_pub k))) ->
     work (l_oaep_api_decrypt_digest g hd hm f rng k ct label) = W).
  Proof.
    intros Hr Hk W. pose proof (good_pub k Hk) as Hp. destruct (key_size_facts _ Hp) as (_ & K2 & _).
    assert (X : forall (next : list byte -> leaky (list byte)), (forall em, work (next em) = []) ->
                work (let! c := l_if (negb (length ct =? key_size (sk_pub k))%nat) in
                      if c then lerr Decryption
                      else let! c := l_public (from_be_slice ct (n_bits_precision (sk_pub k))) in
                           let! em := l_rsa_decrypt_and_check g f k rng c in
                           let! em := l_uint_to_be_pad em (key_size (sk_pub k)) in next em) = W).
    { intros next Hn. eapply eq_trans; [eapply work_step; reflexivity|]. unfold W.
      destruct (Nat.eqb_spec (length ct) (key_size (sk_pub k))) as [L|L]; cbn [negb]; [|reflexivity].
      rewrite <- L in K2.
      destruct (Z.le_gt_cases (uval (pk_n (sk_pub k))) (os2ip ct)) as [C|C].
      - rewrite decrypt_core_range by auto. apply idle_core with ct; auto.
      - apply work_core; auto. }
    split.
    - apply X. intros. apply idle_oaep_decrypt.
    - intros Hu. apply check_public_ok in Hu; auto. unfold l_oaep_api_decrypt_digest. cbv zeta.
      rewrite work_public, Hu. apply X. intros. apply idle_oaep_decrypt_digest.
  Qed.

  Lemma next_lret {A B C} (m : leaky A) (f : A -> leaky B) (h : B -> leaky C) :
    work (lbind m f) = work (let! a := m in let! b := f a in lret b).
  Proof.
    rewrite !work_bind. destruct (result m); auto. rewrite work_bind.
    destruct (result (f a)); cbn; rewrite ?app_nil_r; auto.
  Qed.

  Lemma work_sign_core f rng k em :
    (rng <> None -> rng_ok g) -> good_priv k ->
    8 * Z.of_nat (length em) <= uprec (pk_n (sk_pub k)) -> os2ip em < uval (pk_n (sk_pub k)) ->
    work (let! em := l_from_be_slice em (n_bits_precision (sk_pub k)) in
          let! s := l_rsa_decrypt_and_check g f k rng em in
          l_uint_to_be_pad s (key_size (sk_pub k)))
    = match decrypt_core g f rng k em with Ok _ => operation_work rng k | _ => [] end.
  Proof.
    intros Hr Hk L C.
    rewrite <- (work_core g f rng k em (l_from_be_slice em (n_bits_precision (sk_pub k))) (fun b => lret b)); auto.
    rewrite !work_bind. f_equal. destruct (result (l_from_be_slice em (n_bits_precision (sk_pub k)))); auto.
    apply (next_lret (l_rsa_decrypt_and_check g f k rng a)
             (fun s => l_uint_to_be_pad s (key_size (sk_pub k))) (fun b => lret b)).
  Qed.

  Lemma pkcs1_sign_work f rng k prefix hashed :
    (rng <> None -> rng_ok g) -> good_priv k ->
    work (l_pkcs1v15_sign g f rng k prefix hashed)
    = match pkcs1v15_sign g f rng k prefix hashed with Ok _ => operation_work rng k | _ => [] end.
  Proof.
    intros Hr Hk. pose proof (good_pub k Hk) as Hp. destruct (key_size_facts _ Hp) as (_ & K2 & _).
    rewrite pkcs1v15_sign_core. unfold l_pkcs1v15_sign. cbv zeta.
    rewrite work_bind, idle_sign_pad, rf_sign_pad. cbn [app].
    destruct (Nat.le_gt_cases (length (prefix ++ hashed) + 11) (key_size (sk_pub k))) as [L|L].
    - rewrite sign_pad_ok by auto. cbn [bind]. apply work_sign_core; auto.
      + rewrite emsa_pkcs1_length by auto. auto.
      + apply emsa_pkcs1_lt; auto.
    - rewrite sign_pad_err by auto. reflexivity.
  Qed.

  Lemma sign_pss_work hd f rng k hashed salt :
    (rng <> None -> rng_ok g) -> (0 < h_size hd)%nat -> good_priv k -> uprec (pk_n (sk_pub k)) < 2 ^ 32 ->
    let W := match sign_pss_with_salt_digest g hd f rng k hashed salt with Ok _ => operation_work rng k | _ => [] end in
    work (l_sign_pss_with_salt_digest g hd f rng k hashed salt) = W /\
    work (l_sign_pss_with_salt g f rng k hashed salt (digest_new hd)) = W.
  Proof.
    intros Hr Hh Hk H32 W. pose proof (good_pub k Hk) as Hp. destruct (key_size_facts _ Hp) as (_ & H2 & _).
    destruct (nbits_facts _ Hp) as (B1 & B2 & B3 & B4 & B5).
    set (emBits := (Z.to_nat (ubits (pk_n (sk_pub k))) - 1)%nat) in *.
    pose proof (prec32_size _ Hp H32) as Hs. unfold W.
    rewrite sign_pss_core. unfold l_sign_pss_with_salt_digest, l_sign_pss_with_salt. cbv zeta.
    rewrite !work_public. rewrite usub_ok by auto. cbn [bind]. fold emBits.
    rewrite !work_bind, idle_pss_encode, idle_pss_encode_digest, rf_pss_encode, rf_pss_encode_digest, emsa_pss_encode_agree.
    cbn [app]. rewrite emsa_pss_encode_digest_spec by (auto; lia).
    destruct (Nat.eqb_spec (length hashed) (h_size hd)) as [E|E]; [|split; reflexivity]. cbn [negb].
    destruct (Nat.ltb_spec (pss_em_len emBits) (h_size hd + length salt + 2)) as [L|L]; [split; reflexivity|]. cbn [bind].
    assert (X : work (let! em := l_from_be_slice (pss_encode (h_fun hd) (h_size hd) hashed salt emBits) (n_bits_precision (sk_pub k)) in
          let! s := l_rsa_decrypt_and_check g f k rng em in
          l_uint_to_be_pad s (key_size (sk_pub k)))
      = match decrypt_core g f rng k (pss_encode (h_fun hd) (h_size hd) hashed salt emBits) with
        | Ok _ => operation_work rng k | _ => [] end).
    { apply work_sign_core; auto.
      + rewrite pss_encode_length by auto. lia.
      + pose proof (pss_encode_value hd hashed salt emBits Hh L). lia. }
    split; exact X.
  Qed.

  Lemma pss_sign_work hd f st bl k hashed sl :
    rng_ok g -> (0 < h_size hd)%nat -> good_priv k -> uprec (pk_n (sk_pub k)) < 2 ^ 32 ->
    let W := match pss_sign_digest g hd f st bl k hashed sl with
             | Ok _ => operation_work (if bl then Some st else None) k | _ => [] end in
    work (l_pss_sign_digest g hd f st bl k hashed sl) = W /\
    work (l_pss_sign g f st bl k hashed sl (digest_new hd)) = W.
  Proof.
    intros Hg Hh Hk H32 W. unfold W, pss_sign_digest, l_pss_sign_digest, l_pss_sign.
    assert (F : forall (next : list byte -> R -> leaky (list byte)),
              work (let! _ := l_vec x00 sl in let! (salt, rng) := l_fill g st sl in
                    let! _ := l_if bl in next salt rng)
              = match rng_fill g st sl with (Some salt, st') => work (next salt st') | _ => [] end).
    { intros next. eapply eq_trans; [eapply work_step; reflexivity|]. cbv beta. rewrite work_bind. unfold l_fill.
      destruct (rng_fill g st sl) as [[salt|] st']; [|reflexivity]. cbn [result emit snd].
      apply (work_step (l_if bl) (fun _ => next salt st') bl); reflexivity. }
    rewrite !F. destruct (rng_fill g st sl) as [[salt|] st']; [|split; reflexivity].
    replace (operation_work (if bl then Some st else None) k) with (operation_work (if bl then Some st' else None) k)
      by (destruct bl; reflexivity).
    apply sign_pss_work; auto.
  Qed.

  (** when the operation is reached *)
  Lemma core_cases f rng k ct :
    (rng <> None -> rng_ok g) -> good_priv k ->
    let n := uval (pk_n (sk_pub k)) in
    let W := match decrypt_core g f rng k ct with Ok _ => operation_work rng k | _ => [] end in
    (uprec (pk_n (sk_pub k)) < 8 * Z.of_nat (length ct) \/ n <= os2ip ct -> W = []) /\
    (8 * Z.of_nat (length ct) <= uprec (pk_n (sk_pub k)) -> os2ip ct < n ->
     (blinding_succeeds g n rng f -> W = operation_work rng k) /\
     (blinding_fails g n rng f \/ blinding_undecided g n rng f -> W = [])).
  Proof.
    intros Hr Hk n W. pose proof (good_pub k Hk) as Hp. unfold W. split.
    - intros H. destruct (Z.le_gt_cases (8 * Z.of_nat (length ct)) (uprec (pk_n (sk_pub k)))) as [L|L].
      + rewrite decrypt_core_range by (auto; lia). reflexivity.
      + rewrite decrypt_core_long by auto. reflexivity.
    - intros L C. destruct (decrypt_core_good g f rng k ct Hr Hk L C) as (A & B & D).
      split; [intros T; rewrite (A T); reflexivity|].
      intros [T|T]; [rewrite (B T)|rewrite (D T)]; reflexivity.
  Qed.
End Calls.

(** * With and without the CRT values *)

Lemma total_app cost a b : total cost (a ++ b) = total cost a + total cost b.
Proof. induction a as [|(m, e) a IH]; cbn [total app]; lia. Qed.

Lemma precomputed_costs_more {R} (rng : option R) cost k :
  (forall m e, 0 < m -> 0 < e -> 0 < cost m e) ->
  (forall m m' e, m <= m' -> cost m e <= cost m' e) ->
  good_priv k -> sk_pre k <> None -> length (sk_primes k) = 2%nat ->
  total cost (operation_work rng (clear_precomputed k)) < total cost (operation_work rng k).
Proof.
  intros Hpos Hmono Hk Hpre HL. destruct Hk as (_ & (_ & D1 & _) & _ & _ & Hprec & _).
  unfold operation_work. rewrite !total_app. unfold private_work. cbn [clear_precomputed sk_pre sk_pub sk_d].
  destruct (sk_pre k); [|contradiction]. rewrite HL. cbn [Nat.ltb Nat.leb total].
  pose proof (Hmono _ _ (uprec (sk_d k)) Hprec). pose proof (Hpos (uprec (sk_d k)) (uprec (sk_d k)) ltac:(lia) ltac:(lia)).
  lia.
Qed.
