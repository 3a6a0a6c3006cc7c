(** What is asked of the caller's random source, read off the execution traces. *)
From Coq Require Import ZArith List Bool Lia.
From Coq Require Import Init.Byte.
From Verif Require Import Base Bigint BytesLemmas BigintLemmas NumTheory SpecRFC SpecRng SpecLeak SpecRequests MHash MPad MMgf MPkcs1 MOaep MPss
  MRsa MKey MApi KeyDefs MLeak MLeakEnc PRsa PLeak.
Import ListNotations.
Local Open Scope Z_scope.

Definition quiet {A} (m : leaky A) : Prop := reqs m = [].

Lemma reqs_bind {A B} (m : leaky A) (k : A -> leaky B) :
  reqs (lbind m k) = reqs m ++ match result m with Ok a => reqs (k a) | _ => [] end.
Proof.
  unfold reqs, requests, trace, result, lbind. destruct m as [t [a|e| |]]; cbn;
    try (rewrite app_nil_r; reflexivity).
  destruct (k a) as [t' r]. cbn. apply filter_app.
Qed.

Lemma quiet_bind {A B} (m : leaky A) (k : A -> leaky B) :
  quiet m -> (forall a, quiet (k a)) -> quiet (lbind m k).
Proof.
  unfold quiet. intros H1 H2. rewrite reqs_bind, H1. cbn. destruct (result m); auto.
Qed.

Lemma reqs_quiet {A B} (m : leaky A) (k : A -> leaky B) :
  quiet m -> reqs (lbind m k) = match result m with Ok a => reqs (k a) | _ => [] end.
Proof. intros H. rewrite reqs_bind, H. reflexivity. Qed.

Create HintDb quiet.
Ltac qstep :=
  match goal with
  | |- quiet (lbind _ _) => apply quiet_bind; [|intros]
  | |- quiet (if ?b then _ else _) => destruct b
  | |- quiet (match ?x with _ => _ end) => destruct x
  | |- quiet (emit _ _) => reflexivity
  | |- quiet (lret _) => reflexivity
  | |- quiet (lerr _) => reflexivity
  | |- quiet ([], _) => reflexivity
  | |- quiet _ => solve [auto with quiet]
  end.
Ltac quiet := intros; repeat (cbv zeta; qstep).

Lemma q_copy_into {A} (l : list A) a b s : quiet (l_copy_into l a b s).
Proof. unfold l_copy_into. quiet. Qed.
#[export] Hint Resolve q_copy_into : quiet.
Ltac prim := intros; reflexivity.
Lemma q_if b : quiet (l_if b). Proof. prim. Qed.
Lemma q_assert b : quiet (l_assert b). Proof. prim. Qed.
Lemma q_check {A} (o : outcome A) : quiet (l_check o). Proof. prim. Qed.
Lemma q_get {A} (l : list A) i : quiet (l_get l i). Proof. prim. Qed.
Lemma q_set {A} (l : list A) i v : quiet (l_set l i v). Proof. prim. Qed.
Lemma q_slice {A} (l : list A) a b : quiet (l_slice l a b). Proof. prim. Qed.
Lemma q_slice_from {A} (l : list A) a : quiet (l_slice_from l a). Proof. prim. Qed.
Lemma q_split_at {A} (l : list A) a : quiet (l_split_at l a). Proof. prim. Qed.
Lemma q_vec b n : quiet (l_vec b n). Proof. prim. Qed.
Lemma q_to_vec l : quiet (l_to_vec l). Proof. prim. Qed.
Lemma q_ct_eq a b : quiet (l_ct_eq a b). Proof. prim. Qed.
Lemma q_update d b : quiet (l_update d b). Proof. prim. Qed.
Lemma q_finalize d : quiet (l_finalize_reset d). Proof. prim. Qed.
Lemma q_oneshot h d : quiet (l_oneshot h d). Proof. prim. Qed.
Lemma q_op {A} o p (r : outcome A) : quiet (l_op o p r). Proof. prim. Qed.
Lemma q_public {A} (r : outcome A) : quiet (l_public r). Proof. prim. Qed.
Lemma q_rem a m : quiet (l_rem_vartime a m). Proof. prim. Qed.
Lemma q_cmp {A} a b (r : A) : quiet (l_cmp a b r). Proof. prim. Qed.
#[export] Hint Resolve q_if q_assert q_check q_get q_set q_slice q_slice_from q_split_at q_vec q_to_vec
  q_ct_eq q_update q_finalize q_oneshot q_op q_public q_rem q_cmp : quiet.
Lemma q_widen u p : quiet (l_widen u p). Proof. prim. Qed.
Lemma q_shorten u p : quiet (l_shorten u p). Proof. prim. Qed.
Lemma q_mf_new u p : quiet (l_mf_new u p). Proof. prim. Qed.
Lemma q_mf_pow u p : quiet (l_mf_pow u p). Proof. prim. Qed.
Lemma q_mf_retrieve u : quiet (l_mf_retrieve u). Proof. prim. Qed.
Lemma q_mf_mul u p : quiet (l_mf_mul u p). Proof. prim. Qed.
Lemma q_mf_sub u p : quiet (l_mf_sub u p). Proof. prim. Qed.
Lemma q_wmul u p : quiet (l_wrapping_mul u p). Proof. prim. Qed.
Lemma q_wadd u p : quiet (l_wrapping_add u p). Proof. prim. Qed.
Lemma q_inv u p : quiet (l_inv_mod u p). Proof. prim. Qed.
#[export] Hint Resolve q_widen q_shorten q_mf_new q_mf_pow q_mf_retrieve q_mf_mul q_mf_sub q_wmul q_wadd q_inv : quiet.
Lemma q_from_be b n : quiet (l_from_be_slice b n). Proof. unfold l_from_be_slice. quiet. Qed.
Lemma q_left_pad b n : quiet (l_left_pad b n). Proof. unfold l_left_pad. quiet. Qed.
#[export] Hint Resolve q_from_be q_left_pad : quiet.
Lemma q_be_pad b n : quiet (l_uint_to_be_pad b n). Proof. unfold l_uint_to_be_pad. quiet. Qed.
Lemma q_find_zero l : forall i n b x, quiet (l_find_zero l i n b x).
Proof. induction l; intros; cbn [l_find_zero]; quiet. Qed.
#[export] Hint Resolve q_be_pad q_find_zero : quiet.
Lemma q_pkcs1_inner em k : quiet (l_pkcs1_decrypt_inner em k). Proof. unfold l_pkcs1_decrypt_inner. quiet. Qed.
#[export] Hint Resolve q_pkcs1_inner : quiet.
Lemma q_pkcs1_unpad em k : quiet (l_pkcs1v15_encrypt_unpad em k). Proof. unfold l_pkcs1v15_encrypt_unpad. quiet. Qed.
Lemma q_sign_pad p h k : quiet (l_pkcs1v15_sign_pad p h k). Proof. unfold l_pkcs1v15_sign_pad. quiet. Qed.
Lemma q_inc i : forall c, quiet (l_inc_counter_from i c).
Proof. induction i; intros; cbn [l_inc_counter_from]; quiet. Qed.
Lemma q_inc_counter c : quiet (l_inc_counter c). Proof. apply q_inc. Qed.
Lemma q_xor d : forall out i j n, quiet (l_xor_block out i d j n).
Proof. induction d; intros; cbn [l_xor_block]; quiet. Qed.
#[export] Hint Resolve q_pkcs1_unpad q_sign_pad q_inc_counter q_xor : quiet.
Lemma q_mgf_loop f : forall out i c dg s, quiet (l_mgf1_xor_loop f out i c dg s).
Proof. induction f; intros; cbn [l_mgf1_xor_loop]; quiet. Qed.
Lemma q_mgfd_loop f : forall out i c dg s, quiet (l_mgf1_xor_digest_loop f out i c dg s).
Proof. induction f; intros; cbn [l_mgf1_xor_digest_loop]; quiet. Qed.
#[export] Hint Resolve q_mgf_loop q_mgfd_loop : quiet.
Lemma q_mgf out dg s : quiet (l_mgf1_xor out dg s). Proof. unfold l_mgf1_xor. quiet. Qed.
Lemma q_mgfd out dg s : quiet (l_mgf1_xor_digest out dg s). Proof. unfold l_mgf1_xor_digest. quiet. Qed.
Lemma q_scan l : forall p n i a b c, quiet (l_oaep_scan l p n i a b c).
Proof. induction l; intros; cbn [l_oaep_scan]; quiet. Qed.
#[export] Hint Resolve q_mgf q_mgfd q_scan : quiet.
Lemma q_oaep_inner em h p k mgf : (forall a b, quiet (mgf a b)) -> quiet (l_oaep_decrypt_inner em h p k mgf).
Proof. unfold l_oaep_decrypt_inner. quiet. Qed.
Lemma q_oaep_finish r : quiet (l_oaep_finish r). Proof. unfold l_oaep_finish. quiet. Qed.
#[export] Hint Resolve q_oaep_finish : quiet.
Lemma q_oaep_decrypt em dg mg l k : quiet (l_oaep_decrypt em dg mg l k).
Proof.
  unfold l_oaep_decrypt. cbv zeta. qstep; [quiet|]. qstep; [quiet|]. qstep; [quiet|]. qstep; [quiet|]. qstep. qstep.
  - apply q_oaep_inner. quiet.
  - quiet.
Qed.
Lemma q_oaep_decrypt_digest hd hm em l k : quiet (l_oaep_decrypt_digest hd hm em l k).
Proof.
  unfold l_oaep_decrypt_digest. cbv zeta. qstep; [quiet|]. qstep; [quiet|]. qstep; [quiet|]. qstep.
  - apply q_oaep_inner. quiet.
  - quiet.
Qed.
Lemma q_reduce n p : quiet (l_reduce_vartime n p). Proof. unfold l_reduce_vartime. quiet. Qed.
#[export] Hint Resolve q_oaep_decrypt q_oaep_decrypt_digest q_reduce : quiet.
Lemma q_pow b e p : quiet (l_pow_mod_params b e p). Proof. unfold l_pow_mod_params. quiet. Qed.
Lemma q_mul b e p : quiet (l_mul_mod_params b e p). Proof. unfold l_mul_mod_params. quiet. Qed.
#[export] Hint Resolve q_pow q_mul : quiet.
Lemma q_enc k m : quiet (l_rsa_encrypt k m). Proof. unfold l_rsa_encrypt. quiet. Qed.
Lemma q_unblind m u p : quiet (l_unblind m u p). Proof. unfold l_unblind. quiet. Qed.
Lemma q_crt c pc q : quiet (l_crt_pow c pc q). Proof. unfold l_crt_pow. quiet. Qed.
#[export] Hint Resolve q_enc q_unblind q_crt : quiet.
Lemma q_pss m e s h : quiet (l_emsa_pss_encode m e s h). Proof. unfold l_emsa_pss_encode. quiet. Qed.
Lemma q_pssd hd m e s : quiet (l_emsa_pss_encode_digest hd m e s). Proof. unfold l_emsa_pss_encode_digest. quiet. Qed.
#[export] Hint Resolve q_pss q_pssd : quiet.

(** ** Blinding draws *)

Section Blinding.
  Context {R : Type} (g : rng_ops R).

  Lemma reqs_blind_step fuel st key :
    wf_uint (pk_n key) -> 1 < uval (pk_n key) ->
    reqs (l_blind_loop g (S fuel) st key) =
    ERandMod (uval (pk_n key)) ::
    match rng_mod g st (uval (pk_n key)) with
    | (None, _) => []
    | (Some v, st') =>
        if (v =? 0) || (Z.gcd v (uval (pk_n key)) =? 1) then [] else reqs (l_blind_loop g fuel st' key)
    end.
  Proof.
    intros Hn H1. cbn [l_blind_loop]. rewrite reqs_bind.
    unfold l_random_mod at 1 2. cbn [emit reqs requests trace result fst snd filter is_request app].
    change (reqs (emit (ERandMod (uval (pk_n key))) ?x)) with [ERandMod (uval (pk_n key))].
    destruct (rng_mod g st (uval (pk_n key))) as [[v|] st']; [|reflexivity].
    cbn [app]. f_equal. rewrite reqs_quiet by quiet. cbn [l_op emit result snd].
    rewrite reqs_quiet by quiet. cbn [l_if emit result snd].
    unfold uis_zero. cbn [uval].
    set (v' := if v =? 0 then 1 else v).
    assert (E : (if v =? 0 then u_one_with (n_bits_precision key) else mkU v (uprec (pk_n key)))
                = mkU v' (uprec (pk_n key))).
    { unfold v'. destruct (v =? 0); auto. unfold u_one_with, n_bits_precision.
      pose proof Hn as (? & ? & ?). rewrite prec_for_id; auto. }
    rewrite E. rewrite reqs_quiet by quiet. cbn [l_inv_mod l_op emit result snd].
    unfold uinv_mod. cbn [uval uprec]. rewrite Z.eqb_refl.
    assert (V : zinv v' (uval (pk_n key)) = None <-> ((v =? 0) || (Z.gcd v (uval (pk_n key)) =? 1)) = false).
    { rewrite zinv_none by lia. unfold v'. destruct (Z.eqb_spec v 0); cbn [orb].
      - rewrite Z.gcd_1_l. split; [tauto|discriminate].
      - rewrite Z.eqb_neq. reflexivity. }
    destruct (zinv v' (uval (pk_n key))) as [x|].
    - cbn [bind]. rewrite reqs_quiet by quiet. cbn [l_if emit result snd].
      destruct ((v =? 0) || (Z.gcd v (uval (pk_n key)) =? 1)); [reflexivity|].
      destruct V as [_ V]. specialize (V eq_refl). discriminate.
    - rewrite (proj1 V eq_refl). cbn [bind]. rewrite reqs_quiet by quiet. reflexivity.
  Qed.

  Lemma usable_bool v n : (v =? 0) || (Z.gcd v n =? 1) = true <-> v = 0 \/ Z.gcd v n = 1.
  Proof. rewrite orb_true_iff, !Z.eqb_eq. reflexivity. Qed.
  Lemma usable_bool_f v n : v <> 0 -> Z.gcd v n <> 1 -> (v =? 0) || (Z.gcd v n =? 1) = false.
  Proof.
    intros A B. destruct ((v =? 0) || (Z.gcd v n =? 1)) eqn:E; auto. apply usable_bool in E. tauto.
  Qed.

  Lemma reqs_usable key : wf_uint (pk_n key) -> 1 < uval (pk_n key) ->
    forall j st, usable_at g (uval (pk_n key)) st j -> forall fuel, (j < fuel)%nat ->
    reqs (l_blind_loop g fuel st key) = repeat (ERandMod (uval (pk_n key))) (S j).
  Proof.
    intros Hn H1 j st H. induction H as [st st' v E Hv|st st' v j E Hv Hg H IH];
      intros fuel Hf; (destruct fuel; [lia|]); rewrite reqs_blind_step, E by auto.
    - apply usable_bool in Hv. rewrite Hv. reflexivity.
    - rewrite usable_bool_f by auto. rewrite IH by lia. reflexivity.
  Qed.

  Lemma reqs_fails key : wf_uint (pk_n key) -> 1 < uval (pk_n key) ->
    forall j st, fails_at g (uval (pk_n key)) st j -> forall fuel, (j < fuel)%nat ->
    reqs (l_blind_loop g fuel st key) = repeat (ERandMod (uval (pk_n key))) (S j).
  Proof.
    intros Hn H1 j st H. induction H as [st st' E|st st' v j E Hv Hg H IH];
      intros fuel Hf; (destruct fuel; [lia|]); rewrite reqs_blind_step, E by auto; auto.
    rewrite usable_bool_f by auto. rewrite IH by lia. reflexivity.
  Qed.

  Lemma reqs_unusable key : wf_uint (pk_n key) -> 1 < uval (pk_n key) ->
    forall f st, unusable_for g (uval (pk_n key)) st f ->
    reqs (l_blind_loop g f st key) = repeat (ERandMod (uval (pk_n key))) f.
  Proof.
    intros Hn H1 f st H. induction H as [st|st st' v j E Hv Hg H IH]; auto.
    rewrite reqs_blind_step, E by auto. rewrite usable_bool_f by auto. rewrite IH. reflexivity.
  Qed.

  Lemma reqs_then_quiet {A B} (m : leaky A) (f : A -> leaky B) :
    (forall a, quiet (f a)) -> reqs (lbind m f) = reqs m.
  Proof.
    intros H. rewrite reqs_bind. destruct (result m); try apply app_nil_r. rewrite H. apply app_nil_r.
  Qed.

  (** Requests of the private operation. *)
  Lemma reqs_blind fuel st key c :
    pk_params key = mkMP (pk_n key) ->
    reqs (l_blind g fuel st key c (pk_params key)) = reqs (l_blind_loop g fuel st key).
  Proof.
    intros Hp. unfold l_blind. rewrite Hp. cbn [mp_modulus].
    rewrite reqs_quiet by quiet. unfold ueqb. rewrite Z.eqb_refl.
    cbn [l_assert emit assert_ result snd].
    rewrite reqs_bind. destruct (result (l_blind_loop g fuel st key)) as [[[r ir] s]| | |];
      try apply app_nil_r.
    match goal with |- _ ++ reqs ?m = _ => assert (Q : quiet m) by quiet end.
    rewrite Q. apply app_nil_r.
  Qed.

  Definition blinding_requests (fuel : nat) (rng : option R) (key : pubkey) : list event :=
    match rng with None => [] | Some st => reqs (l_blind_loop g fuel st key) end.

  Lemma reqs_rsa_decrypt fuel rng k c :
    pk_params (sk_pub k) = mkMP (pk_n (sk_pub k)) ->
    reqs (l_rsa_decrypt g fuel rng k c) =
    if uleb (pk_n (sk_pub k)) c then [] else blinding_requests fuel rng (sk_pub k).
  Proof.
    intros Hp. unfold l_rsa_decrypt. cbv zeta. rewrite reqs_quiet by quiet.
    cbn [l_cmp l_op emit result snd]. rewrite reqs_quiet by quiet. cbn [l_if emit result snd].
    destruct (uleb (pk_n (sk_pub k)) c); [reflexivity|].
    rewrite reqs_quiet by quiet. cbn [l_if emit result snd].
    rewrite reqs_then_quiet.
    2:{ intros [c' ir]. quiet. }
    destruct rng as [st|]; cbn [blinding_requests].
    - rewrite reqs_bind, reqs_blind by auto.
      match goal with |- ?a ++ match ?o with Ok _ => _ | _ => _ end = _ => destruct o as [[b u]| | |]; try apply app_nil_r end.
      match goal with |- _ ++ reqs ?m = _ => assert (Q2 : quiet m) by quiet end.
      rewrite Q2. apply app_nil_r.
    - match goal with |- reqs ?m = _ => change (quiet m); quiet end.
  Qed.

  Lemma reqs_check fuel rng k c :
    pk_params (sk_pub k) = mkMP (pk_n (sk_pub k)) ->
    reqs (l_rsa_decrypt_and_check g fuel k rng c) =
    if uleb (pk_n (sk_pub k)) c then [] else blinding_requests fuel rng (sk_pub k).
  Proof.
    intros Hp. unfold l_rsa_decrypt_and_check. rewrite reqs_then_quiet by quiet.
    apply reqs_rsa_decrypt; auto.
  Qed.

  Lemma shape_nil fuel (rng : option R) n : blinding_shape fuel rng n [].
  Proof. destruct rng; cbn; auto. exists 0%nat. split; [lia|auto]. Qed.

  Lemma blinding_requests_shape fuel rng key :
    wf_uint (pk_n key) -> 1 < uval (pk_n key) ->
    blinding_shape fuel rng (uval (pk_n key)) (blinding_requests fuel rng key).
  Proof.
    intros Hn H1. destruct rng as [st|]; cbn; auto.
    destruct (blinding_trichotomy g (uval (pk_n key)) (Some st) fuel) as [(j & Hj & H)|[(j & Hj & H)|H]].
    - exists (S j). split; [lia|]. apply reqs_usable; auto.
    - exists (S j). split; [lia|]. apply reqs_fails; auto.
    - exists fuel. split; [lia|]. apply reqs_unusable; auto.
  Qed.

  Lemma blinding_requests_exact fuel rng key :
    wf_uint (pk_n key) -> 1 < uval (pk_n key) ->
    match rng with Some st => exists x, blind_loop g fuel st key = Ok x | None => True end ->
    blinding_exact g fuel rng (uval (pk_n key)) (blinding_requests fuel rng key).
  Proof.
    intros Hn H1 HX. destruct rng as [st|]; cbn; auto. destruct HX as (x & HX).
    destruct (blinding_trichotomy g (uval (pk_n key)) (Some st) fuel) as [(j & Hj & H)|[(j & Hj & H)|H]].
    - exists j. split; [lia|]. split; auto. apply reqs_usable; auto.
    - rewrite (blind_loop_fails g key Hn H1 j st H fuel Hj) in HX. discriminate.
    - cbn in H. rewrite (blind_loop_unusable g key Hn H1 fuel st H) in HX. discriminate.
  Qed.

  Lemma check_ok_loop fuel rng k c m :
    rsa_decrypt_and_check g fuel k rng c = Ok m ->
    uleb (pk_n (sk_pub k)) c = false /\
    match rng with Some st => exists x, blind_loop g fuel st (sk_pub k) = Ok x | None => True end.
  Proof.
    unfold rsa_decrypt_and_check. destruct (rsa_decrypt g fuel rng k c) eqn:E; cbn [bind]; try discriminate.
    intros _. rewrite rsa_decrypt_unfold in E. destruct (uleb (pk_n (sk_pub k)) c); [discriminate|].
    split; auto. destruct rng as [st|]; auto. unfold blind in E.
    destruct (assert_ _); cbn [bind] in E; try discriminate.
    destruct (blind_loop g fuel st (sk_pub k)); cbn [bind] in E; try discriminate. eauto.
  Qed.

  Lemma reqs_check_shape fuel rng k c :
    wf_pub (sk_pub k) -> 1 < uval (pk_n (sk_pub k)) ->
    blinding_shape fuel rng (uval (pk_n (sk_pub k))) (reqs (l_rsa_decrypt_and_check g fuel k rng c)) /\
    (forall m, rsa_decrypt_and_check g fuel k rng c = Ok m ->
     blinding_exact g fuel rng (uval (pk_n (sk_pub k))) (reqs (l_rsa_decrypt_and_check g fuel k rng c))).
  Proof.
    intros (Hn & _ & Hp & _) H1. rewrite reqs_check by auto. split.
    - destruct (uleb (pk_n (sk_pub k)) c); [apply shape_nil|]. apply blinding_requests_shape; auto.
    - intros m Hm. apply check_ok_loop in Hm. destruct Hm as [-> H].
      apply (blinding_requests_exact fuel rng (sk_pub k)); auto.
  Qed.
End Blinding.

(** ** Entry points *)

Lemma result_bind {A B} (m : leaky A) (f : A -> leaky B) b :
  result (lbind m f) = Ok b -> exists a, result m = Ok a /\ result (f a) = Ok b.
Proof.
  unfold result, lbind. destruct m as [t [a|e| |]]; cbn; try discriminate.
  destruct (f a) as [t' r] eqn:E. cbn. intros ->. exists a. rewrite E. auto.
Qed.

Lemma asks_pre {A B} (P Q : list event -> Prop) (m : leaky A) (f : A -> leaky B) :
  quiet m -> P [] -> (forall a, result m = Ok a -> asks P Q (f a)) -> asks P Q (lbind m f).
Proof.
  intros Hm H0 Hf. split.
  - rewrite reqs_quiet by auto. destruct (result m) eqn:E; auto. apply Hf; auto.
  - intros b Hb. apply result_bind in Hb. destruct Hb as (a & Ha & Hb).
    rewrite reqs_quiet, Ha by auto. apply (Hf a Ha) in Hb. auto.
Qed.

Lemma asks_post {A B} (P Q : list event -> Prop) (m : leaky A) (f : A -> leaky B) :
  asks P Q m -> (forall a, quiet (f a)) -> asks P Q (lbind m f).
Proof.
  intros [HP HQ] Hf. unfold asks. rewrite reqs_then_quiet by auto. split; auto.
  intros b Hb. apply result_bind in Hb. destruct Hb as (a & Ha & _). eauto.
Qed.

Lemma asks_err {A} (P Q : list event -> Prop) e : P [] -> asks P Q (lerr e : leaky A).
Proof. intros H. split; [exact H|]. intros a H1. discriminate. Qed.

Ltac apre := repeat (apply asks_pre; [solve [quiet]|solve [auto|apply shape_nil]|intros]).

Section Decrypting.
  Context {R : Type} (g : rng_ops R) (fuel : nat) (rng : option R) (k : privkey).
  Hypothesis Hw : wf_pub (sk_pub k).
  Hypothesis H1 : 1 < uval (pk_n (sk_pub k)).
  Let n := uval (pk_n (sk_pub k)).
  Let shape := blinding_shape fuel rng n.
  Let exact := blinding_exact g fuel rng n.

  Lemma asks_check c : asks shape exact (l_rsa_decrypt_and_check g fuel k rng c).
  Proof.
    destruct (reqs_check_shape g fuel rng k c Hw H1) as [A B]. split; [exact A|].
    intros a Ha. rewrite rf_rsa_check in Ha. exact (B a Ha).
  Qed.

  Lemma asks_pkcs1_decrypt ct : asks shape exact (l_pkcs1v15_decrypt g fuel rng k ct).
  Proof.
    unfold l_pkcs1v15_decrypt. cbv zeta. apre.
    apply asks_post; [apply asks_check|]. quiet.
  Qed.

  Lemma asks_pkcs1_sign p h : asks shape exact (l_pkcs1v15_sign g fuel rng k p h).
  Proof.
    unfold l_pkcs1v15_sign. cbv zeta. apre.
    apply asks_post; [apply asks_check|]. quiet.
  Qed.

  Lemma asks_oaep_decrypt ct dg mg l : asks shape exact (l_oaep_api_decrypt g fuel rng k ct dg mg l).
  Proof.
    unfold l_oaep_api_decrypt. cbv zeta. apply asks_pre; [quiet|apply shape_nil|]. intros c _.
    destruct c; [apply asks_err, shape_nil|]. apre.
    apply asks_post; [apply asks_check|]. quiet.
  Qed.

  Lemma asks_oaep_decrypt_digest hd hm ct l :
    asks shape exact (l_oaep_api_decrypt_digest g hd hm fuel rng k ct l).
  Proof.
    unfold l_oaep_api_decrypt_digest. cbv zeta. apply asks_pre; [quiet|apply shape_nil|]. intros _ _.
    apply asks_pre; [quiet|apply shape_nil|]. intros c _.
    destruct c; [apply asks_err, shape_nil|]. apre.
    apply asks_post; [apply asks_check|]. quiet.
  Qed.

  Lemma asks_pss_with_salt h s dg : asks shape exact (l_sign_pss_with_salt g fuel rng k h s dg).
  Proof.
    unfold l_sign_pss_with_salt. cbv zeta. apply asks_pre; [quiet|apply shape_nil|]. intros b _.
    apply asks_pre; [quiet|apply shape_nil|]. intros [em ?] _.
    apre. apply asks_post; [apply asks_check|]. quiet.
  Qed.

  Lemma asks_pss_with_salt_digest hd h s : asks shape exact (l_sign_pss_with_salt_digest g hd fuel rng k h s).
  Proof.
    unfold l_sign_pss_with_salt_digest. cbv zeta. apre.
    apply asks_post; [apply asks_check|]. quiet.
  Qed.
End Decrypting.

Section Filling.
  Context {R : Type} (g : rng_ops R).

  Lemma reqs_fill st n : reqs (l_fill g st n) = [EFill n].
  Proof. reflexivity. Qed.

  (** OAEP *)
  Lemma asks_fill st n h : n = h -> asks (seed_shape h) (seed_exact h) (l_fill g st n).
  Proof. intros ->. split; [right|intros ? _]; reflexivity. Qed.

  Lemma asks_oaep_internal st msg p h k mgf :
    (forall a b, quiet (mgf a b)) ->
    asks (seed_shape h) (seed_exact h) (l_oaep_encrypt_internal g st msg p h k mgf).
  Proof.
    intros Hm. assert (N : seed_shape h []) by (left; auto).
    unfold l_oaep_encrypt_internal. apply asks_pre; [quiet|auto|]. intros c _.
    destruct c eqn:Ec; [apply asks_err; auto|].
    apply asks_pre; [quiet|auto|]. intros em Hem. apply asks_pre; [quiet|auto|]. intros [hd pl] Hs.
    apply asks_pre; [quiet|auto|]. intros [seed db] Hs2.
    apply asks_post.
    - apply asks_fill. cbn in Hs2. unfold split_at in Hs2.
      destruct (h <=? length pl)%nat eqn:E; [|discriminate]. injection Hs2 as <- _.
      apply firstn_length_le. apply Nat.leb_le; auto.
    - quiet.
  Qed.

  Lemma asks_oaep_encrypt st pk msg dg mg l :
    asks (seed_shape (digest_output_size dg)) (seed_exact (digest_output_size dg))
      (l_oaep_api_encrypt g st pk msg dg mg l).
  Proof.
    assert (N : seed_shape (digest_output_size dg) []) by (left; auto).
    unfold l_oaep_api_encrypt. apply asks_pre; [quiet|auto|]. intros _ _.
    apply asks_post; [|quiet]. unfold l_oaep_encrypt. cbv zeta.
    apply asks_pre; [quiet|auto|]. intros c _. destruct c; [apply asks_err; auto|].
    apply asks_pre; [quiet|auto|]. intros dg' _. apply asks_pre; [quiet|auto|]. intros [ph ?] _.
    apply asks_oaep_internal. quiet.
  Qed.

  Lemma asks_oaep_encrypt_digest hd hm st pk msg l :
    asks (seed_shape (h_size hd)) (seed_exact (h_size hd)) (l_oaep_api_encrypt_digest g hd hm st pk msg l).
  Proof.
    assert (N : seed_shape (h_size hd) []) by (left; auto).
    unfold l_oaep_api_encrypt_digest. apply asks_pre; [quiet|auto|]. intros _ _.
    apply asks_post; [|quiet]. unfold l_oaep_encrypt_digest. cbv zeta.
    apply asks_pre; [quiet|auto|]. intros c _. destruct c; [apply asks_err; auto|].
    apply asks_pre; [quiet|auto|]. intros ph _. apply asks_oaep_internal. quiet.
  Qed.

  (** PSS *)
  Lemma asks_salt {A} (blind : bool) st sl (P Q : option R -> list event -> Prop) (f : list byte * R -> leaky A) :
    (forall salt st', asks (P (if blind then Some st' else None)) (Q (if blind then Some st' else None))
                           (f (salt, st'))) ->
    asks (fun l => l = [EFill sl] \/ salt_asked g P blind st sl l) (salt_asked g Q blind st sl)
         (lbind (l_fill g st sl) f).
  Proof.
    intros H. unfold asks. rewrite reqs_bind, reqs_fill.
    assert (F : result (l_fill g st sl) = match rng_fill g st sl with
                 | (None, _) => Err Rng | (Some bs, r') => Ok (bs, r') end) by reflexivity.
    split.
    - rewrite F. destruct (rng_fill g st sl) as [[salt|] st'] eqn:E; [|left; reflexivity].
      right. exists salt, st', (reqs (f (salt, st'))). split; auto. split; [reflexivity|]. apply H.
    - intros a Ha. apply result_bind in Ha. destruct Ha as ([salt st'] & Ha & Hb).
      rewrite Ha. rewrite F in Ha. destruct (rng_fill g st sl) as [[salt'|] st2] eqn:E; [|discriminate].
      injection Ha as -> ->. exists salt, st', (reqs (f (salt, st'))). split; auto.
      split; [reflexivity|]. eapply H; eauto.
  Qed.

  Lemma asks_pss_sign fuel st blind k h sl dg :
    wf_pub (sk_pub k) -> 1 < uval (pk_n (sk_pub k)) ->
    let n := uval (pk_n (sk_pub k)) in
    let m := l_pss_sign g fuel st blind k h sl dg in
    (reqs m = [EFill sl] \/ salt_asked g (fun r => blinding_shape fuel r n) blind st sl (reqs m)) /\
    (forall s, result m = Ok s -> salt_asked g (fun r => blinding_exact g fuel r n) blind st sl (reqs m)).
  Proof.
    intros Hw H1 n m. subst m. unfold l_pss_sign. rewrite reqs_quiet by quiet. cbn [l_vec emit result snd].
    match goal with |- context [lbind (l_fill g st sl) ?F] => set (f := F) end.
    destruct (asks_salt blind st sl (fun r => blinding_shape fuel r n) (fun r => blinding_exact g fuel r n) f) as [A B].
    { intros salt st'. unfold f. destruct (asks_pss_with_salt g fuel (if blind then Some st' else None) k Hw H1 h salt dg) as [C D].
      split.
      - rewrite reqs_quiet by quiet. exact C.
      - intros a Ha. apply result_bind in Ha. destruct Ha as (? & _ & Ha). rewrite reqs_quiet by quiet. eapply D; eauto. }
    split; auto. intros s Hs. apply result_bind in Hs. destruct Hs as (? & _ & Hs). eapply B; eauto.
  Qed.

  Lemma asks_pss_sign_digest hd fuel st blind k h sl :
    wf_pub (sk_pub k) -> 1 < uval (pk_n (sk_pub k)) ->
    let n := uval (pk_n (sk_pub k)) in
    let m := l_pss_sign_digest g hd fuel st blind k h sl in
    (reqs m = [EFill sl] \/ salt_asked g (fun r => blinding_shape fuel r n) blind st sl (reqs m)) /\
    (forall s, result m = Ok s -> salt_asked g (fun r => blinding_exact g fuel r n) blind st sl (reqs m)).
  Proof.
    intros Hw H1 n m. subst m. unfold l_pss_sign_digest. rewrite reqs_quiet by quiet. cbn [l_vec emit result snd].
    match goal with |- context [lbind (l_fill g st sl) ?F] => set (f := F) end.
    destruct (asks_salt blind st sl (fun r => blinding_shape fuel r n) (fun r => blinding_exact g fuel r n) f) as [A B].
    { intros salt st'. unfold f. destruct (asks_pss_with_salt_digest g fuel (if blind then Some st' else None) k Hw H1 hd h salt) as [C D].
      split.
      - rewrite reqs_quiet by quiet. exact C.
      - intros a Ha. apply result_bind in Ha. destruct Ha as (? & _ & Ha). rewrite reqs_quiet by quiet. eapply D; eauto. }
    split; auto. intros s Hs. apply result_bind in Hs. destruct Hs as (? & _ & Hs). eapply B; eauto.
  Qed.

  (** PKCS#1 v1.5 *)

  Lemma refill_reqs fuel : forall st,
    exists j, reqs (l_refill g fuel st) = repeat (EFill 1) j /\
    (forall x, result (l_refill g fuel st) = Ok x -> (1 <= j)%nat).
  Proof.
    induction fuel as [|f IH]; intros st; cbn [l_refill].
    { exists 0%nat. split; auto. discriminate. }
    rewrite reqs_bind, reqs_fill.
    destruct (result (l_fill g st 1)) as [[bs st']| | |] eqn:E.
    2-4: (exists 1%nat; split; [reflexivity|lia]).
    rewrite reqs_quiet by quiet. destruct (result (l_get bs 0)) as [el| | |] eqn:E1.
    2-4: (exists 1%nat; split; [reflexivity|lia]).
    rewrite reqs_quiet by quiet. cbn [l_if emit result snd].
    destruct (byte_eqb el x00) eqn:E2.
    - destruct (IH st') as (j & -> & _). exists (S j). split; [reflexivity|lia].
    - exists 1%nat. split; [reflexivity|lia].
  Qed.

  Lemma nz_reqs fuel : forall data st,
    exists j, reqs (l_nz_loop g fuel st data) = repeat (EFill 1) j /\
    (zeros data = 0%nat -> j = 0%nat) /\
    (forall x, result (l_nz_loop g fuel st data) = Ok x -> (zeros data <= j)%nat).
  Proof.
    induction data as [|el data IH]; intros st; cbn [l_nz_loop].
    { exists 0%nat. cbn. auto. }
    rewrite reqs_quiet by quiet. cbn [l_if emit result snd].
    destruct (byte_eqb el x00) eqn:E.
    - apply byte_eqb_eq in E. subst el. assert (Z : zeros (x00 :: data) = S (zeros data)) by reflexivity.
      rewrite Z. rewrite reqs_bind. destruct (refill_reqs fuel st) as (j & Hj & H1). rewrite Hj.
      destruct (result (l_refill g fuel st)) as [[el' st']| | |] eqn:E1.
      + destruct (IH st') as (j' & Hj' & _ & H2).
        rewrite reqs_then_quiet by quiet. rewrite Hj'.
        exists (j + j')%nat. split; [symmetry; apply repeat_app|]. split; [discriminate|].
        intros x Hx. apply result_bind in Hx. destruct Hx as (c & Hc & Hx). injection Hc as <-.
        apply result_bind in Hx. destruct Hx as ([a b] & Ha & Hx).
        rewrite E1 in Ha. injection Ha as -> ->.
        apply result_bind in Hx. destruct Hx as (y & Hy & _). apply H2 in Hy. specialize (H1 _ eq_refl). lia.
      + exists j. rewrite app_nil_r. split; auto. split; [discriminate|].
        intros x Hx. apply result_bind in Hx. destruct Hx as (c & Hc & Hx). injection Hc as <-.
        apply result_bind in Hx. destruct Hx as ([a b] & Ha & Hx). rewrite E1 in Ha. discriminate.
      + exists j. rewrite app_nil_r. split; auto. split; [discriminate|].
        intros x Hx. apply result_bind in Hx. destruct Hx as (c & Hc & Hx). injection Hc as <-.
        apply result_bind in Hx. destruct Hx as ([a b] & Ha & Hx). rewrite E1 in Ha. discriminate.
      + exists j. rewrite app_nil_r. split; auto. split; [discriminate|].
        intros x Hx. apply result_bind in Hx. destruct Hx as (c & Hc & Hx). injection Hc as <-.
        apply result_bind in Hx. destruct Hx as ([a b] & Ha & Hx). rewrite E1 in Ha. discriminate.
    - assert (Z : zeros (el :: data) = zeros data).
      { unfold zeros. cbn. destruct (Byte.byte_eq_dec el x00); auto. subst. discriminate. }
      rewrite Z. rewrite reqs_quiet by quiet. cbn [lret result snd].
      destruct (IH st) as (j & Hj & H1 & H2). rewrite reqs_then_quiet by quiet.
      exists j. split; auto. split; auto.
      intros x Hx. apply result_bind in Hx. destruct Hx as (c & Hc & Hx). injection Hc as <-.
      apply result_bind in Hx. destruct Hx as ([a b] & Ha & Hx). cbn in Ha. injection Ha as <- <-.
      apply result_bind in Hx. destruct Hx as (y & Hy & _). eauto.
  Qed.

  Lemma asks_nz fuel st w :
    asks (padding_shape w) (padding_exact g st w) (l_non_zero_random_bytes g fuel st w).
  Proof.
    unfold l_non_zero_random_bytes. split.
    - rewrite reqs_bind, reqs_fill. right. destruct (result (l_fill g st w)) as [[d st']| | |].
      + destruct (nz_reqs fuel d st') as (j & -> & _). exists j. reflexivity.
      + exists 0%nat. reflexivity.
      + exists 0%nat. reflexivity.
      + exists 0%nat. reflexivity.
    - intros a Ha. apply result_bind in Ha. destruct Ha as ([d st'] & Hd & Ha).
      rewrite reqs_bind, reqs_fill, Hd. destruct (nz_reqs fuel d st') as (j & E & A & B).
      rewrite E. exists d, st', j. split; [|split; [reflexivity|]]; [|split; eauto].
      cbn in Hd. destruct (rng_fill g st w) as [[d2|] s2]; [|discriminate]. injection Hd as -> ->. auto.
  Qed.

  Lemma asks_pkcs1_encrypt fuel st pk msg :
    let w := (key_size pk - length msg - 3)%nat in
    asks (padding_shape w) (padding_exact g st w) (l_pkcs1v15_encrypt g fuel st pk msg).
  Proof.
    intros w. assert (N : padding_shape w []) by (left; auto).
    unfold l_pkcs1v15_encrypt. apply asks_pre; [quiet|auto|]. intros _ _.
    apply asks_post; [|quiet]. unfold l_pkcs1v15_encrypt_pad.
    apply asks_pre; [quiet|auto|]. intros c _. destruct c; [apply asks_err; auto|].
    apply asks_pre; [quiet|auto|]. intros ? _. apply asks_pre; [quiet|auto|]. intros ? _.
    apply asks_pre; [quiet|auto|]. intros k1 E1. apply asks_pre; [quiet|auto|]. intros k2 E2.
    apply asks_pre; [quiet|auto|]. intros w' E3.
    assert (w' = w) as ->.
    { unfold l_check, emit, result in E1, E2, E3. cbn [snd] in E1, E2, E3. unfold usub in *.
      destruct (length msg <=? key_size pk)%nat; [|discriminate]. injection E1 as <-.
      destruct (1 <=? key_size pk - length msg)%nat; [|discriminate]. injection E2 as <-.
      destruct (2 <=? key_size pk - length msg - 1)%nat; [|discriminate]. injection E3 as <-.
      unfold w. lia. }
    apply asks_post; [apply asks_nz|]. quiet.
  Qed.
End Filling.
