(** Traces of whole decryptions, signatures and encryptions. *)
From Coq Require Import ZArith List Bool Lia.
From Coq Require Import Init.Byte.
From Verif Require Import Base Bigint BigintLemmas BytesLemmas MHash MPad MMgf MPkcs1 MOaep MRsa
  MKey MApi MLeak PLeak PLeakRel SpecRFC SpecKey SpecRng SpecLeak KeyDefs PPad PRsa PPkcs1 PApi PSig.
Import ListNotations.
Local Open Scope Z_scope.

(** * Leading zero octets *)

Lemma zero_octets_cons b r :
  zero_octets (b :: r) = if byte_eqb b x00 then S (zero_octets r) else O.
Proof. destruct b; reflexivity. Qed.

Lemma zero_octets_le l : (zero_octets l <= length l)%nat.
Proof.
  induction l as [|b r IH]; [reflexivity|]. rewrite zero_octets_cons.
  destruct (byte_eqb b x00); cbn [length]; lia.
Qed.

Lemma zero_octets_range l :
  os2ip l < 256 ^ Z.of_nat (length l - zero_octets l) /\
  ((zero_octets l < length l)%nat -> 256 ^ (Z.of_nat (length l - zero_octets l) - 1) <= os2ip l).
Proof.
  induction l as [|b r (IH1 & IH2)]; [split; [reflexivity|cbn; lia]|].
  rewrite zero_octets_cons, os2ip_cons. destruct (byte_eqb_spec b x00) as [->|Hb].
  - cbn [length]. change (b2z x00) with 0. rewrite Z.mul_0_l, Z.add_0_l.
    replace (S (length r) - S (zero_octets r))%nat with (length r - zero_octets r)%nat by lia.
    split; [exact IH1|]. intros. apply IH2. lia.
  - pose proof (os2ip_range (b :: r)) as Rg. rewrite os2ip_cons in Rg.
    rewrite Nat.sub_0_r. split; [apply Rg|]. intros _. cbn [length].
    replace (Z.of_nat (S (length r)) - 1) with (Z.of_nat (length r)) by lia.
    assert (1 <= b2z b).
    { pose proof (b2z_range b). destruct (Z.eq_dec (b2z b) 0) as [E|]; [|lia].
      exfalso. apply Hb. apply b2z_inj. rewrite E. reflexivity. }
    pose proof (os2ip_range r). pose proof (pow256_pos (length r)). nia.
Qed.

Lemma leading_zeros_octets v p k :
  0 <= v < 256 ^ Z.of_nat k -> 64 <= p -> p mod 64 = 0 -> 8 * Z.of_nat k <= p ->
  uleading_zeros (mkU v p) / 8 = p / 8 - Z.of_nat (k - zero_octets (i2osp v k)).
Proof.
  intros Hv Hp Hm Hk.
  pose proof (zero_octets_range (i2osp v k)) as (A & B).
  pose proof (zero_octets_le (i2osp v k)) as L.
  rewrite os2ip_i2osp in A, B by auto. rewrite i2osp_length in A, B, L.
  set (z := zero_octets (i2osp v k)) in *. clearbody z.
  unfold uleading_zeros, ubits. cbn [uval uprec].
  assert (exists j, p = 64 * j) as (j & ->).
  { exists (p / 64). pose proof (Z.div_mod p 64). lia. }
  replace (64 * j / 8) with (8 * j) by (apply Z.div_unique with 0; lia).
  assert (E : Z.of_nat (k - z) = Z.of_nat k - Z.of_nat z) by lia.
  rewrite pow256_2 in A by lia.
  assert (U : zbits v <= 8 * Z.of_nat (k - z)) by (apply zbits_le; lia).
  destruct (Nat.eq_dec z k) as [Ez|Nz].
  - replace (k - z)%nat with O in * by lia. pose proof (zbits_nonneg v).
    symmetry. apply Z.div_unique with 0; lia.
  - specialize (B ltac:(lia)). rewrite pow256_2 in B by lia.
    assert (~ zbits v <= 8 * (Z.of_nat (k - z) - 1)).
    { intros H. apply zbits_le in H; lia. }
    symmetry. apply Z.div_unique with (8 * Z.of_nat (k - z) - zbits v); lia.
Qed.

Lemma ag_pad u u' k : same_prec u u' -> uleading_zeros u / 8 = uleading_zeros u' / 8 ->
  agree (@same_len byte) (l_uint_to_be_pad u k) (l_uint_to_be_pad u' k).
Proof.
  intros H E. unfold l_uint_to_be_pad. rewrite E, H. unfold l_op.
  apply ag_same. intros lz _.
  eapply (ag_bind (fun a b => same_len a b)).
  { apply ag_emit. unfold same_len, to_be_bytes. rewrite !be_bytes_length, H. reflexivity. }
  intros bs bs' Hb. eapply ag_bind; [apply ag_slice_from; auto|]. intros s s' (L1 & L2).
  assert (Hs : length s' = length s) by congruence.
  unfold l_left_pad. rewrite Hs. apply ag_branch.
  destruct (k <? length s)%nat; [apply ag_err|].
  apply ag_same. intros o _. apply ag_same. intros off _.
  eapply ag_weaken; [|apply ag_copy; [reflexivity|symmetry; exact Hs]].
  cbn beta. unfold same_len. intros a b (X & Y). congruence.
Qed.

Section Decrypt.
  Context {R : Type} (g : rng_ops R).

  Lemma good_key_pad fuel rng k k' c c' :
    (rng <> None -> rng_ok g) -> good_priv k -> good_priv k' -> same_shape k k' ->
    wf_uint c -> wf_uint c' ->
    uprec c = uprec (pk_n (sk_pub k)) -> uprec c' = uprec (pk_n (sk_pub k)) ->
    (uval c < uval (pk_n (sk_pub k)) <-> uval c' < uval (pk_n (sk_pub k))) ->
    zero_octets (i2osp (RSADP (uval (pk_n (sk_pub k))) (uval (sk_d k)) (uval c)) (key_size (sk_pub k)))
    = zero_octets (i2osp (RSADP (uval (pk_n (sk_pub k))) (uval (sk_d k')) (uval c')) (key_size (sk_pub k))) ->
    agree (fun em em' : list byte => length em = key_size (sk_pub k) /\ length em' = key_size (sk_pub k))
      (let! m := l_rsa_decrypt_and_check g fuel k rng c in l_uint_to_be_pad m (key_size (sk_pub k)))
      (let! m := l_rsa_decrypt_and_check g fuel k' rng c' in l_uint_to_be_pad m (key_size (sk_pub k))).
  Proof.
    intros Hr Hk Hk' Hs Hc Hc' Pc Pc' Hn Hz.
    destruct (Z_lt_ge_dec (uval c) (uval (pk_n (sk_pub k)))) as [L|G].
    - assert (L' : uval c' < uval (pk_n (sk_pub k))) by tauto.
      eapply ag_bind; [apply ag_check_good; auto|]. cbn beta. intros m m' (-> & ->).
      pose proof (good_pub k Hk) as Hp. destruct (key_size_facts _ Hp) as (_ & K2 & _).
      pose proof Hp as ((Hv & Hp1 & Hm) & _). pose proof (odd_pos_n _ Hp) as Hn0.
      pose proof (key_n_lt _ Hp) as Kn.
      assert (Rg : forall d x, 0 <= RSADP (uval (pk_n (sk_pub k))) d x < uval (pk_n (sk_pub k))).
      { intros. apply Z.mod_pos_bound. lia. }
      pose proof (Rg (uval (sk_d k)) (uval c)) as R1. pose proof (Rg (uval (sk_d k')) (uval c')) as R2.
      set (m1 := RSADP _ (uval (sk_d k)) _) in *. set (m2 := RSADP _ (uval (sk_d k')) _) in *.
      assert (W1 : wf_uint (mkU m1 (uprec (pk_n (sk_pub k))))) by (apply wf_mk; auto; lia).
      assert (W2 : wf_uint (mkU m2 (uprec (pk_n (sk_pub k))))) by (apply wf_mk; auto; lia).
      assert (A : agree (@same_len byte)
                    (l_uint_to_be_pad (mkU m1 (uprec (pk_n (sk_pub k)))) (key_size (sk_pub k)))
                    (l_uint_to_be_pad (mkU m2 (uprec (pk_n (sk_pub k)))) (key_size (sk_pub k)))).
      { apply ag_pad; [reflexivity|]. rewrite !leading_zeros_octets with (k := key_size (sk_pub k)) by lia.
        rewrite Hz. reflexivity. }
      destruct A as (T & A). split; [exact T|].
      rewrite !rf_be_pad. rewrite !uint_to_be_pad_ok by (auto; cbn [uval]; lia).
      rewrite !be_bytes_length. auto.
    - assert (G' : uval (pk_n (sk_pub k)) <= uval c') by lia.
      assert (A : agree same_prec (l_rsa_decrypt g fuel rng k c) (l_rsa_decrypt g fuel rng k' c')).
      { apply ag_rsa_decrypt; auto. unfold same_prec. congruence. }
      assert (E : result (l_rsa_decrypt g fuel rng k c) = Err Decryption).
      { rewrite rf_rsa_decrypt. apply rsa_decrypt_range. lia. }
      unfold l_rsa_decrypt_and_check.
      eapply (ag_bind (fun _ _ => False)); [|intros ? ? []].
      eapply (ag_bind (fun _ _ => False)); [|intros ? ? []].
      apply ag_refine in A. eapply ag_weaken; [|exact A]. cbn beta. intros a b (_ & F & _). congruence.
  Qed.

  Lemma public_from_be k ct ct' : wf_pub k -> length ct = length ct' ->
    agree (fun c c' => c = mkU (os2ip ct) (uprec (pk_n k)) /\ c' = mkU (os2ip ct') (uprec (pk_n k)) /\
                       wf_uint c /\ wf_uint c')
          (l_public (from_be_slice ct (n_bits_precision k)))
          (l_public (from_be_slice ct' (n_bits_precision k))).
  Proof.
    intros Hp Hl. pose proof Hp as (Hw & _). destruct (wf_prec _ Hw) as (j & Hj & Hj1).
    destruct Hw as (_ & H1 & H2).
    unfold l_public, n_bits_precision. split; [reflexivity|]. unfold result. cbn [snd].
    destruct (Z_le_gt_dec (8 * Z.of_nat (length ct)) (uprec (pk_n k))) as [L|L].
    - rewrite !from_be_slice_fits by (auto; rewrite <- Hl; auto).
      repeat split; try reflexivity; try (apply os2ip_wf; auto; rewrite <- Hl; auto).
    - rewrite !from_be_slice_spec by lia. rewrite <- Hl.
      destruct (Z.eqb_spec (Z.of_nat (length ct)) 0); [lia|]. cbn [andb].
      replace ((uprec (pk_n k) + 7) / 8) with (8 * j) by (rewrite Hj; apply Z.div_unique with 7; lia).
      destruct (Z.ltb_spec (8 * j) (Z.of_nat (length ct))); [reflexivity|lia].
  Qed.

  Lemma size_small k : wf_pub k -> uprec (pk_n k) < 2 ^ 32 -> Z.of_nat (key_size k) < 2 ^ 31.
  Proof. intros Hp Hb. destruct (key_size_facts _ Hp) as (_ & K2 & _). lia. Qed.

  Lemma lbind_assoc {A B C} (m : leaky A) (f : A -> leaky B) (h : B -> leaky C) :
    lbind m (fun a => lbind (f a) h) = lbind (lbind m f) h.
  Proof.
    unfold lbind. destruct m as [t [a| | |]]; cbn [fst snd]; auto.
    destruct (f a) as [t1 [b| | |]]; cbn [fst snd]; auto.
    destruct (h b). rewrite app_assoc. reflexivity.
  Qed.

  Lemma pkcs1_decrypt_trace fuel rng k k' ct ct' :
    (rng <> None -> rng_ok g) -> good_priv k -> good_priv k' -> same_shape k k' ->
    uprec (pk_n (sk_pub k)) < 2 ^ 32 -> same_public_view k k' ct ct' ->
    same_answer (pkcs1v15_decrypt g fuel rng k ct) (pkcs1v15_decrypt g fuel rng k' ct') ->
    trace (l_pkcs1v15_decrypt g fuel rng k ct) = trace (l_pkcs1v15_decrypt g fuel rng k' ct').
  Proof.
    intros Hr Hk Hk' Hs Hb (Hl & Hn & Hz) Sa. rewrite <- !rf_pkcs1_decrypt in Sa.
    pose proof (good_pub _ Hk) as Hp. pose proof (size_small _ Hp Hb) as Hsz.
    unfold l_pkcs1v15_decrypt in *. cbv zeta in *. rewrite <- (proj1 Hs) in *.
    revert Sa. apply same_prefix. intros _ _.
    apply bind_trace with (1 := public_from_be _ _ _ Hp Hl).
    intros c c' (-> & -> & W & W') _ _. rewrite !lbind_assoc.
    eapply bind_trace.
    { apply good_key_pad; auto. }
    cbn beta. intros em em' (L & L') _ _ Sa. rewrite !rf_pkcs1_unpad in Sa.
    apply pkcs1_unpad_trace; auto; unfold same_len; try congruence; try lia.
  Qed.

  Lemma oaep_api_trace fuel rng k k' ct ct' dg mg label :
    (rng <> None -> rng_ok g) -> good_priv k -> good_priv k' -> same_shape k k' ->
    uprec (pk_n (sk_pub k)) < 2 ^ 32 -> same_public_view k k' ct ct' ->
    same_answer (oaep_api_decrypt g fuel rng k ct dg mg label)
                (oaep_api_decrypt g fuel rng k' ct' dg mg label) ->
    trace (l_oaep_api_decrypt g fuel rng k ct dg mg label)
    = trace (l_oaep_api_decrypt g fuel rng k' ct' dg mg label).
  Proof.
    intros Hr Hk Hk' Hs Hb (Hl & Hn & Hz) Sa. rewrite <- !rf_oaep_api in Sa.
    pose proof (good_pub _ Hk) as Hp. pose proof (size_small _ Hp Hb) as Hsz.
    unfold l_oaep_api_decrypt in *. cbv zeta in *. rewrite <- (proj1 Hs) in *. rewrite <- Hl in *.
    revert Sa. apply same_prefix. intros b _. destruct b; [reflexivity|].
    apply bind_trace with (1 := public_from_be _ _ _ Hp Hl).
    intros c c' (-> & -> & W & W') _ _. rewrite !lbind_assoc.
    eapply bind_trace.
    { apply good_key_pad; auto. }
    cbn beta. intros em em' (L & L') _ _ Sa. rewrite !rf_oaep_decrypt in Sa.
    apply oaep_decrypt_trace; auto; unfold same_len; try congruence; try lia.
  Qed.

  Lemma oaep_api_digest_trace hd hm fuel rng k k' ct ct' label :
    (rng <> None -> rng_ok g) -> good_priv k -> good_priv k' -> same_shape k k' ->
    uprec (pk_n (sk_pub k)) < 2 ^ 32 -> same_public_view k k' ct ct' ->
    same_answer (oaep_api_decrypt_digest g hd hm fuel rng k ct label)
                (oaep_api_decrypt_digest g hd hm fuel rng k' ct' label) ->
    trace (l_oaep_api_decrypt_digest g hd hm fuel rng k ct label)
    = trace (l_oaep_api_decrypt_digest g hd hm fuel rng k' ct' label).
  Proof.
    intros Hr Hk Hk' Hs Hb (Hl & Hn & Hz) Sa. rewrite <- !rf_oaep_api_digest in Sa.
    pose proof (good_pub _ Hk) as Hp. pose proof (size_small _ Hp Hb) as Hsz.
    unfold l_oaep_api_decrypt_digest in *. cbv zeta in *. rewrite <- (proj1 Hs) in *. rewrite <- Hl in *.
    revert Sa. apply same_prefix. intros _ _. apply same_prefix. intros b _. destruct b; [reflexivity|].
    apply bind_trace with (1 := public_from_be _ _ _ Hp Hl).
    intros c c' (-> & -> & W & W') _ _. rewrite !lbind_assoc.
    eapply bind_trace.
    { apply good_key_pad; auto. }
    cbn beta. intros em em' (L & L') _ _ Sa. rewrite !rf_oaep_decrypt_digest in Sa.
    apply oaep_decrypt_digest_trace; auto; unfold same_len; try congruence; try lia.
  Qed.
End Decrypt.

(** * Operations whose answer is public *)

Lemma bind_zeros {A B} (P : A -> B -> Prop) (m : leaky A) (m' : leaky B)
      (k : A -> leaky (list byte)) (k' : B -> leaky (list byte)) :
  agree P m m' ->
  (forall a b, P a b -> result m = Ok a -> result m' = Ok b ->
     zeros_of (result (k a)) = zeros_of (result (k' b)) -> trace (k a) = trace (k' b)) ->
  zeros_of (result (lbind m k)) = zeros_of (result (lbind m' k')) ->
  trace (lbind m k) = trace (lbind m' k').
Proof.
  intros (T & H) K. rewrite !res_bind, !trace_bind, T. intros Sa. f_equal.
  destruct (result m) eqn:E, (result m') eqn:E'; try tauto; auto.
Qed.

Lemma same_prefix_zeros {A} (m : leaky A) (k k' : A -> leaky (list byte)) :
  (forall a, result m = Ok a -> zeros_of (result (k a)) = zeros_of (result (k' a)) ->
             trace (k a) = trace (k' a)) ->
  zeros_of (result (lbind m k)) = zeros_of (result (lbind m k')) ->
  trace (lbind m k) = trace (lbind m k').
Proof.
  intros K. apply (bind_zeros eq); [apply ag_refl|]. intros a b <- H _. apply K. exact H.
Qed.

Lemma pad_zeros_trace k m1 m2 : wf_pub k ->
  0 <= m1 < uval (pk_n k) -> 0 <= m2 < uval (pk_n k) ->
  zeros_of (result (l_uint_to_be_pad (mkU m1 (uprec (pk_n k))) (key_size k)))
  = zeros_of (result (l_uint_to_be_pad (mkU m2 (uprec (pk_n k))) (key_size k))) ->
  trace (l_uint_to_be_pad (mkU m1 (uprec (pk_n k))) (key_size k))
  = trace (l_uint_to_be_pad (mkU m2 (uprec (pk_n k))) (key_size k)).
Proof.
  intros Hp R1 R2 Hz. destruct (key_size_facts _ Hp) as (_ & K2 & _).
  pose proof Hp as ((Hv & Hp1 & Hm) & _). pose proof (key_n_lt _ Hp) as Kn.
  rewrite !rf_be_pad in Hz.
  rewrite !uint_to_be_pad_ok in Hz by (try (apply wf_mk; auto; lia); cbn [uval]; lia).
  cbn [zeros_of uval] in Hz. injection Hz as Hz.
  eapply ag_trace. apply ag_pad; [reflexivity|].
  rewrite !leading_zeros_octets with (k := key_size k) by lia.
  rewrite <- !i2osp_be_bytes in Hz by lia. rewrite Hz. reflexivity.
Qed.

Lemma l_from_be_key k em em' : wf_pub k -> length em = length em' -> (length em <= key_size k)%nat ->
  agree (fun c c' => c = mkU (os2ip em) (uprec (pk_n k)) /\ c' = mkU (os2ip em') (uprec (pk_n k)) /\
                     wf_uint c /\ wf_uint c')
        (l_from_be_slice em (n_bits_precision k)) (l_from_be_slice em' (n_bits_precision k)).
Proof.
  intros Hp L Lk. unfold l_from_be_slice. rewrite <- L. apply ag_same. intros _ _.
  destruct (key_size_facts _ Hp) as (_ & K2 & _). pose proof Hp as ((Hv & Hp1 & Hm) & _).
  unfold n_bits_precision. rewrite !from_be_slice_fits by (auto; rewrite <- ?L; lia).
  cbn [has_value]. apply ag_emit.
  repeat split; try reflexivity; try (apply os2ip_wf; auto; rewrite <- ?L; lia).
Qed.

Lemma encrypt_core_trace k em em' : wf_pub k -> length em = key_size k -> length em' = key_size k ->
  let run e := let! int := l_from_be_slice e (n_bits_precision k) in
               let! c := l_rsa_encrypt k int in l_uint_to_be_pad c (key_size k) in
  zeros_of (result (run em)) = zeros_of (result (run em')) -> trace (run em) = trace (run em').
Proof.
  intros Hp L L' run. unfold run. clear run.
  apply bind_zeros with (1 := l_from_be_key k em em' Hp ltac:(congruence) ltac:(lia)).
  intros c c' (-> & -> & W & W') _ _.
  eapply (bind_zeros (fun a b => exists m1 m2, a = mkU m1 (uprec (pk_n k)) /\ b = mkU m2 (uprec (pk_n k)) /\
                        0 <= m1 < uval (pk_n k) /\ 0 <= m2 < uval (pk_n k))).
  - assert (A : agree (fun a b => uprec a = mp_prec (pk_params k) /\ uprec b = mp_prec (pk_params k))
                  (l_rsa_encrypt k (mkU (os2ip em) (uprec (pk_n k)))) (l_rsa_encrypt k (mkU (os2ip em') (uprec (pk_n k))))).
    { apply ag_pow; reflexivity. }
    apply ag_refine in A. eapply ag_weaken; [|exact A]. cbn beta. intros a b (_ & E & E').
    rewrite rf_encrypt in E, E'. pose proof (odd_pos_n _ Hp) as Hn.
    rewrite rsa_encrypt_small in E, E' by (auto; apply W || apply W').
    injection E as <-. injection E' as <-. do 2 eexists. split; [reflexivity|]. split; [reflexivity|].
    split; apply Z.mod_pos_bound; lia.
  - intros a b (m1 & m2 & -> & -> & R1 & R2) _ _. apply pad_zeros_trace; auto.
Qed.

Lemma ag_emit_len {A B} (P : A -> B -> Prop) ev a b : P a b -> agree P (emit ev (Ok a)) (emit ev (Ok b)).
Proof. intros. apply ag_emit. exact H. Qed.

Section Public.
  Context {R : Type} (g : rng_ops R).

  Lemma ag_encrypt_pad fuel st msg msg' k : length msg = length msg' ->
    agree (@same_len byte) (l_pkcs1v15_encrypt_pad g fuel st msg k)
                           (l_pkcs1v15_encrypt_pad g fuel st msg' k).
  Proof.
    intros L. unfold l_pkcs1v15_encrypt_pad. rewrite <- L. apply ag_same. intros b _.
    destruct b; [apply ag_err|]. apply ag_same. intros em _. apply ag_same. intros em1 _.
    apply ag_same. intros k1 _. apply ag_same. intros k2 _. apply ag_same. intros w _.
    apply ag_same. intros [ps st'] _. apply ag_same. intros em2 _. apply ag_same. intros em3 _.
    eapply ag_weaken; [|apply ag_copy; [reflexivity|exact L]].
    cbn beta. unfold same_len. intros a b (X & Y). congruence.
  Qed.

  Lemma pkcs1_encrypt_trace fuel st k msg msg' :
    rng_ok g -> wf_pub k -> length msg = length msg' ->
    zeros_of (pkcs1v15_encrypt g fuel st k msg) = zeros_of (pkcs1v15_encrypt g fuel st k msg') ->
    trace (l_pkcs1v15_encrypt g fuel st k msg) = trace (l_pkcs1v15_encrypt g fuel st k msg').
  Proof.
    intros Hg Hp L Sa. rewrite <- !rf_pkcs1_encrypt in Sa. revert Sa. unfold l_pkcs1v15_encrypt.
    apply same_prefix_zeros. intros _ _.
    apply bind_zeros with (1 := ag_encrypt_pad fuel st msg msg' (key_size k) L).
    intros em em' _ E E'. rewrite rf_encrypt_pad in E, E'.
    apply encrypt_pad_ok in E; auto. apply encrypt_pad_ok in E'; auto.
    apply encrypt_core_trace; auto; [apply E|apply E'].
  Qed.

  Lemma ag_sign_pad prefix prefix' hashed hashed' k :
    length prefix = length prefix' -> length hashed = length hashed' ->
    agree (@same_len byte) (l_pkcs1v15_sign_pad prefix hashed k) (l_pkcs1v15_sign_pad prefix' hashed' k).
  Proof.
    intros L1 L2. unfold l_pkcs1v15_sign_pad. cbv zeta. rewrite <- L1, <- L2.
    apply ag_same. intros b _. destruct b; [apply ag_err|]. apply ag_same. intros em _.
    apply ag_same. intros em1 _. apply ag_same. intros em2 _. apply ag_same. intros x _.
    apply ag_same. intros y _. apply ag_same. intros z _. apply ag_same. intros em3 _.
    eapply ag_bind; [apply ag_copy; [reflexivity|exact L1]|]. cbn beta. intros a b (X & Y).
    eapply ag_weaken; [|apply ag_copy; [unfold same_len; congruence|exact L2]].
    cbn beta. unfold same_len. intros ? ? (? & ?). congruence.
  Qed.

  (** The private operation on an encoded message and its conversion to octets. *)
  Lemma sign_core_trace fuel rng k k' em em' :
    (rng <> None -> rng_ok g) -> good_priv k -> good_priv k' -> same_shape k k' ->
    length em = length em' -> (length em <= key_size (sk_pub k))%nat ->
    os2ip em < uval (pk_n (sk_pub k)) -> os2ip em' < uval (pk_n (sk_pub k)) ->
    let run key e := let! int := l_from_be_slice e (n_bits_precision (sk_pub k)) in
                     let! s := l_rsa_decrypt_and_check g fuel key rng int in
                     l_uint_to_be_pad s (key_size (sk_pub k)) in
    zeros_of (result (run k em)) = zeros_of (result (run k' em')) ->
    trace (run k em) = trace (run k' em').
  Proof.
    intros Hr Hk Hk' Hs L Lk Lt Lt' run. unfold run. clear run. pose proof (good_pub _ Hk) as Hp.
    apply bind_zeros with (1 := l_from_be_key (sk_pub k) em em' Hp L Lk).
    intros c c' (-> & -> & W & W') _ _.
    eapply bind_zeros; [apply ag_check_good; auto|]. cbn beta. cbn [uval uprec].
    intros a b (-> & ->) _ _. pose proof (odd_pos_n _ Hp).
    apply pad_zeros_trace; auto; apply Z.mod_pos_bound; lia.
  Qed.

  Lemma pkcs1_sign_trace fuel rng k k' prefix prefix' hashed hashed' :
    (rng <> None -> rng_ok g) -> good_priv k -> good_priv k' -> same_shape k k' ->
    length prefix = length prefix' -> length hashed = length hashed' ->
    zeros_of (pkcs1v15_sign g fuel rng k prefix hashed)
    = zeros_of (pkcs1v15_sign g fuel rng k' prefix' hashed') ->
    trace (l_pkcs1v15_sign g fuel rng k prefix hashed)
    = trace (l_pkcs1v15_sign g fuel rng k' prefix' hashed').
  Proof.
    intros Hr Hk Hk' Hs L1 L2 Sa. rewrite <- !rf_pkcs1_sign in Sa. revert Sa.
    unfold l_pkcs1v15_sign. cbv zeta. rewrite <- (proj1 Hs). pose proof (good_pub _ Hk) as Hp.
    apply bind_zeros with (1 := ag_sign_pad prefix prefix' hashed hashed' _ L1 L2).
    intros em em' _ E E'. rewrite rf_sign_pad in E, E'.
    apply sign_pad_spec in E. apply sign_pad_spec in E'. destruct E as (S1 & ->), E' as (S2 & ->).
    apply sign_core_trace; auto; rewrite ?emsa_pkcs1_length by auto; auto; apply emsa_pkcs1_lt; auto.
  Qed.

  (** * A private operation seen from outside *)

  Lemma blank_shape k : same_shape k (blank_key k).
  Proof.
    split; [reflexivity|]. split; [reflexivity|]. split.
    - unfold blank_key. cbn [sk_primes]. rewrite map_map. reflexivity.
    - unfold blank_key. cbn [sk_pre]. destruct (sk_pre k); [|exact I]. repeat split; reflexivity.
  Qed.

  Lemma rsa_decrypt_blank fuel rng k c :
    0 < uval (pk_n (sk_pub k)) -> 0 <= uval c < uval (pk_n (sk_pub k)) ->
    trace (l_rsa_decrypt g fuel rng k c) = trace (l_rsa_decrypt g fuel rng (blank_key k) (blank_uint c)).
  Proof.
    intros Hn Hc. eapply ag_trace. apply ag_rsa_decrypt; [apply blank_shape|reflexivity|].
    cbn [blank_uint uval]. lia.
  Qed.
End Public.

(** * What the trace of a decryption does give away *)

Lemma pad_trace_zeros k m1 m2 {B C} (f : list byte -> leaky B) (f' : list byte -> leaky C) : wf_pub k ->
  0 <= m1 < uval (pk_n k) -> 0 <= m2 < uval (pk_n k) ->
  trace (lbind (l_uint_to_be_pad (mkU m1 (uprec (pk_n k))) (key_size k)) f)
  = trace (lbind (l_uint_to_be_pad (mkU m2 (uprec (pk_n k))) (key_size k)) f') ->
  zero_octets (i2osp m1 (key_size k)) = zero_octets (i2osp m2 (key_size k)).
Proof.
  intros Hp R1 R2 E. destruct (key_size_facts _ Hp) as (_ & K2 & _).
  pose proof Hp as ((Hv & Hp1 & Hm) & _). pose proof (key_n_lt _ Hp) as Kn.
  assert (X : uleading_zeros (mkU m1 (uprec (pk_n k))) / 8 = uleading_zeros (mkU m2 (uprec (pk_n k))) / 8).
  { rewrite !trace_bind in E. unfold l_uint_to_be_pad in E. cbn [uprec] in E.
    unfold l_op in E. rewrite !trace_emit in E. unfold l_slice_from in E.
    rewrite !(trace_bind (emit _ _)) in E. unfold emit, trace at 1 in E. cbn [fst app] in E.
    unfold trace at 3 in E. cbn [fst app] in E.
    unfold to_be_bytes in E. cbn [uprec] in E. rewrite !be_bytes_length in E.
    injection E as E _.
    assert (0 <= uleading_zeros (mkU m1 (uprec (pk_n k))) / 8 /\
            0 <= uleading_zeros (mkU m2 (uprec (pk_n k))) / 8); [|lia].
    assert (F : forall m, 0 <= m < uval (pk_n k) -> 0 <= uleading_zeros (mkU m (uprec (pk_n k))) / 8).
    { intros m Rm. apply Z.div_pos; [|lia].
      assert (W : wf_uint (mkU m (uprec (pk_n k)))) by (apply wf_mk; auto; lia).
      pose proof (ubits_le_prec _ W). unfold uleading_zeros. lia. }
    split; apply F; auto. }
  rewrite !leading_zeros_octets with (k := key_size k) in X by lia.
  pose proof (zero_octets_le (i2osp m1 (key_size k))) as L1.
  pose proof (zero_octets_le (i2osp m2 (key_size k))) as L2. rewrite i2osp_length in L1, L2. lia.
Qed.

Lemma trace_public {A B} (a : A) (k : A -> leaky B) : trace (lbind (l_public (Ok a)) k) = trace (k a).
Proof. unfold l_public, trace, lbind. cbn [fst snd]. destruct (k a). reflexivity. Qed.

Section Leak.
  Context {R : Type} (g : rng_ops R).

  Lemma core_leak fuel rng k k' ct ct' {B C} (f : list byte -> leaky B) (f' : list byte -> leaky C) :
    (rng <> None -> rng_ok g) -> good_priv k -> good_priv k' -> same_shape k k' ->
    length ct = length ct' -> 8 * Z.of_nat (length ct) <= uprec (pk_n (sk_pub k)) ->
    os2ip ct < uval (pk_n (sk_pub k)) -> os2ip ct' < uval (pk_n (sk_pub k)) ->
    blinding_succeeds g (uval (pk_n (sk_pub k))) rng fuel ->
    let n := uval (pk_n (sk_pub k)) in let size := key_size (sk_pub k) in
    trace (let! c := l_public (from_be_slice ct (n_bits_precision (sk_pub k))) in
           let! m := l_rsa_decrypt_and_check g fuel k rng c in
           let! em := l_uint_to_be_pad m size in f em)
    = trace (let! c := l_public (from_be_slice ct' (n_bits_precision (sk_pub k))) in
             let! m := l_rsa_decrypt_and_check g fuel k' rng c in
             let! em := l_uint_to_be_pad m size in f' em) ->
    zero_octets (i2osp (RSADP n (uval (sk_d k)) (os2ip ct)) size)
    = zero_octets (i2osp (RSADP n (uval (sk_d k')) (os2ip ct')) size).
  Proof.
    intros Hr Hk Hk' Hs Hl Hf Lt Lt' Hb n size E.
    pose proof (good_pub _ Hk) as Hp. pose proof Hp as ((Hv & Hp1 & Hm) & _).
    pose proof (odd_pos_n _ Hp) as Hn.
    unfold n_bits_precision in E. rewrite !from_be_slice_fits in E by (auto; rewrite <- ?Hl; auto).
    rewrite !trace_public in E.
    assert (W : wf_uint (mkU (os2ip ct) (uprec (pk_n (sk_pub k))))) by (apply os2ip_wf; auto).
    assert (W' : wf_uint (mkU (os2ip ct') (uprec (pk_n (sk_pub k))))) by (apply os2ip_wf; auto; rewrite <- Hl; auto).
    pose proof (ag_check_good g fuel rng k k' _ _ Hr Hk Hk' Hs W W' eq_refl eq_refl Lt Lt') as (T & _).
    rewrite !trace_bind, T in E. apply app_inv_head in E. rewrite !rf_rsa_check in E.
    pose proof (rsa_decrypt_and_check_good g fuel rng k _ Hr Hk W eq_refl Lt) as (A & _).
    pose proof (rsa_decrypt_and_check_good g fuel rng k' _ Hr Hk' W'
                  ltac:(rewrite <- (proj1 Hs); auto) ltac:(rewrite <- (proj1 Hs); auto)) as (A' & _).
    rewrite <- (proj1 Hs) in A'. rewrite (A Hb), (A' Hb) in E. cbn [uval] in E.
    apply pad_trace_zeros in E; auto; apply Z.mod_pos_bound; lia.
  Qed.

  Lemma pkcs1_decrypt_leaks fuel rng k k' ct ct' :
    (rng <> None -> rng_ok g) -> good_priv k -> good_priv k' -> same_shape k k' ->
    public_usable (uval (pk_n (sk_pub k))) (uval (pk_e (sk_pub k))) (uprec (pk_n (sk_pub k))) ->
    length ct = length ct' -> 8 * Z.of_nat (length ct) <= uprec (pk_n (sk_pub k)) ->
    os2ip ct < uval (pk_n (sk_pub k)) -> os2ip ct' < uval (pk_n (sk_pub k)) ->
    blinding_succeeds g (uval (pk_n (sk_pub k))) rng fuel ->
    trace (l_pkcs1v15_decrypt g fuel rng k ct) = trace (l_pkcs1v15_decrypt g fuel rng k' ct') ->
    zero_octets (i2osp (RSADP (uval (pk_n (sk_pub k))) (uval (sk_d k)) (os2ip ct)) (key_size (sk_pub k)))
    = zero_octets (i2osp (RSADP (uval (pk_n (sk_pub k))) (uval (sk_d k')) (os2ip ct')) (key_size (sk_pub k))).
  Proof.
    intros Hr Hk Hk' Hs Hu Hl Hf Lt Lt' Hb E. pose proof (good_pub _ Hk) as Hp.
    apply check_public_ok in Hu; [|exact Hp].
    unfold l_pkcs1v15_decrypt in E. cbv zeta in E. rewrite <- (proj1 Hs), Hu, !trace_public in E.
    eapply core_leak in E; eauto.
  Qed.

  Lemma oaep_api_leaks fuel rng k k' ct ct' dg mg label :
    (rng <> None -> rng_ok g) -> good_priv k -> good_priv k' -> same_shape k k' ->
    length ct = key_size (sk_pub k) -> length ct' = key_size (sk_pub k) ->
    os2ip ct < uval (pk_n (sk_pub k)) -> os2ip ct' < uval (pk_n (sk_pub k)) ->
    blinding_succeeds g (uval (pk_n (sk_pub k))) rng fuel ->
    trace (l_oaep_api_decrypt g fuel rng k ct dg mg label)
    = trace (l_oaep_api_decrypt g fuel rng k' ct' dg mg label) ->
    zero_octets (i2osp (RSADP (uval (pk_n (sk_pub k))) (uval (sk_d k)) (os2ip ct)) (key_size (sk_pub k)))
    = zero_octets (i2osp (RSADP (uval (pk_n (sk_pub k))) (uval (sk_d k')) (os2ip ct')) (key_size (sk_pub k))).
  Proof.
    intros Hr Hk Hk' Hs L L' Lt Lt' Hb E. pose proof (good_pub _ Hk) as Hp.
    destruct (key_size_facts _ Hp) as (_ & K2 & _).
    unfold l_oaep_api_decrypt in E. cbv zeta in E. rewrite <- (proj1 Hs), L, L', Nat.eqb_refl in E.
    cbn [negb] in E. unfold l_if in E. rewrite !trace_emit in E. injection E as E.
    eapply core_leak in E; eauto; try congruence; lia.
  Qed.

  Lemma oaep_api_digest_leaks hd hm fuel rng k k' ct ct' label :
    (rng <> None -> rng_ok g) -> good_priv k -> good_priv k' -> same_shape k k' ->
    public_usable (uval (pk_n (sk_pub k))) (uval (pk_e (sk_pub k))) (uprec (pk_n (sk_pub k))) ->
    length ct = key_size (sk_pub k) -> length ct' = key_size (sk_pub k) ->
    os2ip ct < uval (pk_n (sk_pub k)) -> os2ip ct' < uval (pk_n (sk_pub k)) ->
    blinding_succeeds g (uval (pk_n (sk_pub k))) rng fuel ->
    trace (l_oaep_api_decrypt_digest g hd hm fuel rng k ct label)
    = trace (l_oaep_api_decrypt_digest g hd hm fuel rng k' ct' label) ->
    zero_octets (i2osp (RSADP (uval (pk_n (sk_pub k))) (uval (sk_d k)) (os2ip ct)) (key_size (sk_pub k)))
    = zero_octets (i2osp (RSADP (uval (pk_n (sk_pub k))) (uval (sk_d k')) (os2ip ct')) (key_size (sk_pub k))).
  Proof.
    intros Hr Hk Hk' Hs Hu L L' Lt Lt' Hb E. pose proof (good_pub _ Hk) as Hp.
    apply check_public_ok in Hu; [|exact Hp].
    destruct (key_size_facts _ Hp) as (_ & K2 & _).
    unfold l_oaep_api_decrypt_digest in E. cbv zeta in E.
    rewrite <- (proj1 Hs), Hu, !trace_public, L, L', Nat.eqb_refl in E.
    cbn [negb] in E. unfold l_if in E. rewrite !trace_emit in E. injection E as E.
    eapply core_leak in E; eauto; try congruence; lia.
  Qed.
End Leak.

(** * Precomputation *)

Lemma precompute_trace_d k k' : sk_pre k = None -> sk_pre k' = None ->
  sk_primes k = sk_primes k' -> uprec (sk_d k) = uprec (sk_d k') ->
  trace (l_precompute k) = trace (l_precompute k').
Proof.
  intros E E' Ep Ed. eapply (ag_trace (fun _ _ => True)). unfold l_precompute. rewrite E, E'. cbv zeta.
  rewrite <- Ep, <- Ed.
  apply ag_same. intros _ _. apply ag_same. intros p0 _. apply ag_same. intros p _.
  apply ag_same. intros q0 _. apply ag_same. intros q _. apply ag_same. intros c1 _.
  apply ag_same. intros _ _. apply ag_same. intros c2 _. apply ag_same. intros _ _.
  apply ag_same. intros _ _.
  eapply ag_bind; [apply ag_rem; exact Ed|]. intros dp dp' Hdp.
  apply ag_same. intros _ _.
  eapply ag_bind; [apply ag_rem; exact Ed|]. intros dq dq' Hdq.
  apply ag_same. intros qm _. apply ag_same. intros qi _. apply ag_same. intros _ _.
  destruct qi; [|apply ag_err]. rewrite Hdp, Hdq. apply ag_same. intros _ _. apply ag_ret. exact I.
Qed.

Lemma trace_emit_bind {A B} ev (o : outcome A) (k : A -> leaky B) :
  trace (lbind (emit ev o) k) = ev :: match o with Ok a => trace (k a) | _ => [] end.
Proof. unfold lbind, emit, trace. cbn [fst snd]. destruct o; auto. destruct (k a); reflexivity. Qed.

(** The beginning of the trace of [precompute] on a valid key. *)
Lemma precompute_trace_head k : good_priv k -> primes_fit k -> sk_pre k = None ->
  exists p q rest t, sk_primes k = p :: q :: rest /\
    trace (l_precompute k) =
    EBranch false :: EIndex 0 (length (sk_primes k)) :: EUint OpWiden [uprec p; uprec (sk_d k)]
    :: EIndex 1 (length (sk_primes k)) :: EUint OpWiden [uprec q; uprec (sk_d k)]
    :: EBranch true :: ECheck true :: EBranch true :: ECheck true :: ECheck true
    :: EVartime (uprec (sk_d k)) (uval p - 1) :: ECheck true
    :: EVartime (uprec (sk_d k)) (uval q - 1) :: t.
Proof.
  intros (Hpub & Hd & HF & HV & Hprec & Hpre) Hfit Ep. unfold l_precompute. rewrite Ep. cbv zeta.
  destruct HV as (HL & HP & HD & HN & _). pose proof Hpub as (_ & _ & _ & Hodd).
  unfold primes_fit in Hfit.
  destruct (sk_primes k) as [|p [|q rest]] eqn:EP; cbn [map length] in HL, HP, HD, HN; try lia.
  cbn [firstn] in Hfit.
  inversion HF as [|? ? Wp HF2]; subst. inversion HF2 as [|? ? Wq HF3]; subst.
  inversion HP as [|? ? Pp HP2]; subst. inversion HP2 as [|? ? Pq HP3]; subst.
  pose proof Hd as (_ & Hd1 & Hd2).
  assert (Fp : uprec p <= uprec (sk_d k)) by (apply Hfit; simpl; auto).
  assert (Fq : uprec q <= uprec (sk_d k)) by (apply Hfit; simpl; auto).
  assert (Ho : forall x, In x (uval p :: uval q :: map uval rest) -> Z.odd x = true)
    by (apply odd_factors; rewrite <- HN; auto).
  assert (Op : Z.odd (uval p) = true) by (apply Ho; simpl; auto).
  assert (Oq : Z.odd (uval q) = true) by (apply Ho; simpl; auto).
  clear Ho HN.
  pose proof (odd_prime_gt2 _ Pp Op). pose proof (odd_prime_gt2 _ Pq Oq).
  exists p, q, rest. eexists. split; [reflexivity|].
  unfold l_if, l_get, l_widen, l_op. rewrite trace_emit_bind. f_equal.
  rewrite trace_emit_bind. cbn [get_idx nth_error]. f_equal.
  rewrite trace_emit_bind. rewrite widen_ok by auto. f_equal.
  rewrite trace_emit_bind. cbn [get_idx nth_error]. f_equal.
  rewrite trace_emit_bind. rewrite widen_ok by auto. f_equal.
  unfold uis_odd. cbn [uval]. rewrite Op, Oq.
  rewrite trace_emit_bind. f_equal. rewrite trace_emit_bind. cbn [guard]. f_equal.
  rewrite trace_emit_bind. f_equal. rewrite trace_emit_bind. cbn [guard]. f_equal.
  rewrite !wrapping_pred by (auto; lia). unfold uis_zero. cbn [uval uprec].
  destruct (Z.eqb_spec (uval p - 1) 0); [lia|]. destruct (Z.eqb_spec (uval q - 1) 0); [lia|].
  cbn [negb guard]. rewrite trace_emit_bind. f_equal.
  unfold l_rem_vartime. cbn [uval uprec]. rewrite trace_emit_bind. f_equal.
  unfold urem. cbn [uval uprec]. destruct (Z.eqb_spec (uval p - 1) 0); [lia|].
  rewrite trace_emit_bind. f_equal. rewrite trace_emit_bind. reflexivity.
Qed.

Lemma precompute_leaks k k' p q rest p' q' rest' :
  good_priv k -> good_priv k' -> primes_fit k -> primes_fit k' -> sk_pre k = None -> sk_pre k' = None ->
  sk_primes k = p :: q :: rest -> sk_primes k' = p' :: q' :: rest' ->
  trace (l_precompute k) = trace (l_precompute k') -> uval p = uval p' /\ uval q = uval q'.
Proof.
  intros Hk Hk' Hf Hf' E E' P P' T.
  destruct (precompute_trace_head k Hk Hf E) as (a & b & r & t & Q & X).
  destruct (precompute_trace_head k' Hk' Hf' E') as (a' & b' & r' & t' & Q' & X').
  rewrite X, X' in T. rewrite P in Q. rewrite P' in Q'. injection Q as <- <- <-. injection Q' as <- <- <-.
  injection T; intros; lia.
Qed.
