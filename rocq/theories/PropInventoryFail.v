(** C91, continued: what is left when the random source fails during blinding. *)
From Coq Require Import ZArith Znumtheory List Bool Lia.
From Coq Require Import Init.Byte.
From Verif Require Import Base Bigint BigintLemmas SpecRFC SpecRng SpecKey MHash MMgf MPkcs1 MOaep MPss MRsa MKey MApi
  MResidue MResidueSig KeyDefs SpecResidue SpecInventory PPad PMgf PApi PRsa PEnc PSig POaep PPkcs1 PPss
  KeyExamples PHist PropLeak PResidue PResidueSig PInventory.
Import ListNotations.
Local Open Scope Z_scope.

(** The modulus (the copy made by the assertion), the candidates for [r] drawn before, which
    had no inverse, the latest first, and the 1 from which the search starts; nothing is
    erased. *)
Definition failed_blinding_list (k : privkey) (l : list fate) : Prop :=
  let n := uval (pk_n (sk_pub k)) in
  exists rejected, Forall (fun x => 0 < x < n /\ Z.gcd x n <> 1) rejected /\ l = kept (n :: rev (1 :: rejected)).

Section Fail.
  Context {R : Type} (g : rng_ops R).

  Lemma inv_loop_fails fuel : forall st key r0,
    rng_ok g -> wf_uint (pk_n key) -> 1 < uval (pk_n key) -> blind_loop g fuel st key = Err Rng ->
    exists rejected, Forall (fun x => 0 < x < uval (pk_n key) /\ Z.gcd x (uval (pk_n key)) <> 1) rejected /\
      inventory (z_blind_loop g fuel st key r0) = kept (rev (uval r0 :: rejected)).
  Proof.
    induction fuel as [|f IH]; intros st key r0 G Wn N1 H; [discriminate|].
    cbn [blind_loop z_blind_loop] in *. rewrite inv_own.
    destruct (rng_mod g st (uval (pk_n key))) as [[v|] st1] eqn:E.
    2:{ exists []. split; [constructor|]. reflexivity. }
    pose proof G as [_ G2]. assert (Rv : 0 <= v < uval (pk_n key)) by (apply G2 in E; [exact E|lia]). cbv zeta in *.
    set (rr := if uis_zero (mkU v (uprec (pk_n key))) then u_one_with (n_bits_precision key)
               else mkU v (uprec (pk_n key))) in *.
    assert (Hrr : uprec rr = uprec (pk_n key) /\ uval rr = if v =? 0 then 1 else v).
    { unfold rr, uis_zero. cbn [uval]. destruct (v =? 0); [|split; reflexivity].
      unfold u_one_with, n_bits_precision. cbn [uval uprec].
      destruct Wn as (? & ? & ?). rewrite prec_for_id by auto. split; reflexivity. }
    assert (ER : outcome_of (if uis_zero (mkU v (uprec (pk_n key)))
                  then owning (Plain (Int (mkU v (uprec (pk_n key))))) (z_ret (u_one_with (n_bits_precision key)))
                  else z_ret (mkU v (uprec (pk_n key)))) = Ok rr) by (unfold rr; destruct (uis_zero _); reflexivity).
    assert (EI : inventory (if uis_zero (mkU v (uprec (pk_n key)))
                  then owning (Plain (Int (mkU v (uprec (pk_n key))))) (z_ret (u_one_with (n_bits_precision key)))
                  else z_ret (mkU v (uprec (pk_n key)))) = kept (if v =? 0 then [0] else [])).
    { unfold uis_zero. cbn [uval]. destruct (Z.eqb_spec v 0) as [->|]; reflexivity. }
    rewrite (inv_ok _ _ rr ER), EI. clear ER EI. destruct Hrr as (P & V).
    unfold uinv_mod in *. rewrite P, Z.eqb_refl in *.
    destruct (zinv (uval rr) (uval (pk_n key))) as [x|] eqn:EZ; cbn [bind] in H; [discriminate|].
    rewrite (inv_step _ _ _ eq_refl).
    destruct (IH st1 key rr G Wn N1 H) as (rej & Fr & I). rewrite I.
    assert (NG : Z.gcd (uval rr) (uval (pk_n key)) <> 1).
    { intros GG. destruct (zinv_unit _ _ N1 GG) as (y & Y). congruence. }
    destruct (Z.eqb_spec v 0) as [E0|E0].
    { exfalso. apply NG. rewrite V. apply Z.gcd_1_l. }
    exists (uval rr :: rej). split.
    { constructor; [|exact Fr]. split; [rewrite V; lia|exact NG]. }
    cbn [kept map app]. unfold kept. cbn [rev]. rewrite !map_app. cbn [map fate_of content_of]. rewrite <- ?app_assoc. reflexivity.
  Qed.

  Lemma inv_dec_fails fuel st k c : rng_ok g -> good_priv k -> wf_uint c -> uprec c = uprec (pk_n (sk_pub k)) ->
    uval c < uval (pk_n (sk_pub k)) -> blinding_fails g (uval (pk_n (sk_pub k))) (Some st) fuel ->
    outcome_of (z_rsa_decrypt g fuel (Some st) k c) = Err Rng /\
    outcome_of (z_rsa_decrypt_and_check g fuel k (Some st) c) = Err Rng /\
    exists l, failed_blinding_list k l /\ inventory (z_rsa_decrypt g fuel (Some st) k c) = l /\
      inventory (z_rsa_decrypt_and_check g fuel k (Some st) c) = l.
  Proof.
    intros G K Wc Pc Lc BF.
    pose proof (good_pub k K) as W. pose proof (good_gt1 k K) as N1. pose proof W as (Wn & _ & Wp & _).
    destruct (rsa_decrypt_good g fuel (Some st) k c (fun _ => G) K Wc Pc Lc) as (_ & D & _). specialize (D BF).
    destruct (rsa_decrypt_and_check_good g fuel (Some st) k c (fun _ => G) K Wc Pc Lc) as (_ & C & _). specialize (C BF).
    assert (L : blind_loop g fuel st (sk_pub k) = Err Rng).
    { rewrite rsa_decrypt_blind in D by auto. destruct (blind_loop _ _ _ _); congruence. }
    assert (B : blind g fuel st (sk_pub k) c (pk_params (sk_pub k)) = Err Rng) by (rewrite blind_ok, L by auto; reflexivity).
    split; [rewrite zr_dec; exact D|]. split; [rewrite zr_check; exact C|].
    destruct (inv_loop_fails fuel st (sk_pub k) (u_one_with (n_bits_precision (sk_pub k))) G Wn N1 L) as (rej & Fr & I).
    assert (ID : inventory (z_rsa_decrypt g fuel (Some st) k c) = kept (uval (pk_n (sk_pub k)) :: rev (1 :: rej))).
    { unfold z_rsa_decrypt. cbv zeta. unfold uleb. destruct (Z.leb_spec (uval (pk_n (sk_pub k))) (uval c)); [lia|].
      rewrite !inv_bind, !zr_bind, !zr_blind, B. cbn [bind]. rewrite !app_nil_r.
      unfold z_blind. cbv zeta. rewrite Wp. cbn [mp_modulus]. unfold ueqb. rewrite Z.eqb_refl. 
      rewrite inv_bind, inv_own, zr_own, inv_lift, zr_lift. cbn [assert_ app].
      rewrite inv_bind, zr_blind_loop, L, I, app_nil_r. reflexivity. }
    exists (kept (uval (pk_n (sk_pub k)) :: rev (1 :: rej))). split; [exists rej; auto|]. split; [exact ID|].
    unfold z_rsa_decrypt_and_check. rewrite inv_bind, zr_dec, D, app_nil_r. exact ID.
  Qed.

  Lemma inv_sign_em_fails fuel st k em : rng_ok g -> good_priv k -> 8 * Z.of_nat (length em) <= uprec (pk_n (sk_pub k)) ->
    os2ip em < uval (pk_n (sk_pub k)) -> blinding_fails g (uval (pk_n (sk_pub k))) (Some st) fuel ->
    outcome_of (z_sign_em g fuel (Some st) k em) = Err Rng /\
    exists l, failed_blinding_list k l /\
      inventory (z_sign_em g fuel (Some st) k em) = l ++ kept [os2ip em] ++ kept_texts [em].
  Proof.
    intros G K F V BF. pose proof (good_pub k K) as W. pose proof W as (Wn & _). pose proof Wn as (_ & P1 & P2).
    assert (FB : from_be_slice em (n_bits_precision (sk_pub k)) = Ok (mkU (os2ip em) (uprec (pk_n (sk_pub k)))))
      by (apply from_be_slice_fits; auto).
    set (c := mkU (os2ip em) (uprec (pk_n (sk_pub k)))) in *.
    assert (Wc : wf_uint c) by (apply os2ip_wf; auto).
    destruct (inv_dec_fails fuel st k c G K Wc eq_refl V BF) as (_ & O & l & Fl & _ & I).
    unfold z_sign_em. cbv zeta. split.
    - rewrite zr_own, zr_bind, zr_lift, FB. cbn [bind]. rewrite zr_own, zr_bind, O. reflexivity.
    - exists l. split; [exact Fl|]. rewrite inv_own, (inv_step _ _ _ FB), inv_own, inv_bind, O, I, app_nil_r.
      rewrite <- app_assoc. reflexivity.
  Qed.
End Fail.

(** The raw operation and a decryption: besides, the ciphertext's number. *)
Theorem C91_complete_failed_decryption : forall {R} (g : rng_ops R) fuel st k, rng_ok g -> good_priv k ->
  blinding_fails g (uval (pk_n (sk_pub k))) (Some st) fuel ->
  (forall c, wf_uint c -> uprec c = uprec (pk_n (sk_pub k)) -> uval c < uval (pk_n (sk_pub k)) ->
   let run := z_rsa_decrypt g fuel (Some st) k c in
   outcome_of run = Err Rng /\ failed_blinding_list k (inventory run)) /\
  (forall ct, length ct = key_size (sk_pub k) -> os2ip ct < uval (pk_n (sk_pub k)) ->
   exists l, failed_blinding_list k l /\
   (usable_key (sk_pub k) -> let run := z_pkcs1v15_decrypt g fuel (Some st) k ct in
      outcome_of run = Err Rng /\ inventory run = l ++ kept [os2ip ct]) /\
   (usable_key (sk_pub k) -> forall hd hm label, let run := z_oaep_api_decrypt_digest g hd hm fuel (Some st) k ct label in
      outcome_of run = Err Rng /\ inventory run = l ++ kept [os2ip ct]) /\
   (forall dg mgf label, let run := z_oaep_api_decrypt g fuel (Some st) k ct dg mgf label in
      outcome_of run = Err Rng /\ inventory run = l ++ kept [os2ip ct])).
Proof.
  intros R g fuel st k G K BF. pose proof (good_pub k K) as W. split.
  - intros c Wc Pc Lc run. destruct (inv_dec_fails g fuel st k c G K Wc Pc Lc BF) as (O & _ & l & F & I & _).
    split; [exact O|]. unfold run. rewrite I. exact F.
  - intros ct L V. pose proof W as (Wn & _). pose proof Wn as (_ & P1 & P2).
    pose proof (from_be_slice_key _ ct W L) as FB. destruct (key_size_facts _ W) as (_ & H2 & _).
    set (c := mkU (os2ip ct) (uprec (pk_n (sk_pub k)))) in *.
    assert (Wc : wf_uint c) by (apply os2ip_wf; auto; rewrite L; exact H2).
    destruct (inv_dec_fails g fuel st k c G K Wc eq_refl V BF) as (_ & O & l & Fl & _ & I).
    assert (D : forall unpad, outcome_of (z_decrypt_with g fuel (Some st) k ct unpad) = Err Rng /\
      inventory (z_decrypt_with g fuel (Some st) k ct unpad) = l ++ kept [os2ip ct]).
    { intros unpad. unfold z_decrypt_with. cbv zeta. split.
      - rewrite zr_bind, zr_lift, FB. cbn [bind]. rewrite zr_own, zr_bind, O. reflexivity.
      - rewrite (inv_step _ _ _ FB), inv_own, inv_bind, O, I, app_nil_r. reflexivity. }
    exists l. split; [exact Fl|]. split.
    + intros U. cbv zeta. unfold z_pkcs1v15_decrypt.
      assert (CP : check_public (sk_pub k) = Ok tt) by (apply check_public_ok; auto).
      rewrite zr_bind, zr_lift, (inv_step _ _ _ CP), CP. cbn [bind]. apply D.
    + split.
      { intros U hd hm label. cbv zeta. unfold z_oaep_api_decrypt_digest.
        assert (CP : check_public (sk_pub k) = Ok tt) by (apply check_public_ok; auto).
        rewrite zr_bind, zr_lift, (inv_step _ _ _ CP), CP. cbn [bind]. rewrite L, Nat.eqb_refl. cbn [negb]. apply D. }
      intros dg mgf label. cbv zeta. unfold z_oaep_api_decrypt. rewrite L, Nat.eqb_refl. cbn [negb]. apply D.
Qed.

(** A signature: besides, the encoded message as a number and as octets; for PSS the salt and,
    with a digest chosen at run time, the hash of the salted message and the blocks of its mask. *)
Theorem C91_complete_failed_signature : forall {R} (g : rng_ops R) fuel k, rng_ok g -> good_priv k ->
  uprec (pk_n (sk_pub k)) < 2 ^ 32 ->
  (forall st prefix hashed, blinding_fails g (uval (pk_n (sk_pub k))) (Some st) fuel ->
   (length (prefix ++ hashed) + 11 <= key_size (sk_pub k))%nat ->
   let run := z_pkcs1v15_sign g fuel (Some st) k prefix hashed in
   let EM := emsa_pkcs1 (prefix ++ hashed) (key_size (sk_pub k)) in
   outcome_of run = Err Rng /\
   exists l, failed_blinding_list k l /\ inventory run = l ++ kept [os2ip EM] ++ kept_texts [EM]) /\
  (forall hd st st' hashed sl salt, (0 < h_size hd)%nat ->
   let emBits := Z.to_nat (Z.log2 (uval (pk_n (sk_pub k)))) in
   length hashed = h_size hd -> (h_size hd + sl + 2 <= pss_em_len emBits)%nat ->
   rng_fill g st sl = (Some salt, st') -> blinding_fails g (uval (pk_n (sk_pub k))) (Some st') fuel ->
   let static := z_pss_sign_digest g hd fuel st true k hashed sl in
   let dynamic := z_pss_sign g fuel st true k hashed sl (digest_new hd) in
   let EM := pss_encode (h_fun hd) (h_size hd) hashed salt emBits in
   outcome_of static = Err Rng /\ outcome_of dynamic = Err Rng /\
   exists l0, failed_blinding_list k l0 /\
     let l := l0 ++ kept [os2ip EM] ++ kept_texts [EM] in
     inventory static = l ++ kept_texts [salt] /\
     let H := h_fun hd (repeat x00 8 ++ hashed ++ salt) in
     inventory dynamic =
       mgf_list (h_fun hd) (h_size hd) H (pss_em_len emBits - h_size hd - 1) ++ kept_texts [H] ++ l ++ kept_texts [salt]).
Proof.
  intros R g fuel k G K P. pose proof (good_pub k K) as W. pose proof (good_gt1 k K) as N1.
  destruct (key_size_facts _ W) as (_ & H2 & _). split.
  - intros st prefix hashed BF LT. cbv zeta.
    change (z_pkcs1v15_sign g fuel (Some st) k prefix hashed)
      with (let~ em := z_lift (pkcs1v15_sign_pad prefix hashed (key_size (sk_pub k))) in z_sign_em g fuel (Some st) k em).
    pose proof (sign_pad_ok prefix hashed (key_size (sk_pub k)) LT) as E.
    pose proof (emsa_pkcs1_lt _ _ W LT) as V.
    rewrite zr_bind, zr_lift, (inv_step _ _ _ E), E. cbn [bind].
    apply inv_sign_em_fails; auto. rewrite emsa_pkcs1_length by auto. exact H2.
  - intros hd st st' hashed sl salt Hh emBits Lh Ls Ef BF. cbv zeta.
    pose proof (proj1 G st sl salt st' Ef) as L. subst sl.
    unfold z_pss_sign_digest, z_pss_sign. rewrite Ef. rewrite !zr_own, !inv_own.
    unfold z_sign_pss_with_salt_digest, z_sign_pss_with_salt. cbv zeta.
    destruct (nbits_facts _ W) as (B1 & B2 & B3 & B4 & B5).
    assert (B : usub (Z.to_nat (ubits (pk_n (sk_pub k)))) 1 = Ok emBits).
    { unfold emBits, usub, ubits, zbits. destruct (Z.leb_spec (uval (pk_n (sk_pub k))) 0); [lia|].
      pose proof (Z.log2_nonneg (uval (pk_n (sk_pub k)))).
      destruct (Nat.leb_spec 1 (Z.to_nat (Z.log2 (uval (pk_n (sk_pub k))) + 1))); [f_equal; lia|lia]. }
    assert (LE : Z.of_nat (pss_em_len emBits) <= 2 ^ 32).
    { pose proof W as ((Vn & P1 & _) & _). assert (Z.of_nat emBits < 2 ^ 32).
      { unfold emBits. assert (Z.log2 (uval (pk_n (sk_pub k))) < uprec (pk_n (sk_pub k))) by (apply Z.log2_lt_pow2; lia).
        pose proof (Z.log2_nonneg (uval (pk_n (sk_pub k)))). lia. }
      unfold pss_em_len. pose proof (div_ceil8_spec emBits) as D. unfold div_ceil8 in D. lia. }
    assert (Eb : (Z.to_nat (ubits (pk_n (sk_pub k))) - 1)%nat = emBits).
    { unfold usub in B. destruct (_ <=? _)%nat; congruence. }
    set (em := pss_encode (h_fun hd) (h_size hd) hashed salt emBits).
    assert (E : emsa_pss_encode_digest hd hashed emBits salt = Ok em).
    { rewrite emsa_pss_encode_digest_spec by auto. rewrite (proj2 (Nat.eqb_eq _ _) Lh). cbn [negb].
      destruct (Nat.ltb_spec (pss_em_len emBits) (h_size hd + length salt + 2)); [lia|reflexivity]. }
    pose proof (inv_emsa hd hashed emBits salt em Hh LE E) as IE. cbv zeta in IE.
    assert (S : outcome_of (z_sign_em g fuel (Some st') k em) = Err Rng /\
      exists l, failed_blinding_list k l /\
        inventory (z_sign_em g fuel (Some st') k em) = l ++ kept [os2ip em] ++ kept_texts [em]).
    { rewrite Eb in B4, B5. apply inv_sign_em_fails; auto; unfold em.
      - rewrite pss_encode_length by auto. lia.
      - pose proof (pss_encode_value hd hashed salt emBits Hh Ls). lia. }
    destruct S as (O & l0 & F & I).
    rewrite !(inv_step _ _ _ B), !(zr_bind (z_lift _)), !zr_lift, B. cbn [bind].
    rewrite (inv_step _ _ _ E), ?(zr_bind (z_lift _)), ?zr_lift, E. cbn [bind].
    rewrite zr_bind, inv_bind, IE, zr_emsa, emsa_pss_encode_agree, E. cbn [bind].
    split; [exact O|]. split; [exact O|]. exists l0. split; [exact F|]. rewrite I. split; [reflexivity|].
    rewrite <- !app_assoc. reflexivity.
Qed.

(** A source that fails at once, and one that first yields [p] (which has no inverse). *)
Definition once_rng (v : Z) : rng_ops bool :=
  mkRng bool (fun st len => (Some (repeat x01 len), st)) (fun st n => if st then (Some (v mod n), false) else (None, false)).

Lemma once_rng_ok v : rng_ok (once_rng v).
Proof.
  split.
  - intros st n b st' H. cbn in H. injection H as <- _. apply repeat_length.
  - intros st n w st' Hn H. cbn in H. destruct st; [|discriminate]. injection H as <- _. apply Z.mod_pos_bound. exact Hn.
Qed.

Example C91_case_failed :
  let ct := ct91 em91 in let n := uval n64 in
  rng_ok dead_rng /\ rng_ok (once_rng (uval p64)) /\ good_priv key91_plain /\ good_priv key64 /\ usable_key (sk_pub key91_plain) /\
  blinding_fails dead_rng (uval n91) (Some tt) 3 /\ blinding_fails (once_rng (uval p64)) n (Some true) 3 /\
  length ct = key_size (sk_pub key91_plain) /\ os2ip ct < uval n91 /\ uprec n64 < 2 ^ 32 /\
  inventory (z_pkcs1v15_decrypt dead_rng 3 (Some tt) key91_plain ct) = kept [uval n91; 1; os2ip ct] /\
  inventory (z_rsa_decrypt (once_rng (uval p64)) 3 (Some true) key64 (mkU 5 (uprec n64))) = kept [n; uval p64; 1] /\
  exists em, inventory (z_pss_sign_digest (once_rng (uval p64)) toy_hash 3 true true key64 [x0a; x0b] 3) =
    kept [n; uval p64; 1; os2ip em] ++ kept_texts [em; [x01; x01; x01]].
Proof.
  cbv zeta. split; [apply dead_rng_ok|]. split; [apply once_rng_ok|]. split; [apply good91_plain|]. split; [apply good64|].
  split; [apply usable91|]. split; [exists 0%nat; split; [lia|]; eapply fails_now; reflexivity|].
  split.
  { exists 1%nat. split; [lia|]. eapply fails_later; [reflexivity|vm_compute; discriminate|vm_compute; discriminate|].
    eapply fails_now. reflexivity. }
  split; [vm_compute; reflexivity|]. split; [vm_compute; reflexivity|]. split; [vm_compute; reflexivity|].
  split; [vm_compute; reflexivity|]. split; [vm_compute; reflexivity|].
  exists (pss_encode (h_fun toy_hash) 2 [x0a; x0b] [x01; x01; x01] (Z.to_nat (Z.log2 (uval n64)))). vm_compute. reflexivity.
Qed.

Print Assumptions C91_complete_failed_decryption.
Print Assumptions C91_complete_failed_signature.
