(** C91, continued: the complete list of what a call that fails gives back to the allocator.
    The contents of a block that the generator was filling when it failed are left open. *)
From Coq Require Import ZArith Znumtheory List Bool Lia.
From Coq Require Import Init.Byte.
From Verif Require Import Base Bigint BytesLemmas BigintLemmas SpecRFC SpecRng SpecKey MHash MMgf MPkcs1 MOaep MPss MRsa MKey MApi
  MDer MEncoding MResidue MResidueSig KeyDefs SpecResidue SpecInventory PPad PMgf PApi PRsa PEnc PSig PEncoding POaep PPkcs1 PPss PWrapEnc
  KeyExamples PropEncoding PHist PCodec PropLeak PResidue PResidueSig PInventory.
Import ListNotations.
Local Open Scope Z_scope.

Lemma check_public_cases k : check_public k = Ok tt \/
  exists c, check_public k = Err c /\ match c with Rng | MessageTooLong | LabelTooLong => false | _ => true end = true.
Proof.
  unfold check_public, check_public_with_max_size.
  repeat match goal with |- context [if ?b then _ else _] => destruct b end;
    try (left; reflexivity); right; eexists; split; reflexivity.
Qed.

(** A refused encryption.  Only a generator that fails costs an erased block; what the two
    forms of OAEP have made of the label is given back as it is. *)
Theorem C91_complete_refused_encryption : forall {R} (g : rng_ops R) k err, rng_ok g -> wf_pub k -> uprec (pk_n k) < 2 ^ 32 ->
  (forall fuel st msg, let run := z_pkcs1v15_encrypt g fuel st k msg in outcome_of run = Err err ->
   match err with
   | Rng => exists b, length b = key_size k /\ inventory run = [Wiped (Text b)]
   | _ => inventory run = []
   end) /\
  (forall hd hm st msg label, (0 < h_size hm)%nat ->
   let L := label_bytes label in
   let static := z_oaep_api_encrypt_digest g hd hm st k msg label in
   let dynamic := z_oaep_api_encrypt g st k msg (digest_new hd) (digest_new hm) label in
   outcome_of static = Err err \/ outcome_of dynamic = Err err ->
   match err with
   | Rng => exists b, length b = key_size k /\
       inventory static = Wiped (Text b) :: kept_texts [L] /\
       inventory dynamic = Wiped (Text b) :: kept_texts [h_fun hd L; L]
   | MessageTooLong => inventory static = kept_texts [L] /\ inventory dynamic = kept_texts [h_fun hd L; L]
   | LabelTooLong => inventory static = kept_texts [L] /\ inventory dynamic = kept_texts [L]
   | _ => inventory static = [] /\ inventory dynamic = []
   end).
Proof.
  intros R g k err G W P. destruct (key_size_facts k W) as (_ & K8 & _).
  assert (FIN : forall em, length em = key_size k -> outcome_of (z_finish_encrypt k em) <> Err err).
  { intros em Le H. rewrite zr_finish_encrypt in H. change (encrypt_core k em = Err err) in H.
    rewrite (encrypt_core_ok k em W Le) in H. discriminate. }
  split; [|intros hd hm st msg label Hm].
  - intros fuel st msg. cbv zeta. unfold z_pkcs1v15_encrypt. intros H.
    rewrite inv_bind, inv_lift, zr_lift. rewrite zr_bind, zr_lift in H.
    destruct (check_public_cases k) as [CP|(c & CP & NR)]; rewrite CP in H |- *; cbn [bind app] in H |- *.
    2:{ injection H as <-. destruct c; try reflexivity; discriminate NR. }
    rewrite zr_bind in H. rewrite inv_bind.
    destruct (outcome_of (z_pkcs1v15_encrypt_pad g fuel st msg (key_size k))) as [em|x| |] eqn:E; cbn [bind] in H; try discriminate.
    + pose proof E as E'. rewrite zr_pad in E'. apply encrypt_pad_ok in E'; [|exact G]. destruct (FIN em (proj1 E') H).
    + injection H as ->. rewrite app_nil_r. pose proof E as E'. rewrite zr_pad in E'.
      unfold z_pkcs1v15_encrypt_pad in E |- *. destruct (_ <? _)%nat eqn:LT.
      * cbn in E. injection E as <-. reflexivity.
      * rewrite inv_if_err, inv_lift, zr_lift, E'. cbn [app].
        apply Nat.ltb_ge in LT. rewrite encrypt_pad_unfold in E' by (exact G || exact LT).
        match type of E' with context [non_zero_random_bytes g fuel st ?w] => pose proof (nzrb_cases g fuel st w G) as NZ end.
        destruct (non_zero_random_bytes g fuel st _) as [[ps r']|y| |]; try discriminate.
        destruct NZ as [(? & ? & NZ)|[NZ|NZ]]; try discriminate. injection E' as <-. injection NZ as ->. exists (vec x00 (key_size k)).
        split; [apply repeat_length|reflexivity].
  - cbv zeta. intros H0.
    assert (H : outcome_of (z_oaep_api_encrypt_digest g hd hm st k msg label) = Err err).
    { destruct H0 as [H|H]; [exact H|].
      rewrite zr_oaep_api_encrypt, oaep_api_encrypt_agree in H. rewrite zr_oaep_api_encrypt_digest. exact H. }
    clear H0. unfold z_oaep_api_encrypt_digest, z_oaep_api_encrypt in *.
    rewrite !inv_bind, !inv_lift, !zr_lift. rewrite zr_bind, zr_lift in H.
    destruct (check_public_cases k) as [CP|(c & CP & NR)]; rewrite CP in H |- *; cbn [bind app] in H |- *.
    2:{ injection H as <-. destruct c; try (split; reflexivity); discriminate NR. }
    rewrite zr_bind in H. rewrite zr_oaep_encrypt, oaep_encrypt_agree.
    rewrite zr_oaep_encrypt_digest in H |- *.
    destruct (oaep_encrypt_digest g hd hm st msg label (key_size k)) as [em|x| |] eqn:E; cbn [bind] in H; try discriminate.
    + assert (Le : length em = key_size k) by (apply (oaep_digest_len g hd hm st msg label (key_size k) em G Hm ltac:(clear - K8 P; lia) E)).
      destruct (FIN em Le H).
    + injection H as ->. rewrite !app_nil_r.
      rewrite (oaep_encrypt_digest_spec g) in E by (auto; lia).
      unfold z_oaep_encrypt_digest, z_oaep_encrypt, MAX_LABEL_LEN in *. cbv zeta.
      rewrite !inv_own.
      change (2 ^ 61) with 2305843009213693952 in *.
      destruct (2305843009213693952 <=? Z.of_nat (length (label_bytes label))).
      * injection E as <-. split; reflexivity.
      * unfold digest_finalize_reset, digest_update, digest_output_size, digest_new. cbn [d_fn d_pending app].
        rewrite inv_own. unfold z_oaep_encrypt_internal.
        destruct (_ <? _)%nat eqn:LT; [injection E as <-; split; reflexivity|]. apply Nat.ltb_ge in LT. cbv zeta.
        assert (V : vec x00 (key_size k) = vec x00 1 ++ vec x00 (h_size hd) ++ vec x00 (key_size k - 1 - h_size hd)).
        { rewrite <- !vec_app. f_equal. lia. }
        rewrite V.
        rewrite !inv_if_err, !inv_bind, !zr_bind, !zr_lift, split_at_app by apply vec_length. cbn [bind].
        rewrite !inv_lift, !inv_bind, !zr_bind, !zr_lift, split_at_app by apply vec_length. cbn [bind app].
        rewrite !inv_lift, vec_length. destruct (rng_fill g st (h_size hd)) as [[seed|] st']; [discriminate|].
        injection E as <-. eexists. split; [|split; reflexivity].
        rewrite !app_length, !vec_length. lia.
Qed.

(** A refused decryption: nothing for a text of the wrong length (OAEP) and nothing but the
    number it stands for when that is not below the modulus. *)
Theorem C91_complete_refused_decryption : forall {R} (g : rng_ops R) fuel rng k ct, wf_pub (sk_pub k) -> usable_key (sk_pub k) ->
  let pkcs1 := z_pkcs1v15_decrypt g fuel rng k ct in
  let static hd hm label := z_oaep_api_decrypt_digest g hd hm fuel rng k ct label in
  let dynamic hd hm label := z_oaep_api_decrypt g fuel rng k ct (digest_new hd) (digest_new hm) label in
  (length ct <> key_size (sk_pub k) -> forall hd hm label,
     outcome_of (static hd hm label) = Err Decryption /\ inventory (static hd hm label) = [] /\
     outcome_of (dynamic hd hm label) = Err Decryption /\ inventory (dynamic hd hm label) = []) /\
  (length ct = key_size (sk_pub k) -> uval (pk_n (sk_pub k)) <= os2ip ct ->
     (outcome_of pkcs1 = Err Decryption /\ inventory pkcs1 = kept [os2ip ct]) /\
     forall hd hm label,
     outcome_of (static hd hm label) = Err Decryption /\ inventory (static hd hm label) = kept [os2ip ct] /\
     outcome_of (dynamic hd hm label) = Err Decryption /\ inventory (dynamic hd hm label) = kept [os2ip ct]).
Proof.
  intros R g fuel rng k ct W U. cbv zeta. apply (check_public_ok _ W) in U.
  unfold z_pkcs1v15_decrypt, z_oaep_api_decrypt_digest, z_oaep_api_decrypt.
  split; [intros L hd hm label|intros L LE].
  - apply Nat.eqb_neq in L. rewrite L. cbn [negb]. rewrite zr_bind, inv_bind, !zr_lift, U. cbn [bind].
    repeat split; reflexivity.
  - assert (D : forall unpad, outcome_of (z_decrypt_with g fuel rng k ct unpad) = Err Decryption /\
      inventory (z_decrypt_with g fuel rng k ct unpad) = kept [os2ip ct]).
    { intros unpad. unfold z_decrypt_with. cbv zeta. rewrite zr_bind, inv_bind, !zr_lift, inv_lift.
      rewrite (from_be_slice_key _ _ W L). cbn [bind app]. rewrite zr_own, inv_own, zr_bind, inv_bind.
      assert (E : z_rsa_decrypt_and_check g fuel k rng (mkU (os2ip ct) (uprec (pk_n (sk_pub k)))) = ([], Err Decryption)).
      { unfold z_rsa_decrypt_and_check, z_rsa_decrypt, uleb. cbn [uval].
        apply Z.leb_le in LE. rewrite LE. reflexivity. }
      rewrite E. split; reflexivity. }
    apply Nat.eqb_eq in L. rewrite L. cbn [negb].
    rewrite !zr_bind, !inv_bind, !zr_lift, ?U. cbn [bind]. rewrite ?inv_lift. cbn [app].
    split; [apply D|]. intros hd hm label. rewrite !zr_bind, !inv_bind, !zr_lift, ?U. cbn [bind]. rewrite ?inv_lift. cbn [app].
    repeat split; apply D.
Qed.

(** A refused signature.  A PKCS#1 v1.5 padding that does not fit leaves nothing.  PSS leaves
    the buffer of the salt, not erased: filled when the hash has the wrong length or the key
    is too small, and as the generator left it when that failed. *)
Theorem C91_complete_refused_signature : forall {R} (g : rng_ops R) fuel k,
  (forall rng prefix hashed, let run := z_pkcs1v15_sign g fuel rng k prefix hashed in
   (key_size (sk_pub k) < length (prefix ++ hashed) + 11)%nat ->
   outcome_of run = Err MessageTooLong /\ inventory run = []) /\
  (forall hd st (bl : bool) hashed sl, wf_pub (sk_pub k) -> uprec (pk_n (sk_pub k)) < 2 ^ 32 -> rng_ok g -> (0 < h_size hd)%nat ->
   let emBits := Z.to_nat (Z.log2 (uval (pk_n (sk_pub k)))) in
   let static := z_pss_sign_digest g hd fuel st bl k hashed sl in
   let dynamic := z_pss_sign g fuel st bl k hashed sl (digest_new hd) in
   match rng_fill g st sl with
   | (None, _) => outcome_of static = Err Rng /\ outcome_of dynamic = Err Rng /\
       exists b, length b = sl /\ inventory static = kept_texts [b] /\ inventory dynamic = kept_texts [b]
   | (Some salt, _) =>
       (length hashed <> h_size hd -> outcome_of static = Err InputNotHashed /\ outcome_of dynamic = Err InputNotHashed) /\
       (length hashed = h_size hd -> (pss_em_len emBits < h_size hd + sl + 2)%nat ->
          outcome_of static = Err Internal /\ outcome_of dynamic = Err Internal) /\
       (length hashed <> h_size hd \/ (pss_em_len emBits < h_size hd + sl + 2)%nat ->
          inventory static = kept_texts [salt] /\ inventory dynamic = kept_texts [salt])
   end).
Proof.
  intros R g fuel k. split.
  - intros rng prefix hashed run L. subst run.
    change (z_pkcs1v15_sign g fuel rng k prefix hashed)
      with (let~ em := z_lift (pkcs1v15_sign_pad prefix hashed (key_size (sk_pub k))) in z_sign_em g fuel rng k em).
    rewrite sign_pad_err by exact L. split; reflexivity.
  - intros hd st bl hashed sl W P G Hh. cbv zeta. unfold z_pss_sign_digest, z_pss_sign.
    pose proof (proj1 G st sl) as FL.
    destruct (rng_fill g st sl) as [[salt|] st'].
    2:{ split; [reflexivity|]. split; [reflexivity|]. exists (vec x00 sl). split; [apply repeat_length|]. split; reflexivity. }
    specialize (FL salt st' eq_refl). subst sl.
    rewrite !zr_own, !inv_own. unfold z_sign_pss_with_salt_digest, z_sign_pss_with_salt. cbv zeta.
    set (eb := Z.to_nat (Z.log2 (uval (pk_n (sk_pub k))))).
    pose proof (odd_pos_n _ W) as N0. pose proof W as ((Vn & P1 & _) & _).
    assert (N1 : 1 <= uval (pk_n (sk_pub k))) by lia.
    assert (B : usub (Z.to_nat (ubits (pk_n (sk_pub k)))) 1 = Ok eb).
    { unfold eb, usub, ubits, zbits. destruct (Z.leb_spec (uval (pk_n (sk_pub k))) 0); [lia|].
      pose proof (Z.log2_nonneg (uval (pk_n (sk_pub k)))).
      destruct (Nat.leb_spec 1 (Z.to_nat (Z.log2 (uval (pk_n (sk_pub k))) + 1))); [f_equal; lia|lia]. }
    assert (LE : Z.of_nat (pss_em_len eb) <= 2 ^ 32).
    { assert (Z.of_nat eb < 2 ^ 32).
      { unfold eb. assert (Z.log2 (uval (pk_n (sk_pub k))) < uprec (pk_n (sk_pub k))) by (apply Z.log2_lt_pow2; lia).
        pose proof (Z.log2_nonneg (uval (pk_n (sk_pub k)))). lia. }
      unfold pss_em_len. pose proof (div_ceil8_spec eb) as D. unfold div_ceil8 in D. lia. }
    rewrite !zr_bind, !inv_bind, !zr_lift, !inv_lift, B. cbn [bind app].
    rewrite !zr_bind, !inv_bind, !zr_lift, !inv_lift, zr_emsa, emsa_pss_encode_agree. cbn [app].
    rewrite emsa_pss_encode_digest_spec by auto.
    assert (Z1 : length hashed <> h_size hd \/ (pss_em_len eb < h_size hd + length salt + 2)%nat ->
      inventory (z_emsa_pss_encode hashed eb salt (digest_new hd)) = []).
    { intros H. unfold z_emsa_pss_encode. cbv zeta. change (digest_output_size (digest_new hd)) with (h_size hd).
      change (div_ceil8 eb) with (pss_em_len eb).
      destruct (Nat.eqb_spec (length hashed) (h_size hd)); [|reflexivity].
      destruct H as [H|H]; [contradiction|]. apply Nat.ltb_lt in H. rewrite H. reflexivity. }
    split; [|split].
    + intros NE. apply Nat.eqb_neq in NE. rewrite NE. split; reflexivity.
    + intros ->. rewrite Nat.eqb_refl. cbn [negb]. intros LT. apply Nat.ltb_lt in LT. rewrite LT. split; reflexivity.
    + intros H. rewrite (Z1 H). destruct (Nat.eqb_spec (length hashed) (h_size hd)) as [E|]; [|split; reflexivity].
      destruct H as [H|H]; [contradiction|]. apply Nat.ltb_lt in H. rewrite H. split; reflexivity.
Qed.

(** * Concrete cases *)

(** Each kind of refusal happens: a message too long, a generator that fails (both schemes), a
    ciphertext out of range, a hash of the wrong length and a salt that cannot be drawn. *)
Example C91_case_refused :
  wf_pub pub91 /\ rng_ok count_rng /\ rng_ok dead_rng /\ usable_key (sk_pub key91_plain) /\
  inventory (z_pkcs1v15_encrypt count_rng 20 3 pub91 (repeat x41 2)) = [] /\
  outcome_of (z_pkcs1v15_encrypt count_rng 20 3 pub91 (repeat x41 2)) = Err MessageTooLong /\
  outcome_of (z_pkcs1v15_encrypt dead_rng 20 tt pub91 [x41]) = Err Rng /\
  inventory (z_oaep_api_encrypt dead_rng tt pub91 [x41] (digest_new toy_hash) (digest_new toy_hash) (Some [x4c])) =
    Wiped (Text (repeat x00 12)) :: kept_texts [h_fun toy_hash [x4c]; [x4c]] /\
  outcome_of (z_oaep_api_encrypt_digest dead_rng toy_hash toy_hash tt pub91 [x41] (Some [x4c])) = Err Rng /\
  uval (pk_n (sk_pub key91_plain)) <= os2ip (repeat xff 12) /\
  inventory (z_pkcs1v15_decrypt count_rng 5 (Some 3) key91_plain (repeat xff 12)) = kept [2 ^ 96 - 1] /\
  inventory (z_pss_sign_digest dead_rng toy_hash 5 tt false key64 [x0a; x0b] 3) = kept_texts [[x00; x00; x00]] /\
  inventory (z_pss_sign count_rng 5 3 false key64 [x0a] 3 (digest_new toy_hash)) = kept_texts [[x03; x04; x05]].
Proof.
  split; [apply wf_pub91|]. split; [apply count_rng_ok|].
  split; [split; [intros st n b st' H; discriminate H|]; try (intros; discriminate)|].
  split; [apply usable91|].
  split; [vm_compute; reflexivity|]. split; [vm_compute; reflexivity|]. split; [vm_compute; reflexivity|].
  split; [vm_compute; reflexivity|]. split; [vm_compute; reflexivity|]. split; [vm_compute; discriminate|].
  split; [vm_compute; reflexivity|]. split; vm_compute; reflexivity.
Qed.

Print Assumptions C91_complete_refused_encryption.
Print Assumptions C91_complete_refused_decryption.
Print Assumptions C91_complete_refused_signature.
