(** Proofs about src/algorithms/pkcs1v15.rs. *)
From Coq Require Import ZArith List Bool Lia.
From Coq Require Import Init.Byte.
From Verif Require Import Base Bigint BytesLemmas SpecRFC BigintLemmas MHash MPkcs1 SpecRng.
Import ListNotations.
Local Open Scope Z_scope.

(** * Random padding *)

Section Rng.
  Context {R : Type} (g : rng_ops R).

  Lemma refill_ok fuel : forall r el r', refill g fuel r = Ok (el, r') -> el <> x00.
  Proof.
    induction fuel; simpl; intros r el r' H; [discriminate|].
    destruct (rng_fill g r 1) as [[bs|] r1]; [|discriminate].
    destruct (get_idx bs 0) as [e| | |]; try discriminate. cbn [bind] in H.
    destruct (byte_eqb_spec e x00); eauto. injection H as <- <-. auto.
  Qed.

  Lemma nz_loop_ok fuel : forall data r out r',
    nz_loop g fuel r data = Ok (out, r') ->
    length out = length data /\ Forall (fun b => b <> x00) out /\
    Forall2 (fun a b => a <> x00 -> b = a) data out.
  Proof.
    induction data as [|el data IH]; simpl; intros r out r' H.
    - injection H as <- <-. auto.
    - apply bind_ok in H. destruct H as ((el' & r1) & H1 & H).
      apply bind_ok in H. destruct H as ((rest & r2) & H2 & H).
      injection H as <- <-. apply IH in H2. destruct H2 as (L & F & F2).
      assert (el' <> x00 /\ (el <> x00 -> el' = el)) as [H3 H4].
      { destruct (byte_eqb_spec el x00).
        - split; [eapply refill_ok; eauto|congruence].
        - injection H1 as <- <-. auto. }
      simpl. repeat split; auto.
  Qed.

  Lemma nzrb_ok fuel r n out r' :
    rng_ok g -> non_zero_random_bytes g fuel r n = Ok (out, r') ->
    length out = n /\ Forall (fun b => b <> x00) out.
  Proof.
    intros [Hg _]. unfold non_zero_random_bytes.
    destruct (rng_fill g r n) as [[data|] r1] eqn:E; [|discriminate].
    intros H. apply nz_loop_ok in H. destruct H as (L & F & _). split; auto.
    rewrite L. eapply Hg; eauto.
  Qed.

  Lemma refill_cases fuel : rng_ok g -> forall r,
    (exists el r', refill g fuel r = Ok (el, r')) \/ refill g fuel r = Err Rng
    \/ refill g fuel r = OutOfFuel.
  Proof.
    intros [Hg _]. induction fuel; simpl; intros r; auto.
    destruct (rng_fill g r 1) as [[bs|] r1] eqn:E; auto.
    apply Hg in E. destruct (len_1 _ E) as [x ->]. cbn.
    destruct (byte_eqb x x00); eauto.
  Qed.

  Lemma nz_loop_cases fuel : rng_ok g -> forall data r,
    (exists out r', nz_loop g fuel r data = Ok (out, r')) \/ nz_loop g fuel r data = Err Rng
    \/ nz_loop g fuel r data = OutOfFuel.
  Proof.
    intros Hg. induction data as [|el data IH]; simpl; intros r; [eauto|].
    assert ((exists el' r', (if byte_eqb el x00 then refill g fuel r else Ok (el, r)) = Ok (el', r'))
            \/ (if byte_eqb el x00 then refill g fuel r else Ok (el, r)) = Err Rng
            \/ (if byte_eqb el x00 then refill g fuel r else Ok (el, r)) = OutOfFuel) as H.
    { destruct (byte_eqb el x00); [apply refill_cases; auto|eauto]. }
    destruct H as [(el' & r' & ->)|[->| ->]]; cbn [bind]; auto.
    destruct (IH r') as [(out & r'' & ->)|[->| ->]]; cbn [bind]; eauto.
  Qed.

  Lemma nzrb_cases fuel r n : rng_ok g ->
    (exists out r', non_zero_random_bytes g fuel r n = Ok (out, r'))
    \/ non_zero_random_bytes g fuel r n = Err Rng
    \/ non_zero_random_bytes g fuel r n = OutOfFuel.
  Proof.
    intros Hg. unfold non_zero_random_bytes.
    destruct (rng_fill g r n) as [[data|] r1]; auto. apply nz_loop_cases; auto.
  Qed.

  (** Padding around already chosen PS. *)
  Lemma encrypt_pad_unfold fuel r msg k :
    rng_ok g -> (length msg + 11 <= k)%nat ->
    pkcs1v15_encrypt_pad g fuel r msg k =
    match non_zero_random_bytes g fuel r (k - length msg - 3) with
    | Ok (ps, _) => Ok (eme_pkcs1 ps msg)
    | Err e => Err e
    | Panic => Panic
    | OutOfFuel => OutOfFuel
    end.
  Proof.
    intros Hg Hk. unfold pkcs1v15_encrypt_pad.
    destruct (Nat.ltb_spec k (length msg + 11)); [lia|].
    set (w := (k - length msg - 3)%nat).
    replace (vec x00 k) with ([x00] ++ x00 :: (vec x00 w ++ [x00] ++ vec x00 (length msg)))
      by (change [x00] with (vec x00 1); change (x00 :: ?l) with (vec x00 1 ++ l);
          rewrite <- !vec_app; f_equal; lia).
    rewrite set_idx_app by auto. cbn [bind].
    rewrite usub_ok by lia. cbn [bind].
    rewrite usub_ok by lia. cbn [bind].
    rewrite usub_ok by lia. cbn [bind].
    replace (k - length msg - 1 - 2)%nat with w by lia.
    destruct (non_zero_random_bytes g fuel r w) as [[ps r']| | |] eqn:E; auto. cbn [bind].
    apply nzrb_ok in E; auto. destruct E as [L _].
    change ([x00] ++ x02 :: ?l) with ([x00; x02] ++ l).
    rewrite copy_into_app; [|auto|rewrite vec_length; auto|lia]. cbn [bind].
    change ([x00; x02] ++ ps ++ [x00] ++ ?l) with ([x00; x02] ++ ps ++ x00 :: l).
    rewrite app_assoc.
    rewrite set_idx_app by (rewrite app_length; simpl; lia). cbn [bind].
    replace (([x00; x02] ++ ps) ++ x00 :: vec x00 (length msg))
      with ((([x00; x02] ++ ps) ++ [x00]) ++ vec x00 (length msg) ++ [])
      by (rewrite app_nil_r, <- app_assoc; reflexivity).
    rewrite copy_into_app; [|rewrite !app_length; simpl; lia|apply vec_length|lia].
    rewrite app_nil_r. unfold eme_pkcs1. f_equal. rewrite <- !app_assoc. reflexivity.
  Qed.

  Lemma encrypt_pad_ok fuel r msg k em :
    rng_ok g -> pkcs1v15_encrypt_pad g fuel r msg k = Ok em -> is_eme_pkcs1 k em msg.
  Proof.
    intros Hg H.
    destruct (Nat.le_gt_cases (length msg + 11) k) as [Hk|Hk].
    - rewrite encrypt_pad_unfold in H by auto.
      destruct (non_zero_random_bytes g fuel r _) as [[ps r']| | |] eqn:E; try discriminate.
      injection H as <-. apply nzrb_ok in E; auto. destruct E as [L F].
      split.
      + unfold eme_pkcs1. simpl. rewrite app_length. simpl. lia.
      + exists ps. repeat split; auto. lia.
    - unfold pkcs1v15_encrypt_pad in H.
      destruct (Nat.ltb_spec k (length msg + 11)); [discriminate|lia].
  Qed.

  Lemma encrypt_pad_too_long fuel r msg k :
    rng_ok g -> (pkcs1v15_encrypt_pad g fuel r msg k = Err MessageTooLong <-> (k < length msg + 11)%nat).
  Proof.
    intros Hg. destruct (Nat.le_gt_cases (length msg + 11) k) as [Hk|Hk].
    - rewrite encrypt_pad_unfold by auto.
      destruct (nzrb_cases fuel r (k - length msg - 3) Hg) as [(o & r' & ->)|[->| ->]];
        split; intros; try discriminate; lia.
    - unfold pkcs1v15_encrypt_pad. destruct (Nat.ltb_spec k (length msg + 11)); [|lia].
      split; auto.
  Qed.

  Lemma encrypt_pad_cases fuel r msg k :
    rng_ok g -> (length msg + 11 <= k)%nat ->
    (exists em, pkcs1v15_encrypt_pad g fuel r msg k = Ok em)
    \/ pkcs1v15_encrypt_pad g fuel r msg k = Err Rng
    \/ pkcs1v15_encrypt_pad g fuel r msg k = OutOfFuel.
  Proof.
    intros Hg Hk. rewrite encrypt_pad_unfold by auto.
    destruct (nzrb_cases fuel r (k - length msg - 3) Hg) as [(o & r' & ->)|[->| ->]]; eauto.
  Qed.
End Rng.

(** * Unpadding *)

Lemma find_zero_found l : forall i idx, find_zero l i false idx = (false, idx).
Proof. induction l; simpl; intros; auto. destruct (byte_eqb a x00); apply IHl. Qed.

Lemma find_zero_hit ps rest : forall i idx,
  Forall (fun b => b <> x00) ps ->
  find_zero (ps ++ x00 :: rest) i true idx = (false, as_u32 (i + Z.of_nat (length ps))).
Proof.
  induction ps as [|p ps IH]; intros i idx H; simpl.
  - rewrite find_zero_found. do 2 f_equal. lia.
  - inversion H; subst. destruct (byte_eqb_spec p x00); [contradiction|]. simpl.
    rewrite IH by auto. do 2 f_equal. lia.
Qed.

Lemma find_zero_miss l : forall i idx,
  Forall (fun b => b <> x00) l -> find_zero l i true idx = (true, idx).
Proof.
  induction l as [|p l IH]; intros i idx H; simpl; auto.
  inversion H; subst. destruct (byte_eqb_spec p x00); [contradiction|]. simpl. auto.
Qed.

Lemma split_first_zero l :
  Forall (fun b => b <> x00) l \/
  exists ps rest, l = ps ++ x00 :: rest /\ Forall (fun b => b <> x00) ps.
Proof.
  induction l as [|x l IH]; auto.
  destruct (byte_eqb_spec x x00).
  - right. subst. exists [], l. auto.
  - destruct IH as [IH|(ps & rest & -> & F)]; auto.
    right. exists (x :: ps), rest. auto.
Qed.

Lemma first_zero_unique ps1 : forall ps2 r1 r2,
  Forall (fun b => b <> x00) ps1 -> Forall (fun b => b <> x00) ps2 ->
  ps1 ++ x00 :: r1 = ps2 ++ x00 :: r2 -> ps1 = ps2 /\ r1 = r2.
Proof.
  induction ps1; destruct ps2; simpl; intros r1 r2 F1 F2 E.
  - injection E; auto.
  - injection E as <- E. inversion F2; congruence.
  - injection E as -> E. inversion F1; congruence.
  - injection E as -> E. inversion F1; inversion F2; subst.
    apply IHps1 in E; auto. destruct E; subst; auto.
Qed.

(** M is determined by EM. *)
Lemma is_eme_pkcs1_unique k em m1 m2 :
  is_eme_pkcs1 k em m1 -> is_eme_pkcs1 k em m2 -> m1 = m2.
Proof.
  intros (_ & p1 & E1 & _ & F1) (_ & p2 & E2 & _ & F2).
  subst em. unfold eme_pkcs1 in E2. injection E2 as E2.
  apply first_zero_unique in E2; auto. tauto.
Qed.

Lemma valid_ps_spec i : 0 <= i < 2 ^ 31 ->
  (let* t := i32_sub 10 (as_i32 i) in i32_sub t 1) = Ok (9 - i) /\
  (Z.land (Z.shiftr (9 - i) 31) 1 =? 1) = (10 <=? i).
Proof.
  intros H. unfold as_i32. rewrite Z.mod_small by lia.
  destruct (Z.ltb_spec i (2 ^ 31)); [|lia].
  unfold i32_sub.
  destruct (Z.leb_spec (- 2 ^ 31) (10 - i)); [|lia].
  destruct (Z.ltb_spec (10 - i) (2 ^ 31)); [|lia]. cbn [andb bind].
  destruct (Z.leb_spec (- 2 ^ 31) (10 - i - 1)); [|lia].
  destruct (Z.ltb_spec (10 - i - 1) (2 ^ 31)); [|lia]. cbn [andb].
  split; [f_equal; lia|].
  rewrite Z.shiftr_div_pow2 by lia.
  destruct (Z.leb_spec 10 i).
  - assert ((9 - i) / 2 ^ 31 = -1) as ->; [|reflexivity].
    symmetry. apply Z.div_unique with (r := 9 - i + 2 ^ 31); lia.
  - rewrite Z.div_small by lia. reflexivity.
Qed.

Lemma unpad_shape b0 b1 l k :
  length (b0 :: b1 :: l) = k -> Z.of_nat k < 2 ^ 31 -> (11 <= k)%nat ->
  pkcs1v15_encrypt_unpad (b0 :: b1 :: l) k =
  let '(looking, index) := find_zero l 2 true 0 in
  if byte_eqb b0 x00 && byte_eqb b1 x02 && negb looking && (10 <=? index)
  then slice_from (b0 :: b1 :: l) (Z.to_nat (index + 1)) else Err Decryption.
Proof.
  intros L Hk H11. unfold pkcs1v15_encrypt_unpad, pkcs1_decrypt_inner.
  destruct (Nat.ltb_spec k 11); [lia|].
  cbn [get_idx nth_error bind skipn].
  assert (I : 0 <= snd (find_zero l 2 true 0) < 2 ^ 31).
  { simpl in L. destruct (split_first_zero l) as [F|(ps & rest & -> & F)].
    - rewrite find_zero_miss by auto. simpl; lia.
    - rewrite find_zero_hit by auto. cbn [snd]. rewrite app_length in L. cbn [length] in L.
      unfold as_u32. rewrite Z.mod_small; lia. }
  destruct (find_zero l 2 true 0) as [looking index]. cbn [snd] in I.
  pose proof (valid_ps_spec index I) as [V1 V2].
  destruct (i32_sub 10 (as_i32 index)) as [t| | |]; try discriminate. cbn [bind] in V1 |- *.
  rewrite V1. cbn [bind]. rewrite V2.
  unfold u32_add. destruct (Z.ltb_spec (index + 1) (2 ^ 32)); [|lia]. cbn [bind].
  destruct (byte_eqb b0 x00 && byte_eqb b1 x02 && negb looking && (10 <=? index)); reflexivity.
Qed.

Lemma unpad_complete k em m :
  Z.of_nat k < 2 ^ 31 -> is_eme_pkcs1 k em m -> pkcs1v15_encrypt_unpad em k = Ok m.
Proof.
  intros Hk (L & ps & -> & H8 & F). unfold eme_pkcs1 in *.
  assert (11 <= k)%nat by (rewrite <- L; simpl; rewrite app_length; simpl; lia).
  rewrite unpad_shape by auto. rewrite find_zero_hit by auto.
  simpl in L. rewrite app_length in L. simpl in L.
  unfold as_u32. rewrite Z.mod_small by lia.
  rewrite !byte_eqb_refl. destruct (Z.leb_spec 10 (2 + Z.of_nat (length ps))); [|lia].
  cbn [andb negb].
  replace (x00 :: x02 :: ps ++ x00 :: m) with ((x00 :: x02 :: ps ++ [x00]) ++ m)
    by (simpl; rewrite <- app_assoc; reflexivity).
  apply slice_from_app. cbn [length]. rewrite app_length. cbn [length]. lia.
Qed.

Lemma unpad_sound k em m :
  Z.of_nat k < 2 ^ 31 -> length em = k ->
  pkcs1v15_encrypt_unpad em k = Ok m -> is_eme_pkcs1 k em m.
Proof.
  intros Hk L H.
  destruct (Nat.lt_ge_cases k 11) as [H11|H11].
  { unfold pkcs1v15_encrypt_unpad, pkcs1_decrypt_inner in H.
    destruct (Nat.ltb_spec k 11); [discriminate|lia]. }
  destruct em as [|b0 [|b1 l]]; simpl in L; try lia.
  rewrite unpad_shape in H by auto.
  destruct (split_first_zero l) as [F|(ps & rest & -> & F)].
  - rewrite find_zero_miss in H by auto. simpl in H.
    rewrite andb_false_r in H. discriminate.
  - rewrite find_zero_hit in H by auto.
    rewrite app_length in L. simpl in L.
    unfold as_u32 in H. rewrite Z.mod_small in H by lia.
    destruct (byte_eqb_spec b0 x00); [subst|discriminate].
    destruct (byte_eqb_spec b1 x02); [subst|discriminate].
    destruct (Z.leb_spec 10 (2 + Z.of_nat (length ps))); [|discriminate].
    cbn [andb negb] in H.
    replace (x00 :: x02 :: ps ++ x00 :: rest) with ((x00 :: x02 :: ps ++ [x00]) ++ rest) in *
      by (simpl; rewrite <- app_assoc; reflexivity).
    rewrite slice_from_app in H by (cbn [length]; rewrite app_length; cbn [length]; lia).
    injection H as <-. split.
    + simpl. rewrite !app_length. simpl. lia.
    + exists ps. unfold eme_pkcs1. repeat split; auto; [|lia].
      simpl. rewrite <- app_assoc. reflexivity.
Qed.

Lemma unpad_total k em :
  Z.of_nat k < 2 ^ 31 -> length em = k ->
  (exists m, pkcs1v15_encrypt_unpad em k = Ok m) \/ pkcs1v15_encrypt_unpad em k = Err Decryption.
Proof.
  intros Hk L.
  destruct (Nat.lt_ge_cases k 11) as [H11|H11].
  { unfold pkcs1v15_encrypt_unpad, pkcs1_decrypt_inner.
    destruct (Nat.ltb_spec k 11); [auto|lia]. }
  destruct em as [|b0 [|b1 l]]; simpl in L; try lia.
  rewrite unpad_shape by auto.
  destruct (split_first_zero l) as [F|(ps & rest & -> & F)].
  - rewrite find_zero_miss by auto. simpl. rewrite andb_false_r. auto.
  - rewrite find_zero_hit by auto.
    rewrite app_length in L. simpl in L.
    unfold as_u32. rewrite Z.mod_small by lia.
    destruct (_ && _); auto. left.
    unfold slice_from.
    destruct (Nat.leb_spec (Z.to_nat (2 + Z.of_nat (length ps) + 1))
                           (length (b0 :: b1 :: ps ++ x00 :: rest))) as [|H]; [eauto|].
    simpl in H. rewrite app_length in H. simpl in H. lia.
Qed.

(** * Signature padding *)

Lemma sign_pad_ok prefix hashed k :
  (length (prefix ++ hashed) + 11 <= k)%nat ->
  pkcs1v15_sign_pad prefix hashed k = Ok (emsa_pkcs1 (prefix ++ hashed) k).
Proof.
  intros Hk. unfold pkcs1v15_sign_pad, emsa_pkcs1. rewrite app_length in *.
  set (lp := length prefix) in *. set (lh := length hashed) in *.
  destruct (Nat.ltb_spec k (lp + lh + 11)); [lia|].
  set (w := (k - (lp + lh) - 3)%nat).
  replace (vec xff k) with ([] ++ xff :: ([xff] ++ vec xff w ++ [xff] ++ vec xff lp ++ vec xff lh)).
  2:{ change [xff] with (vec xff 1). change (xff :: ?l) with (vec xff 1 ++ l).
      rewrite app_nil_l, <- !vec_app. f_equal. lia. }
  rewrite set_idx_app by auto. cbn [bind].
  change ([] ++ x00 :: [xff] ++ ?l) with ([x00] ++ xff :: l).
  rewrite set_idx_app by auto. cbn [bind].
  rewrite !usub_ok by lia. cbn [bind]. rewrite usub_ok by lia. cbn [bind].
  replace ([x00] ++ x01 :: vec xff w ++ [xff] ++ vec xff lp ++ vec xff lh)
    with ((x00 :: x01 :: vec xff w) ++ xff :: vec xff lp ++ vec xff lh) by reflexivity.
  rewrite set_idx_app by (simpl; rewrite vec_length; lia). cbn [bind].
  replace ((x00 :: x01 :: vec xff w) ++ x00 :: vec xff lp ++ vec xff lh)
    with ((x00 :: x01 :: vec xff w ++ [x00]) ++ vec xff lp ++ vec xff lh)
    by (simpl; rewrite <- app_assoc; reflexivity).
  rewrite copy_into_app;
    [|simpl; rewrite app_length, vec_length; simpl; lia|apply vec_length|fold lp; lia].
  cbn [bind].
  rewrite app_assoc. rewrite <- (app_nil_r (vec xff lh)).
  rewrite copy_into_app;
    [|simpl; rewrite !app_length, vec_length; simpl; fold lp; lia|apply vec_length|fold lh; lia].
  f_equal. simpl. rewrite app_nil_r, <- !app_assoc. reflexivity.
Qed.

Lemma sign_pad_err prefix hashed k :
  (k < length (prefix ++ hashed) + 11)%nat ->
  pkcs1v15_sign_pad prefix hashed k = Err MessageTooLong.
Proof.
  intros Hk. unfold pkcs1v15_sign_pad. rewrite app_length in Hk.
  destruct (Nat.ltb_spec k (length prefix + length hashed + 11)); auto. lia.
Qed.

Lemma sign_pad_spec prefix hashed k em :
  pkcs1v15_sign_pad prefix hashed k = Ok em <-> is_emsa_pkcs1 k em (prefix ++ hashed).
Proof.
  unfold is_emsa_pkcs1. destruct (Nat.le_gt_cases (length (prefix ++ hashed) + 11) k) as [H|H].
  - rewrite sign_pad_ok by auto. split; [intros [= <-]; auto|intros [_ ->]; auto].
  - rewrite sign_pad_err by auto. split; [discriminate|lia].
Qed.

Lemma emsa_pkcs1_length T k : (length T + 11 <= k)%nat -> length (emsa_pkcs1 T k) = k.
Proof. intros. unfold emsa_pkcs1. simpl. rewrite app_length, repeat_length. simpl. lia. Qed.

Lemma sign_unpad_shape prefix hashed k b0 b1 ps sep p h :
  length ps = (k - (length prefix + length hashed) - 3)%nat ->
  length p = length prefix -> length h = length hashed ->
  (length prefix + length hashed + 11 <= k)%nat ->
  pkcs1v15_sign_unpad prefix hashed (b0 :: b1 :: ps ++ sep :: p ++ h) k =
  if byte_eqb b0 x00 && byte_eqb b1 x01 && bytes_eqb h hashed && bytes_eqb p prefix
     && byte_eqb sep x00 && forallb (fun e => byte_eqb e xff) ps
  then Ok tt else Err Verification.
Proof.
  intros Lps Lp Lh Hk. unfold pkcs1v15_sign_unpad.
  destruct (Nat.ltb_spec k (length prefix + length hashed + 11)); [lia|].
  set (em := b0 :: b1 :: ps ++ sep :: p ++ h).
  unfold em at 1 2. cbn [get_idx nth_error bind].
  rewrite !usub_ok by lia. cbn [bind]. rewrite usub_ok by lia. cbn [bind].
  replace em with ((b0 :: b1 :: ps ++ sep :: p) ++ h ++ []) at 1
    by (unfold em; rewrite app_nil_r; simpl; rewrite <- app_assoc; reflexivity).
  rewrite slice_app; [|simpl; rewrite app_length; simpl; lia|lia]. cbn [bind].
  replace em with ((b0 :: b1 :: ps ++ [sep]) ++ p ++ h) at 1
    by (unfold em; simpl; rewrite <- app_assoc; reflexivity).
  rewrite slice_app; [|simpl; rewrite app_length; simpl; lia|lia]. cbn [bind].
  replace em with ((b0 :: b1 :: ps) ++ sep :: p ++ h) at 1 by reflexivity.
  rewrite get_idx_app by (simpl; lia). cbn [bind].
  rewrite usub_ok by lia. cbn [bind].
  unfold em. cbn [skipn]. rewrite firstn_app_exact by lia.
  rewrite (fold_andb (fun e => byte_eqb e xff)). reflexivity.
Qed.

Lemma sign_unpad_total prefix hashed k em :
  length em = k ->
  (pkcs1v15_sign_unpad prefix hashed em k = Ok tt /\ is_emsa_pkcs1 k em (prefix ++ hashed)) \/
  (pkcs1v15_sign_unpad prefix hashed em k = Err Verification
   /\ ~ is_emsa_pkcs1 k em (prefix ++ hashed)).
Proof.
  intros L. unfold is_emsa_pkcs1.
  destruct (Nat.le_gt_cases (length prefix + length hashed + 11) k) as [Hk|Hk].
  2:{ right. split; [|rewrite app_length; lia].
      unfold pkcs1v15_sign_unpad.
      destruct (Nat.ltb_spec k (length prefix + length hashed + 11)); auto; lia. }
  destruct em as [|b0 [|b1 l]]; simpl in L; try lia.
  destruct (split_len l (k - (length prefix + length hashed) - 3)
                      (1 + (length prefix + length hashed))) as (ps & l1 & -> & Lps & Ll1);
    [lia|].
  destruct l1 as [|sep l2]; [simpl in Ll1; lia|].
  destruct (split_len l2 (length prefix) (length hashed)) as (p & h & -> & Lp & Lh);
    [simpl in Ll1; lia|].
  rewrite sign_unpad_shape by auto.
  assert (D : is_emsa_pkcs1 k (b0 :: b1 :: ps ++ sep :: p ++ h) (prefix ++ hashed) <->
              b0 = x00 /\ b1 = x01 /\ h = hashed /\ p = prefix /\ sep = x00 /\
              ps = vec xff (length ps)).
  { unfold is_emsa_pkcs1, emsa_pkcs1. rewrite app_length. split.
    - intros [_ E]. injection E as -> -> E.
      apply app_inj_len in E; [|rewrite repeat_length; lia].
      destruct E as [E1 E2]. injection E2 as -> E2.
      apply app_inj_len in E2; auto. destruct E2 as [-> ->].
      rewrite E1 at 1. rewrite Lps. repeat split; auto.
    - intros (-> & -> & -> & -> & -> & E). split; auto.
      rewrite E, Lps. reflexivity. }
  unfold is_emsa_pkcs1 in D. rewrite D.
  destruct (byte_eqb_spec b0 x00); cbn [andb]; [|right; split; [auto|tauto]].
  destruct (byte_eqb_spec b1 x01); cbn [andb]; [|right; split; [auto|tauto]].
  destruct (bytes_eqb h hashed) eqn:E1; cbn [andb].
  2:{ right. apply bytes_eqb_neq in E1. split; [auto|tauto]. }
  apply bytes_eqb_eq in E1.
  destruct (bytes_eqb p prefix) eqn:E2; cbn [andb].
  2:{ right. apply bytes_eqb_neq in E2. split; [auto|tauto]. }
  apply bytes_eqb_eq in E2.
  destruct (byte_eqb_spec sep x00); cbn [andb]; [|right; split; [auto|tauto]].
  destruct (forallb _ ps) eqn:E3.
  - apply forallb_vec in E3. left. tauto.
  - right. split; auto. intros (_ & _ & _ & _ & _ & E).
    apply (forallb_vec xff) in E. congruence.
Qed.

(** * Statements in the form used by the property files *)

Lemma C05_lemma k em :
  Z.of_nat k < 2 ^ 31 -> length em = k ->
  (forall m, pkcs1v15_encrypt_unpad em k = Ok m <-> is_eme_pkcs1 k em m) /\
  ((forall m, ~ is_eme_pkcs1 k em m) -> pkcs1v15_encrypt_unpad em k = Err Decryption).
Proof.
  intros Hk L. split.
  - intros m. split; [apply unpad_sound; auto|apply unpad_complete; auto].
  - intros H. destruct (unpad_total k em Hk L) as [[m E]|]; auto.
    exfalso. apply (H m). apply unpad_sound; auto.
Qed.

Lemma C06_outcomes_lemma (R : Type) (g : rng_ops R) fuel r msg k :
  rng_ok g ->
  (pkcs1v15_encrypt_pad g fuel r msg k = Err MessageTooLong <-> (k < length msg + 11)%nat) /\
  ((length msg + 11 <= k)%nat ->
     (exists em, pkcs1v15_encrypt_pad g fuel r msg k = Ok em)
     \/ pkcs1v15_encrypt_pad g fuel r msg k = Err Rng
     \/ pkcs1v15_encrypt_pad g fuel r msg k = OutOfFuel).
Proof. intros; split; [apply encrypt_pad_too_long|intros; apply encrypt_pad_cases]; auto. Qed.

Lemma C06_keeps_lemma (R : Type) (g : rng_ops R) fuel r msg k em drawn r' :
  rng_ok g -> rng_fill g r (k - length msg - 3) = (Some drawn, r') ->
  pkcs1v15_encrypt_pad g fuel r msg k = Ok em ->
  exists PS, em = eme_pkcs1 PS msg /\ Forall2 (fun a b => a <> x00 -> b = a) drawn PS.
Proof.
  intros Hg Hd H. destruct (Nat.le_gt_cases (length msg + 11) k) as [Hk|Hk].
  - rewrite encrypt_pad_unfold in H by auto. unfold non_zero_random_bytes in H.
    rewrite Hd in H. destruct (nz_loop g fuel r' drawn) as [[ps ?]| | |] eqn:E; try discriminate.
    injection H as <-. apply nz_loop_ok in E. exists ps. tauto.
  - apply (encrypt_pad_too_long g fuel r msg k Hg) in Hk. congruence.
Qed.

Lemma nz_loop_nonzero {R} (g : rng_ops R) fuel data : forall r,
  Forall (fun b => b <> x00) data -> nz_loop g fuel r data = Ok (data, r).
Proof.
  induction data as [|x data IH]; intros r F; simpl; auto.
  inversion F; subst. destruct (byte_eqb_spec x x00); [contradiction|].
  cbn [bind]. rewrite IH by auto. reflexivity.
Qed.

Lemma C06_nonzero_lemma (R : Type) (g : rng_ops R) fuel r msg k drawn r' :
  rng_ok g -> (length msg + 11 <= k)%nat ->
  rng_fill g r (k - length msg - 3) = (Some drawn, r') -> Forall (fun b => b <> x00) drawn ->
  pkcs1v15_encrypt_pad g fuel r msg k = Ok (eme_pkcs1 drawn msg).
Proof.
  intros Hg Hk Hd F. rewrite encrypt_pad_unfold by auto.
  unfold non_zero_random_bytes. rewrite Hd, nz_loop_nonzero by auto. reflexivity.
Qed.

Lemma C06_rng_lemma (R : Type) (g : rng_ops R) fuel r msg k r' :
  rng_ok g -> (length msg + 11 <= k)%nat ->
  rng_fill g r (k - length msg - 3) = (None, r') ->
  pkcs1v15_encrypt_pad g fuel r msg k = Err Rng.
Proof.
  intros Hg Hk Hd. rewrite encrypt_pad_unfold by auto.
  unfold non_zero_random_bytes. rewrite Hd. reflexivity.
Qed.

Lemma C13_block_lemma prefix hashed k em :
  length em = k ->
  (pkcs1v15_sign_unpad prefix hashed em k = Ok tt <-> is_emsa_pkcs1 k em (prefix ++ hashed)) /\
  (~ is_emsa_pkcs1 k em (prefix ++ hashed) ->
     pkcs1v15_sign_unpad prefix hashed em k = Err Verification).
Proof.
  intros L. destruct (sign_unpad_total prefix hashed k em L) as [[E H]|[E H]]; rewrite E.
  - split; [tauto|contradiction].
  - split; [|auto]. split; [discriminate|contradiction].
Qed.

Lemma C13_pad_lemma prefix hashed k :
  (forall em, pkcs1v15_sign_pad prefix hashed k = Ok em
              <-> is_emsa_pkcs1 k em (prefix ++ hashed)) /\
  (pkcs1v15_sign_pad prefix hashed k = Err MessageTooLong
              <-> (k < length prefix + length hashed + 11)%nat).
Proof.
  split; [apply sign_pad_spec|].
  rewrite <- app_length.
  destruct (Nat.le_gt_cases (length (prefix ++ hashed) + 11) k) as [H|H].
  - rewrite sign_pad_ok by auto. split; [discriminate|lia].
  - rewrite sign_pad_err by auto. split; auto.
Qed.

(** * Exact outcome of the random padding *)

Section Exact.
  Context {R : Type} (g : rng_ops R).

  Lemma refill_gives st j b st' : redraw_gives g st j b st' ->
    forall f, (j < f)%nat -> refill g f st = Ok (b, st').
  Proof.
    induction 1; intros f Hf; (destruct f; [lia|]); cbn [refill]; rewrite H; cbn.
    - destruct (byte_eqb_spec b x00); [congruence|reflexivity].
    - apply IHredraw_gives. lia.
  Qed.

  Lemma refill_fails st j : redraw_fails g st j -> forall f, (j < f)%nat -> refill g f st = Err Rng.
  Proof.
    induction 1; intros f Hf; (destruct f; [lia|]); cbn [refill]; rewrite H; cbn; auto.
    apply IHredraw_fails. lia.
  Qed.

  Lemma refill_zeros st f : redraw_zeros g st f -> refill g f st = OutOfFuel.
  Proof. induction 1; cbn [refill]; auto. rewrite H. cbn. auto. Qed.

  Lemma redraw_gives_nz st j b st' : redraw_gives g st j b st' -> b <> x00.
  Proof. induction 1; auto. Qed.

  Lemma nz_loop_patched f st data out st' : patched g f st data out st' ->
    nz_loop g f st data = Ok (out, st').
  Proof.
    induction 1; cbn [nz_loop]; auto.
    - destruct (byte_eqb_spec b x00); [congruence|]. cbn [bind]. rewrite IHpatched. reflexivity.
    - rewrite byte_eqb_refl. rewrite (refill_gives _ _ _ _ H0) by auto. cbn [bind].
      rewrite IHpatched. reflexivity.
  Qed.

  Lemma nz_loop_fails f st data : patch_fails g f st data -> nz_loop g f st data = Err Rng.
  Proof.
    induction 1; cbn [nz_loop]; auto.
    - rewrite byte_eqb_refl, (refill_fails _ _ H0) by auto. reflexivity.
    - destruct (byte_eqb_spec b x00); [congruence|]. cbn [bind]. rewrite IHpatch_fails. reflexivity.
    - rewrite byte_eqb_refl. rewrite (refill_gives _ _ _ _ H0) by auto. cbn [bind].
      rewrite IHpatch_fails. reflexivity.
  Qed.

  Lemma nz_loop_stuck f st data : patch_stuck g f st data -> nz_loop g f st data = OutOfFuel.
  Proof.
    induction 1; cbn [nz_loop]; auto.
    - rewrite byte_eqb_refl, (refill_zeros _ _ H) by auto. reflexivity.
    - destruct (byte_eqb_spec b x00); [congruence|]. cbn [bind]. rewrite IHpatch_stuck. reflexivity.
    - rewrite byte_eqb_refl. rewrite (refill_gives _ _ _ _ H0) by auto. cbn [bind].
      rewrite IHpatch_stuck. reflexivity.
  Qed.

  Lemma encrypt_pad_exact f st msg k :
    rng_ok g ->
    ((k < length msg + 11)%nat -> pkcs1v15_encrypt_pad g f st msg k = Err MessageTooLong) /\
      ((length msg + 11 <= k)%nat ->
      (forall PS, padding_gives g f st (k - length msg - 3) PS ->
                  pkcs1v15_encrypt_pad g f st msg k = Ok (eme_pkcs1 PS msg)) /\
      (padding_fails g f st (k - length msg - 3) -> pkcs1v15_encrypt_pad g f st msg k = Err Rng) /\
      (padding_stuck g f st (k - length msg - 3) -> pkcs1v15_encrypt_pad g f st msg k = OutOfFuel)).
  Proof.
    intros Hg. split.
    { intros H. apply encrypt_pad_too_long; auto. }
    intros Hk. rewrite encrypt_pad_unfold by auto. unfold non_zero_random_bytes.
    split; [|split].
    - intros PS (drawn & st1 & st2 & E & H). rewrite E, (nz_loop_patched _ _ _ _ _ H). reflexivity.
    - intros [(st1 & E)|(drawn & st1 & E & H)]; rewrite E; auto. rewrite (nz_loop_fails _ _ _ H). reflexivity.
    - intros (drawn & st1 & E & H). rewrite E, (nz_loop_stuck _ _ _ H). reflexivity.
  Qed.
End Exact.
