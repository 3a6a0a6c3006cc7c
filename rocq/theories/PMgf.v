(** Proofs about src/algorithms/mgf.rs. *)
From Coq Require Import ZArith List Bool Lia.
From Coq Require Import Init.Byte.
From Verif Require Import Base Bigint BytesLemmas NumTheory SpecRFC BigintLemmas MHash MMgf.
Import ListNotations.
Local Open Scope Z_scope.

(** * XOR of octet strings *)

Lemma xor_octets_length a : forall b, length (xor_octets a b) = Nat.min (length a) (length b).
Proof. induction a; destruct b; simpl; auto. Qed.

Lemma xor_octets_app a : forall b c d, length a = length b ->
  xor_octets (a ++ c) (b ++ d) = xor_octets a b ++ xor_octets c d.
Proof. induction a; destruct b; simpl; intros; try discriminate; auto. f_equal; auto. Qed.

Lemma xor_octets_firstn a : forall b, xor_octets a (firstn (length a) b) = xor_octets a b.
Proof. induction a; destruct b; simpl; auto. f_equal; auto. Qed.

Lemma xor_octets_invol a : forall b, (length a <= length b)%nat ->
  xor_octets (xor_octets a b) b = a.
Proof.
  induction a; destruct b; simpl; intros H; auto; try lia.
  change octet_xor with bxor; rewrite bxor_invol, IHa by lia. reflexivity.
Qed.

Lemma xor_octets_nil_r a : xor_octets a [] = [].
Proof. destruct a; auto. Qed.

Lemma xor_octets_zeros n b : length b = n -> xor_octets (repeat x00 n) b = b.
Proof.
  intros <-. induction b; simpl; auto. change octet_xor with bxor; rewrite bxor_0_l, IHb. reflexivity.
Qed.

Lemma xor_octets_inj a b c : length a = length b -> (length a <= length c)%nat ->
  xor_octets a c = xor_octets b c -> a = b.
Proof.
  intros L1 L2 E. rewrite <- (xor_octets_invol a c), <- (xor_octets_invol b c) by lia. congruence.
Qed.

(** * The counter *)

Lemma byte_succ_z b : b2z (byte_succ b) = (b2z b + 1) mod 256.
Proof. apply b2z_z2b. Qed.

Lemma inc_counter_spec a b c d :
  inc_counter [a; b; c; d] = be_bytes 4 (os2ip [a; b; c; d] + 1).
Proof.
  assert (E : forall x, byte_eqb (byte_succ x) x00 = (b2z x =? 255)).
  { intros x. unfold byte_eqb. rewrite byte_succ_z. pose proof (b2z_range x).
    change (b2z x00) with 0.
    destruct (Z.eqb_spec (b2z x) 255) as [->|]; auto.
    rewrite Z.mod_small by lia. lia. }
  assert (S : forall x, b2z x <> 255 -> b2z (byte_succ x) = b2z x + 1).
  { intros x Hx. rewrite byte_succ_z. pose proof (b2z_range x). apply Z.mod_small; lia. }
  assert (W : forall x, b2z x = 255 -> byte_succ x = x00).
  { intros x Hx. apply byte_eqb_eq. rewrite E, Hx. auto. }
  pose proof (b2z_range a). pose proof (b2z_range b).
  pose proof (b2z_range c). pose proof (b2z_range d).
  assert (F : forall l, length l = 4%nat -> os2ip l = (os2ip [a; b; c; d] + 1) mod 2 ^ 32 ->
                        l = be_bytes 4 (os2ip [a; b; c; d] + 1)).
  { intros l Hl Ho. apply os2ip_inj; [rewrite be_bytes_length; auto|].
    rewrite os2ip_be_bytes. exact Ho. }
  unfold inc_counter. cbn [inc_counter_from nth firstn skipn app].
  rewrite !E.
  destruct (Z.eqb_spec (b2z d) 255) as [Hd|Hd].
  1: rewrite (W d Hd).
  1: destruct (Z.eqb_spec (b2z c) 255) as [Hc|Hc].
  1: rewrite (W c Hc).
  1: destruct (Z.eqb_spec (b2z b) 255) as [Hb|Hb].
  1: rewrite (W b Hb).
  1: destruct (Z.eqb_spec (b2z a) 255) as [Ha|Ha].
  1: rewrite (W a Ha).
  all: apply F; [reflexivity|]; cbn [os2ip length]; change octet_val with b2z;
    rewrite ?S by auto; change (b2z x00) with 0;
    change (256 ^ Z.of_nat 3) with 16777216; change (256 ^ Z.of_nat 2) with 65536;
    change (256 ^ Z.of_nat 1) with 256; change (256 ^ Z.of_nat 0) with 1;
    change (2 ^ 32) with 4294967296.
  1: rewrite Ha, Hb, Hc, Hd; reflexivity.
  all: rewrite Z.mod_small; lia.
Qed.

Lemma inc_counter_be c : inc_counter (be_bytes 4 c) = be_bytes 4 (c + 1).
Proof.
  pose proof (be_bytes_length 4 c) as L.
  pose proof (os2ip_be_bytes 4 c) as V.
  destruct (be_bytes 4 c) as [|x0 [|x1 [|x2 [|x3 [|]]]]]; try discriminate.
  rewrite inc_counter_spec, V.
  apply os2ip_inj; [rewrite !be_bytes_length; auto|].
  rewrite !os2ip_be_bytes. apply Zplus_mod_idemp_l.
Qed.

(** * The inner loop *)

Lemma xor_block_spec D : forall done todo,
  xor_block (done ++ todo) (length done) D
  = Ok (done ++ xor_octets todo D ++ skipn (length D) todo,
        (length done + Nat.min (length todo) (length D))%nat).
Proof.
  induction D as [|x D IH]; intros done todo; simpl xor_block.
  - rewrite xor_octets_nil_r. simpl. rewrite Nat.min_0_r, Nat.add_0_r. reflexivity.
  - rewrite app_length. destruct todo as [|t todo].
    + simpl. rewrite Nat.add_0_r, Nat.leb_refl. reflexivity.
    + destruct (Nat.leb_spec (length done + length (t :: todo)) (length done)); [simpl in *; lia|].
      rewrite get_idx_app by auto. cbn [bind].
      rewrite set_idx_app by auto. cbn [bind].
      replace (done ++ bxor t x :: todo) with ((done ++ [bxor t x]) ++ todo)
        by (rewrite <- app_assoc; reflexivity).
      replace (S (length done)) with (length (done ++ [bxor t x]))
        by (rewrite app_length; simpl; lia).
      rewrite IH. rewrite app_length. cbn [length xor_octets skipn].
      rewrite <- app_assoc. simpl app. change octet_xor with bxor.
      do 2 f_equal. lia.
Qed.

(** * The outer loop *)

Definition mgf_block (h : hashfn) (seed : list byte) (i : nat) : list byte :=
  h_fun h (seed ++ i2osp (Z.of_nat i) 4).

Lemma concat_blocks_length h seed n : forall c,
  length (concat (map (mgf_block h seed) (seq c n))) = (n * h_size h)%nat.
Proof.
  induction n; intros c; simpl; auto.
  rewrite app_length, IHn. unfold mgf_block. rewrite h_len. lia.
Qed.

Lemma mgf_input seed c :
  (let di := vec x00 (length seed + 4) in
   let* di := copy_into di 0 (length seed) seed in
   copy_into di (length seed) (length di) (be_bytes 4 c))
  = Ok (seed ++ be_bytes 4 c).
Proof.
  cbv zeta. rewrite vec_app.
  change (vec x00 (length seed) ++ vec x00 4) with ([] ++ vec x00 (length seed) ++ vec x00 4).
  rewrite copy_into_app by (rewrite ?vec_length; auto). cbn [bind app].
  rewrite <- (app_nil_r (vec x00 4)).
  rewrite copy_into_app.
  - rewrite app_nil_r; auto.
  - auto.
  - rewrite vec_length, be_bytes_length; auto.
  - rewrite app_nil_r, !app_length, vec_length, be_bytes_length. auto.
Qed.

(** One unfolding of the dynamic loop is one unfolding of the static loop. *)
Lemma mgf1_loops_agree fuel : forall out i c h seed,
  mgf1_xor_loop fuel out i (be_bytes 4 c) (digest_new h) seed
  = mgf1_xor_digest_loop fuel out i (be_bytes 4 c) (digest_new h) seed.
Proof.
  induction fuel; intros; cbn [mgf1_xor_loop mgf1_xor_digest_loop]; auto.
  destruct (length out <=? i)%nat; auto.
  pose proof (mgf_input seed c) as M. cbv zeta in M.
  destruct (copy_into (vec x00 (length seed + 4)) 0 (length seed) seed) as [di| | |];
    try discriminate. cbn [bind] in M |- *. rewrite M. cbn [bind].
  unfold digest_update, digest_new. cbn [d_fn d_pending]. cbn [app].
  unfold digest_finalize_reset, digest_new. cbn [d_fn d_pending].
  destruct (xor_block out i (h_fun h (seed ++ be_bytes 4 c))) as [[out' i']| | |]; auto.
  cbn [bind]. rewrite inc_counter_be. apply IHfuel.
Qed.

Lemma mgf1_loop_spec h seed : (0 < h_size h)%nat ->
  forall fuel todo done c nb,
  (length todo <= fuel)%nat -> (length todo <= nb * h_size h)%nat ->
  mgf1_xor_digest_loop fuel (done ++ todo) (length done) (be_bytes 4 (Z.of_nat c)) (digest_new h) seed
  = Ok (done ++ xor_octets todo (concat (map (mgf_block h seed) (seq c nb))), digest_new h).
Proof.
  intros Hh. induction fuel; intros todo done c nb Hf Hn.
  - destruct todo; [|simpl in Hf; lia]. cbn [mgf1_xor_digest_loop].
    rewrite app_nil_r, Nat.leb_refl. simpl. rewrite app_nil_r. reflexivity.
  - destruct todo as [|t todo].
    { cbn [mgf1_xor_digest_loop]. rewrite app_nil_r, Nat.leb_refl. simpl.
      rewrite app_nil_r. reflexivity. }
    cbn [mgf1_xor_digest_loop].
    destruct (Nat.leb_spec (length (done ++ t :: todo)) (length done)) as [H|_].
    { rewrite app_length in H; simpl in H; lia. }
    unfold digest_update. cbn [d_fn d_pending digest_new app].
    unfold digest_finalize_reset. cbn [d_fn d_pending].
    rewrite xor_block_spec. cbn [bind]. rewrite inc_counter_be.
    set (D := h_fun h (seed ++ be_bytes 4 (Z.of_nat c))).
    assert (LD : length D = h_size h) by apply h_len.
    destruct nb as [|nb]; [simpl in Hn; lia|].
    assert (exists td, td = t :: todo) as [td Etd] by eauto. rewrite <- Etd in *.
    replace (length done + Nat.min (length td) (length D))%nat
      with (length (done ++ xor_octets td D)) by (rewrite app_length, xor_octets_length; lia).
    rewrite app_assoc.
    replace (Z.of_nat c + 1) with (Z.of_nat (S c)) by lia.
    change (mkDigest h []) with (digest_new h).
    rewrite (IHfuel _ _ _ nb).
    + cbn [seq map concat]. assert (ED : mgf_block h seed c = D) by (unfold mgf_block; rewrite i2osp_be_bytes; reflexivity).
      rewrite ED.
      f_equal. f_equal. rewrite <- app_assoc. f_equal.
      destruct (Nat.le_gt_cases (length td) (length D)) as [Hle|Hgt].
      * rewrite skipn_all2 by auto. cbn [xor_octets]. rewrite app_nil_r.
        rewrite <- (xor_octets_firstn td (D ++ _)), firstn_app.
        replace (length td - length D)%nat with 0%nat by lia.
        rewrite app_nil_r. symmetry; apply xor_octets_firstn.
      * destruct (split_len td (length D) (length td - length D)) as (u & v & E & Lu & _); [lia|].
        rewrite E, skipn_app_exact by auto.
        rewrite xor_octets_app by auto. f_equal.
        rewrite <- (app_nil_r D) at 1.
        rewrite xor_octets_app by auto. rewrite xor_octets_nil_r, app_nil_r. reflexivity.
    + rewrite skipn_length, LD. lia.
    + rewrite skipn_length, LD. simpl in Hn. lia.
Qed.

Lemma div_ceil_enough n h : (0 < h)%nat -> (n <= ((n + h - 1) / h) * h)%nat.
Proof.
  intros H. pose proof (Nat.div_mod (n + h - 1) h ltac:(lia)).
  pose proof (Nat.mod_upper_bound (n + h - 1) h ltac:(lia)). lia.
Qed.

Lemma mgf1_length h seed n : (0 < h_size h)%nat ->
  length (mgf1 (h_fun h) (h_size h) seed n) = n.
Proof.
  intros H. unfold mgf1. rewrite firstn_length.
  change (fun i => h_fun h (seed ++ i2osp (Z.of_nat i) 4)) with (mgf_block h seed).
  rewrite concat_blocks_length. pose proof (div_ceil_enough n (h_size h) H). lia.
Qed.

Lemma mgf1_xor_digest_spec out h seed :
  (0 < h_size h)%nat -> Z.of_nat (length out) <= 2 ^ 32 ->
  mgf1_xor_digest out (digest_new h) seed
  = Ok (xor_octets out (mgf1 (h_fun h) (h_size h) seed (length out)), digest_new h).
Proof.
  intros Hh Hl. unfold mgf1_xor_digest, assert_.
  destruct (Z.leb_spec (Z.of_nat (length out)) (2 ^ 32)); [|lia]. cbn [bind].
  change [x00; x00; x00; x00] with (be_bytes 4 (Z.of_nat 0)).
  pose proof (mgf1_loop_spec h seed Hh (length out) out [] 0 ((length out + h_size h - 1) / h_size h)) as E.
  simpl app in E. change (length (@nil byte)) with 0%nat in E. rewrite E.
  - unfold mgf1. rewrite xor_octets_firstn. reflexivity.
  - auto.
  - apply div_ceil_enough; auto.
Qed.

Lemma mgf1_xor_agree out h seed :
  mgf1_xor out (digest_new h) seed = mgf1_xor_digest out (digest_new h) seed.
Proof.
  unfold mgf1_xor, mgf1_xor_digest. destruct (assert_ _); auto. cbn [bind].
  change [x00; x00; x00; x00] with (be_bytes 4 0). apply mgf1_loops_agree.
Qed.

Lemma mgf1_xor_spec out h seed :
  (0 < h_size h)%nat -> Z.of_nat (length out) <= 2 ^ 32 ->
  mgf1_xor out (digest_new h) seed
  = Ok (xor_octets out (mgf1 (h_fun h) (h_size h) seed (length out)), digest_new h).
Proof. intros. rewrite mgf1_xor_agree. apply mgf1_xor_digest_spec; auto. Qed.

(** Beyond 2^32 bytes the assertion fires. *)
Lemma mgf1_xor_too_long out dg seed :
  2 ^ 32 < Z.of_nat (length out) ->
  mgf1_xor out dg seed = Panic /\ mgf1_xor_digest out dg seed = Panic.
Proof.
  intros H. unfold mgf1_xor, mgf1_xor_digest, assert_.
  destruct (Z.leb_spec (Z.of_nat (length out)) (2 ^ 32)); [lia|auto].
Qed.

Lemma C22_lemma (h : hashfn) seed buf :
  (0 < h_size h)%nat -> Z.of_nat (length buf) <= 2 ^ 32 ->
  mgf1_xor buf (digest_new h) seed
    = Ok (xor_octets buf (mgf1 (h_fun h) (h_size h) seed (length buf)), digest_new h)
  /\ mgf1_xor_digest buf (digest_new h) seed
    = Ok (xor_octets buf (mgf1 (h_fun h) (h_size h) seed (length buf)), digest_new h).
Proof. intros; split; [apply mgf1_xor_spec|apply mgf1_xor_digest_spec]; auto. Qed.

Lemma C22_invol_lemma (h : hashfn) seed buf masked dg :
  (0 < h_size h)%nat ->
  mgf1_xor buf (digest_new h) seed = Ok (masked, dg) ->
  length masked = length buf /\ mgf1_xor masked dg seed = Ok (buf, dg).
Proof.
  intros Hh H.
  destruct (Z_le_gt_dec (Z.of_nat (length buf)) (2 ^ 32)) as [Hl|Hl].
  - rewrite mgf1_xor_spec in H by auto. injection H as <- <-.
    assert (L : length (xor_octets buf (mgf1 (h_fun h) (h_size h) seed (length buf))) = length buf)
      by (rewrite xor_octets_length, mgf1_length by auto; lia).
    split; auto. rewrite mgf1_xor_spec by (rewrite ?L; auto). rewrite L.
    rewrite xor_octets_invol; auto. rewrite mgf1_length; auto.
  - destruct (mgf1_xor_too_long buf (digest_new h) seed) as [E _]; [lia|]. congruence.
Qed.

Lemma C22_limit_lemma dg seed buf :
  2 ^ 32 < Z.of_nat (length buf) ->
  mgf1_xor buf dg seed = Panic /\ mgf1_xor_digest buf dg seed = Panic.
Proof. apply mgf1_xor_too_long. Qed.
