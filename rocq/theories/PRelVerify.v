(** Consequences of the agreement of the two builds, and what verification does in the build
    without checks where the checked one panics (C88). *)
From Coq Require Import String ZArith List Bool Lia.
From Coq Require Import Init.Byte.
From Verif Require Import Base Bigint MHash MPad MMgf MPkcs1 MOaep MPss MRsa MGenerate MKey MApi MWrap
  BytesLemmas NumTheory SpecRFC BigintLemmas KeyDefs SpecRng SpecKey PPad PMgf PPkcs1 PRsa POaep PPss
  PApi PSig PHist MRelease PRelease.
Import ListNotations.
Local Open Scope Z_scope.

Lemma agrees_np {A} (a b : outcome A) : agrees a b -> a <> Panic -> b = a.
Proof. intros [E|E]; auto. intros H. contradiction. Qed.

(** * Signatures of 2^29 octets and more *)

Lemma r_sig_long sig : 2 ^ 29 <= Z.of_nat (length sig) ->
  r_sig_from_bytes sig = Err (Decode DecodeInputSize).
Proof.
  intros H. unfold r_sig_from_bytes, r_len_bits_u32. cbn [bind].
  assert (E : ((Z.of_nat (length sig) mod 2 ^ 32) * 8) mod 2 ^ 32 = 8 * (Z.of_nat (length sig) mod 2 ^ 29)).
  { rewrite Z.mul_mod_idemp_l by lia. rewrite (Z.mul_comm _ 8).
    change (2 ^ 32) with (8 * 2 ^ 29). apply Z.mul_mod_distr_l; lia. }
  rewrite E. pose proof (Z.mod_pos_bound (Z.of_nat (length sig)) (2 ^ 29) ltac:(lia)) as B.
  set (t := Z.of_nat (length sig) mod 2 ^ 29) in *. unfold from_be_slice.
  destruct (Z.eqb_spec (Z.of_nat (length sig)) 0); [lia|]. cbn [andb].
  assert ((8 * t + 7) / 8 = t) as -> by (symmetry; apply (Z.div_unique _ 8 _ 7); lia).
  destruct (Z.ltb_spec t (Z.of_nat (length sig))); [reflexivity|lia].
Qed.

(** * PSS with a salt length whose sum with the hash length does not fit usize *)

Lemma split_ok {A} (l : list A) i a b : split_at l i = Ok (a, b) ->
  (i <= length l)%nat /\ length a = i /\ length b = (length l - i)%nat.
Proof.
  unfold split_at. destruct (Nat.leb_spec i (length l)); [|discriminate].
  intros E. injection E as <- <-. rewrite firstn_length, skipn_length. lia.
Qed.

Lemma r_pre_db m_hash em eb s H db h :
  Z.of_nat (length em) < 2 ^ 32 -> Z.of_nat H < 2 ^ 63 ->
  r_emsa_pss_verify_pre m_hash em eb s H = Ok (db, h) ->
  (H < length em)%nat /\ length db = (length em - H - 1)%nat.
Proof.
  intros B1 B2. unfold r_emsa_pss_verify_pre.
  destruct (negb _); [discriminate|]. unfold r_usize_add. cbn [bind].
  destruct (_ <? _)%nat; [discriminate|]. unfold r_usub. cbn [bind].
  destruct (get_idx em _); cbn [bind]; try discriminate. destruct (negb _); [discriminate|].
  destruct (split_at em _) as [[db' h']| | |] eqn:S; cbn [bind]; try discriminate.
  destruct (split_ok _ _ _ _ S) as (S1 & S2 & _).
  destruct (slice _ _ _); cbn [bind]; try discriminate.
  destruct (get_idx db' 0); cbn [bind]; try discriminate. destruct (negb _); [discriminate|].
  intros E. injection E as <- <-.
  assert ((H < length em)%nat).
  { clear S S2. destruct (Nat.leb_spec H (length em)).
    - destruct (Nat.leb_spec 1 (length em - H)); lia.
    - destruct (Nat.leb_spec 1 (length em + Z.to_nat (2 ^ 64) - H)); lia. }
  split; auto. rewrite S2. destruct (Nat.leb_spec H (length em)); [|lia].
  destruct (Nat.leb_spec 1 (length em - H)); lia.
Qed.

Lemma r_salt_overflow db E s H :
  Z.of_nat E < 2 ^ 32 -> Z.of_nat H < 2 ^ 63 -> Z.of_nat s < 2 ^ 64 ->
  2 ^ 64 <= Z.of_nat (H + s + 2) -> (H < E)%nat -> length db = (E - H - 1)%nat ->
  r_emsa_pss_verify_salt db E s H = Panic.
Proof.
  intros B1 B2 B3 B4 B5 L. unfold r_emsa_pss_verify_salt, r_usub. cbn [bind].
  destruct (Nat.leb_spec H E); [|lia].
  destruct (Nat.leb_spec s (E - H)); [lia|].
  destruct (Nat.leb_spec 2 (E - H + Z.to_nat (2 ^ 64) - s)); [|lia].
  destruct (split_at db _) as [[z r]| | |] eqn:S; cbn [bind]; auto.
  - destruct (split_ok _ _ _ _ S) as (S1 & _ & S3).
    assert (length r = 0%nat) by lia. destruct r; [reflexivity|discriminate].
  - unfold split_at in S. destruct (_ <=? _)%nat; discriminate.
  - unfold split_at in S. destruct (_ <=? _)%nat; discriminate.
Qed.

Lemma set_idx_length {A} (l : list A) i v l' : set_idx l i v = Ok l' -> length l' = length l.
Proof.
  unfold set_idx. destruct (Nat.ltb_spec i (length l)); [|discriminate]. intros E.
  assert (l' = firstn i l ++ v :: skipn (S i) l) as -> by congruence.
  rewrite app_length, firstn_length.
  change (length (v :: skipn (S i) l)) with (S (length (skipn (S i) l))).
  pose proof (skipn_length (S i) l) as X. lia.
Qed.

Lemma mgf1_xor_length h out seed o md : (0 < h_size h)%nat ->
  mgf1_xor out (digest_new h) seed = Ok (o, md) -> length o = length out.
Proof.
  intros Hh E. destruct (Z.le_gt_cases (Z.of_nat (length out)) (2 ^ 32)).
  - rewrite mgf1_xor_spec in E by auto. injection E as <- _. rewrite xor_octets_length,
    mgf1_length by auto. lia.
  - destruct (mgf1_xor_too_long out (digest_new h) seed) as [X _]; [lia|]. congruence.
Qed.

Lemma r_pss_overflow hd m_hash em s kb :
  (0 < h_size hd)%nat -> Z.of_nat (h_size hd) < 2 ^ 63 -> Z.of_nat s < 2 ^ 64 ->
  2 ^ 64 <= Z.of_nat (h_size hd + s + 2) -> (1 <= kb)%nat -> Z.of_nat kb < 2 ^ 32 ->
  length em = div_ceil8 kb ->
  r_emsa_pss_verify m_hash em s (digest_new hd) kb <> Ok tt.
Proof.
  intros Hh B1 B2 B3 K1 K2 L. unfold r_emsa_pss_verify. unfold r_usub at 1. cbn [bind].
  destruct (Nat.leb_spec 1 kb); [|lia].
  pose proof (div_ceil8_spec kb) as S1. pose proof (div_ceil8_spec (kb - 1)) as S2.
  unfold r_usub at 1. destruct (Nat.leb_spec (div_ceil8 (kb - 1)) (div_ceil8 kb)); [|lia]. cbn [bind].
  unfold slice_from. destruct (Nat.leb_spec (div_ceil8 kb - div_ceil8 (kb - 1)) (length em)); [|lia].
  cbn [bind]. set (em' := skipn _ em).
  assert (L' : length em' = div_ceil8 (kb - 1)) by (unfold em'; rewrite skipn_length; lia).
  assert (HS : digest_output_size (digest_new hd) = h_size hd) by reflexivity. rewrite HS.
  destruct (r_emsa_pss_verify_pre m_hash em' (kb - 1) s (h_size hd)) as [[db h]| | |] eqn:P;
    cbn [bind]; try discriminate.
  assert (Le : Z.of_nat (length em') < 2 ^ 32) by lia.
  destruct (r_pre_db _ _ _ _ _ _ _ Le B1 P) as (P1 & P2).
  destruct (mgf1_xor db (digest_new hd) h) as [[o md]| | |] eqn:M; cbn [bind]; try discriminate.
  pose proof (mgf1_xor_length _ _ _ _ _ Hh M) as ML.
  unfold r_usub at 1, r_ff_shr. cbn [bind].
  destruct (get_idx o 0); cbn [bind]; try discriminate.
  destruct (set_idx o 0 _) as [o'| | |] eqn:SI; cbn [bind]; try discriminate.
  pose proof (set_idx_length _ _ _ _ SI) as OL.
  rewrite r_salt_overflow; auto; try lia. cbn [bind]. discriminate.
Qed.

(** * Verification *)

Section Verify.
Context (uc : unchecked).

Lemma r_verify_short pk s hashed sig :
  wf_pub pk -> uprec (pk_n pk) < 2 ^ 32 -> wf_scheme s -> 8 * Z.of_nat (length sig) < 2 ^ 32 ->
  r_public_verify uc pk s hashed sig = public_verify pk s hashed sig.
Proof.
  intros W H32 Ws Hl. apply agrees_np; [apply ag_public_verify|]. apply public_verify_np; auto.
Qed.

Lemma r_verify_long pk s hashed sig : 2 ^ 29 <= Z.of_nat (length sig) ->
  r_public_verify uc pk s hashed sig
  = match s with
    | SigPkcs1v15 p => let* _ := check_hash_len p hashed in Err (Decode DecodeInputSize)
    | SigPss _ => Err (Decode DecodeInputSize)
    end.
Proof.
  intros H. destruct s as [p|p]; cbn [r_public_verify]; [destruct (check_hash_len p hashed); cbn [bind]; auto|];
    rewrite r_sig_long by auto; reflexivity.
Qed.

Lemma r_verify_salt pk bl hd s hashed sig :
  (0 < h_size hd)%nat -> Z.of_nat (h_size hd) < 2 ^ 63 -> Z.of_nat s < 2 ^ 64 ->
  2 ^ 64 <= Z.of_nat (h_size hd + s + 2) ->
  wf_pub pk -> uprec (pk_n pk) < 2 ^ 32 -> 8 * Z.of_nat (length sig) < 2 ^ 32 ->
  r_public_verify uc pk (SigPss (mkPss bl (digest_new hd) s)) hashed sig <> Ok tt.
Proof.
  intros Hh B1 B2 B3 W H32 Hl. cbn [r_public_verify ps_digest ps_salt_len].
  rewrite (agrees_np _ _ (ag_sig_from_bytes sig)) by (rewrite sig_from_bytes_ok by auto; discriminate).
  rewrite sig_from_bytes_ok by auto. cbn [bind]. unfold r_pss_verify.
  destruct (Nat.eqb_spec (length sig) (key_size pk)) as [L|L]; cbn [negb]; [|discriminate].
  destruct (key_size_facts pk W) as (K1 & K2 & K3 & K4 & _).
  assert (Hs2 : os2ip sig < 2 ^ uprec (pk_n pk)).
  { pose proof (os2ip_range sig) as Rg. rewrite pow256_2 in Rg by lia.
    assert (2 ^ (8 * Z.of_nat (length sig)) <= 2 ^ uprec (pk_n pk)) by (apply Z.pow_le_mono_r; lia).
    lia. }
  pose proof (verify_core_ok pk _ W (sig_uint_wf sig) Hs2) as V. unfold verify_core in V.
  match type of V with context [rsa_encrypt pk ?x] => pose proof (ag_rsa_encrypt uc pk x) as A end.
  destruct (rsa_encrypt pk _) as [m| | |]; try discriminate.
  apply agrees_np in A; [|discriminate]. rewrite A. cbn [bind] in V |- *.
  pose proof (ag_uint_to_be_pad m (key_size pk)) as A2. rewrite V in A2.
  apply agrees_np in A2; [|discriminate]. rewrite A2. cbn [bind].
  apply r_pss_overflow; auto; try lia. rewrite i2osp_length. reflexivity.
Qed.

End Verify.
