(** Builds without overflow checks and debug assertions agree with the checked ones wherever
    those do not panic (C88). *)
From Coq Require Import String ZArith List Bool Lia.
From Coq Require Import Init.Byte.
From Verif Require Import Base Bigint MHash MPad MMgf MPkcs1 MOaep MPss MRsa MGenerate MKey MApi MWrap MDer MEncoding MMisc SpecSerde MSerde MRelease.
Import ListNotations.
Local Open Scope Z_scope.

(** [a]: checked build, [b]: unchecked build. *)
Definition agrees {A} (a b : outcome A) : Prop := a = Panic \/ b = a.

Lemma ag_refl {A} (a : outcome A) : agrees a a.
Proof. right. reflexivity. Qed.
Lemma ag_panic {A} (b : outcome A) : agrees Panic b.
Proof. left. reflexivity. Qed.
Lemma ag_bind {A B} (a a' : outcome A) (k k' : A -> outcome B) :
  agrees a a' -> (forall x, agrees (k x) (k' x)) -> agrees (bind a k) (bind a' k').
Proof.
  intros [E|E] H; rewrite E; [left; reflexivity|]. destruct a; cbn [bind]; auto using ag_refl.
Qed.
Lemma ag_bind_eq {A B} (a a' : outcome A) (k k' : A -> outcome B) :
  agrees a a' -> (forall x, a = Ok x -> agrees (k x) (k' x)) -> agrees (bind a k) (bind a' k').
Proof.
  intros [E|E] H; rewrite E; [left; reflexivity|]. destruct a; cbn [bind]; auto using ag_refl.
Qed.
Lemma ag_assert {B} c (k : unit -> outcome B) b : agrees (k tt) b -> agrees (bind (assert_ c) k) b.
Proof. destruct c; cbn [assert_ bind]; auto using ag_panic. Qed.
Lemma ag_map_err {A} f (a a' : outcome A) : agrees a a' -> agrees (map_err f a) (map_err f a').
Proof. intros [E|E]; rewrite E; [left; reflexivity|apply ag_refl]. Qed.

Create HintDb ag discriminated.
Ltac ag_step :=
  lazymatch goal with
  | |- agrees ?a ?a => apply ag_refl
  | |- agrees Panic _ => apply ag_panic
  | |- agrees (bind (assert_ ?c) _) (bind (assert_ ?c) _) => apply ag_bind; [apply ag_refl|intros ?]
  | |- agrees (bind (assert_ _) _) _ => apply ag_assert
  | |- agrees (bind ?a ?k) (bind ?a' ?k') => apply ag_bind; [ag_leaf|intros ?]
  | |- agrees (map_err _ _) (map_err _ _) => apply ag_map_err; ag_leaf
  | |- agrees (if ?c then _ else _) (if ?c then _ else _) => destruct c
  | |- agrees (match ?x with _ => _ end) (match ?x with _ => _ end) => destruct x
  | |- _ => solve [auto with ag nocore]
  end
with ag_leaf := first [lazymatch goal with |- agrees ?a ?a => apply ag_refl end | solve [auto with ag nocore] | ag_run]
with ag_run := repeat (cbv beta zeta; ag_step).

Section Agree.
Context (uc : unchecked).

Lemma ag_usub a b : agrees (usub a b) (r_usub a b).
Proof. unfold usub, r_usub. destruct (b <=? a)%nat; [apply ag_refl|apply ag_panic]. Qed.
Lemma ag_usize_add a b : agrees (usize_add a b) (r_usize_add a b).
Proof. unfold usize_add, r_usize_add. destruct (_ <? _); [apply ag_refl|apply ag_panic]. Qed.
Lemma ag_i32_sub a b : agrees (i32_sub a b) (r_i32_sub a b).
Proof.
  unfold i32_sub, r_i32_sub, as_i32.
  destruct (Z.leb_spec (- 2 ^ 31) (a - b)); cbn [andb]; [|apply ag_panic].
  destruct (Z.ltb_spec (a - b) (2 ^ 31)); [|apply ag_panic]. right. f_equal.
  destruct (Z.lt_ge_cases (a - b) 0).
  - replace ((a - b) mod 2 ^ 32) with (a - b + 2 ^ 32).
    + destruct (Z.ltb_spec (a - b + 2 ^ 32) (2 ^ 31)); lia.
    + symmetry. rewrite <- (Z_mod_plus_full (a - b) 1). apply Z.mod_small. lia.
  - rewrite Z.mod_small by lia. destruct (Z.ltb_spec (a - b) (2 ^ 31)); lia.
Qed.
Lemma ag_u32_add a b : 0 <= a -> 0 <= b -> agrees (u32_add a b) (r_u32_add a b).
Proof.
  intros. unfold u32_add, r_u32_add. destruct (Z.ltb_spec (a + b) (2 ^ 32)); [|apply ag_panic].
  right. rewrite Z.mod_small; auto. lia.
Qed.
Lemma ag_u8_add a b : 0 <= a -> 0 <= b -> agrees (u8_add a b) (r_u8_add a b).
Proof.
  intros. unfold u8_add, r_u8_add. destruct (Z.ltb_spec (a + b) 256); [|apply ag_panic].
  right. rewrite Z.mod_small; auto. lia.
Qed.
Lemma ag_ff_shr n : agrees (ff_shr n) (r_ff_shr n).
Proof.
  unfold ff_shr, r_ff_shr. destruct (Nat.ltb_spec n 8); [|apply ag_panic].
  right. rewrite Z.mod_small by lia. reflexivity.
Qed.
Lemma ag_len_bits_u32 l : agrees (len_bits_u32 l) (r_len_bits_u32 l).
Proof.
  unfold len_bits_u32, r_len_bits_u32. destruct (Z.ltb_spec (Z.of_nat (length l) mod 2 ^ 32 * 8) (2 ^ 32)); [|apply ag_panic].
  right. assert (0 <= Z.of_nat (length l) mod 2 ^ 32) by (apply Z.mod_pos_bound; lia). rewrite Z.mod_small by lia. reflexivity.
Qed.
Lemma ag_octets_bits l : agrees (octets_bits l) (r_octets_bits l).
Proof.
  unfold octets_bits, r_octets_bits. cbv zeta. apply ag_bind; [apply ag_refl|intros _].
  destruct (Z.ltb_spec (8 * Z.of_nat (length l)) (2 ^ 32)); cbn [assert_ bind]; [|apply ag_panic].
  right. rewrite Z.mod_small by lia. reflexivity.
Qed.
Lemma ag_uinv_mod a m : agrees (uinv_mod a m) (r_uinv_mod uc a m).
Proof. unfold r_uinv_mod, uinv_mod. destruct (_ =? _); [apply ag_refl|apply ag_panic]. Qed.
Lemma ag_mf_new x p : agrees (mf_new x p) (r_mf_new uc x p).
Proof. unfold r_mf_new, mf_new. destruct (_ =? _); [apply ag_refl|apply ag_panic]. Qed.
#[local] Hint Constants Opaque : ag.
#[local] Hint Resolve ag_usub ag_usize_add ag_i32_sub ag_ff_shr ag_len_bits_u32 ag_octets_bits ag_uinv_mod ag_mf_new : ag.

Lemma ag_left_pad (input : list byte) (padded_len : nat) :
  agrees (left_pad input padded_len) (r_left_pad input padded_len).
Proof. unfold left_pad, r_left_pad. ag_run. Qed.
#[local] Hint Resolve ag_left_pad : ag.

Lemma ag_uint_to_be_pad (input : uint) (padded_len : nat) :
  agrees (uint_to_be_pad input padded_len) (r_uint_to_be_pad input padded_len).
Proof. unfold uint_to_be_pad, r_uint_to_be_pad. ag_run. Qed.
#[local] Hint Resolve ag_uint_to_be_pad : ag.

Lemma ag_uint_to_zeroizing_be_pad (input : uint) (padded_len : nat) :
  agrees (uint_to_zeroizing_be_pad input padded_len) (r_uint_to_zeroizing_be_pad input padded_len).
Proof. unfold uint_to_zeroizing_be_pad, r_uint_to_zeroizing_be_pad. ag_run. Qed.
#[local] Hint Resolve ag_uint_to_zeroizing_be_pad : ag.

Lemma ag_pkcs1v15_encrypt_pad {R : Type} (g : rng_ops R) (fuel : nat) (r : R) (msg : list byte) (k : nat) :
  agrees (pkcs1v15_encrypt_pad g fuel r msg k) (r_pkcs1v15_encrypt_pad g fuel r msg k).
Proof. unfold pkcs1v15_encrypt_pad, r_pkcs1v15_encrypt_pad. ag_run. Qed.
#[local] Hint Resolve ag_pkcs1v15_encrypt_pad : ag.

Lemma find_zero_nonneg l : forall i looking idx, 0 <= idx -> 0 <= snd (find_zero l i looking idx).
Proof.
  induction l as [|b l IH]; intros i looking idx H; [exact H|]. cbn [find_zero]. apply IH.
  destruct (looking && byte_eqb b x00); [|exact H]. apply Z.mod_pos_bound. reflexivity.
Qed.
Lemma ag_pkcs1_decrypt_inner (em : list byte) (k : nat) :
  agrees (pkcs1_decrypt_inner em k) (r_pkcs1_decrypt_inner em k).
Proof.
  unfold pkcs1_decrypt_inner, r_pkcs1_decrypt_inner. destruct (k <? 11)%nat; [apply ag_refl|].
  apply ag_bind; [apply ag_refl|intros b0]. apply ag_bind; [apply ag_refl|intros b1]. cbv zeta.
  pose proof (find_zero_nonneg (skipn 2 em) 2 true 0 ltac:(lia)) as H.
  destruct (find_zero (skipn 2 em) 2 true 0) as [looking index]. cbn [snd] in H.
  apply ag_bind; [apply ag_i32_sub|intros t]. apply ag_bind; [apply ag_i32_sub|intros t'].
  apply ag_bind; [apply ag_u32_add; lia|intros i]. apply ag_refl.
Qed.
#[local] Hint Resolve ag_pkcs1_decrypt_inner : ag.

Lemma ag_pkcs1v15_encrypt_unpad (em : list byte) (k : nat) :
  agrees (pkcs1v15_encrypt_unpad em k) (r_pkcs1v15_encrypt_unpad em k).
Proof. unfold pkcs1v15_encrypt_unpad, r_pkcs1v15_encrypt_unpad. ag_run. Qed.
#[local] Hint Resolve ag_pkcs1v15_encrypt_unpad : ag.

Lemma ag_pkcs1v15_sign_pad (prefix : list byte) (hashed : list byte) (k : nat) :
  agrees (pkcs1v15_sign_pad prefix hashed k) (r_pkcs1v15_sign_pad prefix hashed k).
Proof. unfold pkcs1v15_sign_pad, r_pkcs1v15_sign_pad. ag_run. Qed.
#[local] Hint Resolve ag_pkcs1v15_sign_pad : ag.

Lemma ag_pkcs1v15_sign_unpad (prefix : list byte) (hashed : list byte) (em : list byte) (k : nat) :
  agrees (pkcs1v15_sign_unpad prefix hashed em k) (r_pkcs1v15_sign_unpad prefix hashed em k).
Proof. unfold pkcs1v15_sign_unpad, r_pkcs1v15_sign_unpad. ag_run. Qed.
#[local] Hint Resolve ag_pkcs1v15_sign_unpad : ag.

Lemma ag_pkcs1v15_generate_prefix (oid : list byte) (output_size : nat) :
  agrees (pkcs1v15_generate_prefix oid output_size) (r_pkcs1v15_generate_prefix oid output_size).
Proof.
  unfold pkcs1v15_generate_prefix, r_pkcs1v15_generate_prefix. cbv zeta.
  assert (H : forall x, 0 <= x mod 256) by (intros; apply Z.mod_pos_bound; lia).
  pose proof (H (Z.of_nat (length oid))) as H1. pose proof (H (Z.of_nat output_size)) as H2.
  apply ag_bind_eq; [apply ag_u8_add; lia|intros a Ha].
  assert (0 <= a) by (unfold u8_add in Ha; destruct (_ <? 256); [injection Ha as <-; lia|discriminate]).
  apply ag_bind; [apply ag_u8_add; lia|intros a']. apply ag_bind; [apply ag_u8_add; lia|intros b]. apply ag_refl.
Qed.
#[local] Hint Resolve ag_pkcs1v15_generate_prefix : ag.

Lemma ag_oaep_encrypt_internal {R : Type} (g : rng_ops R) (r : R) (msg : list byte) (p_hash : list byte) (h_size : nat) (k : nat) (mgf : list byte -> list byte -> outcome (list byte * list byte)) :
  agrees (oaep_encrypt_internal g r msg p_hash h_size k mgf) (r_oaep_encrypt_internal g r msg p_hash h_size k mgf).
Proof. unfold oaep_encrypt_internal, r_oaep_encrypt_internal. ag_run. Qed.
#[local] Hint Resolve ag_oaep_encrypt_internal : ag.

Lemma ag_oaep_encrypt {R : Type} (g : rng_ops R) (r : R) (msg : list byte) (dg : digest) (mgf_digest : digest) (label : option (list byte)) (k : nat) :
  agrees (oaep_encrypt g r msg dg mgf_digest label k) (r_oaep_encrypt g r msg dg mgf_digest label k).
Proof. unfold oaep_encrypt, r_oaep_encrypt. ag_run. Qed.
#[local] Hint Resolve ag_oaep_encrypt : ag.

Lemma ag_oaep_encrypt_digest {R : Type} (g : rng_ops R) (hd : hashfn) (hm : hashfn) (r : R) (msg : list byte) (label : option (list byte)) (k : nat) :
  agrees (oaep_encrypt_digest g hd hm r msg label k) (r_oaep_encrypt_digest g hd hm r msg label k).
Proof. unfold oaep_encrypt_digest, r_oaep_encrypt_digest. ag_run. Qed.
#[local] Hint Resolve ag_oaep_encrypt_digest : ag.

Lemma oaep_scan_nonneg l : forall i looking idx nz, 0 <= idx -> 0 <= snd (fst (oaep_scan l i looking idx nz)).
Proof.
  induction l as [|b l IH]; intros i looking idx nz H; [exact H|]. cbn [oaep_scan]. cbv zeta. apply IH.
  destruct (looking && byte_eqb b x01); [|exact H]. apply Z.mod_pos_bound. reflexivity.
Qed.
Lemma ag_oaep_decrypt_inner (em : list byte) (h_size : nat) (expected_p_hash : list byte) (k : nat)
  (mgf : list byte -> list byte -> outcome (list byte * list byte)) :
  agrees (oaep_decrypt_inner em h_size expected_p_hash k mgf) (r_oaep_decrypt_inner em h_size expected_p_hash k mgf).
Proof.
  unfold oaep_decrypt_inner, r_oaep_decrypt_inner. destruct (k <? 11)%nat; [apply ag_refl|].
  destruct (k <? h_size * 2 + 2)%nat; [apply ag_refl|].
  apply ag_bind; [apply ag_refl|intros b0]. cbv zeta. apply ag_bind; [apply ag_refl|intros [head payload]].
  apply ag_bind; [apply ag_refl|intros [seed db]]. apply ag_bind; [apply ag_refl|intros [seed' db']].
  apply ag_bind; [apply ag_refl|intros hh].
  pose proof (oaep_scan_nonneg (skipn h_size db') 0 true 0 false ltac:(lia)) as H.
  destruct (oaep_scan (skipn h_size db') 0 true 0 false) as [[looking index] nz]. cbn [fst snd] in H.
  apply ag_bind_eq; [apply ag_u32_add; lia|intros a Ha].
  assert (0 <= a) by (unfold u32_add in Ha; destruct (_ <? 2 ^ 32); [injection Ha as <-; lia|discriminate]).
  apply ag_bind; [apply ag_u32_add; [lia|apply Z.mod_pos_bound; lia]|intros i]. apply ag_refl.
Qed.
#[local] Hint Resolve ag_oaep_decrypt_inner : ag.

Lemma ag_oaep_decrypt (em : list byte) (dg : digest) (mgf_digest : digest) (label : option (list byte)) (k : nat) :
  agrees (oaep_decrypt em dg mgf_digest label k) (r_oaep_decrypt em dg mgf_digest label k).
Proof. unfold oaep_decrypt, r_oaep_decrypt. ag_run. Qed.
#[local] Hint Resolve ag_oaep_decrypt : ag.

Lemma ag_oaep_decrypt_digest (hd : hashfn) (hm : hashfn) (em : list byte) (label : option (list byte)) (k : nat) :
  agrees (oaep_decrypt_digest hd hm em label k) (r_oaep_decrypt_digest hd hm em label k).
Proof. unfold oaep_decrypt_digest, r_oaep_decrypt_digest. ag_run. Qed.
#[local] Hint Resolve ag_oaep_decrypt_digest : ag.

Lemma ag_emsa_pss_encode (m_hash : list byte) (em_bits : nat) (salt : list byte) (hash : digest) :
  agrees (emsa_pss_encode m_hash em_bits salt hash) (r_emsa_pss_encode m_hash em_bits salt hash).
Proof. unfold emsa_pss_encode, r_emsa_pss_encode. ag_run. Qed.
#[local] Hint Resolve ag_emsa_pss_encode : ag.

Lemma ag_emsa_pss_encode_digest (hd : hashfn) (m_hash : list byte) (em_bits : nat) (salt : list byte) :
  agrees (emsa_pss_encode_digest hd m_hash em_bits salt) (r_emsa_pss_encode_digest hd m_hash em_bits salt).
Proof. unfold emsa_pss_encode_digest, r_emsa_pss_encode_digest. ag_run. Qed.
#[local] Hint Resolve ag_emsa_pss_encode_digest : ag.

Lemma ag_emsa_pss_verify_pre (m_hash : list byte) (em : list byte) (em_bits : nat) (s_len : nat) (h_len : nat) :
  agrees (emsa_pss_verify_pre m_hash em em_bits s_len h_len) (r_emsa_pss_verify_pre m_hash em em_bits s_len h_len).
Proof. unfold emsa_pss_verify_pre, r_emsa_pss_verify_pre. ag_run. Qed.
#[local] Hint Resolve ag_emsa_pss_verify_pre : ag.

Lemma ag_emsa_pss_verify_salt (db : list byte) (em_len : nat) (s_len : nat) (h_len : nat) :
  agrees (emsa_pss_verify_salt db em_len s_len h_len) (r_emsa_pss_verify_salt db em_len s_len h_len).
Proof. unfold emsa_pss_verify_salt, r_emsa_pss_verify_salt. ag_run. Qed.
#[local] Hint Resolve ag_emsa_pss_verify_salt : ag.

Lemma ag_emsa_pss_verify (m_hash : list byte) (em : list byte) (s_len : nat) (hash : digest) (key_bits : nat) :
  agrees (emsa_pss_verify m_hash em s_len hash key_bits) (r_emsa_pss_verify m_hash em s_len hash key_bits).
Proof. unfold emsa_pss_verify, r_emsa_pss_verify. ag_run. Qed.
#[local] Hint Resolve ag_emsa_pss_verify : ag.

Lemma ag_emsa_pss_verify_digest (hd : hashfn) (m_hash : list byte) (em : list byte) (s_len : nat) (key_bits : nat) :
  agrees (emsa_pss_verify_digest hd m_hash em s_len key_bits) (r_emsa_pss_verify_digest hd m_hash em s_len key_bits).
Proof. unfold emsa_pss_verify_digest, r_emsa_pss_verify_digest. ag_run. Qed.
#[local] Hint Resolve ag_emsa_pss_verify_digest : ag.

Lemma ag_reduce_vartime (n : uint) (p : mparams) :
  agrees (reduce_vartime n p) (r_reduce_vartime uc n p).
Proof. unfold reduce_vartime, r_reduce_vartime. ag_run. Qed.
#[local] Hint Resolve ag_reduce_vartime : ag.

Lemma ag_pow_mod_params (base : uint) (exp : uint) (n_params : mparams) :
  agrees (pow_mod_params base exp n_params) (r_pow_mod_params uc base exp n_params).
Proof. unfold pow_mod_params, r_pow_mod_params. ag_run. Qed.
#[local] Hint Resolve ag_pow_mod_params : ag.

Lemma ag_mul_mod_params (lhs : uint) (rhs : uint) (n_params : mparams) :
  agrees (mul_mod_params lhs rhs n_params) (r_mul_mod_params uc lhs rhs n_params).
Proof. unfold mul_mod_params, r_mul_mod_params. ag_run. Qed.
#[local] Hint Resolve ag_mul_mod_params : ag.

Lemma ag_rsa_encrypt (key : pubkey) (m : uint) :
  agrees (rsa_encrypt key m) (r_rsa_encrypt uc key m).
Proof. unfold rsa_encrypt, r_rsa_encrypt. ag_run. Qed.
#[local] Hint Resolve ag_rsa_encrypt : ag.

Lemma ag_unblind (m : uint) (unblinder : uint) (n_params : mparams) :
  agrees (unblind m unblinder n_params) (r_unblind uc m unblinder n_params).
Proof. unfold unblind, r_unblind. ag_run. Qed.
#[local] Hint Resolve ag_unblind : ag.

Lemma ag_blind_loop {R : Type} (g : rng_ops R) (fuel : nat) : forall (st : R) (key : pubkey),
  agrees (blind_loop g fuel st key) (r_blind_loop uc g fuel st key).
Proof. induction fuel as [|fuel IH]; intros st key; cbn [blind_loop r_blind_loop]; ag_run. Qed.
#[local] Hint Resolve ag_blind_loop : ag.

Lemma ag_blind {R : Type} (g : rng_ops R) (fuel : nat) (st : R) (key : pubkey) (c : uint) (n_params : mparams) :
  agrees (blind g fuel st key c n_params) (r_blind uc g fuel st key c n_params).
Proof. unfold blind, r_blind. ag_run. Qed.
#[local] Hint Resolve ag_blind : ag.

Lemma ag_crt_pow {R : Type} (c : uint) (pc : precomp) (q : uint) :
  agrees (crt_pow c pc q) (r_crt_pow uc c pc q).
Proof. unfold crt_pow, r_crt_pow. ag_run. Qed.
#[local] Hint Resolve ag_crt_pow : ag.

Lemma ag_rsa_decrypt {R : Type} (g : rng_ops R) (fuel : nat) (rng : option R) (priv_key : privkey) (c : uint) :
  agrees (rsa_decrypt g fuel rng priv_key c) (r_rsa_decrypt uc g fuel rng priv_key c).
Proof. unfold rsa_decrypt, r_rsa_decrypt. ag_run. Qed.
#[local] Hint Resolve ag_rsa_decrypt : ag.

Lemma ag_rsa_decrypt_and_check {R : Type} (g : rng_ops R) (fuel : nat) (priv_key : privkey) (rng : option R) (c : uint) :
  agrees (rsa_decrypt_and_check g fuel priv_key rng c) (r_rsa_decrypt_and_check uc g fuel priv_key rng c).
Proof. unfold rsa_decrypt_and_check, r_rsa_decrypt_and_check. ag_run. Qed.
#[local] Hint Resolve ag_rsa_decrypt_and_check : ag.

Lemma ag_compute_private_exponent_euler_totient (primes : list uint) (exp : uint) :
  agrees (compute_private_exponent_euler_totient primes exp) (r_compute_private_exponent_euler_totient uc primes exp).
Proof. unfold compute_private_exponent_euler_totient, r_compute_private_exponent_euler_totient. ag_run. Qed.
#[local] Hint Resolve ag_compute_private_exponent_euler_totient : ag.

Lemma ag_compute_private_exponent_carmicheal (p : uint) (q : uint) (exp : uint) :
  agrees (compute_private_exponent_carmicheal p q exp) (r_compute_private_exponent_carmicheal uc p q exp).
Proof. unfold compute_private_exponent_carmicheal, r_compute_private_exponent_carmicheal. ag_run. Qed.
#[local] Hint Resolve ag_compute_private_exponent_carmicheal : ag.

Lemma ag_draw_primes {R : Type} (gp : prime_gen R) (left : nat) : forall (st : R) (todo : Z),
  agrees (draw_primes gp left st todo) (r_draw_primes gp left st todo).
Proof.
  induction left as [|left IH]; intros st todo; [apply ag_refl|]. cbn [draw_primes r_draw_primes].
  cbv zeta. apply ag_bind; [apply ag_refl|intros [prime st']].
  destruct (ubits prime <=? todo); cbn [assert_ bind]; [|apply ag_panic]. ag_run.
Qed.
#[local] Hint Resolve ag_draw_primes : ag.

Lemma ag_generate_loop {R : Type} (gp : prime_gen R) (fuel : nat) : forall (st : R) nprimes bit_size exp,
  agrees (generate_loop gp fuel st nprimes bit_size exp) (r_generate_loop uc gp fuel st nprimes bit_size exp).
Proof.
  induction fuel as [|fuel IH]; intros st nprimes bit_size exp; [apply ag_refl|]. cbn [generate_loop r_generate_loop].
  cbv zeta. apply ag_bind; [apply ag_draw_primes|intros [primes st']].
  destruct (has_duplicate primes); [apply IH|]. apply ag_bind; [apply ag_refl|intros n].
  destruct (negb (ubits n =? bit_size)); [apply IH|].
  destruct (ag_compute_private_exponent_euler_totient primes exp) as [E|E]; rewrite E; [apply ag_panic|].
  destruct (compute_private_exponent_euler_totient primes exp); auto using ag_refl.
Qed.
#[local] Hint Resolve ag_generate_loop : ag.

Lemma ag_generate_multi_prime_key_with_exp {R : Type} (gp : prime_gen R) (fuel : nat) (st : R) (nprimes : nat) (bit_size : Z) (exp : uint) :
  agrees (generate_multi_prime_key_with_exp gp fuel st nprimes bit_size exp) (r_generate_multi_prime_key_with_exp uc gp fuel st nprimes bit_size exp).
Proof. unfold generate_multi_prime_key_with_exp, r_generate_multi_prime_key_with_exp. ag_run. Qed.
#[local] Hint Resolve ag_generate_multi_prime_key_with_exp : ag.

Lemma ag_precompute (k : privkey) :
  agrees (precompute k) (r_precompute uc k).
Proof. unfold precompute, r_precompute. ag_run. Qed.
#[local] Hint Resolve ag_precompute : ag.

Lemma ag_crt_coefficient (k : privkey) :
  agrees (crt_coefficient k) (r_crt_coefficient uc k).
Proof. unfold crt_coefficient, r_crt_coefficient. ag_run. Qed.
#[local] Hint Resolve ag_crt_coefficient : ag.

Lemma ag_try_precompute (k : privkey) :
  agrees (try_precompute k) (r_try_precompute uc k).
Proof.
  unfold try_precompute, r_try_precompute. destruct (ag_precompute k) as [E|E]; rewrite E; [apply ag_panic|apply ag_refl].
Qed.
#[local] Hint Resolve ag_try_precompute : ag.

Lemma ag_from_components (n : uint) (e : uint) (d : uint) (primes : list uint) :
  agrees (from_components n e d primes) (r_from_components uc n e d primes).
Proof. unfold from_components, r_from_components. ag_run. Qed.
#[local] Hint Resolve ag_from_components : ag.

Lemma ag_from_p_q (p : uint) (q : uint) (public_exponent : uint) :
  agrees (from_p_q p q public_exponent) (r_from_p_q uc p q public_exponent).
Proof. unfold from_p_q, r_from_p_q. ag_run. Qed.
#[local] Hint Resolve ag_from_p_q : ag.

Lemma ag_from_primes (primes : list uint) (public_exponent : uint) :
  agrees (from_primes primes public_exponent) (r_from_primes uc primes public_exponent).
Proof. unfold from_primes, r_from_primes. ag_run. Qed.
#[local] Hint Resolve ag_from_primes : ag.

Lemma ag_private_new_with_exp {R : Type} (gp : prime_gen R) (fuel : nat) (st : R) (bit_size : Z) (exp : uint) :
  agrees (private_new_with_exp gp fuel st bit_size exp) (r_private_new_with_exp uc gp fuel st bit_size exp).
Proof. unfold private_new_with_exp, r_private_new_with_exp. ag_run. Qed.
#[local] Hint Resolve ag_private_new_with_exp : ag.

Lemma ag_private_new {R : Type} (gp : prime_gen R) (fuel : nat) (st : R) (bit_size : Z) :
  agrees (private_new gp fuel st bit_size) (r_private_new uc gp fuel st bit_size).
Proof. unfold private_new, r_private_new. ag_run. Qed.
#[local] Hint Resolve ag_private_new : ag.

Lemma ag_sig_from_bytes (sig : list byte) :
  agrees (sig_from_bytes sig) (r_sig_from_bytes sig).
Proof. unfold sig_from_bytes, r_sig_from_bytes. ag_run. Qed.
#[local] Hint Resolve ag_sig_from_bytes : ag.

Lemma ag_pkcs1v15_encrypt {R : Type} (g : rng_ops R) (fuel : nat) (rng : R) (pub_key : pubkey) (msg : list byte) :
  agrees (pkcs1v15_encrypt g fuel rng pub_key msg) (r_pkcs1v15_encrypt uc g fuel rng pub_key msg).
Proof. unfold pkcs1v15_encrypt, r_pkcs1v15_encrypt. ag_run. Qed.
#[local] Hint Resolve ag_pkcs1v15_encrypt : ag.

Lemma ag_pkcs1v15_decrypt {R : Type} (g : rng_ops R) (fuel : nat) (rng : option R) (priv_key : privkey) (ciphertext : list byte) :
  agrees (pkcs1v15_decrypt g fuel rng priv_key ciphertext) (r_pkcs1v15_decrypt uc g fuel rng priv_key ciphertext).
Proof. unfold pkcs1v15_decrypt, r_pkcs1v15_decrypt. ag_run. Qed.
#[local] Hint Resolve ag_pkcs1v15_decrypt : ag.

Lemma ag_pkcs1v15_sign {R : Type} (g : rng_ops R) (fuel : nat) (rng : option R) (priv_key : privkey) (prefix : list byte) (hashed : list byte) :
  agrees (pkcs1v15_sign g fuel rng priv_key prefix hashed) (r_pkcs1v15_sign uc g fuel rng priv_key prefix hashed).
Proof. unfold pkcs1v15_sign, r_pkcs1v15_sign. ag_run. Qed.
#[local] Hint Resolve ag_pkcs1v15_sign : ag.

Lemma ag_oaep_api_encrypt {R : Type} (g : rng_ops R) (rng : R) (pub_key : pubkey) (msg : list byte) (dg : digest) (mgf_digest : digest) (label : option (list byte)) :
  agrees (oaep_api_encrypt g rng pub_key msg dg mgf_digest label) (r_oaep_api_encrypt uc g rng pub_key msg dg mgf_digest label).
Proof. unfold oaep_api_encrypt, r_oaep_api_encrypt. ag_run. Qed.
#[local] Hint Resolve ag_oaep_api_encrypt : ag.

Lemma ag_oaep_api_encrypt_digest {R : Type} (g : rng_ops R) (hd : hashfn) (hm : hashfn) (rng : R) (pub_key : pubkey) (msg : list byte) (label : option (list byte)) :
  agrees (oaep_api_encrypt_digest g hd hm rng pub_key msg label) (r_oaep_api_encrypt_digest uc g hd hm rng pub_key msg label).
Proof. unfold oaep_api_encrypt_digest, r_oaep_api_encrypt_digest. ag_run. Qed.
#[local] Hint Resolve ag_oaep_api_encrypt_digest : ag.

Lemma ag_oaep_api_decrypt {R : Type} (g : rng_ops R) (fuel : nat) (rng : option R) (priv_key : privkey) (ciphertext : list byte) (dg : digest) (mgf_digest : digest) (label : option (list byte)) :
  agrees (oaep_api_decrypt g fuel rng priv_key ciphertext dg mgf_digest label) (r_oaep_api_decrypt uc g fuel rng priv_key ciphertext dg mgf_digest label).
Proof. unfold oaep_api_decrypt, r_oaep_api_decrypt. ag_run. Qed.
#[local] Hint Resolve ag_oaep_api_decrypt : ag.

Lemma ag_oaep_api_decrypt_digest {R : Type} (g : rng_ops R) (hd : hashfn) (hm : hashfn) (fuel : nat) (rng : option R) (priv_key : privkey) (ciphertext : list byte) (label : option (list byte)) :
  agrees (oaep_api_decrypt_digest g hd hm fuel rng priv_key ciphertext label) (r_oaep_api_decrypt_digest uc g hd hm fuel rng priv_key ciphertext label).
Proof. unfold oaep_api_decrypt_digest, r_oaep_api_decrypt_digest. ag_run. Qed.
#[local] Hint Resolve ag_oaep_api_decrypt_digest : ag.

Lemma ag_sign_pss_with_salt {R : Type} (g : rng_ops R) (fuel : nat) (blind_rng : option R) (priv_key : privkey) (hashed : list byte) (salt : list byte) (dg : digest) :
  agrees (sign_pss_with_salt g fuel blind_rng priv_key hashed salt dg) (r_sign_pss_with_salt uc g fuel blind_rng priv_key hashed salt dg).
Proof. unfold sign_pss_with_salt, r_sign_pss_with_salt. ag_run. Qed.
#[local] Hint Resolve ag_sign_pss_with_salt : ag.

Lemma ag_sign_pss_with_salt_digest {R : Type} (g : rng_ops R) (hd : hashfn) (fuel : nat) (blind_rng : option R) (priv_key : privkey) (hashed : list byte) (salt : list byte) :
  agrees (sign_pss_with_salt_digest g hd fuel blind_rng priv_key hashed salt) (r_sign_pss_with_salt_digest uc g hd fuel blind_rng priv_key hashed salt).
Proof. unfold sign_pss_with_salt_digest, r_sign_pss_with_salt_digest. ag_run. Qed.
#[local] Hint Resolve ag_sign_pss_with_salt_digest : ag.

Lemma ag_pss_sign {R : Type} (g : rng_ops R) (fuel : nat) (rng : R) (blind : bool) (priv_key : privkey) (hashed : list byte) (salt_len : nat) (dg : digest) :
  agrees (pss_sign g fuel rng blind priv_key hashed salt_len dg) (r_pss_sign uc g fuel rng blind priv_key hashed salt_len dg).
Proof. unfold pss_sign, r_pss_sign. ag_run. Qed.
#[local] Hint Resolve ag_pss_sign : ag.

Lemma ag_pss_sign_digest {R : Type} (g : rng_ops R) (hd : hashfn) (fuel : nat) (rng : R) (blind : bool) (priv_key : privkey) (hashed : list byte) (salt_len : nat) :
  agrees (pss_sign_digest g hd fuel rng blind priv_key hashed salt_len) (r_pss_sign_digest uc g hd fuel rng blind priv_key hashed salt_len).
Proof. unfold pss_sign_digest, r_pss_sign_digest. ag_run. Qed.
#[local] Hint Resolve ag_pss_sign_digest : ag.

Lemma ag_pkcs1v15_verify (pub_key : pubkey) (prefix : list byte) (hashed : list byte) (sig : uint) :
  agrees (pkcs1v15_verify pub_key prefix hashed sig) (r_pkcs1v15_verify uc pub_key prefix hashed sig).
Proof. unfold pkcs1v15_verify, r_pkcs1v15_verify. ag_run. Qed.
#[local] Hint Resolve ag_pkcs1v15_verify : ag.

Lemma ag_pss_verify (pub_key : pubkey) (hashed : list byte) (sig : uint) (sig_len : nat) (dg : digest) (salt_len : nat) :
  agrees (pss_verify pub_key hashed sig sig_len dg salt_len) (r_pss_verify uc pub_key hashed sig sig_len dg salt_len).
Proof. unfold pss_verify, r_pss_verify. ag_run. Qed.
#[local] Hint Resolve ag_pss_verify : ag.

Lemma ag_pss_verify_digest (hd : hashfn) (pub_key : pubkey) (hashed : list byte) (sig : uint) (salt_len : nat) :
  agrees (pss_verify_digest hd pub_key hashed sig salt_len) (r_pss_verify_digest uc hd pub_key hashed sig salt_len).
Proof. unfold pss_verify_digest, r_pss_verify_digest. ag_run. Qed.
#[local] Hint Resolve ag_pss_verify_digest : ag.

Lemma ag_pkcs1_sign_new (oid : list byte) (d : hashfn) :
  agrees (pkcs1_sign_new oid d) (r_pkcs1_sign_new oid d).
Proof. unfold pkcs1_sign_new, r_pkcs1_sign_new. ag_run. Qed.
#[local] Hint Resolve ag_pkcs1_sign_new : ag.

Lemma ag_public_encrypt {R : Type} (g : rng_ops R) (fuel : nat) (rng : R) (k : pubkey) (p : padding) (msg : list byte) :
  agrees (public_encrypt g fuel rng k p msg) (r_public_encrypt uc g fuel rng k p msg).
Proof. unfold public_encrypt, r_public_encrypt. ag_run. Qed.
#[local] Hint Resolve ag_public_encrypt : ag.

Lemma ag_scheme_decrypt {R : Type} (g : rng_ops R) (fuel : nat) (rng : option R) (k : privkey) (p : padding) (ct : list byte) :
  agrees (scheme_decrypt g fuel rng k p ct) (r_scheme_decrypt uc g fuel rng k p ct).
Proof. unfold scheme_decrypt, r_scheme_decrypt. ag_run. Qed.
#[local] Hint Resolve ag_scheme_decrypt : ag.

Lemma ag_private_decrypt {R : Type} (g : rng_ops R) (fuel : nat) (k : privkey) (p : padding) (ct : list byte) :
  agrees (private_decrypt g fuel k p ct) (r_private_decrypt uc g fuel k p ct).
Proof. unfold private_decrypt, r_private_decrypt. ag_run. Qed.
#[local] Hint Resolve ag_private_decrypt : ag.

Lemma ag_private_decrypt_blinded {R : Type} (g : rng_ops R) (fuel : nat) (rng : R) (k : privkey) (p : padding) (ct : list byte) :
  agrees (private_decrypt_blinded g fuel rng k p ct) (r_private_decrypt_blinded uc g fuel rng k p ct).
Proof. unfold private_decrypt_blinded, r_private_decrypt_blinded. ag_run. Qed.
#[local] Hint Resolve ag_private_decrypt_blinded : ag.

Lemma ag_scheme_sign {R : Type} (g : rng_ops R) (fuel : nat) (rng : option R) (k : privkey) (s : sig_scheme) (hashed : list byte) :
  agrees (scheme_sign g fuel rng k s hashed) (r_scheme_sign uc g fuel rng k s hashed).
Proof. unfold scheme_sign, r_scheme_sign. ag_run. Qed.
#[local] Hint Resolve ag_scheme_sign : ag.

Lemma ag_private_sign {R : Type} (g : rng_ops R) (fuel : nat) (k : privkey) (s : sig_scheme) (hashed : list byte) :
  agrees (private_sign g fuel k s hashed) (r_private_sign uc g fuel k s hashed).
Proof. unfold private_sign, r_private_sign. ag_run. Qed.
#[local] Hint Resolve ag_private_sign : ag.

Lemma ag_private_sign_with_rng {R : Type} (g : rng_ops R) (fuel : nat) (rng : R) (k : privkey) (s : sig_scheme) (hashed : list byte) :
  agrees (private_sign_with_rng g fuel rng k s hashed) (r_private_sign_with_rng uc g fuel rng k s hashed).
Proof. unfold private_sign_with_rng, r_private_sign_with_rng. ag_run. Qed.
#[local] Hint Resolve ag_private_sign_with_rng : ag.

Lemma ag_public_verify (k : pubkey) (s : sig_scheme) (hashed : list byte) (sig : list byte) :
  agrees (public_verify k s hashed sig) (r_public_verify uc k s hashed sig).
Proof. unfold public_verify, r_public_verify. ag_run. Qed.
#[local] Hint Resolve ag_public_verify : ag.

Lemma ag_signature_try_from (bytes : list byte) :
  agrees (signature_try_from bytes) (r_signature_try_from bytes).
Proof. unfold signature_try_from, r_signature_try_from. ag_run. Qed.
#[local] Hint Resolve ag_signature_try_from : ag.

Lemma ag_p1sk_new (hd : hashfn) (oid : list byte) (key : privkey) :
  agrees (p1sk_new hd oid key) (r_p1sk_new hd oid key).
Proof. unfold p1sk_new, r_p1sk_new. ag_run. Qed.
#[local] Hint Resolve ag_p1sk_new : ag.

Lemma ag_p1vk_new (hd : hashfn) (oid : list byte) (key : pubkey) :
  agrees (p1vk_new hd oid key) (r_p1vk_new hd oid key).
Proof. unfold p1vk_new, r_p1vk_new. ag_run. Qed.
#[local] Hint Resolve ag_p1vk_new : ag.

Lemma ag_p1sk_sign_prehash {R : Type} (g : rng_ops R) (fuel : nat) (rng : option R) (k : p1_signing_key) (prehash : list byte) :
  agrees (p1sk_sign_prehash g fuel rng k prehash) (r_p1sk_sign_prehash uc g fuel rng k prehash).
Proof. unfold p1sk_sign_prehash, r_p1sk_sign_prehash. ag_run. Qed.
#[local] Hint Resolve ag_p1sk_sign_prehash : ag.

Lemma ag_p1sk_sign_digest {R : Type} (g : rng_ops R) (fuel : nat) (rng : option R) (k : p1_signing_key) (d : digest) :
  agrees (p1sk_sign_digest g fuel rng k d) (r_p1sk_sign_digest uc g fuel rng k d).
Proof. unfold p1sk_sign_digest, r_p1sk_sign_digest. ag_run. Qed.
#[local] Hint Resolve ag_p1sk_sign_digest : ag.

Lemma ag_p1sk_sign {R : Type} (g : rng_ops R) (hd : hashfn) (fuel : nat) (rng : option R) (k : p1_signing_key) (msg : list byte) :
  agrees (p1sk_sign g hd fuel rng k msg) (r_p1sk_sign uc g hd fuel rng k msg).
Proof. unfold p1sk_sign, r_p1sk_sign. ag_run. Qed.
#[local] Hint Resolve ag_p1sk_sign : ag.

Lemma ag_p1vk_verify_prehash (k : p1_verifying_key) (prehash : list byte) (s : signature) :
  agrees (p1vk_verify_prehash k prehash s) (r_p1vk_verify_prehash uc k prehash s).
Proof. unfold p1vk_verify_prehash, r_p1vk_verify_prehash. ag_run. Qed.
#[local] Hint Resolve ag_p1vk_verify_prehash : ag.

Lemma ag_p1vk_verify_digest (k : p1_verifying_key) (d : digest) (s : signature) :
  agrees (p1vk_verify_digest k d s) (r_p1vk_verify_digest uc k d s).
Proof. unfold p1vk_verify_digest, r_p1vk_verify_digest. ag_run. Qed.
#[local] Hint Resolve ag_p1vk_verify_digest : ag.

Lemma ag_p1vk_verify (hd : hashfn) (k : p1_verifying_key) (msg : list byte) (s : signature) :
  agrees (p1vk_verify hd k msg s) (r_p1vk_verify uc hd k msg s).
Proof. unfold p1vk_verify, r_p1vk_verify. ag_run. Qed.
#[local] Hint Resolve ag_p1vk_verify : ag.

Lemma ag_pssk_sign_prehash {R : Type} (g : rng_ops R) (hd : hashfn) (fuel : nat) (rng : R) (k : pss_signing_key) (prehash : list byte) :
  agrees (pssk_sign_prehash g hd fuel rng k prehash) (r_pssk_sign_prehash uc g hd fuel rng k prehash).
Proof. unfold pssk_sign_prehash, r_pssk_sign_prehash. ag_run. Qed.
#[local] Hint Resolve ag_pssk_sign_prehash : ag.

Lemma ag_pssk_sign_digest {R : Type} (g : rng_ops R) (hd : hashfn) (fuel : nat) (rng : R) (k : pss_signing_key) (d : digest) :
  agrees (pssk_sign_digest g hd fuel rng k d) (r_pssk_sign_digest uc g hd fuel rng k d).
Proof. unfold pssk_sign_digest, r_pssk_sign_digest. ag_run. Qed.
#[local] Hint Resolve ag_pssk_sign_digest : ag.

Lemma ag_pssk_sign {R : Type} (g : rng_ops R) (hd : hashfn) (fuel : nat) (rng : R) (k : pss_signing_key) (msg : list byte) :
  agrees (pssk_sign g hd fuel rng k msg) (r_pssk_sign uc g hd fuel rng k msg).
Proof. unfold pssk_sign, r_pssk_sign. ag_run. Qed.
#[local] Hint Resolve ag_pssk_sign : ag.

Lemma ag_psvk_verify_prehash (hd : hashfn) (k : pss_verifying_key) (prehash : list byte) (s : signature) :
  agrees (psvk_verify_prehash hd k prehash s) (r_psvk_verify_prehash uc hd k prehash s).
Proof. unfold psvk_verify_prehash, r_psvk_verify_prehash. ag_run. Qed.
#[local] Hint Resolve ag_psvk_verify_prehash : ag.

Lemma ag_psvk_verify_digest (hd : hashfn) (k : pss_verifying_key) (d : digest) (s : signature) :
  agrees (psvk_verify_digest hd k d s) (r_psvk_verify_digest uc hd k d s).
Proof. unfold psvk_verify_digest, r_psvk_verify_digest. ag_run. Qed.
#[local] Hint Resolve ag_psvk_verify_digest : ag.

Lemma ag_psvk_verify (hd : hashfn) (k : pss_verifying_key) (msg : list byte) (s : signature) :
  agrees (psvk_verify hd k msg s) (r_psvk_verify uc hd k msg s).
Proof. unfold psvk_verify, r_psvk_verify. ag_run. Qed.
#[local] Hint Resolve ag_psvk_verify : ag.

Lemma ag_p1ek_encrypt {R : Type} (g : rng_ops R) (fuel : nat) (rng : R) (k : p1_encrypting_key) (msg : list byte) :
  agrees (p1ek_encrypt g fuel rng k msg) (r_p1ek_encrypt uc g fuel rng k msg).
Proof. unfold p1ek_encrypt, r_p1ek_encrypt. ag_run. Qed.
#[local] Hint Resolve ag_p1ek_encrypt : ag.

Lemma ag_p1dk_decrypt {R : Type} (g : rng_ops R) (fuel : nat) (rng : option R) (k : p1_decrypting_key) (ct : list byte) :
  agrees (p1dk_decrypt g fuel rng k ct) (r_p1dk_decrypt uc g fuel rng k ct).
Proof. unfold p1dk_decrypt, r_p1dk_decrypt. ag_run. Qed.
#[local] Hint Resolve ag_p1dk_decrypt : ag.

Lemma ag_oek_encrypt {R : Type} (g : rng_ops R) (hd : hashfn) (hm : hashfn) (rng : R) (k : oaep_encrypting_key) (msg : list byte) :
  agrees (oek_encrypt g hd hm rng k msg) (r_oek_encrypt uc g hd hm rng k msg).
Proof. unfold oek_encrypt, r_oek_encrypt. ag_run. Qed.
#[local] Hint Resolve ag_oek_encrypt : ag.

Lemma ag_odk_decrypt {R : Type} (g : rng_ops R) (hd : hashfn) (hm : hashfn) (fuel : nat) (rng : option R) (k : oaep_decrypting_key) (ct : list byte) :
  agrees (odk_decrypt g hd hm fuel rng k ct) (r_odk_decrypt uc g hd hm fuel rng k ct).
Proof. unfold odk_decrypt, r_odk_decrypt. ag_run. Qed.
#[local] Hint Resolve ag_odk_decrypt : ag.

Lemma ag_p1sk_random {R : Type} (gp : prime_gen R) (hd : hashfn) (oid : list byte) (fuel : nat) (st : R) (bit_size : Z) :
  agrees (p1sk_random gp hd oid fuel st bit_size) (r_p1sk_random uc gp hd oid fuel st bit_size).
Proof. unfold p1sk_random, r_p1sk_random. ag_run. Qed.
#[local] Hint Resolve ag_p1sk_random : ag.

Lemma ag_p1sk_random_unprefixed {R : Type} (gp : prime_gen R) (fuel : nat) (st : R) (bit_size : Z) :
  agrees (p1sk_random_unprefixed gp fuel st bit_size) (r_p1sk_random_unprefixed uc gp fuel st bit_size).
Proof. unfold p1sk_random_unprefixed, r_p1sk_random_unprefixed. ag_run. Qed.
#[local] Hint Resolve ag_p1sk_random_unprefixed : ag.

Lemma ag_pssk_random_with_salt_len {R : Type} (gp : prime_gen R) (blinded : bool) (fuel : nat) (st : R) (bit_size : Z) (salt_len : nat) :
  agrees (pssk_random_with_salt_len gp blinded fuel st bit_size salt_len) (r_pssk_random_with_salt_len uc gp blinded fuel st bit_size salt_len).
Proof. unfold pssk_random_with_salt_len, r_pssk_random_with_salt_len. ag_run. Qed.
#[local] Hint Resolve ag_pssk_random_with_salt_len : ag.

Lemma ag_pssk_random {R : Type} (gp : prime_gen R) (hd : hashfn) (blinded : bool) (fuel : nat) (st : R) (bit_size : Z) :
  agrees (pssk_random gp hd blinded fuel st bit_size) (r_pssk_random uc gp hd blinded fuel st bit_size).
Proof. unfold pssk_random, r_pssk_random. ag_run. Qed.
#[local] Hint Resolve ag_pssk_random : ag.

Lemma ag_private_from_pkcs1 (k : p1_private) :
  agrees (private_from_pkcs1 k) (r_private_from_pkcs1 uc k).
Proof. unfold private_from_pkcs1, r_private_from_pkcs1. ag_run. Qed.
#[local] Hint Resolve ag_private_from_pkcs1 : ag.

Lemma ag_private_try_from (der_max : Z) (info : key_info) :
  agrees (private_try_from der_max info) (r_private_try_from uc der_max info).
Proof. unfold private_try_from, r_private_try_from. ag_run. Qed.
#[local] Hint Resolve ag_private_try_from : ag.

Lemma ag_from_pkcs8_der (der_max : Z) (tail_ok : Z -> list byte -> bool) (der : list byte) :
  agrees (from_pkcs8_der der_max tail_ok der) (r_from_pkcs8_der uc der_max tail_ok der).
Proof. unfold from_pkcs8_der, r_from_pkcs8_der. ag_run. Qed.
#[local] Hint Resolve ag_from_pkcs8_der : ag.

Lemma ag_public_from_pkcs1 (k : p1_public) :
  agrees (public_from_pkcs1 k) (r_public_from_pkcs1 k).
Proof. unfold public_from_pkcs1, r_public_from_pkcs1. ag_run. Qed.
#[local] Hint Resolve ag_public_from_pkcs1 : ag.

Lemma ag_public_try_from (der_max : Z) (spki : spki_info) :
  agrees (public_try_from der_max spki) (r_public_try_from der_max spki).
Proof. unfold public_try_from, r_public_try_from. ag_run. Qed.
#[local] Hint Resolve ag_public_try_from : ag.

Lemma ag_from_public_key_der (der_max : Z) (der : list byte) :
  agrees (from_public_key_der der_max der) (r_from_public_key_der der_max der).
Proof. unfold from_public_key_der, r_from_public_key_der. ag_run. Qed.
#[local] Hint Resolve ag_from_public_key_der : ag.

Lemma ag_private_to_pkcs1 (der_max : Z) (k : privkey) :
  agrees (private_to_pkcs1 der_max k) (r_private_to_pkcs1 uc der_max k).
Proof. unfold private_to_pkcs1, r_private_to_pkcs1. ag_run. Qed.
#[local] Hint Resolve ag_private_to_pkcs1 : ag.

Lemma ag_to_pkcs8_der (der_max : Z) (k : privkey) :
  agrees (to_pkcs8_der der_max k) (r_to_pkcs8_der uc der_max k).
Proof. unfold to_pkcs8_der, r_to_pkcs8_der. ag_run. Qed.
#[local] Hint Resolve ag_to_pkcs8_der : ag.

Lemma ag_p1sk_try_from (der_max : Z) (hd : hashfn) (oid : list byte) (info : key_info) :
  agrees (p1sk_try_from der_max hd oid info) (r_p1sk_try_from uc der_max hd oid info).
Proof. unfold p1sk_try_from, r_p1sk_try_from. ag_run. Qed.
#[local] Hint Resolve ag_p1sk_try_from : ag.

Lemma ag_p1vk_try_from (der_max : Z) (hd : hashfn) (oid : list byte) (spki : spki_info) :
  agrees (p1vk_try_from der_max hd oid spki) (r_p1vk_try_from der_max hd oid spki).
Proof. unfold p1vk_try_from, r_p1vk_try_from. ag_run. Qed.
#[local] Hint Resolve ag_p1vk_try_from : ag.

Lemma ag_pssk_try_from (der_max : Z) (hd : hashfn) (info : key_info) :
  agrees (pssk_try_from der_max hd info) (r_pssk_try_from uc der_max hd info).
Proof. unfold pssk_try_from, r_pssk_try_from. ag_run. Qed.
#[local] Hint Resolve ag_pssk_try_from : ag.

Lemma ag_psbsk_try_from (der_max : Z) (hd : hashfn) (info : key_info) :
  agrees (psbsk_try_from der_max hd info) (r_psbsk_try_from uc der_max hd info).
Proof. unfold psbsk_try_from, r_psbsk_try_from. ag_run. Qed.
#[local] Hint Resolve ag_psbsk_try_from : ag.

Lemma ag_psvk_try_from (der_max : Z) (hd : hashfn) (spki : spki_info) :
  agrees (psvk_try_from der_max hd spki) (r_psvk_try_from der_max hd spki).
Proof. unfold psvk_try_from, r_psvk_try_from. ag_run. Qed.
#[local] Hint Resolve ag_psvk_try_from : ag.

Lemma ag_p1sk_to_pkcs8_der (der_max : Z) (k : p1_signing_key) :
  agrees (p1sk_to_pkcs8_der der_max k) (r_p1sk_to_pkcs8_der uc der_max k).
Proof. unfold p1sk_to_pkcs8_der, r_p1sk_to_pkcs8_der. ag_run. Qed.
#[local] Hint Resolve ag_p1sk_to_pkcs8_der : ag.

Lemma ag_p1sk_from_pkcs8_der (der_max : Z) (tail_ok : Z -> list byte -> bool) (hd : hashfn) (oid : list byte) (l : list byte) :
  agrees (p1sk_from_pkcs8_der der_max tail_ok hd oid l) (r_p1sk_from_pkcs8_der uc der_max tail_ok hd oid l).
Proof. unfold p1sk_from_pkcs8_der, r_p1sk_from_pkcs8_der. ag_run. Qed.
#[local] Hint Resolve ag_p1sk_from_pkcs8_der : ag.

Lemma ag_p1vk_from_public_key_der (der_max : Z) (hd : hashfn) (oid : list byte) (l : list byte) :
  agrees (p1vk_from_public_key_der der_max hd oid l) (r_p1vk_from_public_key_der der_max hd oid l).
Proof. unfold p1vk_from_public_key_der, r_p1vk_from_public_key_der. ag_run. Qed.
#[local] Hint Resolve ag_p1vk_from_public_key_der : ag.

Lemma ag_pssk_to_pkcs8_der (der_max : Z) (k : pss_signing_key) :
  agrees (pssk_to_pkcs8_der der_max k) (r_pssk_to_pkcs8_der uc der_max k).
Proof. unfold pssk_to_pkcs8_der, r_pssk_to_pkcs8_der. ag_run. Qed.
#[local] Hint Resolve ag_pssk_to_pkcs8_der : ag.

Lemma ag_pssk_from_pkcs8_der (der_max : Z) (tail_ok : Z -> list byte -> bool) (hd : hashfn) (blinded : bool) (l : list byte) :
  agrees (pssk_from_pkcs8_der der_max tail_ok hd blinded l) (r_pssk_from_pkcs8_der uc der_max tail_ok hd blinded l).
Proof. unfold pssk_from_pkcs8_der, r_pssk_from_pkcs8_der. ag_run. Qed.
#[local] Hint Resolve ag_pssk_from_pkcs8_der : ag.

Lemma ag_psvk_from_public_key_der (der_max : Z) (hd : hashfn) (l : list byte) :
  agrees (psvk_from_public_key_der der_max hd l) (r_psvk_from_public_key_der der_max hd l).
Proof. unfold psvk_from_public_key_der, r_psvk_from_public_key_der. ag_run. Qed.
#[local] Hint Resolve ag_psvk_from_public_key_der : ag.

Lemma ag_p1sk_from (hd : hashfn) (oid : list byte) (k : privkey) :
  agrees (p1sk_from hd oid k) (r_p1sk_from hd oid k).
Proof. unfold p1sk_from, r_p1sk_from. ag_run. Qed.
#[local] Hint Resolve ag_p1sk_from : ag.

Lemma ag_p1vk_from (hd : hashfn) (oid : list byte) (k : pubkey) :
  agrees (p1vk_from hd oid k) (r_p1vk_from hd oid k).
Proof. unfold p1vk_from, r_p1vk_from. ag_run. Qed.
#[local] Hint Resolve ag_p1vk_from : ag.

Lemma ag_p1sk_new_with_prefix (hd : hashfn) (oid : list byte) (k : privkey) :
  agrees (p1sk_new_with_prefix hd oid k) (r_p1sk_new_with_prefix hd oid k).
Proof. unfold p1sk_new_with_prefix, r_p1sk_new_with_prefix. ag_run. Qed.
#[local] Hint Resolve ag_p1sk_new_with_prefix : ag.

Lemma ag_p1vk_new_with_prefix (hd : hashfn) (oid : list byte) (k : pubkey) :
  agrees (p1vk_new_with_prefix hd oid k) (r_p1vk_new_with_prefix hd oid k).
Proof. unfold p1vk_new_with_prefix, r_p1vk_new_with_prefix. ag_run. Qed.
#[local] Hint Resolve ag_p1vk_new_with_prefix : ag.

Lemma ag_p1sk_random_with_prefix R (gp : prime_gen R) (hd : hashfn) (oid : list byte) (fuel : nat) (st : R) (bit_size : Z) :
  agrees (p1sk_random_with_prefix gp hd oid fuel st bit_size) (r_p1sk_random_with_prefix uc gp hd oid fuel st bit_size).
Proof. unfold p1sk_random_with_prefix, r_p1sk_random_with_prefix. ag_run. Qed.
#[local] Hint Resolve ag_p1sk_random_with_prefix : ag.

Lemma ag_de_public (der_max : Z) (human : bool) (v : sval) :
  agrees (de_public der_max human v) (r_de_public der_max human v).
Proof. unfold de_public, r_de_public. ag_run. Qed.
#[local] Hint Resolve ag_de_public : ag.

Lemma ag_ser_private (der_max : Z) (human : bool) (k : privkey) :
  agrees (ser_private der_max human k) (r_ser_private uc der_max human k).
Proof. unfold ser_private, r_ser_private. ag_run. Qed.
#[local] Hint Resolve ag_ser_private : ag.

Lemma ag_de_private (der_max : Z) (tail_ok : Z -> list byte -> bool) (human : bool) (v : sval) :
  agrees (de_private der_max tail_ok human v) (r_de_private uc der_max tail_ok human v).
Proof. unfold de_private, r_de_private. ag_run. Qed.
#[local] Hint Resolve ag_de_private : ag.

Lemma ag_ser_p1sk (der_max : Z) (human : bool) (k : p1_signing_key) :
  agrees (ser_p1sk der_max human k) (r_ser_p1sk uc der_max human k).
Proof. unfold ser_p1sk, r_ser_p1sk. ag_run. Qed.
#[local] Hint Resolve ag_ser_p1sk : ag.

Lemma ag_de_p1sk (der_max : Z) (tail_ok : Z -> list byte -> bool) (human : bool) (hd : hashfn) (oid : list byte) (v : sval) :
  agrees (de_p1sk der_max tail_ok human hd oid v) (r_de_p1sk uc der_max tail_ok human hd oid v).
Proof. unfold de_p1sk, r_de_p1sk. ag_run. Qed.
#[local] Hint Resolve ag_de_p1sk : ag.

Lemma ag_de_p1vk (der_max : Z) (human : bool) (hd : hashfn) (oid : list byte) (v : sval) :
  agrees (de_p1vk der_max human hd oid v) (r_de_p1vk der_max human hd oid v).
Proof. unfold de_p1vk, r_de_p1vk. ag_run. Qed.
#[local] Hint Resolve ag_de_p1vk : ag.

Lemma ag_ser_pssk (der_max : Z) (human : bool) (k : pss_signing_key) :
  agrees (ser_pssk der_max human k) (r_ser_pssk uc der_max human k).
Proof. unfold ser_pssk, r_ser_pssk. ag_run. Qed.
#[local] Hint Resolve ag_ser_pssk : ag.

Lemma ag_de_pssk (der_max : Z) (tail_ok : Z -> list byte -> bool) (human : bool) (hd : hashfn) (blinded : bool) (v : sval) :
  agrees (de_pssk der_max tail_ok human hd blinded v) (r_de_pssk uc der_max tail_ok human hd blinded v).
Proof. unfold de_pssk, r_de_pssk. ag_run. Qed.
#[local] Hint Resolve ag_de_pssk : ag.

Lemma ag_de_psvk (der_max : Z) (human : bool) (hd : hashfn) (v : sval) :
  agrees (de_psvk der_max human hd v) (r_de_psvk der_max human hd v).
Proof. unfold de_psvk, r_de_psvk. ag_run. Qed.
#[local] Hint Resolve ag_de_psvk : ag.

Lemma ag_de_signature (human : bool) (v : sval) :
  agrees (de_signature human v) (r_de_signature human v).
Proof. unfold de_signature, r_de_signature. ag_run. Qed.
#[local] Hint Resolve ag_de_signature : ag.

Lemma ag_once {A} (acc : option A) d d' : agrees d d' -> agrees (once acc d) (once acc d').
Proof. intros H. unfold once. destruct acc; [apply ag_refl|]. apply ag_bind; [exact H|intros x; apply ag_refl]. Qed.
Lemma ag_visit_one {A} (de de' : sval -> outcome A) fields : (forall v, agrees (de v) (de' v)) -> forall acc,
  agrees (visit_one de fields acc) (visit_one de' fields acc).
Proof.
  intros H. induction fields as [|[name v] fields IH]; intros acc; [apply ag_refl|]. cbn [visit_one].
  destruct (string_dec name "inner"); [|apply IH]. apply ag_bind; [apply ag_once, H|intros x; apply IH].
Qed.
Lemma ag_visit_four {A} (de de' : sval -> outcome A) fields : (forall v, agrees (de v) (de' v)) -> forall acc,
  agrees (visit_four de fields acc) (visit_four de' fields acc).
Proof.
  intros H. induction fields as [|[name v] fields IH]; intros [i l p m]; [apply ag_refl|]. cbn [visit_four].
  destruct (string_dec name "inner"); [apply ag_bind; [apply ag_once, H|intros x; apply IH]|].
  destruct (string_dec name "label"); [apply ag_bind; [apply ag_refl|intros x; apply IH]|].
  destruct (string_dec name "phantom"); [apply ag_bind; [apply ag_refl|intros x; apply IH]|].
  destruct (string_dec name "mg_phantom"); [apply ag_bind; [apply ag_refl|intros x; apply IH]|apply IH].
Qed.
Lemma ag_visit_seq_one {A} (de de' : sval -> outcome A) vs : (forall v, agrees (de v) (de' v)) ->
  agrees (visit_seq_one de vs) (visit_seq_one de' vs).
Proof. intros H. destruct vs as [|v vs]; [apply ag_refl|apply H]. Qed.
Lemma ag_visit_seq_four {A} (de de' : sval -> outcome A) vs : (forall v, agrees (de v) (de' v)) ->
  agrees (visit_seq_four de vs) (visit_seq_four de' vs).
Proof.
  intros H. destruct vs as [|v vs]; [apply ag_refl|]. cbn [visit_seq_four]. apply ag_bind; [apply H|].
  intros i. apply ag_refl.
Qed.
#[local] Hint Resolve ag_visit_one ag_visit_four ag_visit_seq_one ag_visit_seq_four : ag.
Lemma ag_de_p1ek (der_max : Z) (human : bool) (v : sval) :
  agrees (de_p1ek der_max human v) (r_de_p1ek der_max human v).
Proof. unfold de_p1ek, r_de_p1ek. ag_run. Qed.
#[local] Hint Resolve ag_de_p1ek : ag.

Lemma ag_ser_p1dk (der_max : Z) (human : bool) (k : p1_decrypting_key) :
  agrees (ser_p1dk der_max human k) (r_ser_p1dk uc der_max human k).
Proof. unfold ser_p1dk, r_ser_p1dk. ag_run. Qed.
#[local] Hint Resolve ag_ser_p1dk : ag.

Lemma ag_de_p1dk (der_max : Z) (tail_ok : Z -> list byte -> bool) (human : bool) (v : sval) :
  agrees (de_p1dk der_max tail_ok human v) (r_de_p1dk uc der_max tail_ok human v).
Proof. unfold de_p1dk, r_de_p1dk. ag_run. Qed.
#[local] Hint Resolve ag_de_p1dk : ag.

Lemma ag_de_oek (der_max : Z) (human : bool) (v : sval) :
  agrees (de_oek der_max human v) (r_de_oek der_max human v).
Proof. unfold de_oek, r_de_oek. ag_run. Qed.
#[local] Hint Resolve ag_de_oek : ag.

Lemma ag_ser_odk (der_max : Z) (human : bool) (k : oaep_decrypting_key) :
  agrees (ser_odk der_max human k) (r_ser_odk uc der_max human k).
Proof. unfold ser_odk, r_ser_odk. ag_run. Qed.
#[local] Hint Resolve ag_ser_odk : ag.

Lemma ag_de_odk (der_max : Z) (tail_ok : Z -> list byte -> bool) (human : bool) (v : sval) :
  agrees (de_odk der_max tail_ok human v) (r_de_odk uc der_max tail_ok human v).
Proof. unfold de_odk, r_de_odk. ag_run. Qed.
#[local] Hint Resolve ag_de_odk : ag.

Lemma ag_from_pkcs1_der (der_max : Z) (l : list byte) :
  agrees (from_pkcs1_der der_max l) (r_from_pkcs1_der uc der_max l).
Proof. unfold from_pkcs1_der, r_from_pkcs1_der. ag_run. Qed.
#[local] Hint Resolve ag_from_pkcs1_der : ag.

Lemma ag_to_pkcs1_der (der_max : Z) (tail_ok : Z -> list byte -> bool) (k : privkey) :
  agrees (to_pkcs1_der der_max tail_ok k) (r_to_pkcs1_der uc der_max tail_ok k).
Proof. unfold to_pkcs1_der, r_to_pkcs1_der. ag_run. Qed.
#[local] Hint Resolve ag_to_pkcs1_der : ag.

Lemma ag_from_pkcs1_public_der (der_max : Z) (l : list byte) :
  agrees (from_pkcs1_public_der der_max l) (r_from_pkcs1_public_der der_max l).
Proof. unfold from_pkcs1_public_der, r_from_pkcs1_public_der. ag_run. Qed.
#[local] Hint Resolve ag_from_pkcs1_public_der : ag.

End Agree.
