(** What key objects reveal: Debug output (C37) and memory after drop (C38). *)
From Coq Require Import ZArith List Bool Lia Znumtheory.
From Coq Require Import Init.Byte.
From Verif Require Import Base Bigint SpecRFC MHash MPkcs1 MRsa MGenerate MKey MApi MWrap
  MDebug KeyDefs PDebug KeyExamples.
Import ListNotations.
Local Open Scope Z_scope.

(** * C37 *)

(** Two private keys print the same exactly when they agree on the public part and on
    whether CRT values are present; [text] stands for the formatter. *)
Theorem C37_private_key : forall a b,
  (debug_priv a = debug_priv b <-> sk_pub a = sk_pub b /\ has_crt a = has_crt b).
Proof. exact debug_priv_exact. Qed.

Theorem C37_text : forall {T} (text : dbg -> T) a b,
  sk_pub a = sk_pub b -> has_crt a = has_crt b -> text (debug_priv a) = text (debug_priv b).
Proof. intros T text a b H1 H2. f_equal. apply debug_priv_exact. auto. Qed.

(** The only numbers shown are the modulus (twice) and the public exponent. *)
Theorem C37_numbers_shown : forall k, shown (debug_priv k) =
  [pk_n (sk_pub k); pk_e (sk_pub k); mp_modulus (pk_params (sk_pub k))].
Proof. exact shown_priv. Qed.

(** Signing and decryption keys add their prefix, salt length or label. *)
Theorem C37_wrappers :
  (forall a b, debug_p1sk a = debug_p1sk b <->
     sk_pub (p1sk_inner a) = sk_pub (p1sk_inner b) /\ has_crt (p1sk_inner a) = has_crt (p1sk_inner b) /\
     p1sk_prefix a = p1sk_prefix b) /\
  (forall a b, debug_p1dk a = debug_p1dk b <->
     sk_pub (p1dk_inner a) = sk_pub (p1dk_inner b) /\ has_crt (p1dk_inner a) = has_crt (p1dk_inner b)) /\
  (forall a b, debug_pssk a = debug_pssk b <->
     sk_pub (pssk_inner a) = sk_pub (pssk_inner b) /\ has_crt (pssk_inner a) = has_crt (pssk_inner b) /\
     pssk_salt_len a = pssk_salt_len b /\ pssk_blinded a = pssk_blinded b) /\
  (forall a b, debug_odk a = debug_odk b <->
     sk_pub (odk_inner a) = sk_pub (odk_inner b) /\ has_crt (odk_inner a) = has_crt (odk_inner b) /\
     odk_label a = odk_label b).
Proof. exact debug_wrappers_exact. Qed.

(** Objects that hold only public data print all of it. *)
Theorem C37_public_objects :
  (forall a b, debug_p1vk a = debug_p1vk b <-> a = b) /\
  (forall a b, debug_p1ek a = debug_p1ek b <-> a = b) /\
  (forall a b, debug_psvk a = debug_psvk b <-> a = b) /\
  (forall a b, debug_oek a = debug_oek b <-> a = b).
Proof. exact debug_public_exact. Qed.

(** OAEP and PSS parameter objects print their plain fields and nothing of their digest
    objects, so nothing of what has been hashed so far. *)
Theorem C37_parameters :
  (forall a b, debug_oaep a = debug_oaep b <-> oa_label a = oa_label b) /\
  (forall a b, debug_pss a = debug_pss b <->
     ps_blinded a = ps_blinded b /\ ps_salt_len a = ps_salt_len b).
Proof. exact debug_parameters_exact. Qed.

(** Two different private keys with the same output. *)
Example C37_case : let k := mkPriv pub64 (mkU (uval d64 + 1) 64) [q64; p64] None in
  priv_eqb key64_plain k = false /\ debug_priv key64_plain = debug_priv k.
Proof. vm_compute. auto. Qed.

(** * C38 *)

(** The places where d, the primes, dp and dq are stored hold zero after the drop. *)
Theorem C38_erased : forall k,
  (forall s u, is_secret s = true -> In (s, u) (dropped_memory k) -> uval u = 0) /\
  In (PieceD, sk_d k) (key_memory k) /\
  (forall i p, nth_error (sk_primes k) i = Some p -> In (PiecePrime i, p) (key_memory k)) /\
  (forall c, sk_pre k = Some c -> In (PieceDp, pc_dp c) (key_memory k) /\ In (PieceDq, pc_dq c) (key_memory k)).
Proof. intros k. split; [intros s u; exact (dropped_secret k s u)|exact (key_memory_covers k)]. Qed.

(** What every piece holds after the drop. *)
Theorem C38_exact : forall k s u, In (s, u) (dropped_memory k) <->
  exists v, In (s, v) (key_memory k) /\ u = if is_secret s then uzeroize v else v.
Proof. exact dropped_in. Qed.

(** A key without CRT values leaves nothing behind that depends on its secrets. *)
Theorem C38_plain_keys_leave_nothing : forall a b, sk_pre a = None -> sk_pre b = None ->
  sk_pub a = sk_pub b -> uprec (sk_d a) = uprec (sk_d b) ->
  map uprec (sk_primes a) = map uprec (sk_primes b) -> dropped_memory a = dropped_memory b.
Proof. exact dropped_plain. Qed.

(** With CRT values the first two primes stay in memory. *)
Theorem C38_primes_remain : forall k c p q rest, wf_uint (sk_d k) -> Forall wf_uint (sk_primes k) ->
  sk_pre k = Some c -> pre_consistent k -> sk_primes k = p :: q :: rest ->
  (exists u, In (PiecePParams, u) (dropped_memory k) /\ uval u = uval p) /\
  (exists u, In (PieceQParams, u) (dropped_memory k) /\ uval u = uval q).
Proof. exact dropped_params. Qed.

(** So dropping a two-prime key with CRT values does not erase its secret: a fixed
    program computes a working private exponent from the freed memory. *)
Theorem C38_everything_erased_refuted : exists attack : memory -> option Z,
  forall k p q, good_priv k -> sk_pre k <> None -> sk_primes k = [p; q] ->
  exists d', attack (dropped_memory k) = Some d' /\
    valid_rsa_key (uval (pk_n (sk_pub k))) (uval (pk_e (sk_pub k))) d' [uval p; uval q].
Proof. exists recover. exact recover_works. Qed.

(** [clear_precomputed] frees the CRT values in the same state. *)
Theorem C38_clear_precomputed : forall k s u, In (s, u) (cleared_memory k) <->
  exists c v, sk_pre k = Some c /\ In (s, v) (pre_memory c) /\ u = if is_secret s then uzeroize v else v.
Proof. exact cleared_spec. Qed.

Example C38_case : good_priv key64 /\ sk_pre key64 <> None /\ sk_primes key64 = [p64; q64] /\
  recover (dropped_memory key64) = zinv 65537 ((uval p64 - 1) * (uval q64 - 1)).
Proof.
  split; [exact good64|]. split; [vm_compute; congruence|]. split; vm_compute; reflexivity.
Qed.

Print Assumptions C37_private_key.
Print Assumptions C37_text.
Print Assumptions C37_numbers_shown.
Print Assumptions C37_wrappers.
Print Assumptions C37_public_objects.
Print Assumptions C37_parameters.
Print Assumptions C38_erased.
Print Assumptions C38_exact.
Print Assumptions C38_plain_keys_leave_nothing.
Print Assumptions C38_primes_remain.
Print Assumptions C38_everything_erased_refuted.
Print Assumptions C38_clear_precomputed.
