(** Properties of the raw RSA operations and of the private-key state:
    C07, C08, C09, C10, C11, C20, C39, C45, C46. *)
From Coq Require Import ZArith List Bool Lia.
From Coq Require Import Init.Byte.
From Verif Require Import Base Bigint SpecRFC SpecRng SpecKey MHash MRsa MKey MApi KeyDefs.
From Verif Require Import PRsa PApi PSig PHist PRaw KeyExamples.
Import ListNotations.
Local Open Scope Z_scope.

(** ** C07: raw RSA round trips *)

(** [rsa_decrypt] and [rsa_decrypt_and_check] compute c^d mod n. *)
Theorem C07_private_is_power : forall {R} (g : rng_ops R) fuel rng k c,
  (rng <> None -> rng_ok g) -> good_priv k -> wf_uint c -> uprec c = uprec (pk_n (sk_pub k)) ->
  uval c < uval (pk_n (sk_pub k)) -> blinding_succeeds g (uval (pk_n (sk_pub k))) rng fuel ->
  exists m, rsa_decrypt g fuel rng k c = Ok m /\ rsa_decrypt_and_check g fuel k rng c = Ok m /\
    uval m = RSADP (uval (pk_n (sk_pub k))) (uval (sk_d k)) (uval c) /\
    uprec m = uprec (pk_n (sk_pub k)).
Proof. exact @private_is_power. Qed.

Theorem C07_decrypt_encrypt : forall {R} (g : rng_ops R) fuel rng k m,
  (rng <> None -> rng_ok g) -> good_priv k -> wf_uint m -> uprec m = uprec (pk_n (sk_pub k)) ->
  uval m < uval (pk_n (sk_pub k)) -> blinding_succeeds g (uval (pk_n (sk_pub k))) rng fuel ->
  (let* c := rsa_encrypt (sk_pub k) m in rsa_decrypt g fuel rng k c) = Ok m.
Proof. exact @decrypt_encrypt. Qed.

Theorem C07_encrypt_decrypt : forall {R} (g : rng_ops R) fuel rng k c,
  (rng <> None -> rng_ok g) -> good_priv k -> wf_uint c -> uprec c = uprec (pk_n (sk_pub k)) ->
  uval c < uval (pk_n (sk_pub k)) -> blinding_succeeds g (uval (pk_n (sk_pub k))) rng fuel ->
  (let* m := rsa_decrypt g fuel rng k c in rsa_encrypt (sk_pub k) m) = Ok c.
Proof. exact @encrypt_decrypt. Qed.

(** A CRT key and a three-prime key; the second message is a multiple of a prime. *)
Example C07_case_crt : good_priv key64 /\ sk_pre key64 <> None /\
  (let* c := rsa_encrypt pub64 (mkU 42 64) in rsa_decrypt count_rng 5 (Some 3) key64 c)
  = Ok (mkU 42 64).
Proof. split; [apply good64|]. split; [vm_compute; discriminate|vm_compute; reflexivity]. Qed.
Example C07_case_multiprime : good_priv key91 /\ length (sk_primes key91) = 3%nat /\
  (let* c := rsa_encrypt pub91 (mkU 805310491 128) in rsa_decrypt count_rng 5 None key91 c)
  = Ok (mkU 805310491 128).
Proof. split; [apply good91|]. split; vm_compute; reflexivity. Qed.
Example C07_case_blinding : blinding_succeeds count_rng (uval (pk_n pub64)) (Some 3) 5.
Proof. exists 0%nat. split; [lia|]. eapply usable_now; [reflexivity|]. right. vm_compute. reflexivity. Qed.

(** ** C08: precompute and clear_precomputed never change a result *)

Theorem C08_history : forall {R} (g : rng_ops R) (ops : list crt_op) k k',
  good_priv k -> crt_run k ops = Ok k' ->
  (forall fuel rng c, wf_uint c -> rsa_decrypt g fuel rng k' c = rsa_decrypt g fuel rng k c) /\
  (forall fuel rng p ct, scheme_decrypt g fuel rng k' p ct = scheme_decrypt g fuel rng k p ct) /\
  (forall fuel rng s h, scheme_sign g fuel rng k' s h = scheme_sign g fuel rng k s h).
Proof. exact @history. Qed.

(** The calls themselves always succeed when the first two primes are stored no
    wider than d. *)
Theorem C08_history_total : forall (ops : list crt_op) k,
  good_priv k -> primes_fit k -> exists k', crt_run k ops = Ok k'.
Proof. exact (fun ops k => crt_run_total ops k). Qed.

Example C08_case :
  good_priv key64 /\ primes_fit key64 /\ sk_pre key64 <> None /\
  exists k1, crt_run key64 [ClearPrecomputed; Precompute; ClearPrecomputed] = Ok k1 /\
             sk_pre k1 = None /\
             rsa_decrypt count_rng 5 None k1 (mkU 77 64) = rsa_decrypt count_rng 5 None key64 (mkU 77 64).
Proof.
  split; [apply good64|]. split.
  { unfold primes_fit. assert (sk_primes key64 = [p64; q64] /\ sk_d key64 = d64) as [-> ->]
      by (split; vm_compute; reflexivity).
    intros p [<-|[<-|[]]]; vm_compute; discriminate. }
  split; [vm_compute; discriminate|]. eexists. split; [vm_compute; reflexivity|].
  split; vm_compute; reflexivity.
Qed.

(** ** C09: blinding is transparent *)

Theorem C09_raw : forall {R} (g : rng_ops R) fuel st k c,
  rng_ok g -> good_priv k -> wf_uint c -> uprec c = uprec (pk_n (sk_pub k)) ->
  (blinding_succeeds g (uval (pk_n (sk_pub k))) (Some st) fuel ->
     rsa_decrypt g fuel (Some st) k c = rsa_decrypt g fuel None k c) /\
  (blinding_fails g (uval (pk_n (sk_pub k))) (Some st) fuel ->
     uval c < uval (pk_n (sk_pub k)) -> rsa_decrypt g fuel (Some st) k c = Err Rng) /\
  (blinding_succeeds g (uval (pk_n (sk_pub k))) (Some st) fuel \/
   blinding_fails g (uval (pk_n (sk_pub k))) (Some st) fuel \/
   blinding_undecided g (uval (pk_n (sk_pub k))) (Some st) fuel).
Proof. exact @blinding_raw. Qed.

Theorem C09_decrypt : forall {R} (g : rng_ops R) fuel st k p ct,
  rng_ok g -> good_priv k ->
  (blinding_succeeds g (uval (pk_n (sk_pub k))) (Some st) fuel ->
     private_decrypt_blinded g fuel st k p ct = private_decrypt g fuel k p ct) /\
  (blinding_fails g (uval (pk_n (sk_pub k))) (Some st) fuel ->
     private_decrypt_blinded g fuel st k p ct = Err Rng \/
     exists e, private_decrypt_blinded g fuel st k p ct = Err e /\ private_decrypt g fuel k p ct = Err e).
Proof. exact @scheme_decrypt_blinded. Qed.

Theorem C09_sign : forall {R} (g : rng_ops R) fuel st k s hashed,
  rng_ok g -> good_priv k ->
  (blinding_succeeds g (uval (pk_n (sk_pub k))) (Some st) fuel ->
     private_sign_with_rng g fuel st k (SigPkcs1v15 s) hashed
     = private_sign g fuel k (SigPkcs1v15 s) hashed) /\
  (blinding_fails g (uval (pk_n (sk_pub k))) (Some st) fuel ->
     private_sign_with_rng g fuel st k (SigPkcs1v15 s) hashed = Err Rng \/
     (exists e, private_sign_with_rng g fuel st k (SigPkcs1v15 s) hashed = Err e
                /\ private_sign g fuel k (SigPkcs1v15 s) hashed = Err e)).
Proof. exact @pkcs1v15_sign_blinded. Qed.

(** A generator whose first draws are not invertible still blinds; a dead one fails. *)
Example C09_case :
  private_sign_with_rng count_rng 5 0 key91 (SigPkcs1v15 pkcs1_sign_new_unprefixed) [x2a]
  = private_sign count_rng 5 key91 (SigPkcs1v15 pkcs1_sign_new_unprefixed) [x2a] /\
  is_ok (private_sign count_rng 5 key91 (SigPkcs1v15 pkcs1_sign_new_unprefixed) [x2a]) = true /\
  private_sign_with_rng dead_rng 5 tt key91 (SigPkcs1v15 pkcs1_sign_new_unprefixed) [x2a] = Err Rng.
Proof. split; [|split]; vm_compute; reflexivity. Qed.
Example C09_case_noninvertible :
  usable_at count_rng (uval (pk_n pub64)) (uval p64) 1 /\
  rsa_decrypt count_rng 2 (Some (uval p64)) key64 (mkU 77 64)
  = rsa_decrypt count_rng 2 None key64 (mkU 77 64).
Proof.
  split; [|vm_compute; reflexivity].
  eapply usable_later; [reflexivity|vm_compute; discriminate|vm_compute; discriminate|].
  eapply usable_now; [reflexivity|]. right. vm_compute. reflexivity.
Qed.

(** ** C10: no faulty result is released *)

Theorem C10_checked : forall {R} (g : rng_ops R) fuel rng k c m,
  wf_pub (sk_pub k) -> 0 <= uval c -> rsa_decrypt_and_check g fuel k rng c = Ok m ->
  RSAEP (uval (pk_n (sk_pub k))) (uval (pk_e (sk_pub k))) (uval m) = uval c
  /\ uval c < uval (pk_n (sk_pub k)) /\ wf_uint m /\ uprec m = uprec (pk_n (sk_pub k)).
Proof. exact @rsa_decrypt_and_check_sound. Qed.

(** Every signature released by any scheme opens to the encoding that was signed. *)
Theorem C10_signatures : forall {R} (g : rng_ops R) fuel rng k s hashed sig,
  wf_pub (sk_pub k) -> uprec (pk_n (sk_pub k)) < 2 ^ 32 -> wf_scheme s ->
  scheme_sign g fuel rng k s hashed = Ok sig ->
  let n := uval (pk_n (sk_pub k)) in let e := uval (pk_e (sk_pub k)) in
  let K := key_size (sk_pub k) in
  length sig = K /\
  match s with
  | SigPkcs1v15 p => RSAEP n e (os2ip sig) = os2ip (emsa_pkcs1 (p1_prefix p ++ hashed) K)
  | SigPss p => exists salt hd, ps_digest p = digest_new hd /\
      RSAEP n e (os2ip sig)
      = os2ip (pss_encode (h_fun hd) (h_size hd) hashed salt (Z.to_nat (ubits (pk_n (sk_pub k))) - 1))
  end.
Proof. exact @released_signatures. Qed.

(** A corrupted CRT exponent is caught; without the check it would be released. *)
Definition faulty64 : privkey :=
  match sk_pre key64 with
  | Some pc => mkPriv pub64 d64 [p64; q64]
                 (Some (mkPre (mkU (uval (pc_dp pc) + 1) 64) (pc_dq pc) (pc_qinv pc)
                              (pc_p_params pc) (pc_q_params pc)))
  | None => key64
  end.
Example C10_case :
  rsa_decrypt_and_check count_rng 5 faulty64 None (mkU 77 64) = Err Internal /\
  is_ok (rsa_decrypt count_rng 5 None faulty64 (mkU 77 64)) = true /\
  is_ok (rsa_decrypt_and_check count_rng 5 key64 None (mkU 77 64)) = true.
Proof. split; [|split]; vm_compute; reflexivity. Qed.

(** ** C11: out-of-range inputs *)

Theorem C11_raw : forall {R} (g : rng_ops R) fuel rng k c,
  uval (pk_n (sk_pub k)) <= uval c ->
  rsa_decrypt g fuel rng k c = Err Decryption /\ rsa_decrypt_and_check g fuel k rng c = Err Decryption.
Proof. exact @raw_range. Qed.

Theorem C11_schemes : forall {R} (g : rng_ops R) fuel rng k p ct,
  wf_pub (sk_pub k) -> uval (pk_n (sk_pub k)) <= os2ip ct ->
  exists e, scheme_decrypt g fuel rng k p ct = Err e /\
    (8 * Z.of_nat (length ct) <= uprec (pk_n (sk_pub k)) -> check_public (sk_pub k) = Ok tt ->
     e = Decryption).
Proof. exact @schemes_range. Qed.

Example C11_case : private_decrypt count_rng 5 key91 PadPkcs1v15 (repeat xff 12) = Err Decryption
  /\ uval n91 <= os2ip (repeat xff 12).
Proof. split; [vm_compute; reflexivity|vm_compute; discriminate]. Qed.

(** ** C20: output lengths *)

Theorem C20_encrypt : forall {R} (g : rng_ops R) fuel st pk p msg ct,
  rng_ok g -> wf_pub pk -> wf_padding p -> public_encrypt g fuel st pk p msg = Ok ct ->
  is_octet_len (uval (pk_n pk)) (length ct) /\ 0 <= os2ip ct < uval (pk_n pk).
Proof. exact @encrypt_length. Qed.

Theorem C20_sign : forall {R} (g : rng_ops R) fuel rng k s hashed sig,
  (rng <> None -> rng_ok g) -> good_priv k -> uprec (pk_n (sk_pub k)) < 2 ^ 32 -> wf_scheme s ->
  scheme_sign g fuel rng k s hashed = Ok sig ->
  is_octet_len (uval (pk_n (sk_pub k))) (length sig) /\ 0 <= os2ip sig < uval (pk_n (sk_pub k)).
Proof. exact @sign_length. Qed.

Example C20_case :
  exists ct, public_encrypt count_rng 5 7 pub91 PadPkcs1v15 [x41] = Ok ct /\ length ct = 12%nat.
Proof. eexists. split; vm_compute; reflexivity. Qed.

(** ** C39: no panics *)

Theorem C39_decrypt : forall {R} (g : rng_ops R) fuel rng k p ct,
  (rng <> None -> rng_ok g) -> sane_priv k -> uprec (pk_n (sk_pub k)) < 2 ^ 32 -> wf_padding p ->
  scheme_decrypt g fuel rng k p ct <> Panic.
Proof. exact @scheme_decrypt_np. Qed.

Theorem C39_sign : forall {R} (g : rng_ops R) fuel rng k s hashed,
  (rng <> None -> rng_ok g) -> sane_priv k -> uprec (pk_n (sk_pub k)) < 2 ^ 32 -> wf_scheme s ->
  scheme_sign g fuel rng k s hashed <> Panic.
Proof. exact @scheme_sign_np. Qed.

Theorem C39_verify : forall pk s hashed sig,
  wf_pub pk -> uprec (pk_n pk) < 2 ^ 32 -> wf_scheme s -> 8 * Z.of_nat (length sig) < 2 ^ 32 ->
  public_verify pk s hashed sig <> Panic.
Proof. exact public_verify_np. Qed.

Theorem C39_encrypt : forall {R} (g : rng_ops R) fuel st pk p msg,
  rng_ok g -> wf_pub pk -> wf_padding p -> public_encrypt g fuel st pk p msg <> Panic.
Proof. exact @public_encrypt_np. Qed.

(** The size bound on signatures is needed: the bit length is computed in 32 bits. *)
Theorem C39_verify_long_signature_panics : forall pk s hashed sig,
  2 ^ 29 <= Z.of_nat (length sig) < 2 ^ 32 ->
  (match s with SigPkcs1v15 p => check_hash_len p hashed = Ok tt | SigPss _ => True end) ->
  public_verify pk s hashed sig = Panic.
Proof. exact verify_long_panics. Qed.

(** A key whose numbers are not a valid RSA key (composite "primes") is covered. *)
Definition odd_key : privkey :=
  mkPriv (mkPub (mkU 225 64) (mkU 3 64) (mkMP (mkU 225 64))) (mkU 5 64) [mkU 15 64; mkU 15 64] None.
Example C39_case : sane_priv odd_key /\
  private_decrypt count_rng 5 odd_key PadPkcs1v15 [x05] = Err Internal.
Proof.
  split; [|vm_compute; reflexivity].
  unfold sane_priv, wf_pub. cbn. repeat split; try reflexivity; try (vm_compute; congruence); try lia.
  - repeat apply Forall_cons; try apply Forall_nil; unfold wf_uint; cbn; repeat split; vm_compute; congruence.
  - left; reflexivity.
Qed.

(** ** C45: raw encryption *)

Theorem C45_raw_encrypt : forall k m,
  wf_pub k -> wf_uint m ->
  rsa_encrypt k m
  = Ok (mkU (RSAEP (uval (pk_n k)) (uval (pk_e k)) (uval m mod 2 ^ uprec (pk_n k))) (uprec (pk_n k))).
Proof. exact rsa_encrypt_ok. Qed.

Theorem C45_raw_encrypt_fits : forall k m,
  wf_pub k -> wf_uint m -> uval m < 2 ^ uprec (pk_n k) ->
  rsa_encrypt k m
  = Ok (mkU (RSAEP (uval (pk_n k)) (uval (pk_e k)) (uval m)) (uprec (pk_n k))).
Proof. exact rsa_encrypt_small. Qed.

(** The naive claim (m^e mod n for every m) is false. *)
Theorem C45_wide_input_refuted : exists k m r,
  wf_pub k /\ wf_uint m /\ rsa_encrypt k m = Ok r /\
  uval r <> RSAEP (uval (pk_n k)) (uval (pk_e k)) (uval m).
Proof.
  exists (mkPub (mkU 77 64) (mkU 3 64) (mkMP (mkU 77 64))), (mkU (2 ^ 64 + 2) 128), (mkU 8 64).
  repeat split; try (vm_compute; congruence).
Qed.

Example C45_case : rsa_encrypt pub64 (mkU 2 192) = Ok (mkU (RSAEP (uval n64) (uval e64) 2) 64).
Proof. rewrite C45_raw_encrypt_fits; [reflexivity|apply wf_pub64| |vm_compute; reflexivity].
  unfold wf_uint; cbn; repeat split; vm_compute; congruence. Qed.

(** ** C46: the public operation is a permutation of 0..n-1 *)

Theorem C46_permutation : forall n e d ps,
  valid_rsa_key n e d ps ->
  (forall m, 0 <= m < n -> 0 <= RSAEP n e m < n) /\
  (forall m1 m2, 0 <= m1 < n -> 0 <= m2 < n -> RSAEP n e m1 = RSAEP n e m2 -> m1 = m2) /\
  (forall c, 0 <= c < n -> exists m, 0 <= m < n /\ RSAEP n e m = c) /\
  (forall m, 0 <= m < n -> RSADP n d (RSAEP n e m) = m).
Proof. exact permutation_lemma. Qed.

(** On key objects: encrypting different numbers gives different numbers. *)
Theorem C46_raw_injective : forall k m1 m2 c,
  good_priv k -> wf_uint m1 -> wf_uint m2 ->
  uval m1 < uval (pk_n (sk_pub k)) -> uval m2 < uval (pk_n (sk_pub k)) ->
  rsa_encrypt (sk_pub k) m1 = Ok c -> rsa_encrypt (sk_pub k) m2 = Ok c -> uval m1 = uval m2.
Proof. exact raw_injective. Qed.

(** Different paddings of the same or other messages give different ciphertexts. *)
Theorem C46_paddings : forall k em1 em2,
  good_priv k -> length em1 = key_size (sk_pub k) -> length em2 = key_size (sk_pub k) ->
  os2ip em1 < uval (pk_n (sk_pub k)) -> os2ip em2 < uval (pk_n (sk_pub k)) ->
  encrypt_core (sk_pub k) em1 = encrypt_core (sk_pub k) em2 -> em1 = em2.
Proof. exact paddings_injective. Qed.

Example C46_case : valid_rsa_key (uval n91) (uval e91) (uval d91) (map uval ps91).
Proof. exact valid91. Qed.

Print Assumptions C07_private_is_power.
Print Assumptions C07_decrypt_encrypt.
Print Assumptions C07_encrypt_decrypt.
Print Assumptions C08_history.
Print Assumptions C08_history_total.
Print Assumptions C09_raw.
Print Assumptions C09_decrypt.
Print Assumptions C09_sign.
Print Assumptions C10_checked.
Print Assumptions C10_signatures.
Print Assumptions C11_raw.
Print Assumptions C11_schemes.
Print Assumptions C20_encrypt.
Print Assumptions C20_sign.
Print Assumptions C39_decrypt.
Print Assumptions C39_sign.
Print Assumptions C39_verify.
Print Assumptions C39_encrypt.
Print Assumptions C39_verify_long_signature_panics.
Print Assumptions C45_raw_encrypt.
Print Assumptions C45_wide_input_refuted.
Print Assumptions C46_permutation.
Print Assumptions C46_raw_injective.
Print Assumptions C46_paddings.
