(** Property C83: how much work a call does.

    The work is read off the traces of MLeak.v and MLeakEnc.v, whose results are those of
    the plain functions (C70). *)
From Coq Require Import ZArith List Bool Lia.
From Coq Require Import Init.Byte.
From Verif Require Import Base Bigint BytesLemmas SpecRFC SpecRng SpecKey SpecWork MHash MRsa MKey MApi MLeak MLeakEnc KeyDefs
  KeyExamples.
From Verif Require Import PRsa PApi PWork PropLeak.
Import ListNotations.
Local Open Scope Z_scope.

(** Decryption with a valid key.  A ciphertext that is too long, or not below the modulus,
    costs nothing.  For every other ciphertext the work is the same, whether the padding
    turns out right or wrong: one exponentiation with e if there is a generator to blind
    with, the private one, and one with e for the check.  If the generator fails before
    delivering a usable number the exponentiations are not reached. *)
Theorem C83_decrypt_pkcs1v15 : forall {R} (g : rng_ops R) fuel rng k ct,
  (rng <> None -> rng_ok g) -> good_priv k ->
  public_usable (uval (pk_n (sk_pub k))) (uval (pk_e (sk_pub k))) (uprec (pk_n (sk_pub k))) ->
  let n := uval (pk_n (sk_pub k)) in
  let W := exponentiations (trace (l_pkcs1v15_decrypt g fuel rng k ct)) in
  (uprec (pk_n (sk_pub k)) < 8 * Z.of_nat (length ct) \/ n <= os2ip ct -> W = []) /\
  (8 * Z.of_nat (length ct) <= uprec (pk_n (sk_pub k)) -> os2ip ct < n ->
   (blinding_succeeds g n rng fuel -> W = operation_work rng k) /\
   (blinding_fails g n rng fuel \/ blinding_undecided g n rng fuel -> W = [])).
Proof.
  intros R g fuel rng k ct Hr Hk Hu n W. subst W. fold (work (l_pkcs1v15_decrypt g fuel rng k ct)).
  rewrite pkcs1_decrypt_work by auto. apply core_cases; auto.
Qed.

Theorem C83_decrypt_oaep : forall {R} (g : rng_ops R) fuel rng k ct hd hm dg mg label,
  (rng <> None -> rng_ok g) -> good_priv k ->
  let n := uval (pk_n (sk_pub k)) in
  let claim W :=
    (length ct <> key_size (sk_pub k) \/ n <= os2ip ct -> W = []) /\
    (length ct = key_size (sk_pub k) -> os2ip ct < n ->
     (blinding_succeeds g n rng fuel -> W = operation_work rng k) /\
     (blinding_fails g n rng fuel \/ blinding_undecided g n rng fuel -> W = [])) in
  claim (exponentiations (trace (l_oaep_api_decrypt g fuel rng k ct dg mg label))) /\
  (public_usable (uval (pk_n (sk_pub k))) (uval (pk_e (sk_pub k))) (uprec (pk_n (sk_pub k))) ->
   claim (exponentiations (trace (l_oaep_api_decrypt_digest g hd hm fuel rng k ct label)))).
Proof.
  intros R g fuel rng k ct hd hm dg mg label Hr Hk n claim.
  pose proof (oaep_decrypt_work g fuel rng k ct hd hm dg mg label Hr Hk) as (A & B). cbv zeta in A, B.
  unfold work in A, B.
  assert (X : claim (if (length ct =? key_size (sk_pub k))%nat
             then match decrypt_core g fuel rng k ct with Ok _ => operation_work rng k | _ => [] end else [])).
  { destruct (key_size_facts _ (good_pub k Hk)) as (_ & K2 & _).
    destruct (core_cases g fuel rng k ct Hr Hk) as (C & D).
    unfold claim. destruct (Nat.eqb_spec (length ct) (key_size (sk_pub k))) as [L|L].
    - rewrite <- L in K2. split; [intros [H|H]; [contradiction|apply C; auto]|]. intros _. apply D. exact K2.
    - split; [reflexivity|]. intros; contradiction. }
  split; [rewrite A; exact X|]. intros Hu. rewrite (B Hu). exact X.
Qed.

(** Two ciphertexts, one decrypting and one not; a third out of range; a generator that
    fails. *)
Example C83_decrypt_case :
  good_priv key91 /\ rng_ok count_rng /\ public_usable (uval n91) (uval e91) (uprec n91) /\
  is_ok (pkcs1v15_decrypt count_rng 5 (Some 3) key91 (ct91 em91)) = true /\
  is_ok (pkcs1v15_decrypt count_rng 5 (Some 3) key91 (ct91 77)) = false /\
  exponentiations (trace (l_pkcs1v15_decrypt count_rng 5 (Some 3) key91 (ct91 em91)))
    = [(128, 64); (128, 128); (128, 64)] /\
  exponentiations (trace (l_pkcs1v15_decrypt count_rng 5 (Some 3) key91 (ct91 77)))
    = [(128, 64); (128, 128); (128, 64)] /\
  exponentiations (trace (l_pkcs1v15_decrypt count_rng 5 None key91 (ct91 77))) = [(128, 128); (128, 64)] /\
  exponentiations (trace (l_pkcs1v15_decrypt count_rng 5 (Some 3) key91 (vec xff 12))) = [] /\
  exponentiations (trace (l_pkcs1v15_decrypt dead_rng 5 (Some tt) key91 (ct91 77))) = [].
Proof.
  split; [exact good91|]. split; [apply count_rng_ok|]. split; [exact usable91|].
  repeat split; vm_compute; reflexivity.
Qed.

(** Signing with a valid key: the same work if a signature comes out, none otherwise. *)
Theorem C83_sign : forall {R} (g : rng_ops R) fuel k,
  good_priv k ->
  (forall rng prefix hashed, (rng <> None -> rng_ok g) ->
     exponentiations (trace (l_pkcs1v15_sign g fuel rng k prefix hashed))
     = if is_ok (pkcs1v15_sign g fuel rng k prefix hashed) then operation_work rng k else []) /\
  (forall st blind hd hashed salt_len, rng_ok g -> (0 < h_size hd)%nat -> uprec (pk_n (sk_pub k)) < 2 ^ 32 ->
     let W := if is_ok (pss_sign_digest g hd fuel st blind k hashed salt_len)
              then operation_work (if blind then Some st else None) k else [] in
     exponentiations (trace (l_pss_sign_digest g hd fuel st blind k hashed salt_len)) = W /\
     exponentiations (trace (l_pss_sign g fuel st blind k hashed salt_len (digest_new hd))) = W).
Proof.
  intros R g fuel k Hk. split.
  - intros rng prefix hashed Hr. pose proof (pkcs1_sign_work g fuel rng k prefix hashed Hr Hk) as H.
    unfold work in H. rewrite H. destruct (pkcs1v15_sign g fuel rng k prefix hashed); reflexivity.
  - intros st blind hd hashed sl Hg Hh H32 W. unfold W.
    destruct (pss_sign_work g hd fuel st blind k hashed sl Hg Hh Hk H32) as (A & B). unfold work in A, B.
    rewrite A, B. destruct (pss_sign_digest g hd fuel st blind k hashed sl); split; reflexivity.
Qed.

Example C83_sign_case :
  good_priv key91 /\
  is_ok (pkcs1v15_sign count_rng 5 (Some 3) key91 [] [x41]) = true /\
  exponentiations (trace (l_pkcs1v15_sign count_rng 5 (Some 3) key91 [] [x41])) = [(128, 64); (128, 128); (128, 64)] /\
  is_ok (pkcs1v15_sign count_rng 5 (Some 3) key91 [] [x41; x42]) = false /\
  exponentiations (trace (l_pkcs1v15_sign count_rng 5 (Some 3) key91 [] [x41; x42])) = [].
Proof. split; [exact good91|]. repeat split; vm_compute; reflexivity. Qed.

(** Encryption: one exponentiation if a ciphertext comes out, none otherwise. *)
Theorem C83_encrypt : forall {R} (g : rng_ops R) st pk msg,
  rng_ok g -> wf_pub pk ->
  (forall fuel, exponentiations (trace (l_pkcs1v15_encrypt g fuel st pk msg))
     = if is_ok (pkcs1v15_encrypt g fuel st pk msg) then public_work pk else []) /\
  (forall hd hm label, (0 < h_size hm)%nat ->
     let W := if is_ok (oaep_api_encrypt_digest g hd hm st pk msg label) then public_work pk else [] in
     exponentiations (trace (l_oaep_api_encrypt_digest g hd hm st pk msg label)) = W /\
     exponentiations (trace (l_oaep_api_encrypt g st pk msg (digest_new hd) (digest_new hm) label)) = W).
Proof.
  intros R g st pk msg Hg Hp. split.
  - intros fuel. pose proof (pkcs1_encrypt_work g fuel st pk msg Hg Hp) as H. unfold work in H. rewrite H.
    destruct (pkcs1v15_encrypt g fuel st pk msg); reflexivity.
  - intros hd hm label Hm W. destruct (oaep_encrypt_work g st pk msg hd hm label Hg Hm Hp) as (A & B).
    unfold work in A, B. unfold W. rewrite A, B.
    destruct (oaep_api_encrypt_digest g hd hm st pk msg label); split; reflexivity.
Qed.

Example C83_encrypt_case :
  rng_ok count_rng /\ wf_pub pub91 /\
  exponentiations (trace (l_pkcs1v15_encrypt count_rng 5 3 pub91 [x41])) = [(128, 64)] /\
  exponentiations (trace (l_pkcs1v15_encrypt count_rng 5 3 pub91 [x41; x42])) = [].
Proof. split; [apply count_rng_ok|]. split; [exact wf_pub91|]. repeat split; vm_compute; reflexivity. Qed.

(** The CRT values do not save work.  With them the private operation makes two
    exponentiations as wide as the stored private exponent; without them it makes one, no
    wider.  So for any cost of an exponentiation that is positive and does not decrease with
    the width of the modulus, the operation costs more with the values than without. *)
Theorem C83_precomputed_costs_more : forall {R} (rng : option R) cost k,
  (forall m e, 0 < m -> 0 < e -> 0 < cost m e) ->
  (forall m m' e, m <= m' -> cost m e <= cost m' e) ->
  good_priv k -> sk_pre k <> None -> length (sk_primes k) = 2%nat ->
  total cost (operation_work rng (clear_precomputed k)) < total cost (operation_work rng k).
Proof. exact @precomputed_costs_more. Qed.

(** The documented purpose of the values, "to speed up private key operations". *)
Theorem C83_precompute_speeds_up_refuted : exists k k',
  precompute k = Ok k' /\ good_priv k' /\ length (sk_primes k) = 2%nat /\
  exponentiations (trace (l_rsa_decrypt_and_check dead_rng 5 k None (mkU 77 64))) = [(64, 64); (64, 64)] /\
  exponentiations (trace (l_rsa_decrypt_and_check dead_rng 5 k' None (mkU 77 64))) = [(64, 64); (64, 64); (64, 64)].
Proof.
  exists key64_plain, key64. split; [vm_compute; reflexivity|]. split; [exact good64|].
  repeat split; vm_compute; reflexivity.
Qed.

Print Assumptions C83_decrypt_pkcs1v15.
Print Assumptions C83_decrypt_oaep.
Print Assumptions C83_sign.
Print Assumptions C83_encrypt.
Print Assumptions C83_precomputed_costs_more.
Print Assumptions C83_precompute_speeds_up_refuted.
