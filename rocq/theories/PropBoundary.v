(** Exact boundaries of C07, C09, C11, C20, C35 and C48. *)
From Coq Require Import ZArith Znumtheory List Bool Lia.
From Coq Require Import Init.Byte.
From Verif Require Import Base Bigint SpecRFC SpecKey SpecRng SpecRequests SpecWork SpecSig BytesLemmas BigintLemmas MHash MPkcs1
  MPss MRsa MKey MApi MWrap MLeak KeyDefs.
From Verif Require Import PRsa PApi PSig PSign PHist PBoundary KeyExamples PropRsa PropSig PropWrap.
Import ListNotations.
Local Open Scope Z_scope.

(** * C07: representatives stored at another width than the modulus *)

(** Without a generator any width up to that of the private exponent gives c^d mod n;
    a wider one panics. *)
Theorem C07_precisions : forall {R} (g : rng_ops R) fuel k c,
  good_priv k -> wf_uint c -> uval c < uval (pk_n (sk_pub k)) ->
  (uprec c <= uprec (sk_d k) ->
   exists m, rsa_decrypt g fuel None k c = Ok m /\ rsa_decrypt_and_check g fuel k None c = Ok m /\
     uval m = RSADP (uval (pk_n (sk_pub k))) (uval (sk_d k)) (uval c) /\
     uprec m = uprec (pk_n (sk_pub k))) /\
  (uprec (sk_d k) < uprec c ->
   rsa_decrypt g fuel None k c = Panic /\ rsa_decrypt_and_check g fuel k None c = Panic).
Proof. exact @decrypt_precisions. Qed.

(** With a generator every width but the modulus's panics, once a blinding factor is found. *)
Theorem C07_precisions_blinded : forall {R} (g : rng_ops R) fuel st k c,
  rng_ok g -> good_priv k -> uprec c <> uprec (pk_n (sk_pub k)) ->
  uval c < uval (pk_n (sk_pub k)) ->
  (blinding_succeeds g (uval (pk_n (sk_pub k))) (Some st) fuel -> rsa_decrypt g fuel (Some st) k c = Panic) /\
  (blinding_fails g (uval (pk_n (sk_pub k))) (Some st) fuel -> rsa_decrypt g fuel (Some st) k c = Err Rng).
Proof. exact @decrypt_blind_other. Qed.

(** The 91-bit key stores n and d in 128 bits. *)
Example C07_precisions_case :
  is_ok (rsa_decrypt count_rng 5 None key91 (mkU 42 64)) = true /\
  rsa_decrypt count_rng 5 None key91 (mkU 42 192) = Panic /\
  is_ok (rsa_decrypt count_rng 5 (Some 3) key91 (mkU 42 128)) = true /\
  rsa_decrypt count_rng 5 (Some 3) key91 (mkU 42 64) = Panic.
Proof. repeat split; vm_compute; reflexivity. Qed.

(** * C09: PSS signing with and without blinding *)

(** With the same salt the blinded scheme returns what the unblinded one returns, or
    [Error::Rng] when the generator fails while blinding. *)
Theorem C09_sign_pss : forall {R} (g : rng_ops R) fuel st hd k hashed sl,
  rng_ok g -> (0 < h_size hd)%nat -> good_priv k -> uprec (pk_n (sk_pub k)) < 2 ^ 32 ->
  let sign bl := private_sign_with_rng g fuel st k (SigPss (mkPss bl (digest_new hd) sl)) hashed in
  match rng_fill g st sl with
  | (None, _) => sign true = Err Rng /\ sign false = Err Rng
  | (Some _, st') =>
      (blinding_succeeds g (uval (pk_n (sk_pub k))) (Some st') fuel -> sign true = sign false) /\
      (blinding_fails g (uval (pk_n (sk_pub k))) (Some st') fuel ->
         (exists sig, sign true = Err Rng /\ sign false = Ok sig) \/
         (exists e, sign true = Err e /\ sign false = Err e))
  end.
Proof. exact @pss_blinding. Qed.

Example C09_sign_pss_case :
  rng_fill count_rng 4 3 = (Some [x04; x05; x06], 7) /\
  blinding_succeeds count_rng (uval n91) (Some 7) 5 /\
  is_ok (private_sign_with_rng count_rng 5 4 key91 (SigPss (mkPss true (digest_new toy_hash) 3)) [x0a; x0b]) = true.
Proof.
  split; [reflexivity|]. split; [|vm_compute; reflexivity].
  exists 0%nat. split; [lia|]. eapply usable_now; [reflexivity|]. right. vm_compute. reflexivity.
Qed.

(** * C11: an out-of-range input is rejected before any randomness or exponentiation *)

Theorem C11_untouched : forall {R} (g : rng_ops R) fuel rng k c, uval (pk_n (sk_pub k)) <= uval c ->
  reqs (l_rsa_decrypt g fuel rng k c) = [] /\ reqs (l_rsa_decrypt_and_check g fuel k rng c) = [] /\
  exponentiations (trace (l_rsa_decrypt g fuel rng k c)) = [] /\
  exponentiations (trace (l_rsa_decrypt_and_check g fuel k rng c)) = [].
Proof. exact @quiet_range. Qed.

(** In range, the same call does both. *)
Example C11_untouched_case :
  reqs (l_rsa_decrypt count_rng 5 (Some 3) key91 n91) = [] /\
  reqs (l_rsa_decrypt count_rng 5 (Some 3) key91 (mkU 42 128)) <> [] /\
  exponentiations (trace (l_rsa_decrypt count_rng 5 (Some 3) key91 (mkU 42 128))) <> [].
Proof. split; [|split]; vm_compute; [reflexivity|discriminate|discriminate]. Qed.

(** * C20: the length of a signature, whatever the private part of the key contains *)

Theorem C20_sign_any : forall {R} (g : rng_ops R) fuel rng k s hashed sig,
  wf_pub (sk_pub k) -> uprec (pk_n (sk_pub k)) < 2 ^ 32 -> wf_scheme s ->
  scheme_sign g fuel rng k s hashed = Ok sig ->
  is_octet_len (uval (pk_n (sk_pub k))) (length sig).
Proof.
  intros R g fuel rng k s hashed sig Hp H32 Hs E.
  destruct (C10_signatures g fuel rng k s hashed sig Hp H32 Hs E) as (-> & _).
  apply key_size_octets; auto.
Qed.

(** A key that lists no primes at all, hence is not valid, still signs. *)
Example C20_sign_any_case : wf_pub pub91 /\
  scheme_sign count_rng 5 None (mkPriv pub91 d91 [] None) (SigPkcs1v15 raw1) [x41] = Ok sig91 /\
  is_octet_len (uval n91) (length sig91).
Proof.
  split; [exact wf_pub91|]. split; [vm_compute; reflexivity|]. vm_compute. split; [discriminate|reflexivity].
Qed.

(** * C35: byte strings of any length *)

(** The library computes the bit length in 32 bits: strings of 2^29 octets or more panic,
    except those whose length modulo 2^32 is below 2^29, which are refused. *)
Theorem C35_long : forall bs,
  let m := Z.of_nat (length bs) mod 2 ^ 32 in
  (2 ^ 29 <= m -> signature_try_from bs = Panic) /\
  (m < 2 ^ 29 -> 2 ^ 32 <= Z.of_nat (length bs) ->
   signature_try_from bs = Err (Decode DecodeInputSize)).
Proof. exact try_from_long. Qed.

(** Such strings exist (and are not written out here). *)
Example C35_long_case : exists bs : list byte, Z.of_nat (length bs) mod 2 ^ 32 = 2 ^ 29.
Proof.
  exists (repeat x00 (Z.to_nat (2 ^ 29))). rewrite repeat_length, Z2Nat.id by (apply Z.pow_nonneg; lia).
  reflexivity.
Qed.

(** * C48: PKCS#1 v1.5 object bytes in the padding-scheme API *)

Theorem C48_pkcs1_bytes_iff : forall {R} (g : rng_ops R) fuel rng k prefix hl hashed s,
  (rng <> None -> rng_ok g) -> good_priv k -> uprec (pk_n (sk_pub k)) < 2 ^ 32 ->
  hash_len_ok (mkP1S hl prefix) hashed ->
  p1sk_sign_prehash g fuel rng (mkP1SK k prefix) hashed = Ok s ->
  (public_verify (sk_pub k) (SigPkcs1v15 (mkP1S hl prefix)) hashed (signature_to_bytes s) = Ok tt
   <-> stored_minimally (pk_n (sk_pub k))).
Proof. exact @pkcs1_bytes_iff. Qed.

(** The 91-bit key stores its modulus in two limbs, the least that hold it; with a third
    limb the same valid key makes signatures whose bytes are refused. *)
Definition wide91 : privkey :=
  mkPriv (mkPub (mkU (uval n91) 192) e91 (mkMP (mkU (uval n91) 192))) (mkU (uval d91) 192) ps91 None.

Lemma good_wide91 : good_priv wide91.
Proof.
  split.
  { unfold wf_pub, wf_uint. cbn. repeat split; try reflexivity; intros H; vm_compute in H; discriminate. }
  split; [unfold wf_uint; repeat split; vm_compute; congruence|].
  split; [repeat apply Forall_cons; try apply Forall_nil;
          unfold wf_uint; repeat split; vm_compute; congruence|].
  split; [apply valid91|]. split; [vm_compute; congruence|]. left; reflexivity.
Qed.

Example C48_iff_case :
  (stored_minimally n91 /\
   exists s, p1sk_sign_prehash count_rng 5 None (mkP1SK key91 []) [x41] = Ok s /\
     public_verify pub91 (SigPkcs1v15 raw1) [x41] (signature_to_bytes s) = Ok tt) /\
  (good_priv wide91 /\ ~ stored_minimally (pk_n (sk_pub wide91)) /\
   exists s, p1sk_sign_prehash count_rng 5 None (mkP1SK wide91 []) [x41] = Ok s /\
     public_verify (sk_pub wide91) (SigPkcs1v15 raw1) [x41] (signature_to_bytes s) = Err Verification).
Proof.
  split.
  - split; [vm_compute; discriminate|]. exists (mkSig (mkU (os2ip sig91) 128)).
    split; vm_compute; reflexivity.
  - split; [exact good_wide91|]. split; [intros H; vm_compute in H; apply H; reflexivity|].
    exists (mkSig (mkU (os2ip sig91) 128)). split; vm_compute; reflexivity.
Qed.

Print Assumptions C07_precisions.
Print Assumptions C07_precisions_blinded.
Print Assumptions C09_sign_pss.
Print Assumptions C11_untouched.
Print Assumptions C20_sign_any.
Print Assumptions C35_long.
Print Assumptions C48_pkcs1_bytes_iff.
