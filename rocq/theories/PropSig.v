(** Properties of signing and verification at the API:
    C12-C18, C23 (PSS), C35, C40-C42 (signing), C47, C48. *)
From Coq Require Import ZArith Zpow_facts List Bool Lia.
From Coq Require Import Init.Byte.
From Verif Require Import Base Bigint SpecRFC SpecRng SpecKey SpecSig MHash MPkcs1 MPss MRsa MKey MApi
  MWrap KeyDefs BigintLemmas PPss PApi PSig PSign KeyExamples.
Import ListNotations.
Local Open Scope Z_scope.

(** The PKCS#1 v1.5 signature by key91 of the one-byte T = 41, and T's scheme. *)
Definition sig91 : list byte := [x00; x19; x4e; xd8; x7d; xe4; x14; xe3; xbc; x52; x4f; xe0].
Definition raw1 : pkcs1_sign_params := mkP1S (Some 1%nat) [].

(** ** C12: PKCS#1 v1.5 round trip, exactly when n has no leading zero limb *)

Theorem C12_scheme : forall {R} (g : rng_ops R) fuel rng k s hashed,
  (rng <> None -> rng_ok g) -> good_priv k -> uprec (pk_n (sk_pub k)) < 2 ^ 32 ->
  hash_len_ok s hashed -> (length (p1_prefix s ++ hashed) + 11 <= key_size (sk_pub k))%nat ->
  blinding_succeeds g (uval (pk_n (sk_pub k))) rng fuel ->
  exists sig, scheme_sign g fuel rng k (SigPkcs1v15 s) hashed = Ok sig /\
    (public_verify (sk_pub k) (SigPkcs1v15 s) hashed sig = Ok tt <->
     stored_minimally (pk_n (sk_pub k))).
Proof. exact @c12_scheme. Qed.

Theorem C12_keys : forall {R} (g : rng_ops R) fuel rng k prefix hashed,
  (rng <> None -> rng_ok g) -> good_priv k -> uprec (pk_n (sk_pub k)) < 2 ^ 32 ->
  (length (prefix ++ hashed) + 11 <= key_size (sk_pub k))%nat ->
  blinding_succeeds g (uval (pk_n (sk_pub k))) rng fuel ->
  let sk := mkP1SK k prefix in
  exists s, p1sk_sign_prehash g fuel rng sk hashed = Ok s /\
    (p1vk_verify_prehash (p1sk_verifying_key sk) hashed s = Ok tt <->
     stored_minimally (pk_n (sk_pub k))).
Proof. exact @c12_keys. Qed.

Theorem C12_other_precision : forall pk s hashed sig,
  wf_pub pk -> uprec (pk_n pk) < 2 ^ 32 -> ~ stored_minimally (pk_n pk) ->
  length sig = key_size pk -> public_verify pk (SigPkcs1v15 s) hashed sig <> Ok tt.
Proof. exact c12_other_precision. Qed.

Example C12_case : good_priv key91 /\ stored_minimally n91 /\ hash_len_ok raw1 [x41] /\
  private_sign_with_rng count_rng 5 9 key91 (SigPkcs1v15 raw1) [x41] = Ok sig91 /\
  public_verify pub91 (SigPkcs1v15 raw1) [x41] sig91 = Ok tt.
Proof.
  split; [apply good91|]. split; [vm_compute; discriminate|]. split; [reflexivity|].
  split; vm_compute; reflexivity.
Qed.

(** The same modulus stored with one limb more: its own signatures are rejected. *)
Definition pub91_wide : pubkey :=
  let n := mkU (uval n91) 192 in mkPub n e91 (mkMP n).
Theorem C12_wide_modulus_refuted : exists pk,
  public_new (mkU (uval n91) 192) e91 = Ok pk /\ wf_pub pk /\ uval (pk_n pk) = uval n91 /\
  public_verify pub91 (SigPkcs1v15 raw1) [x41] sig91 = Ok tt /\
  public_verify pk (SigPkcs1v15 raw1) [x41] sig91 = Err Verification.
Proof.
  exists pub91_wide. split; [vm_compute; reflexivity|].
  split; [|split; [reflexivity|split; vm_compute; reflexivity]].
  split; [|split; [|split]]; [|apply wf_pub91|reflexivity|vm_compute; reflexivity].
  repeat split; vm_compute; congruence.
Qed.

(** ** C13: PKCS#1 v1.5 verification is exact *)

(** On every byte string. *)
Theorem C13_verify_exact : forall pk s hashed sig,
  wf_pub pk -> 8 * Z.of_nat (length sig) < 2 ^ 32 ->
  (~ hash_len_ok s hashed -> public_verify pk (SigPkcs1v15 s) hashed sig = Err InputNotHashed) /\
  (hash_len_ok s hashed ->
    (public_verify pk (SigPkcs1v15 s) hashed sig = Ok tt <->
       pkcs1v15_accepts pk (p1_prefix s ++ hashed) sig) /\
    (~ pkcs1v15_accepts pk (p1_prefix s ++ hashed) sig ->
       public_verify pk (SigPkcs1v15 s) hashed sig = Err Verification)).
Proof. exact public_verify_pkcs1_exact. Qed.

(** On strings of the modulus length: RFC 8017 section 8.2.2. *)
Theorem C13_rfc : forall pk s hashed sig,
  wf_pub pk -> uprec (pk_n pk) < 2 ^ 32 -> stored_minimally (pk_n pk) ->
  length sig = key_size pk -> hash_len_ok s hashed ->
  (public_verify pk (SigPkcs1v15 s) hashed sig = Ok tt <->
   rfc_pkcs1_verifies (uval (pk_n pk)) (uval (pk_e pk)) (key_size pk) (p1_prefix s ++ hashed) sig) /\
  (~ rfc_pkcs1_verifies (uval (pk_n pk)) (uval (pk_e pk)) (key_size pk) (p1_prefix s ++ hashed) sig ->
   public_verify pk (SigPkcs1v15 s) hashed sig = Err Verification).
Proof. exact c13_rfc. Qed.

(** ** C14: deterministic and unique *)

Theorem C14_deterministic :
  forall {R1 R2} (g1 : rng_ops R1) (g2 : rng_ops R2) f1 f2 r1 r2 k s hashed sig1 sig2,
  (r1 <> None -> rng_ok g1) -> (r2 <> None -> rng_ok g2) -> good_priv k ->
  scheme_sign g1 f1 r1 k (SigPkcs1v15 s) hashed = Ok sig1 ->
  scheme_sign g2 f2 r2 k (SigPkcs1v15 s) hashed = Ok sig2 -> sig1 = sig2.
Proof. exact @c14_deterministic. Qed.

Theorem C14_unique : forall k s hashed sig1 sig2,
  good_priv k -> uprec (pk_n (sk_pub k)) < 2 ^ 32 ->
  8 * Z.of_nat (length sig1) < 2 ^ 32 -> 8 * Z.of_nat (length sig2) < 2 ^ 32 ->
  public_verify (sk_pub k) (SigPkcs1v15 s) hashed sig1 = Ok tt ->
  public_verify (sk_pub k) (SigPkcs1v15 s) hashed sig2 = Ok tt ->
  os2ip sig1 = os2ip sig2.
Proof. exact c14_unique. Qed.

Example C14_case :
  private_sign count_rng 5 key91 (SigPkcs1v15 raw1) [x41] = Ok sig91.
Proof. vm_compute. reflexivity. Qed.

(** ** C15: PSS round trip *)

Theorem C15_scheme : forall {R} (g : rng_ops R) hd fuel st st' bl k hashed sl salt,
  rng_ok g -> (0 < h_size hd)%nat -> good_priv k -> uprec (pk_n (sk_pub k)) < 2 ^ 32 ->
  length hashed = h_size hd -> (h_size hd + sl + 2 <= pss_em_len (em_bits (sk_pub k)))%nat ->
  rng_fill g st sl = (Some salt, st') ->
  blinding_succeeds g (uval (pk_n (sk_pub k))) (opt_blind bl st') fuel ->
  let s := SigPss (mkPss bl (digest_new hd) sl) in
  exists sig, scheme_sign g fuel (Some st) k s hashed = Ok sig /\
              public_verify (sk_pub k) s hashed sig = Ok tt.
Proof. exact @c15_scheme. Qed.

Theorem C15_keys : forall {R} (g : rng_ops R) hd fuel st st' bl k hashed sl salt,
  rng_ok g -> (0 < h_size hd)%nat -> good_priv k -> uprec (pk_n (sk_pub k)) < 2 ^ 32 ->
  length hashed = h_size hd -> (h_size hd + sl + 2 <= pss_em_len (em_bits (sk_pub k)))%nat ->
  rng_fill g st sl = (Some salt, st') ->
  blinding_succeeds g (uval (pk_n (sk_pub k))) (opt_blind bl st') fuel ->
  let sk := pssk_new_with_salt_len bl k sl in
  exists s, pssk_sign_prehash g hd fuel st sk hashed = Ok s /\
    (psvk_verify_prehash hd (pssk_verifying_key sk) hashed s = Ok tt <->
     stored_minimally (pk_n (sk_pub k))).
Proof. exact @c15_keys. Qed.

Example C15_case : good_priv key91 /\ (2 + 3 + 2 <= pss_em_len (em_bits pub91))%nat /\
  (let s := SigPss (mkPss true (digest_new toy_hash) 3) in
   let* sig := private_sign_with_rng count_rng 5 4 key91 s [x0a; x0b] in
   public_verify pub91 s [x0a; x0b] sig) = Ok tt.
Proof.
  split; [apply good91|]. split; [apply Nat.leb_le; vm_compute; reflexivity|vm_compute; reflexivity].
Qed.

(** ** C16: PSS verification and RFC 8017 *)

(** Encoded blocks: RFC section 9.1.2, on the emLen low-order octets. *)
Theorem C16_block_exact : forall hd mh em s_len key_bits,
  (0 < h_size hd)%nat -> (1 <= key_bits)%nat ->
  Z.of_nat (pss_em_len (key_bits - 1)) <= 2 ^ 32 ->
  Z.of_nat (h_size hd + s_len + 2) < 2 ^ 64 ->
  length em = ((key_bits + 7) / 8)%nat ->
  let em' := skipn ((key_bits + 7) / 8 - pss_em_len (key_bits - 1)) em in
  (emsa_pss_verify_digest hd mh em s_len key_bits = Ok tt <->
   pss_consistent (h_fun hd) (h_size hd) s_len (key_bits - 1) mh em') /\
  (~ pss_consistent (h_fun hd) (h_size hd) s_len (key_bits - 1) mh em' ->
   emsa_pss_verify_digest hd mh em s_len key_bits = Err Verification).
Proof. exact pss_verify_exact. Qed.

Theorem C16_scheme : forall hd bl pk hashed sl sig,
  (0 < h_size hd)%nat -> Z.of_nat (h_size hd + sl + 2) < 2 ^ 64 ->
  wf_pub pk -> uprec (pk_n pk) < 2 ^ 32 -> 8 * Z.of_nat (length sig) < 2 ^ 32 ->
  let v := public_verify pk (SigPss (mkPss bl (digest_new hd) sl)) hashed sig in
  let rfc := rfc_pss_verifies (h_fun hd) (h_size hd) sl (uval (pk_n pk)) (uval (pk_e pk)) (key_size pk)
                    (Z.to_nat (ubits (pk_n pk))) hashed sig in
  (v = Ok tt \/ v = Err Verification) /\
  (rfc -> v = Ok tt) /\
  ((Z.to_nat (ubits (pk_n pk)) mod 8 <> 1)%nat -> os2ip sig < uval (pk_n pk) -> v = Ok tt -> rfc).
Proof. exact c16_scheme. Qed.

Theorem C16_keys : forall hd vk hashed sig s,
  let pk := psvk_inner vk in let sl := psvk_salt_len vk in
  (0 < h_size hd)%nat -> Z.of_nat (h_size hd + sl + 2) < 2 ^ 64 ->
  wf_pub pk -> uprec (pk_n pk) < 2 ^ 32 -> stored_minimally (pk_n pk) -> length sig = key_size pk ->
  signature_try_from sig = Ok s ->
  let v := psvk_verify_prehash hd vk hashed s in
  let rfc := rfc_pss_verifies (h_fun hd) (h_size hd) sl (uval (pk_n pk)) (uval (pk_e pk)) (key_size pk)
                    (Z.to_nat (ubits (pk_n pk))) hashed sig in
  (v = Ok tt \/ v = Err Verification) /\
  (rfc -> v = Ok tt) /\
  ((Z.to_nat (ubits (pk_n pk)) mod 8 <> 1)%nat -> v = Ok tt -> rfc).
Proof. exact c16_keys. Qed.

(** Exactly which octet strings are accepted, for every bit length: the test is on the
    emLen low-order octets of s^e mod n, whether or not s < n in the scheme API. *)
Theorem C16_scheme_exact : forall hd bl pk hashed sl sig,
  (0 < h_size hd)%nat -> Z.of_nat (h_size hd + sl + 2) < 2 ^ 64 ->
  wf_pub pk -> uprec (pk_n pk) < 2 ^ 32 -> 8 * Z.of_nat (length sig) < 2 ^ 32 ->
  let bits := Z.to_nat (ubits (pk_n pk)) in
  let em := i2osp (RSAEP (uval (pk_n pk)) (uval (pk_e pk)) (os2ip sig)) (key_size pk) in
  public_verify pk (SigPss (mkPss bl (digest_new hd) sl)) hashed sig = Ok tt <->
  length sig = key_size pk /\
  pss_consistent (h_fun hd) (h_size hd) sl (bits - 1) hashed
    (skipn (key_size pk - pss_em_len (bits - 1)) em).
Proof. exact c16_scheme_exact. Qed.

Theorem C16_keys_exact : forall hd vk hashed s,
  let pk := psvk_inner vk in let sl := psvk_salt_len vk in
  (0 < h_size hd)%nat -> Z.of_nat (h_size hd + sl + 2) < 2 ^ 64 ->
  wf_pub pk -> uprec (pk_n pk) < 2 ^ 32 -> wf_uint (sg_inner s) ->
  let bits := Z.to_nat (ubits (pk_n pk)) in
  let em := i2osp (RSAEP (uval (pk_n pk)) (uval (pk_e pk)) (uval (sg_inner s))) (key_size pk) in
  psvk_verify_prehash hd vk hashed s = Ok tt <->
  uval (sg_inner s) < uval (pk_n pk) /\ uprec (sg_inner s) = uprec (pk_n pk) /\
  pss_consistent (h_fun hd) (h_size hd) sl (bits - 1) hashed
    (skipn (key_size pk - pss_em_len (bits - 1)) em).
Proof. exact c16_keys_exact. Qed.

(** Bit length = 1 mod 8: a signature whose representative does not fit emLen
    octets, which the RFC rejects, is accepted by both APIs. *)
Definition sig65 : list byte := [x00; x5c; x6c; xd8; xd2; xd7; x49; x9f; x04].
Theorem C16_extra_octet_refuted :
  wf_pub pub65 /\ stored_minimally n65 /\ length sig65 = key_size pub65 /\
  public_verify pub65 (SigPss (mkPss false (digest_new toy_hash) 1)) [x01; x02] sig65 = Ok tt /\
  (let* s := signature_try_from sig65 in
   psvk_verify_prehash toy_hash (psvk_new_with_salt_len pub65 1) [x01; x02] s) = Ok tt /\
  ~ rfc_pss_verifies (h_fun toy_hash) 2 1 (uval n65) (uval (pk_e pub65)) 9 65 [x01; x02] sig65.
Proof.
  split; [apply wf_pub65|]. split; [vm_compute; discriminate|]. split; [vm_compute; reflexivity|].
  split; [vm_compute; reflexivity|]. split; [vm_compute; reflexivity|].
  intros (_ & _ & EM & L & V & _).
  pose proof (os2ip_range EM) as Rg. rewrite L in Rg.
  assert (E : 256 ^ Z.of_nat (pss_em_len (65 - 1)) = 2 ^ 64) by (vm_compute; reflexivity).
  assert (Em : RSAEP (uval n65) (uval (pk_e pub65)) (os2ip sig65)
               = Zpow_mod (os2ip sig65) (uval (pk_e pub65)) (uval n65)).
  { unfold RSAEP. symmetry. apply Zpow_mod_correct. vm_compute. discriminate. }
  rewrite Em in V.
  assert (Ev : Zpow_mod (os2ip sig65) (uval (pk_e pub65)) (uval n65)
               = 2 ^ 64 + 1981896660473219772) by (vm_compute; reflexivity).
  rewrite Ev in V. rewrite V, E in Rg. lia.
Qed.

(** A key and two signatures within the hypotheses of C16: a valid one and one for another hash. *)
Example C16_case :
  let sig := [x35; xa5; xf7; x23; xe5; x40; x8a; x81] in
  let s := SigPss (mkPss false (digest_new toy_hash) 0) in
  let vk := psvk_new_with_salt_len pub64 0 in
  wf_pub pub64 /\ stored_minimally n64 /\ length sig = key_size pub64 /\
  (Z.to_nat (ubits n64) mod 8 <> 1)%nat /\ os2ip sig < uval n64 /\
  public_verify pub64 s [x01; x00] sig = Ok tt /\
  public_verify pub64 s [x01; x01] sig = Err Verification /\
  (let* x := signature_try_from sig in psvk_verify_prehash toy_hash vk [x01; x00] x) = Ok tt /\
  (let* x := signature_try_from sig in psvk_verify_prehash toy_hash vk [x01; x01] x) = Err Verification.
Proof.
  split; [exact wf_pub64|]. split; [vm_compute; discriminate|]. split; [vm_compute; reflexivity|].
  split; [vm_compute; discriminate|]. split; [vm_compute; reflexivity|]. repeat split; vm_compute; reflexivity.
Qed.

(** ** C17: range check *)

Theorem C17_keys_in_range : forall hd vk hashed s,
  psvk_verify_prehash hd vk hashed s = Ok tt -> uval (sg_inner s) < uval (pk_n (psvk_inner vk)).
Proof. exact c17_range. Qed.

Theorem C17_scheme_malleable : forall hd bl pk hashed sl sig sig',
  (0 < h_size hd)%nat -> Z.of_nat (h_size hd + sl + 2) < 2 ^ 64 ->
  wf_pub pk -> uprec (pk_n pk) < 2 ^ 32 ->
  length sig' = key_size pk -> os2ip sig' = os2ip sig + uval (pk_n pk) ->
  let v x := public_verify pk (SigPss (mkPss bl (digest_new hd) sl)) hashed x in
  8 * Z.of_nat (length sig) < 2 ^ 32 ->
  v sig = Ok tt -> v sig' = Ok tt.
Proof. exact c17_malleable. Qed.

(** RFC 8017 section 5.2.2 step 1 (s in 0..n-1) fails for the scheme API. *)
Theorem C17_scheme_range_refuted :
  let s := SigPss (mkPss false (digest_new toy_hash) 0) in
  let sig  := [x35; xa5; xf7; x23; xe5; x40; x8a; x81] in
  let sig' := [xe4; x73; xad; x1e; xc6; xf1; x1c; xd8] in
  good_priv key64 /\ os2ip sig < uval n64 <= os2ip sig' /\
  public_verify pub64 s [x01; x00] sig = Ok tt /\ public_verify pub64 s [x01; x00] sig' = Ok tt /\
  (let* x := signature_try_from sig' in
   psvk_verify_prehash toy_hash (psvk_new_with_salt_len pub64 0) [x01; x00] x) = Err Verification.
Proof.
  split; [apply good64|]. split; [split; vm_compute; congruence|].
  split; [|split]; vm_compute; reflexivity.
Qed.

Example C17_case :
  let sig  := [x35; xa5; xf7; x23; xe5; x40; x8a; x81] in
  let sig' := [xe4; x73; xad; x1e; xc6; xf1; x1c; xd8] in
  length sig' = key_size pub64 /\ os2ip sig' = os2ip sig + uval (pk_n pub64).
Proof. split; vm_compute; reflexivity. Qed.

(** ** C18: signature length *)

Theorem C18_pss_strict : forall bl dg sl pk hashed sig,
  8 * Z.of_nat (length sig) < 2 ^ 32 -> length sig <> key_size pk ->
  public_verify pk (SigPss (mkPss bl dg sl)) hashed sig = Err Verification.
Proof. exact c18_pss. Qed.

Theorem C18_pkcs1_value_and_limbs_only : forall pk s hashed sig1 sig2,
  8 * Z.of_nat (length sig1) < 2 ^ 32 -> 8 * Z.of_nat (length sig2) < 2 ^ 32 ->
  os2ip sig1 = os2ip sig2 ->
  (8 * Z.of_nat (length sig1) + 63) / 64 = (8 * Z.of_nat (length sig2) + 63) / 64 ->
  public_verify pk (SigPkcs1v15 s) hashed sig1 = public_verify pk (SigPkcs1v15 s) hashed sig2.
Proof. exact c18_pkcs1. Qed.

Theorem C18_pkcs1_limbs_needed : forall pk s hashed sig,
  wf_pub pk -> 8 * Z.of_nat (length sig) < 2 ^ 32 -> (1 <= length sig)%nat ->
  public_verify pk (SigPkcs1v15 s) hashed sig = Ok tt ->
  64 * ((8 * Z.of_nat (length sig) + 63) / 64) = uprec (pk_n pk).
Proof. exact c18_limbs. Qed.

(** RFC 8017 section 8.2.2 step 1 fails: a signature without its leading zero byte
    and one with an extra zero byte both verify. *)
Theorem C18_pkcs1_length_refuted :
  length sig91 = key_size pub91 /\
  public_verify pub91 (SigPkcs1v15 raw1) [x41] (tl sig91) = Ok tt /\
  public_verify pub91 (SigPkcs1v15 raw1) [x41] (x00 :: sig91) = Ok tt.
Proof. split; [|split]; vm_compute; reflexivity. Qed.

Example C18_case :
  length (x00 :: sig91) <> key_size pub91 /\ os2ip (x00 :: sig91) = os2ip sig91 /\
  (8 * Z.of_nat (length (x00 :: sig91)) + 63) / 64 = (8 * Z.of_nat (length sig91) + 63) / 64 /\
  public_verify pub91 (SigPss (pss_new toy_hash)) [x01; x00] (x00 :: sig91) = Err Verification /\
  public_verify pub91 (SigPkcs1v15 raw1) [x41] (repeat x00 5 ++ sig91) = Err Verification.
Proof. split; [vm_compute; discriminate|]. repeat split; vm_compute; reflexivity. Qed.

(** ** C23 (signatures): run-time and type-level digest APIs agree *)

Theorem C23_pss_encode : forall hd mh bits salt,
  emsa_pss_encode mh bits salt (digest_new hd)
  = (let* em := emsa_pss_encode_digest hd mh bits salt in Ok (em, digest_new hd)).
Proof. exact emsa_pss_encode_agree. Qed.

Theorem C23_pss_check : forall hd mh em s_len key_bits,
  emsa_pss_verify mh em s_len (digest_new hd) key_bits
  = emsa_pss_verify_digest hd mh em s_len key_bits.
Proof. exact emsa_pss_verify_agree. Qed.

Theorem C23_pss_sign : forall {R} (g : rng_ops R) hd fuel st bl k hashed salt_len,
  pss_sign g fuel st bl k hashed salt_len (digest_new hd)
  = pss_sign_digest g hd fuel st bl k hashed salt_len.
Proof. exact @pss_sign_agree. Qed.

Theorem C23_pss_decision : forall hd bl vk hashed sig s,
  let pk := psvk_inner vk in let sl := psvk_salt_len vk in
  (0 < h_size hd)%nat -> Z.of_nat (h_size hd + sl + 2) < 2 ^ 64 ->
  wf_pub pk -> uprec (pk_n pk) < 2 ^ 32 -> stored_minimally (pk_n pk) -> length sig = key_size pk ->
  os2ip sig < uval (pk_n pk) -> signature_try_from sig = Ok s ->
  psvk_verify_prehash hd vk hashed s
  = public_verify pk (SigPss (mkPss bl (digest_new hd) sl)) hashed sig.
Proof. exact c23_pss_decision. Qed.

Theorem C23_pkcs1_decision : forall vk hl hashed sig s,
  8 * Z.of_nat (length sig) < 2 ^ 32 -> signature_try_from sig = Ok s ->
  hash_len_ok (mkP1S hl (p1vk_prefix vk)) hashed ->
  p1vk_verify_prehash vk hashed s
  = public_verify (p1vk_inner vk) (SigPkcs1v15 (mkP1S hl (p1vk_prefix vk))) hashed sig.
Proof. exact c23_pkcs1_decision. Qed.

(** ** C35: signature objects *)

Theorem C35_try_from : forall bs, 8 * Z.of_nat (length bs) < 2 ^ 32 ->
  exists s, signature_try_from bs = Ok s /\ wf_uint (sg_inner s) /\ uval (sg_inner s) = os2ip bs /\
    os2ip (signature_to_bytes s) = os2ip bs /\
    Z.of_nat (length (signature_to_bytes s)) = 8 * Z.max 1 ((Z.of_nat (length bs) + 7) / 8) /\
    (signature_to_bytes s = bs <-> ((1 <= length bs)%nat /\ (length bs mod 8 = 0)%nat)).
Proof. exact c35_try_from. Qed.

Theorem C35_stable : forall s, wf_uint (sg_inner s) -> uprec (sg_inner s) < 2 ^ 32 ->
  signature_try_from (signature_to_bytes s) = Ok s.
Proof. exact c35_stable. Qed.

(** src/pkcs1v15/signature.rs:108-116: the integer 42 serialises to 000000000000002a. *)
Example C35_case : signature_to_bytes (mkSig (u_of_u64 42)) = repeat x00 7 ++ [x2a] /\
  signature_hex false (mkSig (u_of_u64 42)) = repeat x30 14 ++ [x32; x61] /\
  (let* s := signature_try_from [x2a] in Ok (signature_to_bytes s)) = Ok (repeat x00 7 ++ [x2a]).
Proof. split; [|split]; vm_compute; reflexivity. Qed.

(** ** C40 (signing) *)

Theorem C40_pkcs1_sign : forall {R} (g : rng_ops R) fuel rng k s hashed,
  (rng <> None -> rng_ok g) -> good_priv k -> hash_len_ok s hashed ->
  (scheme_sign g fuel rng k (SigPkcs1v15 s) hashed = Err MessageTooLong <->
   Z.of_nat (length (p1_prefix s ++ hashed)) > Z.of_nat (key_size (sk_pub k)) - 11).
Proof. exact @c40_pkcs1_sign. Qed.

Theorem C40_pss_sign : forall {R} (g : rng_ops R) hd fuel st st' bl k hashed sl salt,
  rng_ok g -> (0 < h_size hd)%nat -> good_priv k -> uprec (pk_n (sk_pub k)) < 2 ^ 32 ->
  length hashed = h_size hd -> rng_fill g st sl = (Some salt, st') ->
  (scheme_sign g fuel (Some st) k (SigPss (mkPss bl (digest_new hd) sl)) hashed = Err Internal <->
   (pss_em_len (em_bits (sk_pub k)) < h_size hd + sl + 2)%nat).
Proof. exact @c40_pss_sign. Qed.

Example C40_sign_case :
  private_sign count_rng 5 key91 (SigPkcs1v15 (mkP1S None [])) [x41; x42] = Err MessageTooLong /\
  private_sign_with_rng count_rng 5 4 key91 (SigPss (mkPss false (digest_new toy_hash) 9)) [x0a; x0b]
  = Err Internal.
Proof. split; vm_compute; reflexivity. Qed.

(** ** C41 (signing) *)

Theorem C41_pkcs1_sign : forall {R} (g : rng_ops R) fuel st k s hashed,
  rng_ok g -> good_priv k -> hash_len_ok s hashed ->
  (length (p1_prefix s ++ hashed) + 11 <= key_size (sk_pub k))%nat ->
  blinding_fails g (uval (pk_n (sk_pub k))) (Some st) fuel ->
  private_sign_with_rng g fuel st k (SigPkcs1v15 s) hashed = Err Rng.
Proof. exact @c41_pkcs1_sign. Qed.

Theorem C41_pss_sign : forall {R} (g : rng_ops R) hd fuel st bl k hashed sl,
  rng_ok g -> (0 < h_size hd)%nat -> good_priv k -> uprec (pk_n (sk_pub k)) < 2 ^ 32 ->
  let sign := private_sign_with_rng g fuel st k (SigPss (mkPss bl (digest_new hd) sl)) hashed in
  (forall st', rng_fill g st sl = (None, st') -> sign = Err Rng) /\
  (forall salt st', rng_fill g st sl = (Some salt, st') -> bl = true ->
     length hashed = h_size hd -> (h_size hd + sl + 2 <= pss_em_len (em_bits (sk_pub k)))%nat ->
     blinding_fails g (uval (pk_n (sk_pub k))) (Some st') fuel -> sign = Err Rng).
Proof. exact @c41_pss_sign. Qed.

Example C41_sign_case :
  private_sign_with_rng dead_rng 5 tt key91 (SigPkcs1v15 raw1) [x41] = Err Rng /\
  private_sign_with_rng dead_rng 5 tt key91 (SigPss (mkPss false (digest_new toy_hash) 1)) [x0a; x0b]
  = Err Rng.
Proof. split; vm_compute; reflexivity. Qed.

(** ** C42: PSS needs a generator; the blinding flag does not change the result *)

Theorem C42_needs_rng : forall {R} (g : rng_ops R) fuel k s hashed,
  private_sign g fuel k (SigPss s) hashed = Err InvalidPaddingScheme.
Proof. reflexivity. Qed.

Theorem C42_blinding_flag : forall {R} (g : rng_ops R) hd fuel st st' k hashed sl salt,
  rng_ok g -> (0 < h_size hd)%nat -> good_priv k -> uprec (pk_n (sk_pub k)) < 2 ^ 32 ->
  rng_fill g st sl = (Some salt, st') ->
  blinding_succeeds g (uval (pk_n (sk_pub k))) (Some st') fuel ->
  private_sign_with_rng g fuel st k (SigPss (mkPss true (digest_new hd) sl)) hashed
  = private_sign_with_rng g fuel st k (SigPss (mkPss false (digest_new hd) sl)) hashed.
Proof. exact @c42_blinding_flag. Qed.

Example C42_case : good_priv key64 /\
  rng_fill count_rng 4 2 = (Some [x04; x05], 6) /\ blinding_succeeds count_rng (uval (pk_n pub64)) (Some 6) 5 /\
  private_sign count_rng 5 key64 (SigPss (pss_new toy_hash)) [x0a; x0b] = Err InvalidPaddingScheme /\
  is_ok (private_sign_with_rng count_rng 5 4 key64 (SigPss (mkPss false (digest_new toy_hash) 2)) [x0a; x0b]) = true.
Proof.
  split; [exact good64|]. split; [vm_compute; reflexivity|].
  split; [exists 0%nat; split; [lia|eapply usable_now; [reflexivity|right; vm_compute; reflexivity]]|]. split; vm_compute; reflexivity.
Qed.

(** ** C47: views of a key pair *)

Theorem C47_pkcs1_sign : forall {R} (g : rng_ops R) hd fuel rng k msg,
  p1sk_sign g hd fuel rng k msg
  = (let* s := scheme_sign g fuel rng (p1sk_inner k)
        (SigPkcs1v15 (mkP1S (Some (h_size hd)) (p1sk_prefix k))) (h_fun hd msg) in
     signature_try_from s).
Proof. exact @c47_p1_sign. Qed.

Theorem C47_pss_sign : forall {R} (g : rng_ops R) hd fuel st k msg,
  pssk_sign g hd fuel st k msg
  = (let* s := private_sign_with_rng g fuel st (pssk_inner k)
        (SigPss (mkPss (pssk_blinded k) (digest_new hd) (pssk_salt_len k))) (h_fun hd msg) in
     signature_try_from s).
Proof. exact @c47_pss_sign. Qed.

(** Incremental hashing gives the same signature as one call. *)
Theorem C47_digest_signer : forall {R} (g : rng_ops R) hd fuel rng k m1 m2,
  p1sk_sign_digest g fuel rng k (digest_update (digest_update (digest_new hd) m1) m2)
  = p1sk_sign g hd fuel rng k (m1 ++ m2).
Proof. exact @c47_p1_digest. Qed.

(** The public views carry the modulus, exponent and parameters of the private key. *)
Theorem C47_views : forall k prefix bl sl,
  let same pk := pk_n pk = pk_n (sk_pub k) /\ pk_e pk = pk_e (sk_pub k) /\
                 pk_params pk = pk_params (sk_pub k) in
  same (to_public_key k) /\ same (pubkey_from_private k) /\
  same (p1ek_inner (p1dk_encrypting_key (p1dk_new k))) /\
  same (p1vk_inner (p1sk_verifying_key (mkP1SK k prefix))) /\
  p1vk_prefix (p1sk_verifying_key (mkP1SK k prefix)) = prefix /\
  same (psvk_inner (pssk_verifying_key (pssk_new_with_salt_len bl k sl))) /\
  psvk_salt_len (pssk_verifying_key (pssk_new_with_salt_len bl k sl)) = sl.
Proof. repeat split. Qed.

Example C47_case :
  is_ok (p1sk_sign count_rng toy_hash 5 None (p1sk_new_unprefixed key199) [x41; x42]) = true /\
  p1sk_sign_digest count_rng 5 None (p1sk_new_unprefixed key199)
    (digest_update (digest_update (digest_new toy_hash) [x41]) [x42])
  = p1sk_sign count_rng toy_hash 5 None (p1sk_new_unprefixed key199) [x41; x42].
Proof. split; vm_compute; reflexivity. Qed.

(** ** C48: signature bytes across the two APIs *)

Theorem C48_pkcs1_bytes : forall {R} (g : rng_ops R) fuel rng k prefix hl hashed s,
  (rng <> None -> rng_ok g) -> good_priv k -> uprec (pk_n (sk_pub k)) < 2 ^ 32 ->
  stored_minimally (pk_n (sk_pub k)) -> hash_len_ok (mkP1S hl prefix) hashed ->
  p1sk_sign_prehash g fuel rng (mkP1SK k prefix) hashed = Ok s ->
  public_verify (sk_pub k) (SigPkcs1v15 (mkP1S hl prefix)) hashed (signature_to_bytes s) = Ok tt.
Proof. exact @c48_pkcs1. Qed.

Theorem C48_pss_bytes : forall {R} (g : rng_ops R) hd fuel st bl bl' k hashed sl s,
  rng_ok g -> (0 < h_size hd)%nat -> good_priv k -> uprec (pk_n (sk_pub k)) < 2 ^ 32 ->
  pssk_sign_prehash g hd fuel st (pssk_new_with_salt_len bl k sl) hashed = Ok s ->
  (public_verify (sk_pub k) (SigPss (mkPss bl' (digest_new hd) sl)) hashed (signature_to_bytes s) = Ok tt
   <-> (key_size (sk_pub k) mod 8 = 0)%nat).
Proof. exact @c48_pss. Qed.

(** On the 91-bit key a PSS signature object's bytes are rejected by the scheme API. *)
Theorem C48_pss_bytes_refuted : exists s,
  pssk_sign_prehash count_rng toy_hash 5 4 (pssk_new_with_salt_len false key91 3) [x0a; x0b] = Ok s /\
  psvk_verify_prehash toy_hash (psvk_new_with_salt_len pub91 3) [x0a; x0b] s = Ok tt /\
  public_verify pub91 (SigPss (mkPss false (digest_new toy_hash) 3)) [x0a; x0b] (signature_to_bytes s)
  = Err Verification.
Proof.
  exists (mkSig (mkU 1209795820713097688725594085 128)).
  split; [|split]; vm_compute; reflexivity.
Qed.
Print Assumptions C12_scheme.
Print Assumptions C12_keys.
Print Assumptions C12_other_precision.
Print Assumptions C12_wide_modulus_refuted.
Print Assumptions C13_verify_exact.
Print Assumptions C13_rfc.
Print Assumptions C14_deterministic.
Print Assumptions C14_unique.
Print Assumptions C15_scheme.
Print Assumptions C15_keys.
Print Assumptions C16_block_exact.
Print Assumptions C16_scheme.
Print Assumptions C16_keys.
Print Assumptions C16_scheme_exact.
Print Assumptions C16_keys_exact.
Print Assumptions C16_extra_octet_refuted.
Print Assumptions C17_keys_in_range.
Print Assumptions C17_scheme_malleable.
Print Assumptions C17_scheme_range_refuted.
Print Assumptions C18_pss_strict.
Print Assumptions C18_pkcs1_value_and_limbs_only.
Print Assumptions C18_pkcs1_limbs_needed.
Print Assumptions C18_pkcs1_length_refuted.
Print Assumptions C23_pss_encode.
Print Assumptions C23_pss_check.
Print Assumptions C23_pss_sign.
Print Assumptions C23_pss_decision.
Print Assumptions C23_pkcs1_decision.
Print Assumptions C35_try_from.
Print Assumptions C35_stable.
Print Assumptions C40_pkcs1_sign.
Print Assumptions C40_pss_sign.
Print Assumptions C41_pkcs1_sign.
Print Assumptions C41_pss_sign.
Print Assumptions C42_needs_rng.
Print Assumptions C42_blinding_flag.
Print Assumptions C47_pkcs1_sign.
Print Assumptions C47_pss_sign.
Print Assumptions C47_digest_signer.
Print Assumptions C47_views.
Print Assumptions C48_pkcs1_bytes.
Print Assumptions C48_pss_bytes.
Print Assumptions C48_pss_bytes_refuted.
