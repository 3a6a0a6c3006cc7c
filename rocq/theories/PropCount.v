(** C94: how many ciphertexts and signatures are accepted. *)
From Coq Require Import ZArith List Bool Lia.
From Coq Require Import Init.Byte.
From Verif Require Import Base Bigint BytesLemmas BigintLemmas SpecRFC SpecRng SpecSig SpecKey SpecBlind SpecCount MHash
  MPkcs1 MOaep MPss MRsa MKey MApi MWrap KeyDefs.
From Verif Require Import PRsa PApi PEnc PPub PSig PSign PWrap PUniform2 PAccept PCount KeyExamples PropEnc PropSig.
Import ListNotations.
Local Open Scope Z_scope.

(** * C94: the number of accepted inputs

    [counted P N]: exactly [N] values satisfy [P]. *)

(** PKCS#1 v1.5 decryption accepts, of the strings of the modulus length, exactly
    255^8 (256^(k-10) - 255^(k-10)), and so at least one number in 2^25 below n. *)
Theorem C94_pkcs1v15_ciphertexts : forall {R} (g : rng_ops R) fuel rng k,
  (rng <> None -> rng_ok g) -> good_priv k -> usable_key (sk_pub k) ->
  blinding_succeeds g (uval (pk_n (sk_pub k))) rng fuel ->
  let size := key_size (sk_pub k) in
  let N := 255 ^ 8 * (256 ^ Z.of_nat (size - 10) - 255 ^ Z.of_nat (size - 10)) in
  counted (fun ct => length ct = size /\ exists msg, scheme_decrypt g fuel rng k PadPkcs1v15 ct = Ok msg) N /\
  ((11 <= size)%nat -> uval (pk_n (sk_pub k)) < 2 ^ 25 * N).
Proof.
  intros R g fuel rng k Hr Hk Hu B size N. split; [apply count_pkcs1v15; auto|].
  apply (pkcs1v15_fraction (sk_pub k)). apply good_pub; exact Hk.
Qed.

(** OAEP decryption accepts, of all strings, exactly 256^h (256^(k-2h-1) - 1) / 255: fewer
    than one number in 255 * 256^h below n. *)
Theorem C94_oaep_ciphertexts : forall {R} (g : rng_ops R) fuel rng k hd hm label,
  (rng <> None -> rng_ok g) -> good_priv k -> usable_key (sk_pub k) ->
  (0 < h_size hm)%nat -> (11 <= key_size (sk_pub k))%nat -> Z.of_nat (length (label_bytes label)) < 2 ^ 61 ->
  blinding_succeeds g (uval (pk_n (sk_pub k))) rng fuel ->
  let o := PadOaep (mkOaep (digest_new hd) (digest_new hm) label) in let h := h_size hd in
  exists N, counted (fun ct => exists msg, scheme_decrypt g fuel rng k o ct = Ok msg) N /\
    255 * N = 256 ^ Z.of_nat h * (256 ^ Z.of_nat (key_size (sk_pub k) - 2 * h - 1) - 1) /\
    255 * 256 ^ Z.of_nat h * N < uval (pk_n (sk_pub k)).
Proof.
  intros R g fuel rng k hd hm label Hr Hk Hu Hm K L B o h.
  destruct (count_oaep g fuel rng k hd hm label Hr Hk Hu Hm K L B) as (N & E & C).
  exists N. split; [exact C|]. split; [exact E|]. apply oaep_fraction; [apply good_pub; exact Hk|exact E].
Qed.

(** One string of the modulus length is a PKCS#1 v1.5 signature of a hash, or none if the
    hash does not fit. *)
Theorem C94_pkcs1v15_signatures : forall k s hashed,
  good_priv k -> uprec (pk_n (sk_pub k)) < 2 ^ 32 -> stored_minimally (pk_n (sk_pub k)) ->
  let accepted sig := length sig = key_size (sk_pub k) /\ public_verify (sk_pub k) (SigPkcs1v15 s) hashed sig = Ok tt in
  (hash_len_ok s hashed -> (length (p1_prefix s ++ hashed) + 11 <= key_size (sk_pub k))%nat -> counted accepted 1) /\
  (~ hash_len_ok s hashed \/ (key_size (sk_pub k) < length (p1_prefix s ++ hashed) + 11)%nat -> counted accepted 0).
Proof. exact count_pkcs1v15_sig. Qed.

(** PSS: one for every salt, whatever the length of the string, and none if the hash has
    the wrong length or does not fit. *)
Theorem C94_pss_signatures : forall k hd bl sl hashed,
  good_priv k -> uprec (pk_n (sk_pub k)) < 2 ^ 32 -> (0 < h_size hd)%nat ->
  Z.of_nat (h_size hd + sl + 2) < 2 ^ 64 -> (Z.to_nat (ubits (pk_n (sk_pub k))) mod 8 <> 1)%nat ->
  let emBits := (Z.to_nat (ubits (pk_n (sk_pub k))) - 1)%nat in
  let N := if (length hashed =? h_size hd)%nat && (h_size hd + sl + 2 <=? pss_em_len emBits)%nat
           then 256 ^ Z.of_nat sl else 0 in
  counted (fun sig => 8 * Z.of_nat (length sig) < 2 ^ 32 /\
      public_verify (sk_pub k) (SigPss (mkPss bl (digest_new hd) sl)) hashed sig = Ok tt /\
      os2ip sig < uval (pk_n (sk_pub k))) N /\
  (stored_minimally (pk_n (sk_pub k)) ->
   counted (fun sig => length sig = key_size (sk_pub k) /\
      (let* s := signature_try_from sig in
       psvk_verify_prehash hd (psvk_new_with_salt_len (sk_pub k) sl) hashed s) = Ok tt) N).
Proof.
  intros k hd bl sl hashed Hk H32 Hh Ho Hm emBits N. split.
  - apply count_pss; auto.
  - intros M. apply count_pss_keys; auto.
Qed.

(** Without the condition on the bit length there can be more: with a 65-bit modulus and a
    one-octet salt a signature is accepted that no salt gives. *)
Theorem C94_pss_refuted : exists k hd sl hashed sig,
  good_priv k /\ 8 * Z.of_nat (length sig) < 2 ^ 32 /\ os2ip sig < uval (pk_n (sk_pub k)) /\
  public_verify (sk_pub k) (SigPss (mkPss false (digest_new hd) sl)) hashed sig = Ok tt /\
  forall salt, length salt = sl -> sig <> pss_signature k hd hashed salt.
Proof.
  destruct C16_extra_octet_refuted as (W & M & L & A & _ & N).
  exists key65, toy_hash, 1%nat, [x01; x02], sig65. split; [exact good65|].
  split; [vm_compute; reflexivity|]. split; [vm_compute; reflexivity|]. split; [exact A|].
  intros salt Ls E. apply N.
  apply (rfc_pss_producible key65 toy_hash 1 [x01; x02] sig65 good65 ltac:(vm_compute; reflexivity) ltac:(vm_compute; lia)).
  exists 0%nat, salt. rewrite E.
  pose proof (sign_tape key65 0 toy_hash [x01; x02] 1 salt good65 ltac:(vm_compute; reflexivity) ltac:(vm_compute; lia) eq_refl
    ltac:(apply Nat.leb_le; vm_compute; reflexivity)) as T.
  cbn [private_sign_with_rng scheme_sign ps_blinded ps_salt_len ps_digest] in T. rewrite pss_sign_agree in T.
  rewrite T, <- Ls, Nat.leb_refl, firstn_all. reflexivity.
Qed.

(** The numbers for a 91-bit key: 12 octets, so 255^8 * 511 ciphertexts, and 16 bits of hash. *)
Example C94_case :
  counted (fun ct => length ct = 12%nat /\ exists msg, scheme_decrypt count_rng 5 None key91 PadPkcs1v15 ct = Ok msg)
    (255 ^ 8 * 511) /\
  counted (fun ct => exists msg,
      scheme_decrypt count_rng 5 None key91 (PadOaep (mkOaep (digest_new toy_hash) (digest_new toy_hash) None)) ct = Ok msg)
    18519084246547628032 /\
  counted (fun sig => length sig = 12%nat /\ public_verify pub91 (SigPkcs1v15 raw1) [x41] sig = Ok tt) 1 /\
  counted (fun sig => 8 * Z.of_nat (length sig) < 2 ^ 32 /\
      public_verify pub91 (SigPss (mkPss false (digest_new toy_hash) 3)) [x01; x00] sig = Ok tt /\ os2ip sig < uval n91)
    (256 ^ 3).
Proof.
  destruct C01_case_key as (G & U & K).
  split.
  { exact (proj1 (C94_pkcs1v15_ciphertexts count_rng 5 None key91 ltac:(congruence) G U I)). }
  split.
  { destruct (C94_oaep_ciphertexts count_rng 5 None key91 toy_hash toy_hash None ltac:(congruence) G U
      ltac:(vm_compute; lia) ltac:(apply Nat.leb_le; vm_compute; reflexivity) ltac:(vm_compute; reflexivity) I) as (N & C & E & _).
    assert (X : N = 18519084246547628032); [|rewrite <- X; exact C].
    change (key_size (sk_pub key91) - 2 * h_size toy_hash - 1)%nat with 7%nat in E. change (h_size toy_hash) with 2%nat in E.
    change (256 ^ Z.of_nat 2 * (256 ^ Z.of_nat 7 - 1)) with (255 * 18519084246547628032) in E. lia. }
  split.
  { apply (proj1 (C94_pkcs1v15_signatures key91 raw1 [x41] G ltac:(vm_compute; reflexivity) ltac:(vm_compute; discriminate))).
    - vm_compute. reflexivity.
    - apply Nat.leb_le. vm_compute. reflexivity. }
  exact (proj1 (C94_pss_signatures key91 toy_hash false 3 [x01; x00] G ltac:(vm_compute; reflexivity)
    ltac:(vm_compute; lia) ltac:(vm_compute; reflexivity) ltac:(vm_compute; discriminate))).
Qed.

Print Assumptions C94_pkcs1v15_ciphertexts.
Print Assumptions C94_oaep_ciphertexts.
Print Assumptions C94_pkcs1v15_signatures.
Print Assumptions C94_pss_signatures.
Print Assumptions C94_pss_refuted.
