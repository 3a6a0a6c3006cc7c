(** Properties of the integer conversion, MGF1 and PKCS#1 v1.5 paddings:
    C21, C22, C05, C06, C13 (block level). *)
From Coq Require Import ZArith List Bool Lia.
From Coq Require Import Init.Byte.
From Verif Require Import Base Bigint SpecRFC MHash MPad MMgf MPkcs1.
From Verif Require Import PPad PMgf PPkcs1 KeyExamples.
Import ListNotations.
Local Open Scope Z_scope.

(** ** C21: integer to octet string conversion is I2OSP *)

Theorem C21_i2osp : forall u len,
  wf_uint u ->
  (uval u < 256 ^ Z.of_nat len ->
     exists X, uint_to_be_pad u len = Ok X /\ uint_to_zeroizing_be_pad u len = Ok X
               /\ I2OSP (uval u) len X) /\
  (256 ^ Z.of_nat len <= uval u ->
     uint_to_be_pad u len = Err InvalidPadLen /\
     uint_to_zeroizing_be_pad u len = Err InvalidPadLen).
Proof. exact C21_lemma. Qed.

Theorem C21_left_pad : forall input len,
  left_pad input len =
  if (length input <=? len)%nat
  then Ok (repeat x00 (len - length input) ++ input) else Err InvalidPadLen.
Proof. exact left_pad_full. Qed.

(** A 192-bit wide integer holding 42 fits two bytes; 0 fits in zero bytes. *)
Example C21_case_fits : uint_to_be_pad (mkU 42 192) 2 = Ok [x00; x2a].
Proof. reflexivity. Qed.
Example C21_case_too_big : uint_to_be_pad (mkU 70000 64) 2 = Err InvalidPadLen.
Proof. reflexivity. Qed.
Example C21_case_wf : wf_uint (mkU 42 192) /\ wf_uint (mkU 70000 64).
Proof. unfold wf_uint; simpl; repeat split; vm_compute; congruence. Qed.

(** ** C22: MGF1 *)

Theorem C22_mgf1 : forall (h : hashfn) seed buf,
  (0 < h_size h)%nat -> Z.of_nat (length buf) <= 2 ^ 32 ->
  mgf1_xor buf (digest_new h) seed
    = Ok (xor_octets buf (mgf1 (h_fun h) (h_size h) seed (length buf)), digest_new h)
  /\ mgf1_xor_digest buf (digest_new h) seed
    = Ok (xor_octets buf (mgf1 (h_fun h) (h_size h) seed (length buf)), digest_new h).
Proof. exact C22_lemma. Qed.

Theorem C22_involutive : forall (h : hashfn) seed buf masked dg,
  (0 < h_size h)%nat ->
  mgf1_xor buf (digest_new h) seed = Ok (masked, dg) ->
  length masked = length buf /\ mgf1_xor masked dg seed = Ok (buf, dg).
Proof. exact C22_invol_lemma. Qed.

Theorem C22_limit : forall dg seed buf,
  2 ^ 32 < Z.of_nat (length buf) ->
  mgf1_xor buf dg seed = Panic /\ mgf1_xor_digest buf dg seed = Panic.
Proof. exact C22_limit_lemma. Qed.

(** The mask really has the requested length. *)
Theorem C22_mask_length : forall (h : hashfn) seed n,
  (0 < h_size h)%nat -> length (mgf1 (h_fun h) (h_size h) seed n) = n.
Proof. exact mgf1_length. Qed.

Example C22_case :
  mgf1_xor [x01; x02; x03; x04; x05] (digest_new toy_hash) [xaa; xbb]
  = Ok (xor_octets [x01; x02; x03; x04; x05]
          (firstn 5 (toy_fun [xaa; xbb; x00; x00; x00; x00]
                     ++ toy_fun [xaa; xbb; x00; x00; x00; x01]
                     ++ toy_fun [xaa; xbb; x00; x00; x00; x02])), digest_new toy_hash).
Proof. reflexivity. Qed.

(** ** C05: PKCS#1 v1.5 decryption unpadding is exact *)

Theorem C05_unpad_exact : forall k em,
  Z.of_nat k < 2 ^ 31 -> length em = k ->
  (forall m, pkcs1v15_encrypt_unpad em k = Ok m <-> is_eme_pkcs1 k em m) /\
  ((forall m, ~ is_eme_pkcs1 k em m) -> pkcs1v15_encrypt_unpad em k = Err Decryption).
Proof. exact C05_lemma. Qed.

Example C05_case :
  is_eme_pkcs1 13 [x00;x02;x01;x02;x03;x04;x05;x06;x07;x08;x00;x41;x00] [x41;x00].
Proof.
  split; [reflexivity|]. exists [x01;x02;x03;x04;x05;x06;x07;x08].
  repeat split; [simpl; lia|]. repeat constructor; discriminate.
Qed.
Example C05_case_run :
  pkcs1v15_encrypt_unpad [x00;x02;x01;x02;x03;x04;x05;x06;x07;x08;x00;x41;x00] 13 = Ok [x41;x00]
  /\ pkcs1v15_encrypt_unpad [x00;x02;x01;x02;x03;x04;x05;x06;x07;x00;x08;x41;x00] 13 = Err Decryption.
Proof. split; reflexivity. Qed.

(** ** C06: PKCS#1 v1.5 encryption padding, any generator *)

Theorem C06_pad_wellformed : forall (R : Type) (g : rng_ops R) fuel r msg k em,
  rng_ok g -> pkcs1v15_encrypt_pad g fuel r msg k = Ok em -> is_eme_pkcs1 k em msg.
Proof. exact @encrypt_pad_ok. Qed.

Theorem C06_pad_outcomes : forall (R : Type) (g : rng_ops R) fuel r msg k,
  rng_ok g ->
  (pkcs1v15_encrypt_pad g fuel r msg k = Err MessageTooLong <-> (k < length msg + 11)%nat) /\
  ((length msg + 11 <= k)%nat ->
     (exists em, pkcs1v15_encrypt_pad g fuel r msg k = Ok em)
     \/ pkcs1v15_encrypt_pad g fuel r msg k = Err Rng
     \/ pkcs1v15_encrypt_pad g fuel r msg k = OutOfFuel).
Proof. exact @C06_outcomes_lemma. Qed.

(** The bytes drawn are used: non-zero bytes of the first draw stay in place. *)
Theorem C06_pad_keeps_random_bytes : forall (R : Type) (g : rng_ops R) fuel r msg k em drawn r',
  rng_ok g -> rng_fill g r (k - length msg - 3) = (Some drawn, r') ->
  pkcs1v15_encrypt_pad g fuel r msg k = Ok em ->
  exists PS, em = eme_pkcs1 PS msg /\ Forall2 (fun a b => a <> x00 -> b = a) drawn PS.
Proof. exact @C06_keeps_lemma. Qed.

(** If the first draw has no zero byte, no further randomness (hence no fuel) is needed. *)
Theorem C06_pad_nonzero_draw : forall (R : Type) (g : rng_ops R) fuel r msg k drawn r',
  rng_ok g -> (length msg + 11 <= k)%nat ->
  rng_fill g r (k - length msg - 3) = (Some drawn, r') -> Forall (fun b => b <> x00) drawn ->
  pkcs1v15_encrypt_pad g fuel r msg k = Ok (eme_pkcs1 drawn msg).
Proof. exact @C06_nonzero_lemma. Qed.

(** If the generator fails on the first draw the error is [Rng]. *)
Theorem C06_pad_rng_error : forall (R : Type) (g : rng_ops R) fuel r msg k r',
  rng_ok g -> (length msg + 11 <= k)%nat ->
  rng_fill g r (k - length msg - 3) = (None, r') ->
  pkcs1v15_encrypt_pad g fuel r msg k = Err Rng.
Proof. exact @C06_rng_lemma. Qed.

Example C06_case :
  pkcs1v15_encrypt_pad count_rng 10 253 [x41; x42] 14
  = Ok [x00; x02; xfd; xfe; xff; x06; x01; x02; x03; x04; x05; x00; x41; x42].
Proof. reflexivity. Qed.

(** ** C13 (block level): PKCS#1 v1.5 signature encoding check is exact *)

Theorem C13_block_exact : forall prefix hashed k em,
  length em = k ->
  (pkcs1v15_sign_unpad prefix hashed em k = Ok tt <-> is_emsa_pkcs1 k em (prefix ++ hashed)) /\
  (~ is_emsa_pkcs1 k em (prefix ++ hashed) ->
     pkcs1v15_sign_unpad prefix hashed em k = Err Verification).
Proof. exact C13_block_lemma. Qed.

Theorem C13_pad_exact : forall prefix hashed k,
  (forall em, pkcs1v15_sign_pad prefix hashed k = Ok em
              <-> is_emsa_pkcs1 k em (prefix ++ hashed)) /\
  (pkcs1v15_sign_pad prefix hashed k = Err MessageTooLong
              <-> (k < length prefix + length hashed + 11)%nat).
Proof. exact C13_pad_lemma. Qed.

Example C13_block_case :
  pkcs1v15_sign_pad [x30] [xaa; xbb] 15
  = Ok [x00;x01;xff;xff;xff;xff;xff;xff;xff;xff;xff;x00;x30;xaa;xbb]
  /\ pkcs1v15_sign_unpad [x30] [xaa; xbb]
       [x00;x01;xff;xff;xff;xff;xff;xff;xff;xff;xff;x00;x30;xaa;xbb] 15 = Ok tt
  /\ pkcs1v15_sign_unpad [x30] [xaa; xbb]
       [x00;x01;xff;xff;xff;xff;xff;xff;xff;xff;x00;x30;xaa;xbb;x00] 15 = Err Verification.
Proof. repeat split; reflexivity. Qed.

Print Assumptions C21_i2osp.
Print Assumptions C21_left_pad.
Print Assumptions C22_mgf1.
Print Assumptions C22_involutive.
Print Assumptions C22_limit.
Print Assumptions C22_mask_length.
Print Assumptions C05_unpad_exact.
Print Assumptions C06_pad_wellformed.
Print Assumptions C06_pad_outcomes.
Print Assumptions C06_pad_keeps_random_bytes.
Print Assumptions C06_pad_nonzero_draw.
Print Assumptions C06_pad_rng_error.
Print Assumptions C13_block_exact.
Print Assumptions C13_pad_exact.
