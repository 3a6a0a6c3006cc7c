(** C87: what each error of the API means. *)
From Coq Require Import ZArith List Bool Lia.
From Coq Require Import Init.Byte.
From Verif Require Import Base Bigint SpecRFC SpecRng SpecKey SpecSig
  MHash MPkcs1 MOaep MPss MRsa MKey MApi KeyDefs PApi PEnc PSig PSign KeyExamples PErrors.
Import ListNotations.
Local Open Scope Z_scope.

(** * C87: every error has one stated cause *)

(** Each theorem lists the errors a call can report and, for each, exactly when it does. *)

(** PKCS#1 v1.5 decryption. *)
Theorem C87_pkcs1v15_decrypt : forall {R} (g : rng_ops R) fuel rng k ct err,
  (rng <> None -> rng_ok g) -> good_priv k -> usable_key (sk_pub k) ->
  let n := uval (pk_n (sk_pub k)) in let width := uprec (pk_n (sk_pub k)) in let K := key_size (sk_pub k) in
  (pkcs1v15_decrypt g fuel rng k ct = Err err <->
   (err = Decode DecodeInputSize /\ width < 8 * Z.of_nat (length ct)) \/
   (8 * Z.of_nat (length ct) <= width /\
    ((err = Decryption /\ n <= os2ip ct) \/
     (os2ip ct < n /\
      ((err = Rng /\ blinding_fails g n rng fuel) \/
       (err = Decryption /\ blinding_succeeds g n rng fuel /\
        forall M, ~ is_eme_pkcs1 K (i2osp (RSADP n (uval (sk_d k)) (os2ip ct)) K) M)))))).
Proof. exact @decrypt_errors. Qed.

(** OAEP decryption; both forms of the call. *)
Theorem C87_oaep_decrypt : forall {R} (g : rng_ops R) fuel rng k ct hd hm label err,
  (rng <> None -> rng_ok g) -> (0 < h_size hm)%nat -> good_priv k -> usable_key (sk_pub k) ->
  (11 <= key_size (sk_pub k))%nat -> Z.of_nat (length (label_bytes label)) < 2 ^ 61 ->
  let n := uval (pk_n (sk_pub k)) in let K := key_size (sk_pub k) in
  (oaep_api_decrypt g fuel rng k ct (digest_new hd) (digest_new hm) label = Err err <->
   (err = Decryption /\ (length ct <> K \/ n <= os2ip ct)) \/
   (length ct = K /\ os2ip ct < n /\
    ((err = Rng /\ blinding_fails g n rng fuel) \/
     (err = Decryption /\ blinding_succeeds g n rng fuel /\
      forall M, ~ is_eme_oaep (h_fun hd) (h_size hd) (h_fun hm) (h_size hm) (label_bytes label) K
                    (i2osp (RSADP n (uval (sk_d k)) (os2ip ct)) K) M)))) /\
  oaep_api_decrypt_digest g hd hm fuel rng k ct label =
  oaep_api_decrypt g fuel rng k ct (digest_new hd) (digest_new hm) label.
Proof. exact @oaep_decrypt_errors. Qed.

(** OAEP decryption with a label of 2^61 octets or more: never a message; the call with
    the digests as values reports [Decryption], the one with the digests as types reports
    [LabelTooLong], both only after the ciphertext was found in range and decrypted. *)
Theorem C87_oaep_long_label : forall {R} (g : rng_ops R) fuel rng k ct hd hm label,
  (rng <> None -> rng_ok g) -> good_priv k -> usable_key (sk_pub k) ->
  2 ^ 61 <= Z.of_nat (length (label_bytes label)) ->
  let n := uval (pk_n (sk_pub k)) in let K := key_size (sk_pub k) in
  let by_value := oaep_api_decrypt g fuel rng k ct (digest_new hd) (digest_new hm) label in
  let by_type := oaep_api_decrypt_digest g hd hm fuel rng k ct label in
  (length ct <> K \/ n <= os2ip ct -> by_value = Err Decryption /\ by_type = Err Decryption) /\
  (length ct = K -> os2ip ct < n ->
   (blinding_succeeds g n rng fuel -> by_value = Err Decryption /\ by_type = Err LabelTooLong) /\
   (blinding_fails g n rng fuel -> by_value = Err Rng /\ by_type = Err Rng)).
Proof. exact @oaep_long_label. Qed.

(** PKCS#1 v1.5 encryption. *)
Theorem C87_pkcs1v15_encrypt : forall {R} (g : rng_ops R) fuel st pk msg err, rng_ok g -> wf_pub pk -> usable_key pk ->
  (pkcs1v15_encrypt g fuel st pk msg = Err err <->
   (err = MessageTooLong /\ (key_size pk < length msg + 11)%nat) \/
   (err = Rng /\ (length msg + 11 <= key_size pk)%nat /\ padding_fails g fuel st (key_size pk - length msg - 3))).
Proof. exact @encrypt_errors. Qed.

(** OAEP encryption; both forms of the call. *)
Theorem C87_oaep_encrypt : forall {R} (g : rng_ops R) st pk msg hd hm label err, rng_ok g -> (0 < h_size hm)%nat -> wf_pub pk -> usable_key pk ->
  (oaep_api_encrypt g st pk msg (digest_new hd) (digest_new hm) label = Err err <->
   (err = LabelTooLong /\ 2 ^ 61 <= Z.of_nat (length (label_bytes label))) \/
   (Z.of_nat (length (label_bytes label)) < 2 ^ 61 /\
    ((err = MessageTooLong /\ (key_size pk < length msg + 2 * h_size hd + 2)%nat) \/
     (err = Rng /\ (length msg + 2 * h_size hd + 2 <= key_size pk)%nat /\
      exists st', rng_fill g st (h_size hd) = (None, st'))))) /\
  oaep_api_encrypt_digest g hd hm st pk msg label =
  oaep_api_encrypt g st pk msg (digest_new hd) (digest_new hm) label.
Proof. exact @oaep_encrypt_errors. Qed.

(** PKCS#1 v1.5 signing. *)
Theorem C87_pkcs1v15_sign : forall {R} (g : rng_ops R) fuel rng k s hashed err, (rng <> None -> rng_ok g) -> good_priv k ->
  let n := uval (pk_n (sk_pub k)) in let K := key_size (sk_pub k) in
  let long := (K < length (p1_prefix s ++ hashed) + 11)%nat in
  (scheme_sign g fuel rng k (SigPkcs1v15 s) hashed = Err err <->
   (err = InputNotHashed /\ ~ hash_len_ok s hashed) \/
   (hash_len_ok s hashed /\
    ((err = MessageTooLong /\ long) \/ (err = Rng /\ ~ long /\ blinding_fails g n rng fuel)))).
Proof. exact @sign_errors. Qed.

(** PSS signing. *)
Theorem C87_pss_sign : forall {R} (g : rng_ops R) hd bl fuel rng k hashed salt_len err,
  (rng <> None -> rng_ok g) -> (0 < h_size hd)%nat -> good_priv k ->
  uprec (pk_n (sk_pub k)) < 2 ^ 32 ->
  let n := uval (pk_n (sk_pub k)) in
  let emBits := (Z.to_nat (ubits (pk_n (sk_pub k))) - 1)%nat in
  let long := (pss_em_len emBits < h_size hd + salt_len + 2)%nat in
  (scheme_sign g fuel rng k (SigPss (mkPss bl (digest_new hd) salt_len)) hashed = Err err <->
   (err = InvalidPaddingScheme /\ rng = None) \/
   (exists st, rng = Some st /\
     ((err = Rng /\ exists st', rng_fill g st salt_len = (None, st')) \/
      (exists salt st', rng_fill g st salt_len = (Some salt, st') /\
        ((err = InputNotHashed /\ length hashed <> h_size hd) \/
         (length hashed = h_size hd /\
          ((err = Internal /\ long) \/
           (err = Rng /\ ~ long /\ bl = true /\ blinding_fails g n (Some st') fuel)))))))).
Proof. exact @sign_pss_errors. Qed.

(** PKCS#1 v1.5 verification. *)
Theorem C87_pkcs1v15_verify : forall pk s hashed sig err, wf_pub pk -> 8 * Z.of_nat (length sig) < 2 ^ 32 ->
  (public_verify pk (SigPkcs1v15 s) hashed sig = Err err <->
   (err = InputNotHashed /\ ~ hash_len_ok s hashed) \/
   (err = Verification /\ hash_len_ok s hashed /\ ~ pkcs1v15_accepts pk (p1_prefix s ++ hashed) sig)).
Proof. exact @verify_errors. Qed.

(** PSS verification. *)
Theorem C87_pss_verify : forall hd bl pk hashed salt_len sig err,
  (0 < h_size hd)%nat -> Z.of_nat (h_size hd + salt_len + 2) < 2 ^ 64 ->
  wf_pub pk -> uprec (pk_n pk) < 2 ^ 32 -> 8 * Z.of_nat (length sig) < 2 ^ 32 ->
  (public_verify pk (SigPss (mkPss bl (digest_new hd) salt_len)) hashed sig = Err err <->
   err = Verification /\ ~ (length sig = key_size pk /\ pss_accepts hd pk salt_len hashed (os2ip sig))).
Proof. exact @verify_pss_errors. Qed.

(** Validation of a private key: the errors of the public key's constructor (C25) come first. *)
Theorem C87_validate : forall k err,
  wf_pub (sk_pub k) -> wf_uint (sk_d k) -> Forall wf_uint (sk_primes k) ->
  let n := pk_n (sk_pub k) in let e := uval (pk_e (sk_pub k)) in let d := sk_d k in
  let ed := e * uval d in let primes := sk_primes k in
  (validate k = Err err <->
   public_new n (pk_e (sk_pub k)) = Err err \/
   (public_usable (uval n) e (uprec n) /\
    ((err = InvalidPrime /\ exists p, In p primes /\ uval p = 0) \/
     ((forall p, In p primes -> 0 < uval p) /\
      ((err = InvalidModulus /\ product (map uval primes) mod 2 ^ uprec n <> uval n) \/
       (err = InvalidExponent /\ product (map uval primes) mod 2 ^ uprec n = uval n /\
        exists before p after, primes = before ++ p :: after /\
          (forall q, In q before -> 1 < uval q /\ uprec q <= 2 * uprec d /\ ed mod (uval q - 1) = 1) /\
          1 < uval p /\ uprec p <= 2 * uprec d /\ ed mod (uval p - 1) <> 1)))))).
Proof. exact @validate_errors. Qed.

(** The other errors are not reported by these calls. *)
Theorem C87_never : forall {R} (g : rng_ops R) fuel rng st k s hd hm bl salt_len label msg hashed ct err,
  rng_ok g -> (0 < h_size hm)%nat -> (0 < h_size hd)%nat -> good_priv k -> usable_key (sk_pub k) ->
  (11 <= key_size (sk_pub k))%nat -> Z.of_nat (length (label_bytes label)) < 2 ^ 61 ->
  In (Err err)
    [pkcs1v15_decrypt g fuel rng k ct; oaep_api_decrypt g fuel rng k ct (digest_new hd) (digest_new hm) label;
     pkcs1v15_encrypt g fuel st (sk_pub k) msg;
     oaep_api_encrypt g st (sk_pub k) msg (digest_new hd) (digest_new hm) label;
     scheme_sign g fuel rng k (SigPkcs1v15 s) hashed;
     scheme_sign g fuel rng k (SigPss (mkPss bl (digest_new hd) salt_len)) hashed] ->
  In err [Decode DecodeInputSize; Decryption; Rng; MessageTooLong; InputNotHashed; InvalidPaddingScheme; Internal].
Proof. exact @errors_never. Qed.

(** ** Every listed cause occurs *)

Example C87_pkcs1v15_decrypt_case :
  good_priv key91 /\ usable_key pub91 /\
  pkcs1v15_decrypt count_rng 5 None key91 (repeat x00 17) = Err (Decode DecodeInputSize) /\
  pkcs1v15_decrypt count_rng 5 None key91 (repeat xff 16) = Err Decryption /\
  pkcs1v15_decrypt dead_rng 5 (Some tt) key91 [x02] = Err Rng /\
  pkcs1v15_decrypt count_rng 5 None key91 [x02] = Err Decryption.
Proof. split; [exact good91|]. repeat split; try (vm_compute; reflexivity); vm_compute; discriminate. Qed.

Example C87_oaep_decrypt_case :
  let dec := fun fuel rng ct => oaep_api_decrypt dead_rng fuel rng key91 ct (digest_new toy_hash) (digest_new toy_hash) None in
  dec 5%nat None (repeat x00 13) = Err Decryption /\ dec 5%nat None (repeat xff 12) = Err Decryption /\
  dec 5%nat (Some tt) (repeat x01 12) = Err Rng /\ dec 5%nat None (repeat x01 12) = Err Decryption.
Proof. repeat split; vm_compute; reflexivity. Qed.

(** A label of exactly 2^61 octets, and a ciphertext decrypted without blinding. *)
Example C87_oaep_long_label_case : exists label,
  oaep_api_decrypt dead_rng 5 None key91 (repeat x01 12) (digest_new toy_hash) (digest_new toy_hash) label = Err Decryption /\
  oaep_api_decrypt_digest dead_rng toy_hash toy_hash 5 None key91 (repeat x01 12) label = Err LabelTooLong.
Proof.
  exists (Some (repeat x41 (Z.to_nat (2 ^ 61)))).
  refine (proj1 (proj2 (C87_oaep_long_label dead_rng 5 None key91 (repeat x01 12) toy_hash toy_hash
    (Some (repeat x41 (Z.to_nat (2 ^ 61)))) _ good91 _ _) _ _) _).
  - congruence.
  - vm_compute. repeat split; discriminate.
  - cbn [label_bytes]. rewrite repeat_length, Z2Nat.id by (apply Z.pow_nonneg; lia). apply Z.le_refl.
  - vm_compute. reflexivity.
  - vm_compute. reflexivity.
  - exact I.
Qed.

Example C87_pkcs1v15_encrypt_case :
  pkcs1v15_encrypt count_rng 5 7 pub91 (repeat x41 2) = Err MessageTooLong /\
  pkcs1v15_encrypt dead_rng 5 tt pub91 [x41] = Err Rng.
Proof. split; vm_compute; reflexivity. Qed.

Example C87_oaep_encrypt_case :
  oaep_api_encrypt count_rng 7 pub91 (repeat x41 7) (digest_new toy_hash) (digest_new toy_hash) None = Err MessageTooLong /\
  oaep_api_encrypt dead_rng tt pub91 [x41] (digest_new toy_hash) (digest_new toy_hash) None = Err Rng.
Proof. split; vm_compute; reflexivity. Qed.

Example C87_pkcs1v15_sign_case :
  let s := mkP1S (Some 1%nat) [] in let s2 := mkP1S None [] in
  scheme_sign count_rng 5 None key91 (SigPkcs1v15 s) (repeat x41 2) = Err InputNotHashed /\
  scheme_sign count_rng 5 None key91 (SigPkcs1v15 s2) (repeat x41 2) = Err MessageTooLong /\
  scheme_sign dead_rng 5 (Some tt) key91 (SigPkcs1v15 s) [x41] = Err Rng.
Proof. repeat split; vm_compute; reflexivity. Qed.

Example C87_pss_sign_case :
  let s := fun salt_len => SigPss (mkPss true (digest_new toy_hash) salt_len) in
  scheme_sign count_rng 5 None key91 (s 2%nat) [x41; x42] = Err InvalidPaddingScheme /\
  scheme_sign dead_rng 5 (Some tt) key91 (s 2%nat) [x41; x42] = Err Rng /\
  scheme_sign count_rng 5 (Some 7) key91 (s 2%nat) [x41] = Err InputNotHashed /\
  scheme_sign count_rng 5 (Some 7) key91 (s 9%nat) [x41; x42] = Err Internal.
Proof. repeat split; vm_compute; reflexivity. Qed.

Example C87_verify_case :
  let s := mkP1S (Some 1%nat) [] in
  public_verify pub91 (SigPkcs1v15 s) (repeat x41 2) [x02] = Err InputNotHashed /\
  public_verify pub91 (SigPkcs1v15 s) [x41] [x02] = Err Verification /\
  public_verify pub91 (SigPss (mkPss true (digest_new toy_hash) 2)) [x41; x42] [x02] = Err Verification.
Proof. repeat split; vm_compute; reflexivity. Qed.

Example C87_validate_case :
  let with_primes := fun ps => mkPriv pub91 d91 ps None in
  validate (mkPriv (mkPub n91 (mkU 6 64) (mkMP n91)) d91 ps91 None) = Err InvalidExponent /\
  validate (with_primes [mkU 0 64; n91]) = Err InvalidPrime /\
  validate (with_primes [mkU 3 64; mkU 5 64]) = Err InvalidModulus /\
  validate (mkPriv pub91 (mkU 460177424 128) ps91 None) = Err InvalidExponent.
Proof. repeat split; vm_compute; reflexivity. Qed.

Print Assumptions C87_pkcs1v15_decrypt.
Print Assumptions C87_oaep_decrypt.
Print Assumptions C87_oaep_long_label.
Print Assumptions C87_pkcs1v15_encrypt.
Print Assumptions C87_oaep_encrypt.
Print Assumptions C87_pkcs1v15_sign.
Print Assumptions C87_pss_sign.
Print Assumptions C87_pkcs1v15_verify.
Print Assumptions C87_pss_verify.
Print Assumptions C87_validate.
Print Assumptions C87_never.
