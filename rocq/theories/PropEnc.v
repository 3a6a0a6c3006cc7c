(** Properties of encryption and decryption at the API:
    C01, C02, C03, C04, C05 (API), C06 (exact), C19, C23 (OAEP), C40, C41. *)
From Coq Require Import ZArith List Bool Lia.
From Coq Require Import Init.Byte.
From Verif Require Import Base Bigint SpecRFC SpecRng SpecKey MHash MPkcs1 MOaep MRsa MKey MApi KeyDefs.
From Verif Require Import PPkcs1 PRsa POaep PApi PSig PHist PRaw PEnc KeyExamples.
Import ListNotations.
Local Open Scope Z_scope.

(** ** C01: PKCS#1 v1.5 encryption round trip *)

Theorem C01_round_trip :
  forall {R1 R2} (g1 : rng_ops R1) (g2 : rng_ops R2) f1 f2 st rng k msg PS,
  rng_ok g1 -> (rng <> None -> rng_ok g2) -> good_priv k -> usable_key (sk_pub k) ->
  (length msg + 11 <= key_size (sk_pub k))%nat ->
  padding_gives g1 f1 st (key_size (sk_pub k) - length msg - 3) PS ->
  blinding_succeeds g2 (uval (pk_n (sk_pub k))) rng f2 ->
  exists ct, public_encrypt g1 f1 st (sk_pub k) PadPkcs1v15 msg = Ok ct /\
             scheme_decrypt g2 f2 rng k PadPkcs1v15 ct = Ok msg.
Proof. exact @c01_round_trip. Qed.

(** Whatever the generators do, a ciphertext never decrypts to another message. *)
Theorem C01_no_wrong_plaintext :
  forall {R1 R2} (g1 : rng_ops R1) (g2 : rng_ops R2) f1 f2 st rng k msg ct,
  rng_ok g1 -> (rng <> None -> rng_ok g2) -> good_priv k ->
  public_encrypt g1 f1 st (sk_pub k) PadPkcs1v15 msg = Ok ct ->
  (blinding_succeeds g2 (uval (pk_n (sk_pub k))) rng f2 ->
     scheme_decrypt g2 f2 rng k PadPkcs1v15 ct = Ok msg) /\
  (forall m', scheme_decrypt g2 f2 rng k PadPkcs1v15 ct = Ok m' -> m' = msg).
Proof. exact @c01_no_wrong_plaintext. Qed.

Example C01_case_key : good_priv key91 /\ usable_key pub91 /\ key_size pub91 = 12%nat.
Proof.
  split; [apply good91|]. split; [|vm_compute; reflexivity].
  unfold usable_key, public_usable, public_acceptable. repeat split; vm_compute; congruence.
Qed.
(** The generator's second byte is zero and gets replaced. *)
Example C01_case :
  (let* ct := public_encrypt count_rng 5 255 pub91 PadPkcs1v15 [x41] in
   private_decrypt_blinded count_rng 5 9 key91 PadPkcs1v15 ct) = Ok [x41].
Proof. vm_compute. reflexivity. Qed.
Example C01_case_gives :
  padding_gives count_rng 5 255 8 [xff; x07; x01; x02; x03; x04; x05; x06].
Proof.
  unfold padding_gives. do 3 eexists. split; [reflexivity|].
  apply patched_keep; [discriminate|].
  eapply patched_replace with (j := 0%nat); [lia|apply redraw_now; [reflexivity|discriminate]|].
  repeat (apply patched_keep; [discriminate|]). apply patched_nil.
Qed.

(** ** C02: OAEP round trip, both API families *)

Theorem C02_round_trip :
  forall {R1 R2} (g1 : rng_ops R1) (g2 : rng_ops R2) f1 f2 st st' rng k hd hm label msg seed,
  rng_ok g1 -> (rng <> None -> rng_ok g2) -> (0 < h_size hm)%nat ->
  good_priv k -> usable_key (sk_pub k) -> (11 <= key_size (sk_pub k))%nat ->
  Z.of_nat (length (label_bytes label)) < 2 ^ 61 ->
  (length msg + 2 * h_size hd + 2 <= key_size (sk_pub k))%nat ->
  rng_fill g1 st (h_size hd) = (Some seed, st') ->
  blinding_succeeds g2 (uval (pk_n (sk_pub k))) rng f2 ->
  let o := mkOaep (digest_new hd) (digest_new hm) label in
  exists ct, public_encrypt g1 f1 st (sk_pub k) (PadOaep o) msg = Ok ct /\
             oaep_api_encrypt_digest g1 hd hm st (sk_pub k) msg label = Ok ct /\
             scheme_decrypt g2 f2 rng k (PadOaep o) ct = Ok msg /\
             oaep_api_decrypt_digest g2 hd hm f2 rng k ct label = Ok msg.
Proof. exact @c02_round_trip. Qed.

Example C02_case :
  (let o := PadOaep (oaep_new_with_label toy_hash [x6c; x61; x62]) in
   let* ct := public_encrypt count_rng 5 77 pub91 o [x68; x69] in
   private_decrypt count_rng 5 key91 o ct) = Ok [x68; x69].
Proof. vm_compute. reflexivity. Qed.

(** The bound 11 <= size is needed: the decoder refuses smaller blocks that the
    encoder produces (only possible with hashes of at most four bytes). *)
Theorem C02_small_block_refuted : exists (hd : hashfn) em M,
  (0 < h_size hd)%nat /\ length em = 10%nat /\
  oaep_encrypt_digest count_rng hd hd 3 M None 10 = Ok em /\
  oaep_decrypt_digest hd hd em None 10 = Err Decryption.
Proof.
  exists toy_hash, [x00; x65; xbc; x09; xf7; x0f; xf7; x10; xf9; x50], [x41].
  split; [simpl; lia|]. split; [reflexivity|]. split; vm_compute; reflexivity.
Qed.

(** ** C03: OAEP accepts exactly the well-formed encodings *)

Theorem C03_block_exact : forall hd hm label k em,
  (0 < h_size hm)%nat -> Z.of_nat k < 2 ^ 32 -> (11 <= k)%nat -> length em = k ->
  Z.of_nat (length (label_bytes label)) < 2 ^ 61 ->
  (forall M, oaep_decrypt_digest hd hm em label k = Ok M <->
     is_eme_oaep (h_fun hd) (h_size hd) (h_fun hm) (h_size hm) (label_bytes label) k em M) /\
  ((forall M, ~ is_eme_oaep (h_fun hd) (h_size hd) (h_fun hm) (h_size hm) (label_bytes label) k em M) ->
   oaep_decrypt_digest hd hm em label k = Err Decryption).
Proof. exact oaep_exact. Qed.

(** Blocks of fewer than eleven octets are refused whatever they contain. *)
Theorem C03_small_blocks : forall hd hm dg dm label k em,
  (k < 11)%nat -> Z.of_nat (length (label_bytes label)) < 2 ^ 61 ->
  oaep_decrypt_digest hd hm em label k = Err Decryption /\
  oaep_decrypt em dg dm label k = Err Decryption.
Proof.
  intros hd hm dg dm label k em Hk HL.
  unfold oaep_decrypt_digest, oaep_decrypt, oaep_decrypt_inner.
  replace (MAX_LABEL_LEN <=? Z.of_nat (length (label_bytes label))) with false
    by (symmetry; apply Z.leb_gt; exact HL).
  rewrite (proj2 (Nat.ltb_lt k 11) Hk). split; [reflexivity|].
  destruct (digest_finalize_reset _). reflexivity.
Qed.

Theorem C03_decrypt_exact : forall {R} (g : rng_ops R) fuel rng k ct hd hm label,
  (rng <> None -> rng_ok g) -> (0 < h_size hm)%nat -> good_priv k ->
  uprec (pk_n (sk_pub k)) < 2 ^ 32 -> (11 <= key_size (sk_pub k))%nat ->
  Z.of_nat (length (label_bytes label)) < 2 ^ 61 ->
  let K := key_size (sk_pub k) in let n := uval (pk_n (sk_pub k)) in
  let dec := oaep_api_decrypt g fuel rng k ct (digest_new hd) (digest_new hm) label in
  let EM := i2osp (RSADP n (uval (sk_d k)) (os2ip ct)) K in
  let valid M := is_eme_oaep (h_fun hd) (h_size hd) (h_fun hm) (h_size hm) (label_bytes label) K EM M in
  (length ct <> K -> dec = Err Decryption) /\
  (length ct = K -> n <= os2ip ct -> dec = Err Decryption) /\
  (length ct = K -> os2ip ct < n ->
    (blinding_succeeds g n rng fuel ->
       (forall M, dec = Ok M <-> valid M) /\ ((forall M, ~ valid M) -> dec = Err Decryption)) /\
    (blinding_fails g n rng fuel -> dec = Err Rng) /\
    (blinding_undecided g n rng fuel -> dec = OutOfFuel)).
Proof. exact @oaep_api_decrypt_exact. Qed.

Example C03_case :
  let em := [x00; x72; x35; x09; xf7; x0f; xf7; x10; xf8; x11; xf8; x53] in
  oaep_encrypt_digest count_rng toy_hash toy_hash 3 [x41] None 12 = Ok em /\
  is_eme_oaep toy_fun 2 toy_fun 2 [] 12 em [x41] /\
  oaep_decrypt_digest toy_hash toy_hash em None 12 = Ok [x41] /\
  oaep_decrypt_digest toy_hash toy_hash (x01 :: tl em) None 12 = Err Decryption.
Proof.
  split; [vm_compute; reflexivity|].
  split; [exists [x03; x04]; split; [reflexivity|split; [simpl; lia|vm_compute; reflexivity]]|].
  split; vm_compute; reflexivity.
Qed.

(** ** C04: label binding *)

Theorem C04_label_binding :
  forall {R1 R2} (g1 : rng_ops R1) (g2 : rng_ops R2) f1 f2 st rng k hd hm label label' msg ct,
  rng_ok g1 -> (rng <> None -> rng_ok g2) -> (0 < h_size hm)%nat -> good_priv k ->
  (11 <= key_size (sk_pub k))%nat ->
  public_encrypt g1 f1 st (sk_pub k) (PadOaep (mkOaep (digest_new hd) (digest_new hm) label)) msg = Ok ct ->
  blinding_succeeds g2 (uval (pk_n (sk_pub k))) rng f2 ->
  Z.of_nat (length (label_bytes label')) < 2 ^ 61 ->
  h_fun hd (label_bytes label) <> h_fun hd (label_bytes label') ->
  scheme_decrypt g2 f2 rng k (PadOaep (mkOaep (digest_new hd) (digest_new hm) label')) ct = Err Decryption /\
  oaep_api_decrypt_digest g2 hd hm f2 rng k ct label' = Err Decryption.
Proof. exact @c04_binding. Qed.

Example C04_case : h_fun toy_hash (label_bytes (Some [x61])) <> h_fun toy_hash (label_bytes None) /\
  (let* ct := public_encrypt count_rng 5 77 pub91 (PadOaep (oaep_new_with_label toy_hash [x61])) [x68] in
   private_decrypt count_rng 5 key91 (PadOaep (oaep_new toy_hash)) ct) = Err Decryption.
Proof. split; [vm_compute; discriminate|vm_compute; reflexivity]. Qed.

(** ** C05 at the API: decryption accepts exactly 00 02 PS 00 M *)

Theorem C05_decrypt_exact : forall {R} (g : rng_ops R) fuel rng k ct,
  (rng <> None -> rng_ok g) -> good_priv k -> usable_key (sk_pub k) ->
  let K := key_size (sk_pub k) in let n := uval (pk_n (sk_pub k)) in
  (uprec (pk_n (sk_pub k)) < 8 * Z.of_nat (length ct) ->
     pkcs1v15_decrypt g fuel rng k ct = Err (Decode DecodeInputSize)) /\
  (8 * Z.of_nat (length ct) <= uprec (pk_n (sk_pub k)) -> n <= os2ip ct ->
     pkcs1v15_decrypt g fuel rng k ct = Err Decryption) /\
  (8 * Z.of_nat (length ct) <= uprec (pk_n (sk_pub k)) -> os2ip ct < n ->
    (blinding_succeeds g n rng fuel ->
       (forall M, pkcs1v15_decrypt g fuel rng k ct = Ok M <->
          is_eme_pkcs1 K (i2osp (RSADP n (uval (sk_d k)) (os2ip ct)) K) M) /\
       ((forall M, ~ is_eme_pkcs1 K (i2osp (RSADP n (uval (sk_d k)) (os2ip ct)) K) M) ->
          pkcs1v15_decrypt g fuel rng k ct = Err Decryption)) /\
    (blinding_fails g n rng fuel -> pkcs1v15_decrypt g fuel rng k ct = Err Rng) /\
    (blinding_undecided g n rng fuel -> pkcs1v15_decrypt g fuel rng k ct = OutOfFuel)).
Proof. exact @pkcs1v15_decrypt_exact. Qed.

(** ** C06: the exact outcome of the padding, for every generator *)

Theorem C06_pad_exact : forall {R} (g : rng_ops R) f st msg k,
  rng_ok g ->
  ((k < length msg + 11)%nat -> pkcs1v15_encrypt_pad g f st msg k = Err MessageTooLong) /\
  ((length msg + 11 <= k)%nat ->
    (forall PS, padding_gives g f st (k - length msg - 3) PS ->
                pkcs1v15_encrypt_pad g f st msg k = Ok (eme_pkcs1 PS msg)) /\
    (padding_fails g f st (k - length msg - 3) -> pkcs1v15_encrypt_pad g f st msg k = Err Rng) /\
    (padding_stuck g f st (k - length msg - 3) -> pkcs1v15_encrypt_pad g f st msg k = OutOfFuel)).
Proof. exact @encrypt_pad_exact. Qed.

(** The three cases are exhaustive. *)
Theorem C06_pad_cases : forall {R} (g : rng_ops R), rng_ok g -> forall f st n,
  (exists PS, padding_gives g f st n PS) \/ padding_fails g f st n \/ padding_stuck g f st n.
Proof. exact @padding_trichotomy. Qed.

(** ** C19: ciphertext length *)

Theorem C19_oaep_strict : forall {R} (g : rng_ops R) fuel rng k ct o,
  length ct <> key_size (sk_pub k) -> scheme_decrypt g fuel rng k (PadOaep o) ct = Err Decryption.
Proof. exact @c19_oaep. Qed.

Theorem C19_oaep_digest_strict : forall {R} (g : rng_ops R) fuel rng k ct hd hm label,
  wf_pub (sk_pub k) -> usable_key (sk_pub k) -> length ct <> key_size (sk_pub k) ->
  oaep_api_decrypt_digest g hd hm fuel rng k ct label = Err Decryption.
Proof. exact @c19_oaep_digest. Qed.

Theorem C19_pkcs1_value_only : forall {R} (g : rng_ops R) fuel rng k ct1 ct2,
  wf_pub (sk_pub k) -> os2ip ct1 = os2ip ct2 ->
  8 * Z.of_nat (length ct1) <= uprec (pk_n (sk_pub k)) ->
  8 * Z.of_nat (length ct2) <= uprec (pk_n (sk_pub k)) ->
  scheme_decrypt g fuel rng k PadPkcs1v15 ct1 = scheme_decrypt g fuel rng k PadPkcs1v15 ct2.
Proof. exact @c19_pkcs1. Qed.

(** RFC 8017 section 7.2.2 step 1 (reject when the length is not k) fails. *)
Theorem C19_pkcs1_length_refuted : exists k ct M,
  good_priv k /\ usable_key (sk_pub k) /\ length ct <> key_size (sk_pub k) /\
  private_decrypt count_rng 5 k PadPkcs1v15 ct = Ok M.
Proof.
  destruct (public_encrypt count_rng 5 255 pub91 PadPkcs1v15 [x41]) as [ct| | |] eqn:E;
    [|vm_compute in E; discriminate..].
  exists key91, (x00 :: ct), [x41].
  split; [apply good91|]. split; [apply C01_case_key|].
  vm_compute in E. injection E as <-. split; [vm_compute; discriminate|vm_compute; reflexivity].
Qed.

Example C19_case :
  length [x00; x05] <> key_size pub91 /\ os2ip [x00; x05] = os2ip [x05] /\
  8 * Z.of_nat (length [x00; x05]) <= uprec (pk_n pub91) /\
  private_decrypt count_rng 5 key91 (PadOaep (oaep_new toy_hash)) [x00; x05] = Err Decryption /\
  private_decrypt count_rng 5 key91 PadPkcs1v15 [x00; x05] = private_decrypt count_rng 5 key91 PadPkcs1v15 [x05].
Proof. split; [vm_compute; discriminate|]. split; [reflexivity|]. split; [vm_compute; discriminate|].
  split; vm_compute; reflexivity. Qed.

(** ** C23 (OAEP): run-time and type-level digest APIs agree *)

Theorem C23_oaep_encode : forall {R} (g : rng_ops R) r msg hd hm label k,
  oaep_encrypt g r msg (digest_new hd) (digest_new hm) label k
  = oaep_encrypt_digest g hd hm r msg label k.
Proof. exact @oaep_encrypt_agree. Qed.

Theorem C23_oaep_decode : forall em hd hm label k,
  oaep_decrypt em (digest_new hd) (digest_new hm) label k
  = if 2 ^ 61 <=? Z.of_nat (length (label_bytes label)) then Err Decryption
    else oaep_decrypt_digest hd hm em label k.
Proof. exact oaep_decrypt_agree. Qed.

Theorem C23_oaep_encrypt : forall {R} (g : rng_ops R) st pk msg hd hm label,
  oaep_api_encrypt g st pk msg (digest_new hd) (digest_new hm) label
  = oaep_api_encrypt_digest g hd hm st pk msg label.
Proof. exact @oaep_api_encrypt_agree. Qed.

Theorem C23_oaep_decrypt : forall {R} (g : rng_ops R) fuel rng k ct hd hm label,
  check_public (sk_pub k) = Ok tt -> Z.of_nat (length (label_bytes label)) < 2 ^ 61 ->
  oaep_api_decrypt_digest g hd hm fuel rng k ct label
  = oaep_api_decrypt g fuel rng k ct (digest_new hd) (digest_new hm) label.
Proof. exact @oaep_api_decrypt_agree. Qed.

Example C23_oaep_case : check_public (sk_pub key91) = Ok tt /\
  is_ok (oaep_api_encrypt count_rng 9 pub91 [x41] (digest_new toy_hash) (digest_new toy_hash) None) = true.
Proof. split; vm_compute; reflexivity. Qed.

(** ** C40 (encryption): message length limits are exact *)

Theorem C40_pkcs1_encrypt : forall {R} (g : rng_ops R) fuel st pk msg,
  rng_ok g -> wf_pub pk -> usable_key pk ->
  (public_encrypt g fuel st pk PadPkcs1v15 msg = Err MessageTooLong <->
   Z.of_nat (length msg) > Z.of_nat (key_size pk) - 11).
Proof. exact @c40_pkcs1. Qed.

Theorem C40_oaep_encrypt : forall {R} (g : rng_ops R) fuel st pk hd hm label msg,
  rng_ok g -> wf_pub pk -> usable_key pk -> (0 < h_size hm)%nat ->
  Z.of_nat (length (label_bytes label)) < 2 ^ 61 ->
  (public_encrypt g fuel st pk (PadOaep (mkOaep (digest_new hd) (digest_new hm) label)) msg
   = Err MessageTooLong <->
   Z.of_nat (length msg) > Z.of_nat (key_size pk) - 2 * Z.of_nat (h_size hd) - 2).
Proof. exact @c40_oaep. Qed.

Example C40_case :
  public_encrypt count_rng 5 1 pub91 PadPkcs1v15 [x41; x42] = Err MessageTooLong /\
  is_ok (public_encrypt count_rng 5 1 pub91 PadPkcs1v15 [x41]) = true /\
  is_ok (public_encrypt count_rng 5 1 pub91 (PadOaep (oaep_new toy_hash)) (repeat x41 6)) = true /\
  public_encrypt count_rng 5 1 pub91 (PadOaep (oaep_new toy_hash)) (repeat x41 7) = Err MessageTooLong.
Proof. split; [|split; [|split]]; vm_compute; reflexivity. Qed.

(** ** C41 (encryption, decryption): generator failures *)

Theorem C41_encrypt : forall {R} (g : rng_ops R) fuel st pk msg,
  rng_ok g -> wf_pub pk -> usable_key pk ->
  ((length msg + 11 <= key_size pk)%nat ->
   padding_fails g fuel st (key_size pk - length msg - 3) ->
   public_encrypt g fuel st pk PadPkcs1v15 msg = Err Rng) /\
  (forall hd hm label st', (0 < h_size hm)%nat -> Z.of_nat (length (label_bytes label)) < 2 ^ 61 ->
   (length msg + 2 * h_size hd + 2 <= key_size pk)%nat ->
   rng_fill g st (h_size hd) = (None, st') ->
   public_encrypt g fuel st pk (PadOaep (mkOaep (digest_new hd) (digest_new hm) label)) msg = Err Rng).
Proof. exact @c41_encrypt. Qed.

Theorem C41_decrypt : forall {R} (g : rng_ops R) fuel st k ct,
  rng_ok g -> good_priv k -> os2ip ct < uval (pk_n (sk_pub k)) ->
  length ct = key_size (sk_pub k) ->
  blinding_fails g (uval (pk_n (sk_pub k))) (Some st) fuel ->
  (usable_key (sk_pub k) -> private_decrypt_blinded g fuel st k PadPkcs1v15 ct = Err Rng) /\
  (forall o, private_decrypt_blinded g fuel st k (PadOaep o) ct = Err Rng).
Proof. exact @c41_decrypt. Qed.

Example C41_case :
  padding_fails dead_rng 3 tt 8 /\ blinding_fails dead_rng (uval n91) (Some tt) 3 /\
  public_encrypt dead_rng 3 tt pub91 PadPkcs1v15 [x41] = Err Rng.
Proof.
  split; [left; exists tt; reflexivity|]. split; [|vm_compute; reflexivity].
  exists 0%nat. split; [lia|]. eapply fails_now. reflexivity.
Qed.

Print Assumptions C01_round_trip.
Print Assumptions C01_no_wrong_plaintext.
Print Assumptions C02_round_trip.
Print Assumptions C02_small_block_refuted.
Print Assumptions C03_block_exact.
Print Assumptions C03_small_blocks.
Print Assumptions C03_decrypt_exact.
Print Assumptions C04_label_binding.
Print Assumptions C05_decrypt_exact.
Print Assumptions C06_pad_exact.
Print Assumptions C06_pad_cases.
Print Assumptions C19_oaep_strict.
Print Assumptions C19_oaep_digest_strict.
Print Assumptions C19_pkcs1_value_only.
Print Assumptions C19_pkcs1_length_refuted.
Print Assumptions C23_oaep_encode.
Print Assumptions C23_oaep_decode.
Print Assumptions C23_oaep_encrypt.
Print Assumptions C23_oaep_decrypt.
Print Assumptions C40_pkcs1_encrypt.
Print Assumptions C40_oaep_encrypt.
Print Assumptions C41_encrypt.
Print Assumptions C41_decrypt.
