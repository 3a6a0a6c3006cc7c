(** The crate built without overflow checks and debug assertions (the release profile):
    every function of the model whose checked build can panic for either reason, again.

    Machine arithmetic wraps around; debug assertions are not evaluated.  For operands of
    unequal precisions, on which the dependency's own debug assertions fail, the result is
    left open ([unchecked]).  All other definitions are shared with the checked model; the
    citations are those of the copied definitions. *)
From Coq Require Import String ZArith List Bool.
From Coq Require Import Init.Byte.
From Verif Require Import Base Bigint MHash MPad MMgf MPkcs1 MOaep MPss MRsa MGenerate MKey MApi MWrap MDer MEncoding MMisc SpecSerde MSerde.
Import ListNotations.
Local Open Scope string_scope.
Local Open Scope list_scope.
Local Open Scope Z_scope.

(** What the dependency does without its debug assertions on operands of unequal precisions:
    [inv_mod] (used in src/algorithms/rsa.rs:167, 330-334, 358-364, src/key.rs:523) and
    [BoxedMontyForm::new] (src/algorithms/rsa.rs:80-88, 222, 228-229, src/key.rs:428-432). *)
Record unchecked := mkUC {
  uc_inv : uint -> uint -> option uint;
  uc_mf : uint -> mparams -> mform
}.

Section Release.
Context (uc : unchecked).

(** * Operations *)

(** Base.v [usub] (src/algorithms/pad.rs:17, src/pss.rs:207): subtraction on usize wraps around. *)
Definition r_usub (a b : nat) : outcome nat :=
  Ok (if (b <=? a)%nat then (a - b)%nat else (a + Z.to_nat (2 ^ 64) - b)%nat).
(** MPss.v [usize_add] (src/algorithms/pss.rs:187) *)
Definition r_usize_add (a b : nat) : outcome nat :=
  Ok (if Z.of_nat (a + b) <? 2 ^ 64 then (a + b)%nat else (a + b - Z.to_nat (2 ^ 64))%nat).
(** MPkcs1.v [i32_sub], [u32_add], [u8_add] (src/algorithms/pkcs1v15.rs:112-116,
    src/algorithms/oaep.rs:246) *)
Definition r_i32_sub (a b : Z) : outcome Z := Ok (as_i32 (a - b)).
Definition r_u32_add (a b : Z) : outcome Z := Ok ((a + b) mod 2 ^ 32).
Definition r_u8_add (a b : Z) : outcome Z := Ok ((a + b) mod 256).
(** MPss.v [ff_shr] (src/algorithms/pss.rs:84, 161, 253, 308): the shift amount is taken modulo 8. *)
Definition r_ff_shr (n : nat) : outcome byte := Ok (z2b (Z.shiftr 255 (Z.of_nat n mod 8))).
(** MApi.v [len_bits_u32] (src/pkcs1v15.rs:129, src/pss.rs:109) *)
Definition r_len_bits_u32 (l : list byte) : outcome Z := Ok (((Z.of_nat (length l) mod 2 ^ 32) * 8) mod 2 ^ 32).
(** MEncoding.v [octets_bits] (src/encoding.rs:60-67, 91-96): the conversion to u32 still refuses. *)
Definition r_octets_bits (l : list byte) : outcome Z :=
  let n := Z.of_nat (length l) in
  let* _ := guard (n <? 2 ^ 32) ErrKeyMalformed in
  Ok ((8 * n) mod 2 ^ 32).
(** Bigint.v [uinv_mod], [mf_new] (src/algorithms/rsa.rs:78, 167) *)
Definition r_uinv_mod (a m : uint) : outcome (option uint) :=
  if uprec a =? uprec m then uinv_mod a m else Ok (uc_inv uc a m).
Definition r_mf_new (x : uint) (p : mparams) : outcome mform :=
  if uprec x =? mp_prec p then mf_new x p else Ok (uc_mf uc x p).

(** * MPad.v *)

(** src/algorithms/pad.rs:11-19 [left_pad] *)
Definition r_left_pad (input : list byte) (padded_len : nat) : outcome (list byte) :=
  if (padded_len <? length input)%nat then Err InvalidPadLen
  else
    let out := vec x00 padded_len in
    let* off := r_usub padded_len (length input) in
    copy_into out off padded_len input.

(** src/algorithms/pad.rs:25-28 [uint_to_be_pad] *)
Definition r_uint_to_be_pad (input : uint) (padded_len : nat) : outcome (list byte) :=
  let leading_zeros := Z.to_nat (uleading_zeros input / 8) in
  let* b := slice_from (to_be_bytes input) leading_zeros in
  r_left_pad b padded_len.

(** src/algorithms/pad.rs:34-41 [uint_to_zeroizing_be_pad] *)
Definition r_uint_to_zeroizing_be_pad (input : uint) (padded_len : nat) : outcome (list byte) :=
  let leading_zeros := Z.to_nat (uleading_zeros input / 8) in
  let* m := slice_from (to_be_bytes input) leading_zeros in
  r_left_pad m padded_len.

(** * MPkcs1.v *)

Section WithRng.
  Context {R : Type} (g : rng_ops R).

(** src/algorithms/pkcs1v15.rs:41-60 [pkcs1v15_encrypt_pad] *)
Definition r_pkcs1v15_encrypt_pad (fuel : nat) (r : R) (msg : list byte) (k : nat)
    : outcome (list byte) :=
    if (k <? length msg + 11)%nat then Err MessageTooLong
    else
      let em := vec x00 k in
      let* em := set_idx em 1 x02 in
      let* k1 := r_usub k (length msg) in
      let* k2 := r_usub k1 1 in
      let* w := r_usub k2 2 in
      let* (ps, _) := (non_zero_random_bytes g) fuel r w in
      let* em := copy_into em 2 k2 ps in
      let* em := set_idx em k2 x00 in
      copy_into em k1 k msg.
End WithRng.

(** src/algorithms/pkcs1v15.rs:85-118 [pkcs1_decrypt_inner] *)
Definition r_pkcs1_decrypt_inner (em : list byte) (k : nat) : outcome (bool * list byte * Z) :=
  if (k <? 11)%nat then Err Decryption
  else
    let* b0 := get_idx em 0 in
    let* b1 := get_idx em 1 in
    let first_byte_is_zero := byte_eqb b0 x00 in
    let second_byte_is_two := byte_eqb b1 x02 in
    let (looking, index) := find_zero (skipn 2 em) 2 true 0 in
    let* t := r_i32_sub 10 (as_i32 index) in
    let* t := r_i32_sub t 1 in
    let valid_ps := Z.land (Z.shiftr t 31) 1 =? 1 in
    let valid := first_byte_is_zero && second_byte_is_two && negb looking && valid_ps in
    let* index1 := r_u32_add index 1 in
    let index := if valid then index1 else 0 in
    Ok (valid, em, index).

(** src/algorithms/pkcs1v15.rs:70-77 [pkcs1v15_encrypt_unpad] *)
Definition r_pkcs1v15_encrypt_unpad (em : list byte) (k : nat) : outcome (list byte) :=
  let* (valid, out, index) := r_pkcs1_decrypt_inner em k in
  if valid then slice_from out (Z.to_nat index) else Err Decryption.

(** src/algorithms/pkcs1v15.rs:121-137 [pkcs1v15_sign_pad] *)
Definition r_pkcs1v15_sign_pad (prefix hashed : list byte) (k : nat) : outcome (list byte) :=
  let hash_len := length hashed in
  let t_len := (length prefix + length hashed)%nat in
  if (k <? t_len + 11)%nat then Err MessageTooLong
  else
    let em := vec xff k in
    let* em := set_idx em 0 x00 in
    let* em := set_idx em 1 x01 in
    let* a := r_usub k t_len in
    let* a1 := r_usub a 1 in
    let* b := r_usub k hash_len in
    let* em := set_idx em a1 x00 in
    let* em := copy_into em a b prefix in
    copy_into em b k hashed.

(** src/algorithms/pkcs1v15.rs:140-163 [pkcs1v15_sign_unpad] *)
Definition r_pkcs1v15_sign_unpad (prefix hashed em : list byte) (k : nat) : outcome unit :=
  let hash_len := length hashed in
  let t_len := (length prefix + length hashed)%nat in
  if (k <? t_len + 11)%nat then Err Verification
  else
    let* b0 := get_idx em 0 in
    let* b1 := get_idx em 1 in
    let* b := r_usub k hash_len in
    let* a := r_usub k t_len in
    let* a1 := r_usub a 1 in
    let* h := slice em b k in
    let* p := slice em a b in
    let* sep := get_idx em a1 in
    let* psl := r_usub a 3 in
    let ok := byte_eqb b0 x00 && byte_eqb b1 x01 && bytes_eqb h hashed
              && bytes_eqb p prefix && byte_eqb sep x00 in
    let ok := fold_left (fun ok el => ok && byte_eqb el xff) (firstn psl (skipn 2 em)) ok in
    if ok then Ok tt else Err Verification.

(** src/algorithms/pkcs1v15.rs:167-185 [pkcs1v15_generate_prefix] *)
Definition r_pkcs1v15_generate_prefix (oid : list byte) (output_size : nat) : outcome (list byte) :=
  let oid_len := Z.of_nat (length oid) mod 256 in
  let digest_len := Z.of_nat output_size mod 256 in
  let* a := r_u8_add oid_len 8 in
  let* a := r_u8_add a digest_len in
  let* b := r_u8_add oid_len 4 in
  let v := [x30; z2b a; x30; z2b b; x06; z2b oid_len] in
  Ok ((v ++ oid) ++ [x05; x00; x04; z2b digest_len]).

(** * MOaep.v *)

Section WithRng.
  Context {R : Type} (g : rng_ops R).

(** src/algorithms/oaep.rs:22-50 [oaep_encrypt_internal] *)
Definition r_oaep_encrypt_internal (r : R) (msg p_hash : list byte) (h_size k : nat)
             (mgf : list byte -> list byte -> outcome (list byte * list byte))
    : outcome (list byte) :=
    if (k <? length msg + 2 * h_size + 2)%nat then Err MessageTooLong
    else
      let em := vec x00 k in
      let* (head, payload) := split_at em 1 in
      let* (seed, db) := split_at payload h_size in
      match rng_fill g r (length seed) with
      | (None, _) => Err Rng
      | (Some seed, _) =>
          let* db_len := r_usub k h_size in
          let* db_len := r_usub db_len 1 in
          let* db := copy_into db 0 h_size p_hash in
          let* pos := r_usub db_len (length msg) in
          let* pos1 := r_usub pos 1 in
          let* db := set_idx db pos1 x01 in
          let* db := copy_into db pos (length db) msg in
          let* (seed, db) := mgf seed db in
          Ok (head ++ seed ++ db)
      end.

(** src/algorithms/oaep.rs:60-82 [oaep_encrypt] *)
Definition r_oaep_encrypt (r : R) (msg : list byte) (dg mgf_digest : digest)
             (label : option (list byte)) (k : nat) : outcome (list byte) :=
    let h_size := digest_output_size dg in
    let label := label_bytes label in
    if MAX_LABEL_LEN <=? Z.of_nat (length label) then Err LabelTooLong
    else
      let dg := digest_update dg label in
      let (p_hash, _) := digest_finalize_reset dg in
      r_oaep_encrypt_internal r msg p_hash h_size k (fun seed db =>
        let* (db, md) := mgf1_xor db mgf_digest seed in
        let* (seed, _) := mgf1_xor seed md db in
        Ok (seed, db)).

(** src/algorithms/oaep.rs:92-116 [oaep_encrypt_digest] *)
Definition r_oaep_encrypt_digest (hd hm : hashfn) (r : R) (msg : list byte)
             (label : option (list byte)) (k : nat) : outcome (list byte) :=
    let hsize := h_size hd in
    let label := label_bytes label in
    if MAX_LABEL_LEN <=? Z.of_nat (length label) then Err LabelTooLong
    else
      let p_hash := digest_oneshot hd label in
      r_oaep_encrypt_internal r msg p_hash hsize k (fun seed db =>
        let* (db, md) := mgf1_xor_digest db (digest_new hm) seed in
        let* (seed, _) := mgf1_xor_digest seed md db in
        Ok (seed, db)).
End WithRng.

(** src/algorithms/oaep.rs:202-249 [oaep_decrypt_inner] *)
Definition r_oaep_decrypt_inner (em : list byte) (h_size : nat) (expected_p_hash : list byte)
           (k : nat) (mgf : list byte -> list byte -> outcome (list byte * list byte))
  : outcome (list byte * Z * bool) :=
  if (k <? 11)%nat then Err Decryption
  else if (k <? h_size * 2 + 2)%nat then Err Decryption
  else
    let* b0 := get_idx em 0 in
    let first_byte_is_zero := byte_eqb b0 x00 in
    let* (head, payload) := split_at em 1 in
    let* (seed, db) := split_at payload h_size in
    let* (seed, db) := mgf seed db in
    let* hh := slice db 0 h_size in
    let hash_are_equal := bytes_eqb hh expected_p_hash in
    let '(looking, index, nzb1) := oaep_scan (skipn h_size db) 0 true 0 false in
    let valid := first_byte_is_zero && hash_are_equal && negb nzb1 && negb looking in
    let* idx := r_u32_add index 2 in
    let* idx := r_u32_add idx (as_u32 (Z.of_nat (h_size * 2))) in
    Ok (head ++ seed ++ db, idx, valid).

(** src/algorithms/oaep.rs:129-158 [oaep_decrypt] *)
Definition r_oaep_decrypt (em : list byte) (dg mgf_digest : digest)
           (label : option (list byte)) (k : nat) : outcome (list byte) :=
  let h_size := digest_output_size dg in
  let label := label_bytes label in
  if MAX_LABEL_LEN <=? Z.of_nat (length label) then Err Decryption
  else
    let dg := digest_update dg label in
    let (expected_p_hash, _) := digest_finalize_reset dg in
    let* (out, index, valid) :=
      r_oaep_decrypt_inner em h_size expected_p_hash k (fun seed db =>
        let* (seed, md) := mgf1_xor seed mgf_digest db in
        let* (db, _) := mgf1_xor db md seed in
        Ok (seed, db)) in
    if valid then slice_from out (Z.to_nat index) else Err Decryption.

(** src/algorithms/oaep.rs:171-197 [oaep_decrypt_digest] *)
Definition r_oaep_decrypt_digest (hd hm : hashfn) (em : list byte)
           (label : option (list byte)) (k : nat) : outcome (list byte) :=
  let hsize := h_size hd in
  let label := label_bytes label in
  if MAX_LABEL_LEN <=? Z.of_nat (length label) then Err LabelTooLong
  else
    let expected_p_hash := digest_oneshot hd label in
    let* (out, index, valid) :=
      r_oaep_decrypt_inner em hsize expected_p_hash k (fun seed db =>
        let* (seed, md) := mgf1_xor_digest seed (digest_new hm) db in
        let* (db, _) := mgf1_xor_digest db md seed in
        Ok (seed, db)) in
    if valid then slice_from out (Z.to_nat index) else Err Decryption.

(** * MPss.v *)

(** src/algorithms/pss.rs:19-90 [emsa_pss_encode] *)
Definition r_emsa_pss_encode (m_hash : list byte) (em_bits : nat) (salt : list byte)
           (hash : digest) : outcome (list byte * digest) :=
  let h_len := digest_output_size hash in
  let s_len := length salt in
  let em_len := div_ceil8 em_bits in
  if negb (length m_hash =? h_len)%nat then Err InputNotHashed
  else if (em_len <? h_len + s_len + 2)%nat then Err Internal
  else
    let em := vec x00 em_len in
    let* a := r_usub em_len h_len in
    let* a := r_usub a 1 in
    let* (db, h) := split_at em a in
    let* hl := r_usub em_len 1 in
    let* hl := r_usub hl (length db) in
    let* (h, tail) := split_at h hl in
    let hash := digest_update hash (vec x00 8) in
    let hash := digest_update hash m_hash in
    let hash := digest_update hash salt in
    let (hashed, hash) := digest_finalize_reset hash in
    let* h := copy_into h 0 (length h) hashed in
    let* b := r_usub em_len s_len in
    let* b := r_usub b h_len in
    let* b1 := r_usub b 2 in
    let* db := set_idx db b1 x01 in
    let* b2 := r_usub b 1 in
    let* db := copy_into db b2 (length db) salt in
    let* (db, hash) := mgf1_xor db hash h in
    let* sh := r_usub (8 * em_len) em_bits in
    let* mask := r_ff_shr sh in
    let* d0 := get_idx db 0 in
    let* db := set_idx db 0 (band d0 mask) in
    let em := db ++ h ++ tail in
    let* last := r_usub em_len 1 in
    let* em := set_idx em last xbc in
    Ok (em, hash).

(** src/algorithms/pss.rs:92-167 [emsa_pss_encode_digest] *)
Definition r_emsa_pss_encode_digest (hd : hashfn) (m_hash : list byte) (em_bits : nat)
           (salt : list byte) : outcome (list byte) :=
  let h_len := h_size hd in
  let s_len := length salt in
  let em_len := div_ceil8 em_bits in
  if negb (length m_hash =? h_len)%nat then Err InputNotHashed
  else if (em_len <? h_len + s_len + 2)%nat then Err Internal
  else
    let em := vec x00 em_len in
    let* a := r_usub em_len h_len in
    let* a := r_usub a 1 in
    let* (db, h) := split_at em a in
    let* hl := r_usub em_len 1 in
    let* hl := r_usub hl (length db) in
    let* (h, tail) := split_at h hl in
    let hash := digest_new hd in
    let hash := digest_update hash (vec x00 8) in
    let hash := digest_update hash m_hash in
    let hash := digest_update hash salt in
    let (hashed, hash) := digest_finalize_reset hash in
    let* h := copy_into h 0 (length h) hashed in
    let* b := r_usub em_len s_len in
    let* b := r_usub b h_len in
    let* b1 := r_usub b 2 in
    let* db := set_idx db b1 x01 in
    let* b2 := r_usub b 1 in
    let* db := copy_into db b2 (length db) salt in
    let* (db, _) := mgf1_xor_digest db hash h in
    let* sh := r_usub (8 * em_len) em_bits in
    let* mask := r_ff_shr sh in
    let* d0 := get_idx db 0 in
    let* db := set_idx db 0 (band d0 mask) in
    let em := db ++ h ++ tail in
    let* last := r_usub em_len 1 in
    set_idx em last xbc.

(** src/algorithms/pss.rs:169-215 [emsa_pss_verify_pre] *)
Definition r_emsa_pss_verify_pre (m_hash em : list byte) (em_bits s_len h_len : nat)
  : outcome (list byte * list byte) :=
  if negb (length m_hash =? h_len)%nat then Err Verification
  else
    let em_len := length em in
    let* need := r_usize_add (h_len + s_len) 2 in
    if (em_len <? need)%nat then Err Verification
    else
      let* last := r_usub (length em) 1 in
      let* l := get_idx em last in
      if negb (byte_eqb l xbc) then Err Verification
      else
        let* a := r_usub em_len h_len in
        let* a := r_usub a 1 in
        let* (db, h) := split_at em a in
        let* h := slice h 0 h_len in
        let* sh := r_usub (8 * em_len) em_bits in
        let* sh := r_usub 8 sh in
        let* d0 := get_idx db 0 in
        if negb (byte_eqb (band d0 (ff_checked_shl sh)) x00) then Err Verification
        else Ok (db, h).

(** src/algorithms/pss.rs:217-228 [emsa_pss_verify_salt] *)
Definition r_emsa_pss_verify_salt (db : list byte) (em_len s_len h_len : nat) : outcome bool :=
  let* a := r_usub em_len h_len in
  let* a := r_usub a s_len in
  let* a := r_usub a 2 in
  let* (zeroes, rest) := split_at db a in
  let valid := fold_left (fun a e => a && byte_eqb e x00) zeroes true in
  let* r0 := get_idx rest 0 in
  Ok (valid && byte_eqb r0 x01).

(** src/algorithms/pss.rs:230-279 [emsa_pss_verify] *)
Definition r_emsa_pss_verify (m_hash em : list byte) (s_len : nat) (hash : digest)
           (key_bits : nat) : outcome unit :=
  let* em_bits := r_usub key_bits 1 in
  let em_len := div_ceil8 em_bits in
  let key_len := div_ceil8 key_bits in
  let h_len := digest_output_size hash in
  let* off := r_usub key_len em_len in
  let* em := slice_from em off in
  let* (db, h) := r_emsa_pss_verify_pre m_hash em em_bits s_len h_len in
  let* (db, hash) := mgf1_xor db hash h in
  let* sh := r_usub (8 * em_len) em_bits in
  let* mask := r_ff_shr sh in
  let* d0 := get_idx db 0 in
  let* db := set_idx db 0 (band d0 mask) in
  let* salt_valid := r_emsa_pss_verify_salt db em_len s_len h_len in
  let* so := r_usub (length db) s_len in
  let* salt := slice_from db so in
  let hash := digest_update hash (vec x00 8) in
  let hash := digest_update hash m_hash in
  let hash := digest_update hash salt in
  let (h0, _) := digest_finalize_reset hash in
  if salt_valid && bytes_eqb h0 h then Ok tt else Err Verification.

(** src/algorithms/pss.rs:281-334 [emsa_pss_verify_digest] *)
Definition r_emsa_pss_verify_digest (hd : hashfn) (m_hash em : list byte) (s_len key_bits : nat)
  : outcome unit :=
  let* em_bits := r_usub key_bits 1 in
  let em_len := div_ceil8 em_bits in
  let key_len := div_ceil8 key_bits in
  let h_len := h_size hd in
  let* off := r_usub key_len em_len in
  let* em := slice_from em off in
  let* (db, h) := r_emsa_pss_verify_pre m_hash em em_bits s_len h_len in
  let hash := digest_new hd in
  let* (db, hash) := mgf1_xor_digest db hash h in
  let* sh := r_usub (8 * em_len) em_bits in
  let* mask := r_ff_shr sh in
  let* d0 := get_idx db 0 in
  let* db := set_idx db 0 (band d0 mask) in
  let* salt_valid := r_emsa_pss_verify_salt db em_len s_len h_len in
  let* so := r_usub (length db) s_len in
  let* salt := slice_from db so in
  let hash := digest_update hash (vec x00 8) in
  let hash := digest_update hash m_hash in
  let hash := digest_update hash salt in
  let (h0, _) := digest_finalize_reset hash in
  if salt_valid && bytes_eqb h0 h then Ok tt else Err Verification.

(** * MRsa.v *)

(** src/algorithms/rsa.rs:211-223 [reduce_vartime] *)
Definition r_reduce_vartime (n : uint) (p : mparams) : outcome mform :=
  let bits_precision := uprec (mp_modulus p) in
  let* n := (if uprec n <? bits_precision then widen n bits_precision
             else if uprec n =? bits_precision then Ok n
             else shorten n bits_precision) in
  let* r := urem n (mp_modulus p) in
  let* r := widen r (mp_prec p) in
  r_mf_new r p.

(** src/algorithms/rsa.rs:206-209 [pow_mod_params] *)
Definition r_pow_mod_params (base exp : uint) (n_params : mparams) : outcome uint :=
  let* b := r_reduce_vartime base n_params in
  Ok (mf_retrieve (mf_pow b exp)).

(** src/algorithms/rsa.rs:226-231 [mul_mod_params] *)
Definition r_mul_mod_params (lhs rhs : uint) (n_params : mparams) : outcome uint :=
  let* l := r_mf_new lhs n_params in
  let* r := r_mf_new rhs n_params in
  Ok (mf_retrieve (mf_mul l r)).

(** src/algorithms/rsa.rs:20-23 [rsa_encrypt] *)
Definition r_rsa_encrypt (key : pubkey) (m : uint) : outcome uint :=
  r_pow_mod_params m (pk_e key) (pk_params key).

(** src/algorithms/rsa.rs:188-203 [unblind] *)
Definition r_unblind (m unblinder : uint) (n_params : mparams) : outcome uint :=
  r_mul_mod_params m unblinder n_params.

Section WithRng.
  Context {R : Type} (g : rng_ops R).

(** src/algorithms/rsa.rs:158-168 [blind_loop] *)
Fixpoint r_blind_loop (fuel : nat) (st : R) (key : pubkey) : outcome (uint * uint * R) :=
    match fuel with
    | O => OutOfFuel
    | S fuel' =>
        match rng_mod g st (uval (pk_n key)) with
        | (None, _) => Err Rng
        | (Some v, st') =>
            let r := mkU v (uprec (pk_n key)) in
            let r := if uis_zero r then u_one_with (n_bits_precision key) else r in
            let* ir := r_uinv_mod r (pk_n key) in
            match ir with
            | Some ir => Ok (r, ir, st')
            | None => r_blind_loop fuel' st' key
            end
        end
    end.

(** src/algorithms/rsa.rs:145-185 [blind] *)
Definition r_blind (fuel : nat) (st : R) (key : pubkey) (c : uint) (n_params : mparams)
    : outcome (uint * uint) :=
    let* (r, ir, _) := r_blind_loop fuel st key in
    let* rpowe := r_pow_mod_params r (pk_e key) n_params in
    let* blinded := r_mul_mod_params c rpowe n_params in
    Ok (blinded, ir).

(** src/algorithms/rsa.rs:71-96 [crt_pow] *)
Definition r_crt_pow (c : uint) (pc : precomp) (q : uint) : outcome uint :=
    let* cp := r_mf_new c (pc_p_params pc) in
    let m1 := mf_pow cp (pc_dp pc) in
    let* cq := r_mf_new c (pc_q_params pc) in
    let m2 := mf_retrieve (mf_pow cq (pc_dq pc)) in
    let* m2r := r_mf_new m2 (pc_p_params pc) in
    let m1 := mf_sub m1 m2r in
    let m := mf_retrieve (mf_mul (pc_qinv pc) m1) in
    let m := uwrapping_mul m q in
    Ok (uwrapping_add m m2).

(** src/algorithms/rsa.rs:34-114 [rsa_decrypt] *)
Definition r_rsa_decrypt (fuel : nat) (rng : option R) (priv_key : privkey) (c : uint)
    : outcome uint :=
    let n := pk_n (sk_pub priv_key) in
    let d := sk_d priv_key in
    if uleb n c then Err Decryption
    else
      let n_params := pk_params (sk_pub priv_key) in
      let bits := uprec d in
      let* (c, ir) :=
        match rng with
        | Some st =>
            let* (blinded, unblinder) := r_blind fuel st (sk_pub priv_key) c n_params in
            let* c := widen blinded bits in
            Ok (c, Some unblinder)
        | None => let* c := widen c bits in Ok (c, None)
        end in
      let is_multiprime := (2 <? length (sk_primes priv_key))%nat in
      let* m :=
        match sk_pre priv_key with
        | Some pc =>
            if is_multiprime then r_pow_mod_params c d n_params
            else
              let* _p := get_idx (sk_primes priv_key) 0 in
              let* q := get_idx (sk_primes priv_key) 1 in
              r_crt_pow c pc q
        | None => r_pow_mod_params c d n_params
        end in
      let* m := shorten m (mp_prec n_params) in
      match ir with
      | Some ir => r_unblind m ir n_params
      | None => Ok m
      end.

(** src/algorithms/rsa.rs:126-142 [rsa_decrypt_and_check] *)
Definition r_rsa_decrypt_and_check (fuel : nat) (priv_key : privkey) (rng : option R) (c : uint)
    : outcome uint :=
    let* m := r_rsa_decrypt fuel rng priv_key c in
    let* check := r_rsa_encrypt (sk_pub priv_key) m in
    if negb (ueqb c check) then Err Internal else Ok m.
End WithRng.

(** src/algorithms/rsa.rs:315-336 [compute_private_exponent_euler_totient] *)
Definition r_compute_private_exponent_euler_totient (primes : list uint) (exp : uint)
  : outcome uint :=
  if (length primes <? 2)%nat then Err InvalidPrime
  else
    let* p0 := get_idx primes 0 in
    let bits := uprec p0 in
    let* totient := totient_loop primes (u_one_with bits) in
    let* exp := widen exp (uprec totient) in
    let* r := r_uinv_mod exp totient in
    match r with
    | Some res => Ok res
    | None => Err InvalidPrime
    end.

(** src/algorithms/rsa.rs:347-366 [compute_private_exponent_carmicheal] *)
Definition r_compute_private_exponent_carmicheal (p q exp : uint) : outcome uint :=
  let one := u_of_u64 1 in
  let* p1 := usub_big p one in
  let* q1 := usub_big q one in
  let gcd := ugcd p1 q1 in
  let* quo := udiv p1 gcd in
  let lcm := umul quo q1 in
  let* exp := widen exp (uprec lcm) in
  let* r := r_uinv_mod exp lcm in
  match r with
  | Some d => Ok d
  | None => Err InvalidPrime
  end.

(** * MGenerate.v *)

Section WithGen.
  Context {R : Type} (gp : prime_gen R).

(** src/algorithms/generate.rs:84-88 [draw_primes] *)
Fixpoint r_draw_primes (left : nat) (st : R) (todo : Z) : outcome (list uint * R) :=
    match left with
    | O => Ok ([], st)
    | S left' =>
        let bits := (todo / Z.of_nat left) mod 2 ^ 32 in
        let* (prime, st) := (generate_prime_with_rng gp) st bits in
        let left_over := if ubits prime <=? todo then todo - ubits prime else todo - ubits prime + 2 ^ 64 in
        let* (rest, st) := r_draw_primes left' st left_over in
        Ok (prime :: rest, st)
    end.

(** src/algorithms/generate.rs:67-113 [generate_loop] *)
Fixpoint r_generate_loop (fuel : nat) (st : R) (nprimes : nat) (bit_size : Z) (exp : uint)
    : outcome key_components :=
    match fuel with
    | O => OutOfFuel
    | S fuel' =>
        let todo := if (7 <=? nprimes)%nat
                    then bit_size + (Z.of_nat nprimes - 2) / 5 else bit_size in
        let* (primes, st) := r_draw_primes nprimes st todo in
        if has_duplicate primes then r_generate_loop fuel' st nprimes bit_size exp
        else
          let* n := compute_modulus primes in
          if negb (ubits n =? bit_size) then r_generate_loop fuel' st nprimes bit_size exp
          else
            match r_compute_private_exponent_euler_totient primes exp with
            | Ok d => Ok (mkKC n exp d primes)
            | Err _ => r_generate_loop fuel' st nprimes bit_size exp
            | Panic => Panic
            | OutOfFuel => OutOfFuel
            end
    end.

(** src/algorithms/generate.rs:34-121 [generate_multi_prime_key_with_exp] *)
Definition r_generate_multi_prime_key_with_exp (fuel : nat) (st : R) (nprimes : nat)
             (bit_size : Z) (exp : uint) : outcome key_components :=
    if (nprimes <? 2)%nat then Err NprimesTooSmall
    else if (bit_size <? 64) && too_few_primes bit_size (Z.of_nat nprimes)
    then Err TooFewPrimes
    else r_generate_loop fuel st nprimes bit_size exp.
End WithGen.

(** * MKey.v *)

(** src/key.rs:405-452 [precompute] *)
Definition r_precompute (k : privkey) : outcome privkey :=
  match sk_pre k with
  | Some _ => Ok k
  | None =>
      let d := sk_d k in
      let bits := uprec d in
      let* p0 := get_idx (sk_primes k) 0 in
      let* p := widen p0 bits in
      let* p1 := get_idx (sk_primes k) 1 in
      let* q := widen p1 bits in
      let* _ := guard (uis_odd p) InvalidPrime in
      let p_params := mkMP p in
      let* _ := guard (uis_odd q) InvalidPrime in
      let q_params := mkMP q in
      let x := uwrapping_sub p (u_of_u64 1) in
      let* _ := guard (negb (uis_zero x)) InvalidPrime in
      let* dp := urem d x in
      let x := uwrapping_sub q (u_of_u64 1) in
      let* _ := guard (negb (uis_zero x)) InvalidPrime in
      let* dq := urem d x in
      let* qm := r_mf_new q p_params in
      match mf_invert qm with
      | None => Err InvalidPrime
      | Some qinv =>
          Ok (mkPriv (sk_pub k) (sk_d k) (sk_primes k)
                     (Some (mkPre dp dq qinv p_params q_params)))
      end
  end.

(** src/key.rs:460-465 [crt_coefficient] *)
Definition r_crt_coefficient (k : privkey) : outcome (option uint) :=
  let* p := get_idx (sk_primes k) 0 in
  let* q := get_idx (sk_primes k) 1 in
  r_uinv_mod q p.

(** src/key.rs:343 [try_precompute] *)
Definition r_try_precompute (k : privkey) : outcome privkey :=
  match r_precompute k with
  | Err _ => Ok k
  | o => o
  end.

(** src/key.rs:305-346 [from_components] *)
Definition r_from_components (n e d : uint) (primes : list uint) : outcome privkey :=
  let n_params := mkMP n in
  let* _ := guard (negb (uis_zero n)) InvalidModulus in
  let* primes :=
    match primes with
    | [] => let* (p, q) := recover_primes n e d in Ok [p; q]
    | [_] => Err NprimesTooSmall
    | _ => Ok primes
    end in
  let k := mkPriv (mkPub n e n_params) d primes None in
  let* _ := validate k in
  r_try_precompute k.

(** src/key.rs:354-368 [from_p_q] *)
Definition r_from_p_q (p q public_exponent : uint) : outcome privkey :=
  if ueqb p q then Err InvalidPrime
  else
    let* d := r_compute_private_exponent_carmicheal p q public_exponent in
    let* n := compute_modulus [p; q] in
    r_from_components n public_exponent d [p; q].

(** src/key.rs:373-394 [from_primes] *)
Definition r_from_primes (primes : list uint) (public_exponent : uint) : outcome privkey :=
  if (length primes <? 2)%nat then Err NprimesTooSmall
  else if has_duplicate primes then Err InvalidPrime
  else
    let* n := compute_modulus primes in
    let* d := r_compute_private_exponent_euler_totient primes public_exponent in
    r_from_components n public_exponent d primes.

Section WithGen.
  Context {R : Type} (gp : prime_gen R).

(** src/key.rs:283-290 [private_new_with_exp] *)
Definition r_private_new_with_exp (fuel : nat) (st : R) (bit_size : Z) (exp : uint)
    : outcome privkey :=
    let* c := r_generate_multi_prime_key_with_exp gp fuel st 2 bit_size exp in
    r_from_components (kc_n c) (kc_e c) (kc_d c) (kc_primes c).

(** src/key.rs:275-277 [private_new] *)
Definition r_private_new (fuel : nat) (st : R) (bit_size : Z) : outcome privkey :=
    r_private_new_with_exp fuel st bit_size (u_of_u64 EXP).
End WithGen.

(** * MApi.v *)

(** as in MApi.v [sig_from_bytes] (src/pkcs1v15.rs:129, src/pss.rs:109) *)
Definition r_sig_from_bytes (sig : list byte) : outcome uint :=
  let* bits := r_len_bits_u32 sig in
  from_be_slice sig bits.

Section WithRng.
  Context {R : Type} (g : rng_ops R).

(** src/pkcs1v15.rs:138-148 [pkcs1v15_encrypt] *)
Definition r_pkcs1v15_encrypt (fuel : nat) (rng : R) (pub_key : pubkey) (msg : list byte)
    : outcome (list byte) :=
    let* _ := check_public pub_key in
    let* em := r_pkcs1v15_encrypt_pad g fuel rng msg (key_size pub_key) in
    let* int := from_be_slice em (n_bits_precision pub_key) in
    let* c := r_rsa_encrypt pub_key int in
    r_uint_to_be_pad c (key_size pub_key).

(** src/pkcs1v15.rs:160-172 [pkcs1v15_decrypt] *)
Definition r_pkcs1v15_decrypt (fuel : nat) (rng : option R) (priv_key : privkey)
             (ciphertext : list byte) : outcome (list byte) :=
    let pk := sk_pub priv_key in
    let* _ := check_public pk in
    let* c := from_be_slice ciphertext (n_bits_precision pk) in
    let* em := r_rsa_decrypt_and_check g fuel priv_key rng c in
    let* em := r_uint_to_zeroizing_be_pad em (key_size pk) in
    r_pkcs1v15_encrypt_unpad em (key_size pk).

(** src/pkcs1v15.rs:188-198 [pkcs1v15_sign] *)
Definition r_pkcs1v15_sign (fuel : nat) (rng : option R) (priv_key : privkey)
             (prefix hashed : list byte) : outcome (list byte) :=
    let pk := sk_pub priv_key in
    let* em := r_pkcs1v15_sign_pad prefix hashed (key_size pk) in
    let* em := from_be_slice em (n_bits_precision pk) in
    let* s := r_rsa_decrypt_and_check g fuel priv_key rng em in
    r_uint_to_zeroizing_be_pad s (key_size pk).

(** src/oaep.rs:189-203 [oaep_api_encrypt] *)
Definition r_oaep_api_encrypt (rng : R) (pub_key : pubkey) (msg : list byte)
             (dg mgf_digest : digest) (label : option (list byte)) : outcome (list byte) :=
    let* _ := check_public pub_key in
    let* em := r_oaep_encrypt g rng msg dg mgf_digest label (key_size pub_key) in
    let* int := from_be_slice em (n_bits_precision pub_key) in
    let* c := r_rsa_encrypt pub_key int in
    r_uint_to_be_pad c (key_size pub_key).

(** src/oaep.rs:212-224 [oaep_api_encrypt_digest] *)
Definition r_oaep_api_encrypt_digest (hd hm : hashfn) (rng : R) (pub_key : pubkey)
             (msg : list byte) (label : option (list byte)) : outcome (list byte) :=
    let* _ := check_public pub_key in
    let* em := r_oaep_encrypt_digest g hd hm rng msg label (key_size pub_key) in
    let* int := from_be_slice em (n_bits_precision pub_key) in
    let* c := r_rsa_encrypt pub_key int in
    r_uint_to_be_pad c (key_size pub_key).

(** src/oaep.rs:239-257 [oaep_api_decrypt] *)
Definition r_oaep_api_decrypt (fuel : nat) (rng : option R) (priv_key : privkey)
             (ciphertext : list byte) (dg mgf_digest : digest) (label : option (list byte))
    : outcome (list byte) :=
    let pk := sk_pub priv_key in
    if negb (length ciphertext =? key_size pk)%nat then Err Decryption
    else
      let* c := from_be_slice ciphertext (n_bits_precision pk) in
      let* em := r_rsa_decrypt_and_check g fuel priv_key rng c in
      let* em := r_uint_to_zeroizing_be_pad em (key_size pk) in
      r_oaep_decrypt em dg mgf_digest label (key_size pk).

(** src/oaep.rs:272-289 [oaep_api_decrypt_digest] *)
Definition r_oaep_api_decrypt_digest (hd hm : hashfn) (fuel : nat) (rng : option R)
             (priv_key : privkey) (ciphertext : list byte) (label : option (list byte))
    : outcome (list byte) :=
    let pk := sk_pub priv_key in
    let* _ := check_public pk in
    if negb (length ciphertext =? key_size pk)%nat then Err Decryption
    else
      let* c := from_be_slice ciphertext (n_bits_precision pk) in
      let* em := r_rsa_decrypt_and_check g fuel priv_key rng c in
      let* em := r_uint_to_zeroizing_be_pad em (key_size pk) in
      r_oaep_decrypt_digest hd hm em label (key_size pk).

(** src/pss.rs:200-214 [sign_pss_with_salt] *)
Definition r_sign_pss_with_salt (fuel : nat) (blind_rng : option R) (priv_key : privkey)
             (hashed salt : list byte) (dg : digest) : outcome (list byte) :=
    let pk := sk_pub priv_key in
    let* em_bits := r_usub (Z.to_nat (ubits (pk_n pk))) 1 in
    let* (em, _) := r_emsa_pss_encode hashed em_bits salt dg in
    let* em := from_be_slice em (n_bits_precision pk) in
    let* raw := r_rsa_decrypt_and_check g fuel priv_key blind_rng em in
    r_uint_to_zeroizing_be_pad raw (key_size pk).

(** src/pss.rs:216-230 [sign_pss_with_salt_digest] *)
Definition r_sign_pss_with_salt_digest (hd : hashfn) (fuel : nat) (blind_rng : option R)
             (priv_key : privkey) (hashed salt : list byte) : outcome (list byte) :=
    let pk := sk_pub priv_key in
    let* em_bits := r_usub (Z.to_nat (ubits (pk_n pk))) 1 in
    let* em := r_emsa_pss_encode_digest hd hashed em_bits salt in
    let* em := from_be_slice em (n_bits_precision pk) in
    let* raw := r_rsa_decrypt_and_check g fuel priv_key blind_rng em in
    r_uint_to_zeroizing_be_pad raw (key_size pk).

(** src/pss.rs:168-180 [pss_sign] *)
Definition r_pss_sign (fuel : nat) (rng : R) (blind : bool) (priv_key : privkey)
             (hashed : list byte) (salt_len : nat) (dg : digest) : outcome (list byte) :=
    match rng_fill g rng salt_len with
    | (None, _) => Err Rng
    | (Some salt, rng) =>
        r_sign_pss_with_salt fuel (if blind then Some rng else None) priv_key hashed salt dg
    end.

(** src/pss.rs:182-193 [pss_sign_digest] *)
Definition r_pss_sign_digest (hd : hashfn) (fuel : nat) (rng : R) (blind : bool)
             (priv_key : privkey) (hashed : list byte) (salt_len : nat)
    : outcome (list byte) :=
    match rng_fill g rng salt_len with
    | (None, _) => Err Rng
    | (Some salt, rng) =>
        r_sign_pss_with_salt_digest hd fuel (if blind then Some rng else None)
                                  priv_key hashed salt
    end.
End WithRng.

(** src/pkcs1v15.rs:202-211 [pkcs1v15_verify] *)
Definition r_pkcs1v15_verify (pub_key : pubkey) (prefix hashed : list byte) (sig : uint)
  : outcome unit :=
  if uleb (pk_n pub_key) sig || negb (uprec sig =? n_bits_precision pub_key)
  then Err Verification
  else
    let* m := r_rsa_encrypt pub_key sig in
    let* em := r_uint_to_be_pad m (key_size pub_key) in
    r_pkcs1v15_sign_unpad prefix hashed em (key_size pub_key).

(** src/pss.rs:127-142 [pss_verify] *)
Definition r_pss_verify (pub_key : pubkey) (hashed : list byte) (sig : uint) (sig_len : nat)
           (dg : digest) (salt_len : nat) : outcome unit :=
  if negb (sig_len =? key_size pub_key)%nat then Err Verification
  else
    let* raw := r_rsa_encrypt pub_key sig in
    let* em := r_uint_to_be_pad raw (key_size pub_key) in
    r_emsa_pss_verify hashed em salt_len dg (Z.to_nat (ubits (pk_n pub_key))).

(** src/pss.rs:144-161 [pss_verify_digest] *)
Definition r_pss_verify_digest (hd : hashfn) (pub_key : pubkey) (hashed : list byte)
           (sig : uint) (salt_len : nat) : outcome unit :=
  if uleb (pk_n pub_key) sig || negb (uprec sig =? n_bits_precision pub_key)
  then Err Verification
  else
    let* raw := r_rsa_encrypt pub_key sig in
    let* em := r_uint_to_be_pad raw (key_size pub_key) in
    r_emsa_pss_verify_digest hd hashed em salt_len (Z.to_nat (ubits (pk_n pub_key))).

(** as in MApi.v [pkcs1_sign_new] (src/pkcs1v15.rs:73-91) *)
Definition r_pkcs1_sign_new (oid : list byte) (d : hashfn) : outcome pkcs1_sign_params :=
  let* prefix := r_pkcs1v15_generate_prefix oid (h_size d) in
  Ok (mkP1S (Some (h_size d)) prefix).

Section WithRng2.
  Context {R : Type} (g : rng_ops R).

(** src/key.rs:190-197; src/pkcs1v15.rs:48-55; src/oaep.rs:154-168 [public_encrypt] *)
Definition r_public_encrypt (fuel : nat) (rng : R) (k : pubkey) (p : padding) (msg : list byte)
    : outcome (list byte) :=
    match p with
    | PadPkcs1v15 => r_pkcs1v15_encrypt g fuel rng k msg
    | PadOaep o => r_oaep_api_encrypt g rng k msg (oa_digest o) (oa_mgf o) (oa_label o)
    end.

(** src/pkcs1v15.rs:39-46; src/oaep.rs:138-152 [scheme_decrypt] *)
Definition r_scheme_decrypt (fuel : nat) (rng : option R) (k : privkey) (p : padding)
             (ct : list byte) : outcome (list byte) :=
    match p with
    | PadPkcs1v15 => r_pkcs1v15_decrypt g fuel rng k ct
    | PadOaep o => r_oaep_api_decrypt g fuel rng k ct (oa_digest o) (oa_mgf o) (oa_label o)
    end.

(** src/key.rs:507-509 [private_decrypt] *)
Definition r_private_decrypt (fuel : nat) (k : privkey) (p : padding) (ct : list byte)
    : outcome (list byte) := r_scheme_decrypt fuel None k p ct.

(** src/key.rs:514-521 [private_decrypt_blinded] *)
Definition r_private_decrypt_blinded (fuel : nat) (rng : R) (k : privkey) (p : padding)
             (ct : list byte) : outcome (list byte) := r_scheme_decrypt fuel (Some rng) k p ct.

(** src/pkcs1v15.rs:103-116; src/pss.rs:89-103 [scheme_sign] *)
Definition r_scheme_sign (fuel : nat) (rng : option R) (k : privkey) (s : sig_scheme)
             (hashed : list byte) : outcome (list byte) :=
    match s with
    | SigPkcs1v15 s =>
        let* _ := check_hash_len s hashed in
        r_pkcs1v15_sign g fuel rng k (p1_prefix s) hashed
    | SigPss s =>
        match rng with
        | None => Err InvalidPaddingScheme
        | Some rng =>
            r_pss_sign g fuel rng (ps_blinded s) k hashed (ps_salt_len s) (ps_digest s)
        end
    end.

(** src/key.rs:524-526 [private_sign] *)
Definition r_private_sign (fuel : nat) (k : privkey) (s : sig_scheme) (hashed : list byte)
    : outcome (list byte) := r_scheme_sign fuel None k s hashed.

(** src/key.rs:538-545 [private_sign_with_rng] *)
Definition r_private_sign_with_rng (fuel : nat) (rng : R) (k : privkey) (s : sig_scheme)
             (hashed : list byte) : outcome (list byte) :=
    r_scheme_sign fuel (Some rng) k s hashed.
End WithRng2.

(** src/key.rs:205-207; src/pkcs1v15.rs:118-131; src/pss.rs:105-114 [public_verify] *)
Definition r_public_verify (k : pubkey) (s : sig_scheme) (hashed sig : list byte) : outcome unit :=
  match s with
  | SigPkcs1v15 s =>
      let* _ := check_hash_len s hashed in
      let* su := r_sig_from_bytes sig in
      r_pkcs1v15_verify k (p1_prefix s) hashed su
  | SigPss s =>
      let* su := r_sig_from_bytes sig in
      r_pss_verify k hashed su (length sig) (ps_digest s) (ps_salt_len s)
  end.

(** * MWrap.v *)

(** src/pkcs1v15/signature.rs:33-47; src/pss/signature.rs:33-48 [signature_try_from] *)
Definition r_signature_try_from (bytes : list byte) : outcome signature :=
  let* inner := r_sig_from_bytes bytes in Ok (mkSig inner).

(** src/pkcs1v15/signing_key.rs:43-49 [p1sk_new] *)
Definition r_p1sk_new (hd : hashfn) (oid : list byte) (key : privkey) : outcome p1_signing_key :=
  let* prefix := r_pkcs1v15_generate_prefix oid (h_size hd) in
  Ok (mkP1SK key prefix).

(** src/pkcs1v15/verifying_key.rs:41-47, 162-169 [p1vk_new] *)
Definition r_p1vk_new (hd : hashfn) (oid : list byte) (key : pubkey) : outcome p1_verifying_key :=
  let* prefix := r_pkcs1v15_generate_prefix oid (h_size hd) in
  Ok (mkP1VK key prefix).

Section P1Sign.
  Context {R : Type} (g : rng_ops R).

(** src/pkcs1v15/signing_key.rs:119-123 [p1sk_sign_prehash] *)
Definition r_p1sk_sign_prehash (fuel : nat) (rng : option R) (k : p1_signing_key)
             (prehash : list byte) : outcome signature :=
    let* s := r_pkcs1v15_sign g fuel rng (p1sk_inner k) (p1sk_prefix k) prehash in
    r_signature_try_from s.

(** src/pkcs1v15/signing_key.rs:108-112 [p1sk_sign_digest] *)
Definition r_p1sk_sign_digest (fuel : nat) (rng : option R) (k : p1_signing_key) (d : digest)
    : outcome signature :=
    r_p1sk_sign_prehash fuel rng k (fst (digest_finalize_reset d)).

(** src/pkcs1v15/signing_key.rs:160-164 [p1sk_sign] *)
Definition r_p1sk_sign (hd : hashfn) (fuel : nat) (rng : option R) (k : p1_signing_key)
             (msg : list byte) : outcome signature :=
    r_p1sk_sign_prehash fuel rng k (digest_oneshot hd msg).
End P1Sign.

(** src/pkcs1v15/verifying_key.rs:97-99 [p1vk_verify_prehash] *)
Definition r_p1vk_verify_prehash (k : p1_verifying_key) (prehash : list byte) (s : signature)
  : outcome unit := r_pkcs1v15_verify (p1vk_inner k) (p1vk_prefix k) prehash (sg_inner s).

(** src/pkcs1v15/verifying_key.rs:82-90 [p1vk_verify_digest] *)
Definition r_p1vk_verify_digest (k : p1_verifying_key) (d : digest) (s : signature)
  : outcome unit := r_p1vk_verify_prehash k (fst (digest_finalize_reset d)) s.

(** src/pkcs1v15/verifying_key.rs:106-114 [p1vk_verify] *)
Definition r_p1vk_verify (hd : hashfn) (k : p1_verifying_key) (msg : list byte) (s : signature)
  : outcome unit := r_p1vk_verify_prehash k (digest_oneshot hd msg) s.

Section PssSign.
  Context {R : Type} (g : rng_ops R).

(** src/pss/signing_key.rs:125-133 [pssk_sign_prehash] *)
Definition r_pssk_sign_prehash (hd : hashfn) (fuel : nat) (rng : R) (k : pss_signing_key)
             (prehash : list byte) : outcome signature :=
    let* s := r_pss_sign_digest g hd fuel rng (pssk_blinded k) (pssk_inner k) prehash
                              (pssk_salt_len k) in
    r_signature_try_from s.

(** src/pss/signing_key.rs:97-105 [pssk_sign_digest] *)
Definition r_pssk_sign_digest (hd : hashfn) (fuel : nat) (rng : R) (k : pss_signing_key)
             (d : digest) : outcome signature :=
    r_pssk_sign_prehash hd fuel rng k (fst (digest_finalize_reset d)).

(** src/pss/signing_key.rs:112-118 [pssk_sign] *)
Definition r_pssk_sign (hd : hashfn) (fuel : nat) (rng : R) (k : pss_signing_key)
             (msg : list byte) : outcome signature :=
    if pssk_blinded k
    then r_pssk_sign_prehash hd fuel rng k (digest_oneshot hd msg)
    else r_pssk_sign_digest hd fuel rng k (digest_update (digest_new hd) msg).
End PssSign.

(** src/pss/verifying_key.rs:79-82, 64-72, 89-97 [psvk_verify_prehash] *)
Definition r_psvk_verify_prehash (hd : hashfn) (k : pss_verifying_key) (prehash : list byte)
           (s : signature) : outcome unit :=
  r_pss_verify_digest hd (psvk_inner k) prehash (sg_inner s) (psvk_salt_len k).

(** src/pss/verifying_key.rs:79-82, 64-72, 89-97 [psvk_verify_digest] *)
Definition r_psvk_verify_digest (hd : hashfn) (k : pss_verifying_key) (d : digest)
           (s : signature) : outcome unit :=
  r_psvk_verify_prehash hd k (fst (digest_finalize_reset d)) s.

(** src/pss/verifying_key.rs:79-82, 64-72, 89-97 [psvk_verify] *)
Definition r_psvk_verify (hd : hashfn) (k : pss_verifying_key) (msg : list byte)
           (s : signature) : outcome unit :=
  r_psvk_verify_prehash hd k (digest_oneshot hd msg) s.

Section EncKeys.
  Context {R : Type} (g : rng_ops R).

(** src/pkcs1v15/encrypting_key.rs:24-28 [p1ek_encrypt] *)
Definition r_p1ek_encrypt (fuel : nat) (rng : R) (k : p1_encrypting_key) (msg : list byte) :=
    r_pkcs1v15_encrypt g fuel rng (p1ek_inner k) msg.

(** src/pkcs1v15/decrypting_key.rs:29-43 [p1dk_decrypt] *)
Definition r_p1dk_decrypt (fuel : nat) (rng : option R) (k : p1_decrypting_key) (ct : list byte) :=
    r_pkcs1v15_decrypt g fuel rng (p1dk_inner k) ct.

(** src/oaep/encrypting_key.rs:52-60 [oek_encrypt] *)
Definition r_oek_encrypt (hd hm : hashfn) (rng : R) (k : oaep_encrypting_key) (msg : list byte) :=
    r_oaep_api_encrypt_digest g hd hm rng (oek_inner k) msg (oek_label k).

(** src/oaep/decrypting_key.rs:57-79 [odk_decrypt] *)
Definition r_odk_decrypt (hd hm : hashfn) (fuel : nat) (rng : option R)
             (k : oaep_decrypting_key) (ct : list byte) :=
    r_oaep_api_decrypt_digest g hd hm fuel rng (odk_inner k) ct (odk_label k).
End EncKeys.

Section RandomKeys.
  Context {R : Type} (gp : prime_gen R).

(** src/pkcs1v15/signing_key.rs:52-58 [p1sk_random] *)
Definition r_p1sk_random (hd : hashfn) (oid : list byte) (fuel : nat) (st : R) (bit_size : Z)
    : outcome p1_signing_key :=
    let* key := r_private_new gp fuel st bit_size in
    let* prefix := r_pkcs1v15_generate_prefix oid (h_size hd) in
    Ok (mkP1SK key prefix).

(** src/pkcs1v15/signing_key.rs:52-58 [p1sk_random_unprefixed] *)
Definition r_p1sk_random_unprefixed (fuel : nat) (st : R) (bit_size : Z)
    : outcome p1_signing_key :=
    let* key := r_private_new gp fuel st bit_size in Ok (mkP1SK key []).

(** src/pss/signing_key.rs:66-81 [pssk_random_with_salt_len] *)
Definition r_pssk_random_with_salt_len (blinded : bool) (fuel : nat) (st : R) (bit_size : Z)
             (salt_len : nat) : outcome pss_signing_key :=
    let* key := r_private_new gp fuel st bit_size in Ok (mkPssSK blinded key salt_len).

(** src/pss/signing_key.rs:66-81 [pssk_random] *)
Definition r_pssk_random (hd : hashfn) (blinded : bool) (fuel : nat) (st : R) (bit_size : Z)
    : outcome pss_signing_key :=
    r_pssk_random_with_salt_len blinded fuel st bit_size (h_size hd).
End RandomKeys.

(** * MEncoding.v *)

Section Encoding.
  Context (der_max : Z) (tail_ok : Z -> list byte -> bool).

(** src/encoding.rs:46-78 [private_from_pkcs1] *)
Definition r_private_from_pkcs1 (k : p1_private) : outcome privkey :=
    if pp_multi k then Err ErrPkcs1Version
    else
      let* bits := r_octets_bits (pp_modulus k) in
      let* n := uint_from_slice (pp_modulus k) bits in
      let* _ := guard (uis_odd n) ErrKeyMalformed in
      let* bits_e := r_octets_bits (pp_public_exponent k) in
      let* e := uint_from_slice (pp_public_exponent k) bits_e in
      let* d := uint_from_slice (pp_private_exponent k) bits in
      let* prime1 := uint_from_slice (pp_prime1 k) bits in
      let* prime2 := uint_from_slice (pp_prime2 k) bits in
      map_err (fun _ => ErrKeyMalformed) (r_from_components n e d [prime1; prime2]).

(** src/encoding.rs:46-78 [private_try_from] *)
Definition r_private_try_from (info : key_info) : outcome privkey :=
    let* _ := verify_algorithm_id (ki_alg info) in
    let* k := decode_p1_private der_max (ki_key info) in
    r_private_from_pkcs1 k.

(** as in MEncoding.v [from_pkcs8_der] (src/key.rs:654) *)
Definition r_from_pkcs8_der (der : list byte) : outcome privkey :=
    let* info := decode_key_info der_max tail_ok der in
    r_private_try_from info.

(** src/encoding.rs:80-101 [public_from_pkcs1] *)
Definition r_public_from_pkcs1 (k : p1_public) : outcome pubkey :=
    let* bits := r_octets_bits (p1_modulus k) in
    let* n := uint_from_slice (p1_modulus k) bits in
    let* bits_e := r_octets_bits (p1_public_exponent k) in
    let* e := uint_from_slice (p1_public_exponent k) bits_e in
    map_err (fun _ => ErrKeyMalformed) (public_new n e).

(** src/encoding.rs:80-101 [public_try_from] *)
Definition r_public_try_from (spki : spki_info) : outcome pubkey :=
    let* _ := verify_algorithm_id (si_alg spki) in
    let* _ := guard (si_unused spki =? 0) ErrKeyMalformed in
    let* k := decode_p1_public der_max (si_key spki) in
    r_public_from_pkcs1 k.

(** as in MEncoding.v [from_public_key_der] (src/key.rs:632) *)
Definition r_from_public_key_der (der : list byte) : outcome pubkey :=
    let* spki := decode_spki der_max der in
    r_public_try_from spki.

(** src/encoding.rs:104-141 [private_to_pkcs1] *)
Definition r_private_to_pkcs1 (k : privkey) : outcome p1_private :=
    if (2 <? length (sk_primes k))%nat then Err ErrPkcs1Version
    else
      let modulus := to_be_bytes (pk_n (sk_pub k)) in
      let public_exponent := to_be_bytes (pk_e (sk_pub k)) in
      let private_exponent := to_be_bytes (sk_d k) in
      let* p := get_idx (sk_primes k) 0 in
      let* q := get_idx (sk_primes k) 1 in
      let prime1 := to_be_bytes p in
      let prime2 := to_be_bytes q in
      let* dp := crt_exponent (sk_d k) p in
      let* dq := crt_exponent (sk_d k) q in
      let* coefficient := r_crt_coefficient k in
      match coefficient with
      | None => Err ErrPkcs1Crypto
      | Some coefficient =>
          let* modulus := uint_ref_new der_max modulus in
          let* public_exponent := uint_ref_new der_max public_exponent in
          let* private_exponent := uint_ref_new der_max private_exponent in
          let* prime1 := uint_ref_new der_max prime1 in
          let* prime2 := uint_ref_new der_max prime2 in
          let* exponent1 := uint_ref_new der_max (to_be_bytes dp) in
          let* exponent2 := uint_ref_new der_max (to_be_bytes dq) in
          let* coefficient := uint_ref_new der_max (to_be_bytes coefficient) in
          Ok (mkP1Priv false modulus public_exponent private_exponent prime1 prime2
                       exponent1 exponent2 coefficient)
      end.

(** src/encoding.rs:103-151; src/key.rs:636-645 [to_pkcs8_der] *)
Definition r_to_pkcs8_der (k : privkey) : outcome (list byte) :=
    let* s := r_private_to_pkcs1 k in
    let* private_key := encode_p1_private der_max s in
    let* _ := guard (Z.of_nat (length private_key) <=? der_max) ErrAsn1 in
    encode_key_info der_max (mkKI rsa_algorithm_id private_key).

(** src/pkcs1v15/signing_key.rs:244-256 [p1sk_try_from] *)
Definition r_p1sk_try_from (hd : hashfn) (oid : list byte) (info : key_info) : outcome p1_signing_key :=
    let* _ := assert_algorithm_oid (ki_alg info) oid_rsa_encryption in
    let* k := r_private_try_from info in
    r_p1sk_new hd oid k.

(** src/pkcs1v15/verifying_key.rs:193-204 [p1vk_try_from] *)
Definition r_p1vk_try_from (hd : hashfn) (oid : list byte) (spki : spki_info) : outcome p1_verifying_key :=
    let* _ := assert_algorithm_oid (si_alg spki) oid_rsa_encryption in
    let* k := r_public_try_from spki in
    r_p1vk_new hd oid k.

(** src/pss/signing_key.rs:228-238 [pssk_try_from] *)
Definition r_pssk_try_from (hd : hashfn) (info : key_info) : outcome pss_signing_key :=
    let* _ := verify_algorithm_id (ki_alg info) in
    let* k := r_private_try_from info in
    Ok (pssk_new hd false k).

(** src/pss/blinded_signing_key.rs:204-213 [psbsk_try_from] *)
Definition r_psbsk_try_from (hd : hashfn) (info : key_info) : outcome pss_signing_key :=
    let* k := r_private_try_from info in
    Ok (pssk_new hd true k).

(** src/pss/verifying_key.rs:163-182 [psvk_try_from] *)
Definition r_psvk_try_from (hd : hashfn) (spki : spki_info) : outcome pss_verifying_key :=
    let* _ := guard (bytes_eqb (alg_oid (si_alg spki)) oid_rsassa_pss
                     || bytes_eqb (alg_oid (si_alg spki)) oid_rsa_encryption) ErrOidUnknown in
    let* k := r_public_try_from spki in
    Ok (psvk_new hd k).

(** src/pkcs1v15/signing_key.rs:189-196, 269-295 [p1sk_to_pkcs8_der] *)
Definition r_p1sk_to_pkcs8_der (k : p1_signing_key) : outcome (list byte) :=
    r_to_pkcs8_der (p1sk_inner k).

(** src/pkcs1v15/signing_key.rs:189-196, 269-295 [p1sk_from_pkcs8_der] *)
Definition r_p1sk_from_pkcs8_der (hd : hashfn) (oid l : list byte) : outcome p1_signing_key :=
    let* info := decode_key_info der_max tail_ok l in
    r_p1sk_try_from hd oid info.

(** src/pkcs1v15/verifying_key.rs:153-160, 215-244 [p1vk_from_public_key_der] *)
Definition r_p1vk_from_public_key_der (hd : hashfn) (oid l : list byte) : outcome p1_verifying_key :=
    let* spki := decode_spki der_max l in
    r_p1vk_try_from hd oid spki.

(** src/pss/signing_key.rs:187-194, 251-277; src/pss/blinded_signing_key.rs:163-170, 226-252 [pssk_to_pkcs8_der] *)
Definition r_pssk_to_pkcs8_der (k : pss_signing_key) : outcome (list byte) :=
    r_to_pkcs8_der (pssk_inner k).

(** src/pss/signing_key.rs:187-194, 251-277; src/pss/blinded_signing_key.rs:163-170, 226-252 [pssk_from_pkcs8_der] *)
Definition r_pssk_from_pkcs8_der (hd : hashfn) (blinded : bool) (l : list byte)
    : outcome pss_signing_key :=
    let* info := decode_key_info der_max tail_ok l in
    if blinded then r_psbsk_try_from hd info else r_pssk_try_from hd info.

(** src/pss/verifying_key.rs:136-143, 192-221 [psvk_from_public_key_der] *)
Definition r_psvk_from_public_key_der (hd : hashfn) (l : list byte) : outcome pss_verifying_key :=
    let* spki := decode_spki der_max l in
    r_psvk_try_from hd spki.
End Encoding.

(** * MMisc.v *)

(** src/pkcs1v15/signing_key.rs:198-205 [p1sk_from] *)
Definition r_p1sk_from (hd : hashfn) (oid : list byte) (k : privkey) : outcome p1_signing_key :=
  r_p1sk_new hd oid k.

(** src/pkcs1v15/verifying_key.rs:121-128 [p1vk_from] *)
Definition r_p1vk_from (hd : hashfn) (oid : list byte) (k : pubkey) : outcome p1_verifying_key :=
  r_p1vk_new hd oid k.

(** src/pkcs1v15/signing_key.rs:61-64 [p1sk_new_with_prefix] *)
Definition r_p1sk_new_with_prefix (hd : hashfn) (oid : list byte) (k : privkey)
  : outcome p1_signing_key := r_p1sk_new hd oid k.

(** src/pkcs1v15/verifying_key.rs:50-53 [p1vk_new_with_prefix] *)
Definition r_p1vk_new_with_prefix (hd : hashfn) (oid : list byte) (k : pubkey)
  : outcome p1_verifying_key := r_p1vk_new hd oid k.

(** src/pkcs1v15/signing_key.rs:67-70 [p1sk_random_with_prefix] *)
Definition r_p1sk_random_with_prefix {R} (gp : prime_gen R) (hd : hashfn) (oid : list byte)
           (fuel : nat) (st : R) (bit_size : Z) : outcome p1_signing_key :=
  r_p1sk_random gp hd oid fuel st bit_size.

(** * MSerde.v *)

Section Serde.
  Context (der_max : Z) (tail_ok : Z -> list byte -> bool) (human : bool).

(** src/key.rs:614-634 [de_public] *)
Definition r_de_public (v : sval) : outcome pubkey :=
    let* der := de_bytes human v in r_from_public_key_der der_max der.

(** src/key.rs:636-657 [ser_private] *)
Definition r_ser_private (k : privkey) : outcome sval :=
    let* der := r_to_pkcs8_der der_max k in Ok (ser_bytes human der).

(** src/key.rs:636-657 [de_private] *)
Definition r_de_private (v : sval) : outcome privkey :=
    let* der := de_bytes human v in r_from_pkcs8_der der_max tail_ok der.

(** src/pkcs1v15/signing_key.rs:269-295 [ser_p1sk] *)
Definition r_ser_p1sk (k : p1_signing_key) : outcome sval :=
    let* der := r_p1sk_to_pkcs8_der der_max k in Ok (ser_bytes human der).

(** src/pkcs1v15/signing_key.rs:269-295 [de_p1sk] *)
Definition r_de_p1sk (hd : hashfn) (oid : list byte) (v : sval) : outcome p1_signing_key :=
    let* der := de_bytes human v in r_p1sk_from_pkcs8_der der_max tail_ok hd oid der.

(** src/pkcs1v15/signing_key.rs:269-295 [de_p1vk] *)
Definition r_de_p1vk (hd : hashfn) (oid : list byte) (v : sval) : outcome p1_verifying_key :=
    let* der := de_bytes human v in r_p1vk_from_public_key_der der_max hd oid der.

(** src/pss/signing_key.rs:251-277 [ser_pssk] *)
Definition r_ser_pssk (k : pss_signing_key) : outcome sval :=
    let* der := r_pssk_to_pkcs8_der der_max k in Ok (ser_bytes human der).

(** src/pss/signing_key.rs:251-277 [de_pssk] *)
Definition r_de_pssk (hd : hashfn) (blinded : bool) (v : sval) : outcome pss_signing_key :=
    let* der := de_bytes human v in r_pssk_from_pkcs8_der der_max tail_ok hd blinded der.

(** src/pss/signing_key.rs:251-277 [de_psvk] *)
Definition r_de_psvk (hd : hashfn) (v : sval) : outcome pss_verifying_key :=
    let* der := de_bytes human v in r_psvk_from_public_key_der der_max hd der.

(** src/pkcs1v15/signature.rs:79-101; src/pss/signature.rs:74-96 [de_signature] *)
Definition r_de_signature (v : sval) : outcome signature :=
    let* b := de_bytes human v in r_signature_try_from b.

(** src/pkcs1v15/encrypting_key.rs:11-15 [de_p1ek] *)
Definition r_de_p1ek (v : sval) : outcome p1_encrypting_key :=
    match v with
    | SStruct _ fields => let* i := visit_one r_de_public fields None in Ok (mkP1EK i)
    | STuple fields => let* i := visit_seq_one r_de_public fields in Ok (mkP1EK i)
    | _ => Err ErrSerde
    end.

(** src/pkcs1v15/encrypting_key.rs:11-15 [ser_p1dk] *)
Definition r_ser_p1dk (k : p1_decrypting_key) : outcome sval :=
    let* i := r_ser_private (p1dk_inner k) in Ok (SStruct "DecryptingKey" [("inner", i)]).

(** src/pkcs1v15/encrypting_key.rs:11-15 [de_p1dk] *)
Definition r_de_p1dk (v : sval) : outcome p1_decrypting_key :=
    match v with
    | SStruct _ fields => let* i := visit_one r_de_private fields None in Ok (mkP1DK i)
    | STuple fields => let* i := visit_seq_one r_de_private fields in Ok (mkP1DK i)
    | _ => Err ErrSerde
    end.

(** src/oaep/encrypting_key.rs:13-24 [de_oek] *)
Definition r_de_oek (v : sval) : outcome oaep_encrypting_key :=
    match v with
    | SStruct _ fields =>
        let* (i, l) := visit_four r_de_public fields (mkSeen _ None None None None) in Ok (mkOEK i l)
    | STuple fields => let* (i, l) := visit_seq_four r_de_public fields in Ok (mkOEK i l)
    | _ => Err ErrSerde
    end.

(** src/oaep/encrypting_key.rs:13-24 [ser_odk] *)
Definition r_ser_odk (k : oaep_decrypting_key) : outcome sval :=
    let* i := r_ser_private (odk_inner k) in
    Ok (SStruct "DecryptingKey" (oaep_fields i (odk_label k))).

(** src/oaep/encrypting_key.rs:13-24 [de_odk] *)
Definition r_de_odk (v : sval) : outcome oaep_decrypting_key :=
    match v with
    | SStruct _ fields =>
        let* (i, l) := visit_four r_de_private fields (mkSeen _ None None None None) in Ok (mkODK i l)
    | STuple fields => let* (i, l) := visit_seq_four r_de_private fields in Ok (mkODK i l)
    | _ => Err ErrSerde
    end.
End Serde.

Section Pkcs1Docs.
  Context (der_max : Z) (tail_ok : Z -> list byte -> bool).

(** src/lib.rs:240 [from_pkcs1_der] *)
Definition r_from_pkcs1_der (l : list byte) : outcome privkey :=
    let* _ := guard (Z.of_nat (length l) <=? der_max) ErrAsn1 in
    r_private_try_from der_max (mkKI rsa_algorithm_id l).

(** src/lib.rs:240 [to_pkcs1_der] *)
Definition r_to_pkcs1_der (k : privkey) : outcome (list byte) :=
    let* doc := r_to_pkcs8_der der_max k in
    let* info := decode_key_info der_max tail_ok doc in
    let* s := decode_p1_private der_max (ki_key info) in
    encode_p1_private der_max s.

(** as in MSerde.v [from_pkcs1_public_der] (src/lib.rs:161) *)
Definition r_from_pkcs1_public_der (l : list byte) : outcome pubkey :=
    let* _ := guard (Z.of_nat (length l) <=? der_max) ErrAsn1 in
    r_public_try_from der_max (mkSpki rsa_algorithm_id 0 l).
End Pkcs1Docs.
End Release.
