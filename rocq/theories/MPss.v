(** Model of src/algorithms/pss.rs. *)
From Coq Require Import ZArith List Bool.
From Coq Require Import Init.Byte.
From Verif Require Import Base Bigint MHash MMgf.
Import ListNotations.
Local Open Scope Z_scope.

(** u8 shift right by a usize amount, src/algorithms/pss.rs:84,161,253,308:
    panics when the amount is 8 or more. *)
Definition ff_shr (n : nat) : outcome byte :=
  if (n <? 8)%nat then Ok (z2b (Z.shiftr 255 (Z.of_nat n))) else Panic.

(** src/algorithms/pss.rs:206-208: [0xFF_u8.checked_shl(n).unwrap_or(0)] *)
Definition ff_checked_shl (n : nat) : byte :=
  if (n <? 8)%nat then z2b (Z.shiftl 255 (Z.of_nat n)) else x00.

(** src/algorithms/pss.rs:19-90 [emsa_pss_encode] *)
Definition emsa_pss_encode (m_hash : list byte) (em_bits : nat) (salt : list byte)
           (hash : digest) : outcome (list byte * digest) :=
  let h_len := digest_output_size hash in
  let s_len := length salt in
  let em_len := div_ceil8 em_bits in
  if negb (length m_hash =? h_len)%nat then Err InputNotHashed
  else if (em_len <? h_len + s_len + 2)%nat then Err Internal
  else
    let em := vec x00 em_len in
    let* a := usub em_len h_len in
    let* a := usub a 1 in
    let* (db, h) := split_at em a in
    let* hl := usub em_len 1 in
    let* hl := usub hl (length db) in
    let* (h, tail) := split_at h hl in
    let hash := digest_update hash (vec x00 8) in
    let hash := digest_update hash m_hash in
    let hash := digest_update hash salt in
    let (hashed, hash) := digest_finalize_reset hash in
    let* h := copy_into h 0 (length h) hashed in
    let* b := usub em_len s_len in
    let* b := usub b h_len in
    let* b1 := usub b 2 in
    let* db := set_idx db b1 x01 in
    let* b2 := usub b 1 in
    let* db := copy_into db b2 (length db) salt in
    let* (db, hash) := mgf1_xor db hash h in
    let* sh := usub (8 * em_len) em_bits in
    let* mask := ff_shr sh in
    let* d0 := get_idx db 0 in
    let* db := set_idx db 0 (band d0 mask) in
    let em := db ++ h ++ tail in
    let* last := usub em_len 1 in
    let* em := set_idx em last xbc in
    Ok (em, hash).

(** src/algorithms/pss.rs:92-167 [emsa_pss_encode_digest] *)
Definition emsa_pss_encode_digest (hd : hashfn) (m_hash : list byte) (em_bits : nat)
           (salt : list byte) : outcome (list byte) :=
  let h_len := h_size hd in
  let s_len := length salt in
  let em_len := div_ceil8 em_bits in
  if negb (length m_hash =? h_len)%nat then Err InputNotHashed
  else if (em_len <? h_len + s_len + 2)%nat then Err Internal
  else
    let em := vec x00 em_len in
    let* a := usub em_len h_len in
    let* a := usub a 1 in
    let* (db, h) := split_at em a in
    let* hl := usub em_len 1 in
    let* hl := usub hl (length db) in
    let* (h, tail) := split_at h hl in
    let hash := digest_new hd in
    let hash := digest_update hash (vec x00 8) in
    let hash := digest_update hash m_hash in
    let hash := digest_update hash salt in
    let (hashed, hash) := digest_finalize_reset hash in
    let* h := copy_into h 0 (length h) hashed in
    let* b := usub em_len s_len in
    let* b := usub b h_len in
    let* b1 := usub b 2 in
    let* db := set_idx db b1 x01 in
    let* b2 := usub b 1 in
    let* db := copy_into db b2 (length db) salt in
    let* (db, _) := mgf1_xor_digest db hash h in
    let* sh := usub (8 * em_len) em_bits in
    let* mask := ff_shr sh in
    let* d0 := get_idx db 0 in
    let* db := set_idx db 0 (band d0 mask) in
    let em := db ++ h ++ tail in
    let* last := usub em_len 1 in
    set_idx em last xbc.

(** [usize] addition (64 bits), src/algorithms/pss.rs:187: [s_len] is a parameter
    chosen by the caller, not the length of a buffer, so the sum can overflow and
    panic (overflow checks on). *)
Definition usize_add (a b : nat) : outcome nat :=
  if Z.of_nat (a + b) <? 2 ^ 64 then Ok (a + b)%nat else Panic.

(** src/algorithms/pss.rs:169-215 [emsa_pss_verify_pre] *)
Definition emsa_pss_verify_pre (m_hash em : list byte) (em_bits s_len h_len : nat)
  : outcome (list byte * list byte) :=
  if negb (length m_hash =? h_len)%nat then Err Verification
  else
    let em_len := length em in
    let* need := usize_add (h_len + s_len) 2 in
    if (em_len <? need)%nat then Err Verification
    else
      let* last := usub (length em) 1 in
      let* l := get_idx em last in
      if negb (byte_eqb l xbc) then Err Verification
      else
        let* a := usub em_len h_len in
        let* a := usub a 1 in
        let* (db, h) := split_at em a in
        let* h := slice h 0 h_len in
        let* sh := usub (8 * em_len) em_bits in
        let* sh := usub 8 sh in
        let* d0 := get_idx db 0 in
        if negb (byte_eqb (band d0 (ff_checked_shl sh)) x00) then Err Verification
        else Ok (db, h).

(** src/algorithms/pss.rs:217-228 [emsa_pss_verify_salt] *)
Definition emsa_pss_verify_salt (db : list byte) (em_len s_len h_len : nat) : outcome bool :=
  let* a := usub em_len h_len in
  let* a := usub a s_len in
  let* a := usub a 2 in
  let* (zeroes, rest) := split_at db a in
  let valid := fold_left (fun a e => a && byte_eqb e x00) zeroes true in
  let* r0 := get_idx rest 0 in
  Ok (valid && byte_eqb r0 x01).

(** src/algorithms/pss.rs:230-279 [emsa_pss_verify] *)
Definition emsa_pss_verify (m_hash em : list byte) (s_len : nat) (hash : digest)
           (key_bits : nat) : outcome unit :=
  let* em_bits := usub key_bits 1 in
  let em_len := div_ceil8 em_bits in
  let key_len := div_ceil8 key_bits in
  let h_len := digest_output_size hash in
  let* off := usub key_len em_len in
  let* em := slice_from em off in
  let* (db, h) := emsa_pss_verify_pre m_hash em em_bits s_len h_len in
  let* (db, hash) := mgf1_xor db hash h in
  let* sh := usub (8 * em_len) em_bits in
  let* mask := ff_shr sh in
  let* d0 := get_idx db 0 in
  let* db := set_idx db 0 (band d0 mask) in
  let* salt_valid := emsa_pss_verify_salt db em_len s_len h_len in
  let* so := usub (length db) s_len in
  let* salt := slice_from db so in
  let hash := digest_update hash (vec x00 8) in
  let hash := digest_update hash m_hash in
  let hash := digest_update hash salt in
  let (h0, _) := digest_finalize_reset hash in
  if salt_valid && bytes_eqb h0 h then Ok tt else Err Verification.

(** src/algorithms/pss.rs:281-334 [emsa_pss_verify_digest] *)
Definition emsa_pss_verify_digest (hd : hashfn) (m_hash em : list byte) (s_len key_bits : nat)
  : outcome unit :=
  let* em_bits := usub key_bits 1 in
  let em_len := div_ceil8 em_bits in
  let key_len := div_ceil8 key_bits in
  let h_len := h_size hd in
  let* off := usub key_len em_len in
  let* em := slice_from em off in
  let* (db, h) := emsa_pss_verify_pre m_hash em em_bits s_len h_len in
  let hash := digest_new hd in
  let* (db, hash) := mgf1_xor_digest db hash h in
  let* sh := usub (8 * em_len) em_bits in
  let* mask := ff_shr sh in
  let* d0 := get_idx db 0 in
  let* db := set_idx db 0 (band d0 mask) in
  let* salt_valid := emsa_pss_verify_salt db em_len s_len h_len in
  let* so := usub (length db) s_len in
  let* salt := slice_from db so in
  let hash := digest_update hash (vec x00 8) in
  let hash := digest_update hash m_hash in
  let hash := digest_update hash salt in
  let (h0, _) := digest_finalize_reset hash in
  if salt_valid && bytes_eqb h0 h then Ok tt else Err Verification.
