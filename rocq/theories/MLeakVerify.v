(** Signature verification with its trace; continues MLeak.v.  The functions without
    [l_] are in MPkcs1.v, MPss.v and MApi.v. *)
From Coq Require Import ZArith List Bool.
From Coq Require Import Init.Byte.
From Verif Require Import Base Bigint MHash MPad MMgf MPkcs1 MOaep MPss MRsa MKey MApi MLeak.
Import ListNotations.
Local Open Scope Z_scope.

(** src/algorithms/pkcs1v15.rs:155-157 and src/algorithms/pss.rs:223-225: every octet of
    a stretch compared with [b]; [i] is the position of its head in a buffer of length [len]. *)
Fixpoint l_all_equal (b : byte) (l : list byte) (i len : nat) (ok : bool) : leaky bool :=
  match l with
  | [] => lret ok
  | el :: rest =>
      let! _ := emit (EIndex i len) (Ok tt) in
      l_all_equal b rest (S i) len (ok && byte_eqb el b)
  end.

(** src/algorithms/pkcs1v15.rs:140-163 [pkcs1v15_sign_unpad] *)
Definition l_pkcs1v15_sign_unpad (prefix hashed em : list byte) (k : nat) : leaky unit :=
  let hash_len := length hashed in
  let t_len := (length prefix + length hashed)%nat in
  let! c := l_if (k <? t_len + 11)%nat in
  if c then lerr Verification
  else
    let! b0 := l_get em 0 in
    let! b1 := l_get em 1 in
    let! b := l_check (usub k hash_len) in
    let! a := l_check (usub k t_len) in
    let! a1 := l_check (usub a 1) in
    let! h := l_slice em b k in
    let! h_ok := l_ct_eq h hashed in
    let! p := l_slice em a b in
    let! p_ok := l_ct_eq p prefix in
    let! sep := l_get em a1 in
    let! psl := l_check (usub a 3) in
    let ok := byte_eqb b0 x00 && byte_eqb b1 x01 && h_ok && p_ok && byte_eqb sep x00 in
    let! ok := l_all_equal xff (firstn psl (skipn 2 em)) 2 (length em) ok in
    let! c := l_if ok in
    if c then lret tt else lerr Verification.

(** src/algorithms/pss.rs:169-215 [emsa_pss_verify_pre] *)
Definition l_emsa_pss_verify_pre (m_hash em : list byte) (em_bits s_len h_len : nat)
  : leaky (list byte * list byte) :=
  let! c := l_if (negb (length m_hash =? h_len)%nat) in
  if c then lerr Verification
  else
    let em_len := length em in
    let! need := l_check (usize_add (h_len + s_len) 2) in
    let! c := l_if (em_len <? need)%nat in
    if c then lerr Verification
    else
      let! last := l_check (usub (length em) 1) in
      let! l := l_get em last in
      let! c := l_if (negb (byte_eqb l xbc)) in
      if c then lerr Verification
      else
        let! a := l_check (usub em_len h_len) in
        let! a := l_check (usub a 1) in
        let! (db, h) := l_split_at em a in
        let! h := l_slice h 0 h_len in
        let! sh := l_check (usub (8 * em_len) em_bits) in
        let! sh := l_check (usub 8 sh) in
        let! d0 := l_get db 0 in
        let! c := l_if (negb (byte_eqb (band d0 (ff_checked_shl sh)) x00)) in
        if c then lerr Verification
        else lret (db, h).

(** src/algorithms/pss.rs:217-228 [emsa_pss_verify_salt] *)
Definition l_emsa_pss_verify_salt (db : list byte) (em_len s_len h_len : nat) : leaky bool :=
  let! a := l_check (usub em_len h_len) in
  let! a := l_check (usub a s_len) in
  let! a := l_check (usub a 2) in
  let! (zeroes, rest) := l_split_at db a in
  let! valid := l_all_equal x00 zeroes 0 (length zeroes) true in
  let! r0 := l_get rest 0 in
  lret (valid && byte_eqb r0 x01).

(** src/algorithms/pss.rs:254-278 and 309-333: what follows the unmasking, given the hasher. *)
Definition l_emsa_pss_finish (m_hash db h : list byte) (hash : digest)
           (em_bits em_len s_len h_len : nat) : leaky unit :=
  let! sh := l_check (usub (8 * em_len) em_bits) in
  let! mask := l_check (ff_shr sh) in
  let! d0 := l_get db 0 in
  let! db := l_set db 0 (band d0 mask) in
  let! salt_valid := l_emsa_pss_verify_salt db em_len s_len h_len in
  let! so := l_check (usub (length db) s_len) in
  let! salt := l_slice_from db so in
  let! hash := l_update hash (vec x00 8) in
  let! hash := l_update hash m_hash in
  let! hash := l_update hash salt in
  let! (h0, _) := l_finalize_reset hash in
  let! same := l_ct_eq h0 h in
  let! c := l_if (salt_valid && same) in
  if c then lret tt else lerr Verification.

(** src/algorithms/pss.rs:230-279 [emsa_pss_verify] *)
Definition l_emsa_pss_verify (m_hash em : list byte) (s_len : nat) (hash : digest)
           (key_bits : nat) : leaky unit :=
  let! em_bits := l_check (usub key_bits 1) in
  let em_len := div_ceil8 em_bits in
  let key_len := div_ceil8 key_bits in
  let h_len := digest_output_size hash in
  let! off := l_check (usub key_len em_len) in
  let! em := l_slice_from em off in
  let! (db, h) := l_emsa_pss_verify_pre m_hash em em_bits s_len h_len in
  let! (db, hash) := l_mgf1_xor db hash h in
  l_emsa_pss_finish m_hash db h hash em_bits em_len s_len h_len.

(** src/algorithms/pss.rs:281-334 [emsa_pss_verify_digest] *)
Definition l_emsa_pss_verify_digest (hd : hashfn) (m_hash em : list byte) (s_len key_bits : nat)
  : leaky unit :=
  let! em_bits := l_check (usub key_bits 1) in
  let em_len := div_ceil8 em_bits in
  let key_len := div_ceil8 key_bits in
  let h_len := h_size hd in
  let! off := l_check (usub key_len em_len) in
  let! em := l_slice_from em off in
  let! (db, h) := l_emsa_pss_verify_pre m_hash em em_bits s_len h_len in
  let! (db, hash) := l_mgf1_xor_digest db (digest_new hd) h in
  l_emsa_pss_finish m_hash db h hash em_bits em_len s_len h_len.

(** src/pkcs1v15.rs:202-211 [verify] *)
Definition l_pkcs1v15_verify (pub_key : pubkey) (prefix hashed : list byte) (sig : uint)
  : leaky unit :=
  let! ge := l_cmp sig (pk_n pub_key) (uleb (pk_n pub_key) sig) in
  let! c := l_if (ge || negb (uprec sig =? n_bits_precision pub_key)) in
  if c then lerr Verification
  else
    let! m := l_rsa_encrypt pub_key sig in
    let! em := l_uint_to_be_pad m (key_size pub_key) in
    l_pkcs1v15_sign_unpad prefix hashed em (key_size pub_key).

(** src/pss.rs:127-142 [verify] *)
Definition l_pss_verify (pub_key : pubkey) (hashed : list byte) (sig : uint) (sig_len : nat)
           (dg : digest) (salt_len : nat) : leaky unit :=
  let! c := l_if (negb (sig_len =? key_size pub_key)%nat) in
  if c then lerr Verification
  else
    let! raw := l_rsa_encrypt pub_key sig in
    let! em := l_uint_to_be_pad raw (key_size pub_key) in
    l_emsa_pss_verify hashed em salt_len dg (Z.to_nat (ubits (pk_n pub_key))).

(** src/pss.rs:144-161 [verify_digest] *)
Definition l_pss_verify_digest (hd : hashfn) (pub_key : pubkey) (hashed : list byte)
           (sig : uint) (salt_len : nat) : leaky unit :=
  let! ge := l_cmp sig (pk_n pub_key) (uleb (pk_n pub_key) sig) in
  let! c := l_if (ge || negb (uprec sig =? n_bits_precision pub_key)) in
  if c then lerr Verification
  else
    let! raw := l_rsa_encrypt pub_key sig in
    let! em := l_uint_to_be_pad raw (key_size pub_key) in
    l_emsa_pss_verify_digest hd hashed em salt_len (Z.to_nat (ubits (pk_n pub_key))).

(** src/key.rs:205-207 [RsaPublicKey::verify] with the schemes' [verify]
    (src/pkcs1v15.rs:118-131, src/pss.rs:105-114) *)
Definition l_public_verify (k : pubkey) (s : sig_scheme) (hashed sig : list byte) : leaky unit :=
  match s with
  | SigPkcs1v15 s =>
      let! _ := l_public (check_hash_len s hashed) in
      let! su := l_public (sig_from_bytes sig) in
      l_pkcs1v15_verify k (p1_prefix s) hashed su
  | SigPss s =>
      let! su := l_public (sig_from_bytes sig) in
      l_pss_verify k hashed su (length sig) (ps_digest s) (ps_salt_len s)
  end.
