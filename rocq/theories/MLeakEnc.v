(** OAEP encryption and PSS signing with their traces; continues MLeak.v.  The
    functions without [l_] are in MOaep.v, MPss.v, MApi.v. *)
From Coq Require Import ZArith List Bool.
From Coq Require Import Init.Byte.
From Verif Require Import Base Bigint MHash MPad MMgf MPkcs1 MOaep MPss MRsa MKey MApi MLeak.
Import ListNotations.
Local Open Scope Z_scope.

Section WithRng.
  Context {R : Type} (g : rng_ops R).

  (** src/algorithms/oaep.rs:22-50 [encrypt_internal] *)
  Definition l_oaep_encrypt_internal (r : R) (msg p_hash : list byte) (h_size k : nat)
             (mgf : list byte -> list byte -> leaky (list byte * list byte))
    : leaky (list byte) :=
    let! c := l_if (k <? length msg + 2 * h_size + 2)%nat in
    if c then lerr MessageTooLong
    else
      let! em := l_vec x00 k in
      let! (head, payload) := l_split_at em 1 in
      let! (seed, db) := l_split_at payload h_size in
      let! (seed, _) := l_fill g r (length seed) in
      let! db_len := l_check (usub k h_size) in
      let! db_len := l_check (usub db_len 1) in
      let! db := l_copy_into db 0 h_size p_hash in
      let! pos := l_check (usub db_len (length msg)) in
      let! pos1 := l_check (usub pos 1) in
      let! db := l_set db pos1 x01 in
      let! db := l_copy_into db pos (length db) msg in
      let! (seed, db) := mgf seed db in
      lret (head ++ seed ++ db).

  (** src/algorithms/oaep.rs:60-82 [oaep_encrypt] *)
  Definition l_oaep_encrypt (r : R) (msg : list byte) (dg mgf_digest : digest)
             (label : option (list byte)) (k : nat) : leaky (list byte) :=
    let h_size := digest_output_size dg in
    let label := label_bytes label in
    let! c := l_if (MAX_LABEL_LEN <=? Z.of_nat (length label)) in
    if c then lerr LabelTooLong
    else
      let! dg := l_update dg label in
      let! (p_hash, _) := l_finalize_reset dg in
      l_oaep_encrypt_internal r msg p_hash h_size k (fun seed db =>
        let! (db, md) := l_mgf1_xor db mgf_digest seed in
        let! (seed, _) := l_mgf1_xor seed md db in
        lret (seed, db)).

  (** src/algorithms/oaep.rs:92-116 [oaep_encrypt_digest] *)
  Definition l_oaep_encrypt_digest (hd hm : hashfn) (r : R) (msg : list byte)
             (label : option (list byte)) (k : nat) : leaky (list byte) :=
    let hsize := h_size hd in
    let label := label_bytes label in
    let! c := l_if (MAX_LABEL_LEN <=? Z.of_nat (length label)) in
    if c then lerr LabelTooLong
    else
      let! p_hash := l_oneshot hd label in
      l_oaep_encrypt_internal r msg p_hash hsize k (fun seed db =>
        let! (db, md) := l_mgf1_xor_digest db (digest_new hm) seed in
        let! (seed, _) := l_mgf1_xor_digest seed md db in
        lret (seed, db)).
End WithRng.

(** src/algorithms/pss.rs:19-90 [emsa_pss_encode] *)
Definition l_emsa_pss_encode (m_hash : list byte) (em_bits : nat) (salt : list byte)
           (hash : digest) : leaky (list byte * digest) :=
  let h_len := digest_output_size hash in
  let s_len := length salt in
  let em_len := div_ceil8 em_bits in
  let! c := l_if (negb (length m_hash =? h_len)%nat) in
  if c then lerr InputNotHashed
  else
    let! c := l_if (em_len <? h_len + s_len + 2)%nat in
    if c then lerr Internal
    else
      let! em := l_vec x00 em_len in
      let! a := l_check (usub em_len h_len) in
      let! a := l_check (usub a 1) in
      let! (db, h) := l_split_at em a in
      let! hl := l_check (usub em_len 1) in
      let! hl := l_check (usub hl (length db)) in
      let! (h, tail) := l_split_at h hl in
      let! hash := l_update hash (vec x00 8) in
      let! hash := l_update hash m_hash in
      let! hash := l_update hash salt in
      let! (hashed, hash) := l_finalize_reset hash in
      let! h := l_copy_into h 0 (length h) hashed in
      let! b := l_check (usub em_len s_len) in
      let! b := l_check (usub b h_len) in
      let! b1 := l_check (usub b 2) in
      let! db := l_set db b1 x01 in
      let! b2 := l_check (usub b 1) in
      let! db := l_copy_into db b2 (length db) salt in
      let! (db, hash) := l_mgf1_xor db hash h in
      let! sh := l_check (usub (8 * em_len) em_bits) in
      let! mask := l_check (ff_shr sh) in
      let! d0 := l_get db 0 in
      let! db := l_set db 0 (band d0 mask) in
      let em := db ++ h ++ tail in
      let! last := l_check (usub em_len 1) in
      let! em := l_set em last xbc in
      lret (em, hash).

(** src/algorithms/pss.rs:92-167 [emsa_pss_encode_digest] *)
Definition l_emsa_pss_encode_digest (hd : hashfn) (m_hash : list byte) (em_bits : nat)
           (salt : list byte) : leaky (list byte) :=
  let h_len := h_size hd in
  let s_len := length salt in
  let em_len := div_ceil8 em_bits in
  let! c := l_if (negb (length m_hash =? h_len)%nat) in
  if c then lerr InputNotHashed
  else
    let! c := l_if (em_len <? h_len + s_len + 2)%nat in
    if c then lerr Internal
    else
      let! em := l_vec x00 em_len in
      let! a := l_check (usub em_len h_len) in
      let! a := l_check (usub a 1) in
      let! (db, h) := l_split_at em a in
      let! hl := l_check (usub em_len 1) in
      let! hl := l_check (usub hl (length db)) in
      let! (h, tail) := l_split_at h hl in
      let! hash := l_update (digest_new hd) (vec x00 8) in
      let! hash := l_update hash m_hash in
      let! hash := l_update hash salt in
      let! (hashed, hash) := l_finalize_reset hash in
      let! h := l_copy_into h 0 (length h) hashed in
      let! b := l_check (usub em_len s_len) in
      let! b := l_check (usub b h_len) in
      let! b1 := l_check (usub b 2) in
      let! db := l_set db b1 x01 in
      let! b2 := l_check (usub b 1) in
      let! db := l_copy_into db b2 (length db) salt in
      let! (db, _) := l_mgf1_xor_digest db hash h in
      let! sh := l_check (usub (8 * em_len) em_bits) in
      let! mask := l_check (ff_shr sh) in
      let! d0 := l_get db 0 in
      let! db := l_set db 0 (band d0 mask) in
      let em := db ++ h ++ tail in
      let! last := l_check (usub em_len 1) in
      l_set em last xbc.

Section WithRng2.
  Context {R : Type} (g : rng_ops R).

  (** src/oaep.rs:189-203 [encrypt] *)
  Definition l_oaep_api_encrypt (rng : R) (pub_key : pubkey) (msg : list byte)
             (dg mgf_digest : digest) (label : option (list byte)) : leaky (list byte) :=
    let! _ := l_public (check_public pub_key) in
    let! em := l_oaep_encrypt g rng msg dg mgf_digest label (key_size pub_key) in
    let! int := l_from_be_slice em (n_bits_precision pub_key) in
    let! c := l_rsa_encrypt pub_key int in
    l_uint_to_be_pad c (key_size pub_key).

  (** src/oaep.rs:212-224 [encrypt_digest] *)
  Definition l_oaep_api_encrypt_digest (hd hm : hashfn) (rng : R) (pub_key : pubkey)
             (msg : list byte) (label : option (list byte)) : leaky (list byte) :=
    let! _ := l_public (check_public pub_key) in
    let! em := l_oaep_encrypt_digest g hd hm rng msg label (key_size pub_key) in
    let! int := l_from_be_slice em (n_bits_precision pub_key) in
    let! c := l_rsa_encrypt pub_key int in
    l_uint_to_be_pad c (key_size pub_key).

  (** src/pss.rs:200-214 [sign_pss_with_salt] *)
  Definition l_sign_pss_with_salt (fuel : nat) (blind_rng : option R) (priv_key : privkey)
             (hashed salt : list byte) (dg : digest) : leaky (list byte) :=
    let pk := sk_pub priv_key in
    let! em_bits := l_public (usub (Z.to_nat (ubits (pk_n pk))) 1) in
    let! (em, _) := l_emsa_pss_encode hashed em_bits salt dg in
    let! em := l_from_be_slice em (n_bits_precision pk) in
    let! raw := l_rsa_decrypt_and_check g fuel priv_key blind_rng em in
    l_uint_to_be_pad raw (key_size pk).

  (** src/pss.rs:216-230 [sign_pss_with_salt_digest] *)
  Definition l_sign_pss_with_salt_digest (hd : hashfn) (fuel : nat) (blind_rng : option R)
             (priv_key : privkey) (hashed salt : list byte) : leaky (list byte) :=
    let pk := sk_pub priv_key in
    let! em_bits := l_public (usub (Z.to_nat (ubits (pk_n pk))) 1) in
    let! em := l_emsa_pss_encode_digest hd hashed em_bits salt in
    let! em := l_from_be_slice em (n_bits_precision pk) in
    let! raw := l_rsa_decrypt_and_check g fuel priv_key blind_rng em in
    l_uint_to_be_pad raw (key_size pk).

  (** src/pss.rs:168-180 [sign] *)
  Definition l_pss_sign (fuel : nat) (rng : R) (blind : bool) (priv_key : privkey)
             (hashed : list byte) (salt_len : nat) (dg : digest) : leaky (list byte) :=
    let! _ := l_vec x00 salt_len in
    let! (salt, rng) := l_fill g rng salt_len in
    let! _ := l_if blind in
    l_sign_pss_with_salt fuel (if blind then Some rng else None) priv_key hashed salt dg.

  (** src/pss.rs:182-193 [sign_digest] *)
  Definition l_pss_sign_digest (hd : hashfn) (fuel : nat) (rng : R) (blind : bool)
             (priv_key : privkey) (hashed : list byte) (salt_len : nat) : leaky (list byte) :=
    let! _ := l_vec x00 salt_len in
    let! (salt, rng) := l_fill g rng salt_len in
    let! _ := l_if blind in
    l_sign_pss_with_salt_digest hd fuel (if blind then Some rng else None) priv_key hashed salt.
End WithRng2.
