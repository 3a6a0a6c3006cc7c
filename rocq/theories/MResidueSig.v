(** PSS signing with the heap objects it frees, in the notation of MResidue.v. *)
From Coq Require Import ZArith List Bool.
From Coq Require Import Init.Byte.
From Verif Require Import Base Bigint MHash MPad MMgf MPss MRsa MKey MApi MResidue.
Import ListNotations.
Local Open Scope Z_scope.

(** src/algorithms/pss.rs:19-90 [emsa_pss_encode]: the boxed hash, and what [mgf1_xor]
    frees.  [em] is returned; no call after its allocation returns an error. *)
Definition z_emsa_pss_encode (m_hash : list byte) (em_bits : nat) (salt : list byte)
           (hash : digest) : holding (list byte * digest) :=
  let h_len := digest_output_size hash in
  let s_len := length salt in
  let em_len := div_ceil8 em_bits in
  if negb (length m_hash =? h_len)%nat then z_lift (Err InputNotHashed)
  else if (em_len <? h_len + s_len + 2)%nat then z_lift (Err Internal)
  else
    let em := vec x00 em_len in
    let~ a := z_lift (usub em_len h_len) in
    let~ a := z_lift (usub a 1) in
    let~ (db, h) := z_lift (split_at em a) in
    let~ hl := z_lift (usub em_len 1) in
    let~ hl := z_lift (usub hl (length db)) in
    let~ (h, tail) := z_lift (split_at h hl) in
    let hash := digest_update hash (vec x00 8) in
    let hash := digest_update hash m_hash in
    let hash := digest_update hash salt in
    let (hashed, hash) := digest_finalize_reset hash in
    owning (Plain (Octets hashed))
      (let~ h := z_lift (copy_into h 0 (length h) hashed) in
       let~ b := z_lift (usub em_len s_len) in
       let~ b := z_lift (usub b h_len) in
       let~ b1 := z_lift (usub b 2) in
       let~ db := z_lift (set_idx db b1 x01) in
       let~ b2 := z_lift (usub b 1) in
       let~ db := z_lift (copy_into db b2 (length db) salt) in
       let~ (db, hash) := z_mgf1_xor db hash h in
       let~ sh := z_lift (usub (8 * em_len) em_bits) in
       let~ mask := z_lift (ff_shr sh) in
       let~ d0 := z_lift (get_idx db 0) in
       let~ db := z_lift (set_idx db 0 (band d0 mask)) in
       let em := db ++ h ++ tail in
       let~ last := z_lift (usub em_len 1) in
       let~ em := z_lift (set_idx em last xbc) in
       z_ret (em, hash)).

Section WithRng.
  Context {R : Type} (g : rng_ops R).

  (** The end of both functions below (src/pss.rs:210-213, 224-229): [em] and its integer *)
  Definition z_sign_em (fuel : nat) (blind_rng : option R) (priv_key : privkey) (em : list byte)
    : holding (list byte) :=
    let pk := sk_pub priv_key in
    owning (Plain (Octets em))
      (let~ int := z_lift (from_be_slice em (n_bits_precision pk)) in
       owning (Plain (Int int))
         (let~ raw := z_rsa_decrypt_and_check g fuel priv_key blind_rng int in
          z_uint_to_zeroizing_be_pad raw (key_size pk))).

  (** src/pss.rs:199-214 [sign_pss_with_salt] *)
  Definition z_sign_pss_with_salt (fuel : nat) (blind_rng : option R) (priv_key : privkey)
             (hashed salt : list byte) (dg : digest) : holding (list byte) :=
    let pk := sk_pub priv_key in
    let~ em_bits := z_lift (usub (Z.to_nat (ubits (pk_n pk))) 1) in
    let~ (em, _) := z_emsa_pss_encode hashed em_bits salt dg in
    z_sign_em fuel blind_rng priv_key em.

  (** src/pss.rs:216-230 [sign_pss_with_salt_digest]; [emsa_pss_encode_digest]
      (src/algorithms/pss.rs:92-167) frees no heap object *)
  Definition z_sign_pss_with_salt_digest (hd : hashfn) (fuel : nat) (blind_rng : option R)
             (priv_key : privkey) (hashed salt : list byte) : holding (list byte) :=
    let pk := sk_pub priv_key in
    let~ em_bits := z_lift (usub (Z.to_nat (ubits (pk_n pk))) 1) in
    let~ em := z_lift (emsa_pss_encode_digest hd hashed em_bits salt) in
    z_sign_em fuel blind_rng priv_key em.

  (** src/pss.rs:168-180 [sign]: [salt].  When the generator fails the buffer holds what the
      generator wrote before failing, here zeros. *)
  Definition z_pss_sign (fuel : nat) (rng : R) (blind : bool) (priv_key : privkey)
             (hashed : list byte) (salt_len : nat) (dg : digest) : holding (list byte) :=
    match rng_fill g rng salt_len with
    | (None, _) => owning (Plain (Octets (vec x00 salt_len))) (z_lift (Err Rng))
    | (Some salt, rng) =>
        owning (Plain (Octets salt))
          (z_sign_pss_with_salt fuel (if blind then Some rng else None) priv_key hashed salt dg)
    end.

  (** src/pss.rs:182-193 [sign_digest]: [salt] *)
  Definition z_pss_sign_digest (hd : hashfn) (fuel : nat) (rng : R) (blind : bool)
             (priv_key : privkey) (hashed : list byte) (salt_len : nat) : holding (list byte) :=
    match rng_fill g rng salt_len with
    | (None, _) => owning (Plain (Octets (vec x00 salt_len))) (z_lift (Err Rng))
    | (Some salt, rng) =>
        owning (Plain (Octets salt))
          (z_sign_pss_with_salt_digest hd fuel (if blind then Some rng else None)
                                       priv_key hashed salt)
    end.
End WithRng.
