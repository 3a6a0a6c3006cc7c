(** Model of the public operations: src/pkcs1v15.rs, src/oaep.rs, src/pss.rs and
    the dispatching methods of src/key.rs. *)
From Coq Require Import ZArith List Bool.
From Coq Require Import Init.Byte.
From Verif Require Import Base Bigint MHash MPad MMgf MPkcs1 MOaep MPss MRsa MKey.
Import ListNotations.
Local Open Scope Z_scope.

(** [sig.len() as u32 * 8], src/pkcs1v15.rs:129, src/pss.rs:109,
    src/pkcs1v15/signature.rs:38, src/pss/signature.rs:38: u32 multiplication
    panics on overflow. *)
Definition len_bits_u32 (l : list byte) : outcome Z :=
  let r := (Z.of_nat (length l) mod 2 ^ 32) * 8 in
  if r <? 2 ^ 32 then Ok r else Panic.

(** Byte string to signature integer, as in the four places above (src/pkcs1v15.rs, src/pss.rs
    and both signature.rs). *)
Definition sig_from_bytes (sig : list byte) : outcome uint :=
  let* bits := len_bits_u32 sig in
  from_be_slice sig bits.

Section WithRng.
  Context {R : Type} (g : rng_ops R).

  (** src/pkcs1v15.rs:138-148 [encrypt] *)
  Definition pkcs1v15_encrypt (fuel : nat) (rng : R) (pub_key : pubkey) (msg : list byte)
    : outcome (list byte) :=
    let* _ := check_public pub_key in
    let* em := pkcs1v15_encrypt_pad g fuel rng msg (key_size pub_key) in
    let* int := from_be_slice em (n_bits_precision pub_key) in
    let* c := rsa_encrypt pub_key int in
    uint_to_be_pad c (key_size pub_key).

  (** src/pkcs1v15.rs:160-172 [decrypt] *)
  Definition pkcs1v15_decrypt (fuel : nat) (rng : option R) (priv_key : privkey)
             (ciphertext : list byte) : outcome (list byte) :=
    let pk := sk_pub priv_key in
    let* _ := check_public pk in
    let* c := from_be_slice ciphertext (n_bits_precision pk) in
    let* em := rsa_decrypt_and_check g fuel priv_key rng c in
    let* em := uint_to_zeroizing_be_pad em (key_size pk) in
    pkcs1v15_encrypt_unpad em (key_size pk).

  (** src/pkcs1v15.rs:188-198 [sign] *)
  Definition pkcs1v15_sign (fuel : nat) (rng : option R) (priv_key : privkey)
             (prefix hashed : list byte) : outcome (list byte) :=
    let pk := sk_pub priv_key in
    let* em := pkcs1v15_sign_pad prefix hashed (key_size pk) in
    let* em := from_be_slice em (n_bits_precision pk) in
    let* s := rsa_decrypt_and_check g fuel priv_key rng em in
    uint_to_zeroizing_be_pad s (key_size pk).

  (** src/oaep.rs:189-203 [encrypt] *)
  Definition oaep_api_encrypt (rng : R) (pub_key : pubkey) (msg : list byte)
             (dg mgf_digest : digest) (label : option (list byte)) : outcome (list byte) :=
    let* _ := check_public pub_key in
    let* em := oaep_encrypt g rng msg dg mgf_digest label (key_size pub_key) in
    let* int := from_be_slice em (n_bits_precision pub_key) in
    let* c := rsa_encrypt pub_key int in
    uint_to_be_pad c (key_size pub_key).

  (** src/oaep.rs:212-224 [encrypt_digest] *)
  Definition oaep_api_encrypt_digest (hd hm : hashfn) (rng : R) (pub_key : pubkey)
             (msg : list byte) (label : option (list byte)) : outcome (list byte) :=
    let* _ := check_public pub_key in
    let* em := oaep_encrypt_digest g hd hm rng msg label (key_size pub_key) in
    let* int := from_be_slice em (n_bits_precision pub_key) in
    let* c := rsa_encrypt pub_key int in
    uint_to_be_pad c (key_size pub_key).

  (** src/oaep.rs:239-257 [decrypt] *)
  Definition oaep_api_decrypt (fuel : nat) (rng : option R) (priv_key : privkey)
             (ciphertext : list byte) (dg mgf_digest : digest) (label : option (list byte))
    : outcome (list byte) :=
    let pk := sk_pub priv_key in
    if negb (length ciphertext =? key_size pk)%nat then Err Decryption
    else
      let* c := from_be_slice ciphertext (n_bits_precision pk) in
      let* em := rsa_decrypt_and_check g fuel priv_key rng c in
      let* em := uint_to_zeroizing_be_pad em (key_size pk) in
      oaep_decrypt em dg mgf_digest label (key_size pk).

  (** src/oaep.rs:272-289 [decrypt_digest] *)
  Definition oaep_api_decrypt_digest (hd hm : hashfn) (fuel : nat) (rng : option R)
             (priv_key : privkey) (ciphertext : list byte) (label : option (list byte))
    : outcome (list byte) :=
    let pk := sk_pub priv_key in
    let* _ := check_public pk in
    if negb (length ciphertext =? key_size pk)%nat then Err Decryption
    else
      let* c := from_be_slice ciphertext (n_bits_precision pk) in
      let* em := rsa_decrypt_and_check g fuel priv_key rng c in
      let* em := uint_to_zeroizing_be_pad em (key_size pk) in
      oaep_decrypt_digest hd hm em label (key_size pk).

  (** src/pss.rs:200-214 [sign_pss_with_salt]; [n().bits() - 1] on u32. *)
  Definition sign_pss_with_salt (fuel : nat) (blind_rng : option R) (priv_key : privkey)
             (hashed salt : list byte) (dg : digest) : outcome (list byte) :=
    let pk := sk_pub priv_key in
    let* em_bits := usub (Z.to_nat (ubits (pk_n pk))) 1 in
    let* (em, _) := emsa_pss_encode hashed em_bits salt dg in
    let* em := from_be_slice em (n_bits_precision pk) in
    let* raw := rsa_decrypt_and_check g fuel priv_key blind_rng em in
    uint_to_zeroizing_be_pad raw (key_size pk).

  (** src/pss.rs:216-230 [sign_pss_with_salt_digest] *)
  Definition sign_pss_with_salt_digest (hd : hashfn) (fuel : nat) (blind_rng : option R)
             (priv_key : privkey) (hashed salt : list byte) : outcome (list byte) :=
    let pk := sk_pub priv_key in
    let* em_bits := usub (Z.to_nat (ubits (pk_n pk))) 1 in
    let* em := emsa_pss_encode_digest hd hashed em_bits salt in
    let* em := from_be_slice em (n_bits_precision pk) in
    let* raw := rsa_decrypt_and_check g fuel priv_key blind_rng em in
    uint_to_zeroizing_be_pad raw (key_size pk).

  (** src/pss.rs:168-180 [sign] *)
  Definition pss_sign (fuel : nat) (rng : R) (blind : bool) (priv_key : privkey)
             (hashed : list byte) (salt_len : nat) (dg : digest) : outcome (list byte) :=
    match rng_fill g rng salt_len with
    | (None, _) => Err Rng
    | (Some salt, rng) =>
        sign_pss_with_salt fuel (if blind then Some rng else None) priv_key hashed salt dg
    end.

  (** src/pss.rs:182-193 [sign_digest] *)
  Definition pss_sign_digest (hd : hashfn) (fuel : nat) (rng : R) (blind : bool)
             (priv_key : privkey) (hashed : list byte) (salt_len : nat)
    : outcome (list byte) :=
    match rng_fill g rng salt_len with
    | (None, _) => Err Rng
    | (Some salt, rng) =>
        sign_pss_with_salt_digest hd fuel (if blind then Some rng else None)
                                  priv_key hashed salt
    end.
End WithRng.

(** src/pkcs1v15.rs:202-211 [verify] *)
Definition pkcs1v15_verify (pub_key : pubkey) (prefix hashed : list byte) (sig : uint)
  : outcome unit :=
  if uleb (pk_n pub_key) sig || negb (uprec sig =? n_bits_precision pub_key)
  then Err Verification
  else
    let* m := rsa_encrypt pub_key sig in
    let* em := uint_to_be_pad m (key_size pub_key) in
    pkcs1v15_sign_unpad prefix hashed em (key_size pub_key).

(** src/pss.rs:127-142 [verify] *)
Definition pss_verify (pub_key : pubkey) (hashed : list byte) (sig : uint) (sig_len : nat)
           (dg : digest) (salt_len : nat) : outcome unit :=
  if negb (sig_len =? key_size pub_key)%nat then Err Verification
  else
    let* raw := rsa_encrypt pub_key sig in
    let* em := uint_to_be_pad raw (key_size pub_key) in
    emsa_pss_verify hashed em salt_len dg (Z.to_nat (ubits (pk_n pub_key))).

(** src/pss.rs:144-161 [verify_digest] *)
Definition pss_verify_digest (hd : hashfn) (pub_key : pubkey) (hashed : list byte)
           (sig : uint) (salt_len : nat) : outcome unit :=
  if uleb (pk_n pub_key) sig || negb (uprec sig =? n_bits_precision pub_key)
  then Err Verification
  else
    let* raw := rsa_encrypt pub_key sig in
    let* em := uint_to_be_pad raw (key_size pub_key) in
    emsa_pss_verify_digest hd hashed em salt_len (Z.to_nat (ubits (pk_n pub_key))).

(** * Padding and signature schemes *)

(** src/oaep.rs:38-47 [Oaep]; constructors src/oaep.rs:70-134 *)
Record oaep_params := mkOaep {
  oa_digest : digest; oa_mgf : digest; oa_label : option (list byte)
}.
Definition oaep_new (t : hashfn) : oaep_params := mkOaep (digest_new t) (digest_new t) None.
Definition oaep_new_with_label (t : hashfn) (l : list byte) : oaep_params :=
  mkOaep (digest_new t) (digest_new t) (Some l).
Definition oaep_new_with_mgf_hash (t u : hashfn) : oaep_params :=
  mkOaep (digest_new t) (digest_new u) None.
Definition oaep_new_with_mgf_hash_and_label (t u : hashfn) (l : list byte) : oaep_params :=
  mkOaep (digest_new t) (digest_new u) (Some l).

(** src/pkcs1v15.rs:60-66 [Pkcs1v15Sign]; constructors src/pkcs1v15.rs:73-91.
    A digest type with an OID is a hash function plus the OID bytes. *)
Record pkcs1_sign_params := mkP1S { p1_hash_len : option nat; p1_prefix : list byte }.
Definition pkcs1_sign_new (oid : list byte) (d : hashfn) : outcome pkcs1_sign_params :=
  let* prefix := pkcs1v15_generate_prefix oid (h_size d) in
  Ok (mkP1S (Some (h_size d)) prefix).
Definition pkcs1_sign_new_unprefixed : pkcs1_sign_params := mkP1S None [].

(** src/pss.rs:42-51 [Pss]; constructors src/pss.rs:56-85 *)
Record pss_params := mkPss { ps_blinded : bool; ps_digest : digest; ps_salt_len : nat }.
Definition pss_new_with_salt (t : hashfn) (len : nat) : pss_params :=
  mkPss false (digest_new t) len.
Definition pss_new (t : hashfn) : pss_params := pss_new_with_salt t (h_size t).
Definition pss_new_blinded_with_salt (t : hashfn) (len : nat) : pss_params :=
  mkPss true (digest_new t) len.
Definition pss_new_blinded (t : hashfn) : pss_params := pss_new_blinded_with_salt t (h_size t).

(** The types implementing [PaddingScheme]: src/pkcs1v15.rs:38-56, src/oaep.rs:137-169 *)
Inductive padding := PadPkcs1v15 | PadOaep (o : oaep_params).

(** The types implementing [SignatureScheme]: src/pkcs1v15.rs:102-132, src/pss.rs:88-115 *)
Inductive sig_scheme := SigPkcs1v15 (s : pkcs1_sign_params) | SigPss (s : pss_params).

Section WithRng2.
  Context {R : Type} (g : rng_ops R).

  (** src/key.rs:190-197 [RsaPublicKey::encrypt] with the schemes' [encrypt]
      (src/pkcs1v15.rs:48-55, src/oaep.rs:154-168) *)
  Definition public_encrypt (fuel : nat) (rng : R) (k : pubkey) (p : padding) (msg : list byte)
    : outcome (list byte) :=
    match p with
    | PadPkcs1v15 => pkcs1v15_encrypt g fuel rng k msg
    | PadOaep o => oaep_api_encrypt g rng k msg (oa_digest o) (oa_mgf o) (oa_label o)
    end.

  (** [PaddingScheme::decrypt] (src/pkcs1v15.rs:39-46, src/oaep.rs:138-152) *)
  Definition scheme_decrypt (fuel : nat) (rng : option R) (k : privkey) (p : padding)
             (ct : list byte) : outcome (list byte) :=
    match p with
    | PadPkcs1v15 => pkcs1v15_decrypt g fuel rng k ct
    | PadOaep o => oaep_api_decrypt g fuel rng k ct (oa_digest o) (oa_mgf o) (oa_label o)
    end.

  (** src/key.rs:507-509 [RsaPrivateKey::decrypt] *)
  Definition private_decrypt (fuel : nat) (k : privkey) (p : padding) (ct : list byte)
    : outcome (list byte) := scheme_decrypt fuel None k p ct.

  (** src/key.rs:514-521 [RsaPrivateKey::decrypt_blinded] *)
  Definition private_decrypt_blinded (fuel : nat) (rng : R) (k : privkey) (p : padding)
             (ct : list byte) : outcome (list byte) := scheme_decrypt fuel (Some rng) k p ct.

  (** [hash_len] test of src/pkcs1v15.rs:109-113,119-123 *)
  Definition check_hash_len (s : pkcs1_sign_params) (hashed : list byte) : outcome unit :=
    match p1_hash_len s with
    | Some hl => guard (length hashed =? hl)%nat InputNotHashed
    | None => Ok tt
    end.

  (** [SignatureScheme::sign] (src/pkcs1v15.rs:103-116, src/pss.rs:89-103) *)
  Definition scheme_sign (fuel : nat) (rng : option R) (k : privkey) (s : sig_scheme)
             (hashed : list byte) : outcome (list byte) :=
    match s with
    | SigPkcs1v15 s =>
        let* _ := check_hash_len s hashed in
        pkcs1v15_sign g fuel rng k (p1_prefix s) hashed
    | SigPss s =>
        match rng with
        | None => Err InvalidPaddingScheme
        | Some rng =>
            pss_sign g fuel rng (ps_blinded s) k hashed (ps_salt_len s) (ps_digest s)
        end
    end.

  (** src/key.rs:524-526 [RsaPrivateKey::sign] *)
  Definition private_sign (fuel : nat) (k : privkey) (s : sig_scheme) (hashed : list byte)
    : outcome (list byte) := scheme_sign fuel None k s hashed.

  (** src/key.rs:538-545 [RsaPrivateKey::sign_with_rng] *)
  Definition private_sign_with_rng (fuel : nat) (rng : R) (k : privkey) (s : sig_scheme)
             (hashed : list byte) : outcome (list byte) :=
    scheme_sign fuel (Some rng) k s hashed.
End WithRng2.

(** src/key.rs:205-207 [RsaPublicKey::verify] with the schemes' [verify]
    (src/pkcs1v15.rs:118-131, src/pss.rs:105-114) *)
Definition public_verify (k : pubkey) (s : sig_scheme) (hashed sig : list byte) : outcome unit :=
  match s with
  | SigPkcs1v15 s =>
      let* _ := check_hash_len s hashed in
      let* su := sig_from_bytes sig in
      pkcs1v15_verify k (p1_prefix s) hashed su
  | SigPss s =>
      let* su := sig_from_bytes sig in
      pss_verify k hashed su (length sig) (ps_digest s) (ps_salt_len s)
  end.
