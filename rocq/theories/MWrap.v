(** Model of the key-object APIs: src/pkcs1v15/{signature,signing_key,verifying_key,
    encrypting_key,decrypting_key}.rs, src/pss/{signature,signing_key,
    blinded_signing_key,verifying_key}.rs, src/oaep/{encrypting_key,decrypting_key}.rs.
    The type parameter [D: Digest] becomes an argument [hd : hashfn]; where
    [AssociatedOid] is required the OID bytes are an extra argument.  The opaque
    [signature::Error] is modelled by the error it wraps.  [DummyRng] is only ever
    passed as [None]. *)
From Coq Require Import ZArith List Bool.
From Coq Require Import Init.Byte.
From Verif Require Import Base Bigint MHash MPkcs1 MRsa MGenerate MKey MApi.
Import ListNotations.
Local Open Scope Z_scope.

(** * Signature objects *)

(** src/pkcs1v15/signature.rs:19-21, src/pss/signature.rs:19-21: the two types have
    the same content. *)
Record signature := mkSig { sg_inner : uint }.

(** [TryFrom<&[u8]>]: src/pkcs1v15/signature.rs:33-47, src/pss/signature.rs:33-48 *)
Definition signature_try_from (bytes : list byte) : outcome signature :=
  let* inner := sig_from_bytes bytes in Ok (mkSig inner).

(** [From<Signature> for Box<[u8]>]: src/pkcs1v15/signature.rs:49-53,
    src/pss/signature.rs:50-54; [to_bytes]/[to_vec] of [SignatureEncoding] use it. *)
Definition signature_to_bytes (s : signature) : list byte := to_be_bytes (sg_inner s).

(** [derive(PartialEq)]: src/pkcs1v15/signature.rs:18, src/pss/signature.rs:18 *)
Definition signature_eqb (a b : signature) : bool := ueqb (sg_inner a) (sg_inner b).

(** [{:02x}] of one byte, src/pkcs1v15/signature.rs:58, 67 *)
Definition hex_digit (upper : bool) (v : Z) : byte :=
  if v <? 10 then z2b (48 + v) else z2b ((if upper then 55 else 87) + v).
Definition hex_byte (upper : bool) (b : byte) : list byte :=
  [hex_digit upper (b2z b / 16); hex_digit upper (b2z b mod 16)].

(** [LowerHex]/[UpperHex]: src/pkcs1v15/signature.rs:55-71 *)
Definition signature_hex (upper : bool) (s : signature) : list byte :=
  flat_map (hex_byte upper) (signature_to_bytes s).
(** [Display]: src/pkcs1v15/signature.rs:73-77 *)
Definition signature_display (s : signature) : list byte := signature_hex true s.

(** The PSS type formats the inner [BoxedUint] (src/pss/signature.rs:56-66): every
    64-bit limb, most significant first, as 16 digits (the [{:x}]/[{:X}] of the
    big-integer library). *)
Fixpoint hex_digits (upper : bool) (n : nat) (v : Z) : list byte :=
  match n with
  | O => []
  | S m => hex_digits upper m (v / 16) ++ [hex_digit upper (v mod 16)]
  end.
Definition uint_limbs (u : uint) : list Z :=
  map (fun i => uval u / 2 ^ (64 * Z.of_nat i) mod 2 ^ 64) (rev (seq 0 (Z.to_nat (uprec u / 64)))).
Definition pss_signature_hex (upper : bool) (s : signature) : list byte :=
  flat_map (hex_digits upper 16) (uint_limbs (sg_inner s)).
(** src/pss/signature.rs:68-72 *)
Definition pss_signature_display (s : signature) : list byte := pss_signature_hex true s.

(** * RSASSA-PKCS1-v1_5 *)

(** src/pkcs1v15/signing_key.rs:29-36 *)
Record p1_signing_key := mkP1SK { p1sk_inner : privkey; p1sk_prefix : list byte }.
(** src/pkcs1v15/verifying_key.rs:27-34 *)
Record p1_verifying_key := mkP1VK { p1vk_inner : pubkey; p1vk_prefix : list byte }.

(** src/pkcs1v15/signing_key.rs:43-49 [SigningKey::new], also [From<RsaPrivateKey>]
    (198-205) and the deprecated [new_with_prefix] (62-64) *)
Definition p1sk_new (hd : hashfn) (oid : list byte) (key : privkey) : outcome p1_signing_key :=
  let* prefix := pkcs1v15_generate_prefix oid (h_size hd) in
  Ok (mkP1SK key prefix).
(** src/pkcs1v15/signing_key.rs:82-88 *)
Definition p1sk_new_unprefixed (key : privkey) : p1_signing_key := mkP1SK key [].
(** src/pkcs1v15/verifying_key.rs:41-47, 162-169 *)
Definition p1vk_new (hd : hashfn) (oid : list byte) (key : pubkey) : outcome p1_verifying_key :=
  let* prefix := pkcs1v15_generate_prefix oid (h_size hd) in
  Ok (mkP1VK key prefix).
(** src/pkcs1v15/verifying_key.rs:65-71 *)
Definition p1vk_new_unprefixed (key : pubkey) : p1_verifying_key := mkP1VK key [].

(** src/pkcs1v15/signing_key.rs:222-228 [verifying_key] *)
Definition p1sk_verifying_key (k : p1_signing_key) : p1_verifying_key :=
  mkP1VK (to_public_key (p1sk_inner k)) (p1sk_prefix k).

(** src/pkcs1v15/signing_key.rs:260-267, verifying_key.rs:206-213 [PartialEq] *)
Definition p1sk_eqb (a b : p1_signing_key) : bool :=
  priv_eqb (p1sk_inner a) (p1sk_inner b) && bytes_eqb (p1sk_prefix a) (p1sk_prefix b).
Definition p1vk_eqb (a b : p1_verifying_key) : bool :=
  pub_eqb (p1vk_inner a) (p1vk_inner b) && bytes_eqb (p1vk_prefix a) (p1vk_prefix b).

Section P1Sign.
  Context {R : Type} (g : rng_ops R).

  (** src/pkcs1v15/signing_key.rs:119-123 [PrehashSigner::sign_prehash] ([rng = None])
      and the common body of 108-112, 130-138, 145-153, 160-164 *)
  Definition p1sk_sign_prehash (fuel : nat) (rng : option R) (k : p1_signing_key)
             (prehash : list byte) : outcome signature :=
    let* s := pkcs1v15_sign g fuel rng (p1sk_inner k) (p1sk_prefix k) prehash in
    signature_try_from s.

  (** src/pkcs1v15/signing_key.rs:108-112 [try_sign_digest], 130-138
      [try_sign_digest_with_rng]: the digest object carries the absorbed bytes. *)
  Definition p1sk_sign_digest (fuel : nat) (rng : option R) (k : p1_signing_key) (d : digest)
    : outcome signature :=
    p1sk_sign_prehash fuel rng k (fst (digest_finalize_reset d)).

  (** src/pkcs1v15/signing_key.rs:160-164 [Signer::try_sign], 145-153 [try_sign_with_rng] *)
  Definition p1sk_sign (hd : hashfn) (fuel : nat) (rng : option R) (k : p1_signing_key)
             (msg : list byte) : outcome signature :=
    p1sk_sign_prehash fuel rng k (digest_oneshot hd msg).
End P1Sign.

(** src/pkcs1v15/verifying_key.rs:97-99 [verify_prehash] *)
Definition p1vk_verify_prehash (k : p1_verifying_key) (prehash : list byte) (s : signature)
  : outcome unit := pkcs1v15_verify (p1vk_inner k) (p1vk_prefix k) prehash (sg_inner s).
(** src/pkcs1v15/verifying_key.rs:82-90 [verify_digest] *)
Definition p1vk_verify_digest (k : p1_verifying_key) (d : digest) (s : signature)
  : outcome unit := p1vk_verify_prehash k (fst (digest_finalize_reset d)) s.
(** src/pkcs1v15/verifying_key.rs:106-114 [verify] *)
Definition p1vk_verify (hd : hashfn) (k : p1_verifying_key) (msg : list byte) (s : signature)
  : outcome unit := p1vk_verify_prehash k (digest_oneshot hd msg) s.

(** * RSASSA-PSS *)

(** src/pss/signing_key.rs:36-43 and src/pss/blinded_signing_key.rs:26-33: one record,
    [pssk_blinded] tells which of the two types it is. *)
Record pss_signing_key := mkPssSK {
  pssk_blinded : bool; pssk_inner : privkey; pssk_salt_len : nat }.
(** src/pss/verifying_key.rs:22-29 *)
Record pss_verifying_key := mkPssVK { psvk_inner : pubkey; psvk_salt_len : nat }.

(** src/pss/signing_key.rs:56-62, blinded_signing_key.rs:48-54 *)
Definition pssk_new_with_salt_len (blinded : bool) (key : privkey) (salt_len : nat)
  : pss_signing_key := mkPssSK blinded key salt_len.
(** src/pss/signing_key.rs:51-53, blinded_signing_key.rs:42-44 *)
Definition pssk_new (hd : hashfn) (blinded : bool) (key : privkey) : pss_signing_key :=
  pssk_new_with_salt_len blinded key (h_size hd).
(** src/pss/verifying_key.rs:42-48 and 37-39 *)
Definition psvk_new_with_salt_len (key : pubkey) (salt_len : nat) : pss_verifying_key :=
  mkPssVK key salt_len.
Definition psvk_new (hd : hashfn) (key : pubkey) : pss_verifying_key :=
  psvk_new_with_salt_len key (h_size hd).
(** src/pss/signing_key.rs:219-225, blinded_signing_key.rs:195-201 *)
Definition pssk_verifying_key (k : pss_signing_key) : pss_verifying_key :=
  mkPssVK (to_public_key (pssk_inner k)) (pssk_salt_len k).
(** src/pss/signing_key.rs:242-249, blinded_signing_key.rs:217-224 (compared only
    between keys of the same type), verifying_key.rs:183-190 *)
Definition pssk_eqb (a b : pss_signing_key) : bool :=
  priv_eqb (pssk_inner a) (pssk_inner b) && (pssk_salt_len a =? pssk_salt_len b)%nat.
Definition psvk_eqb (a b : pss_verifying_key) : bool :=
  pub_eqb (psvk_inner a) (psvk_inner b) && (psvk_salt_len a =? psvk_salt_len b)%nat.

Section PssSign.
  Context {R : Type} (g : rng_ops R).

  (** src/pss/signing_key.rs:125-133, blinded_signing_key.rs:121-129; also
      [sign_prehash] with [OsRng] (signing_key.rs:136-144) *)
  Definition pssk_sign_prehash (hd : hashfn) (fuel : nat) (rng : R) (k : pss_signing_key)
             (prehash : list byte) : outcome signature :=
    let* s := pss_sign_digest g hd fuel rng (pssk_blinded k) (pssk_inner k) prehash
                              (pssk_salt_len k) in
    signature_try_from s.
  (** src/pss/signing_key.rs:97-105, blinded_signing_key.rs:106-114 *)
  Definition pssk_sign_digest (hd : hashfn) (fuel : nat) (rng : R) (k : pss_signing_key)
             (d : digest) : outcome signature :=
    pssk_sign_prehash hd fuel rng k (fst (digest_finalize_reset d)).
  (** src/pss/signing_key.rs:112-118 (through [D::new_with_prefix]), 146-154 ([OsRng]),
      blinded_signing_key.rs:91-99 (through [D::digest]) *)
  Definition pssk_sign (hd : hashfn) (fuel : nat) (rng : R) (k : pss_signing_key)
             (msg : list byte) : outcome signature :=
    if pssk_blinded k
    then pssk_sign_prehash hd fuel rng k (digest_oneshot hd msg)
    else pssk_sign_digest hd fuel rng k (digest_update (digest_new hd) msg).
End PssSign.

(** src/pss/verifying_key.rs:79-82, 64-72, 89-97 *)
Definition psvk_verify_prehash (hd : hashfn) (k : pss_verifying_key) (prehash : list byte)
           (s : signature) : outcome unit :=
  pss_verify_digest hd (psvk_inner k) prehash (sg_inner s) (psvk_salt_len k).
Definition psvk_verify_digest (hd : hashfn) (k : pss_verifying_key) (d : digest)
           (s : signature) : outcome unit :=
  psvk_verify_prehash hd k (fst (digest_finalize_reset d)) s.
Definition psvk_verify (hd : hashfn) (k : pss_verifying_key) (msg : list byte)
           (s : signature) : outcome unit :=
  psvk_verify_prehash hd k (digest_oneshot hd msg) s.

(** * Encryption keys *)

(** src/pkcs1v15/decrypting_key.rs:18-20, encrypting_key.rs:13-15 *)
Record p1_decrypting_key := mkP1DK { p1dk_inner : privkey }.
Record p1_encrypting_key := mkP1EK { p1ek_inner : pubkey }.
(** src/pkcs1v15/decrypting_key.rs:22-27, encrypting_key.rs:17-22 *)
Definition p1dk_new (k : privkey) := mkP1DK k.
Definition p1ek_new (k : pubkey) := mkP1EK k.
(** src/pkcs1v15/decrypting_key.rs:45-52 [encrypting_key] (through
    [From<RsaPrivateKey> for RsaPublicKey], src/key.rs:155-159) *)
Definition p1dk_encrypting_key (k : p1_decrypting_key) : p1_encrypting_key :=
  mkP1EK (pubkey_from_private (p1dk_inner k)).

(** src/oaep/decrypting_key.rs:20-29, encrypting_key.rs:15-24; D and MGD are arguments *)
Record oaep_decrypting_key := mkODK { odk_inner : privkey; odk_label : option (list byte) }.
Record oaep_encrypting_key := mkOEK { oek_inner : pubkey; oek_label : option (list byte) }.
(** src/oaep/decrypting_key.rs:37-54, encrypting_key.rs:32-49 *)
Definition odk_new (k : privkey) := mkODK k None.
Definition odk_new_with_label (k : privkey) (l : list byte) := mkODK k (Some l).
Definition oek_new (k : pubkey) := mkOEK k None.
Definition oek_new_with_label (k : pubkey) (l : list byte) := mkOEK k (Some l).
(** src/oaep/decrypting_key.rs:88-96, encrypting_key.rs:62-70 [PartialEq] *)
Definition label_eqb (a b : option (list byte)) : bool :=
  match a, b with
  | None, None => true
  | Some x, Some y => bytes_eqb x y
  | _, _ => false
  end.
Definition odk_eqb (a b : oaep_decrypting_key) : bool :=
  priv_eqb (odk_inner a) (odk_inner b) && label_eqb (odk_label a) (odk_label b).
Definition oek_eqb (a b : oaep_encrypting_key) : bool :=
  pub_eqb (oek_inner a) (oek_inner b) && label_eqb (oek_label a) (oek_label b).

Section EncKeys.
  Context {R : Type} (g : rng_ops R).
  (** src/pkcs1v15/encrypting_key.rs:24-28 *)
  Definition p1ek_encrypt (fuel : nat) (rng : R) (k : p1_encrypting_key) (msg : list byte) :=
    pkcs1v15_encrypt g fuel rng (p1ek_inner k) msg.
  (** src/pkcs1v15/decrypting_key.rs:29-43 *)
  Definition p1dk_decrypt (fuel : nat) (rng : option R) (k : p1_decrypting_key) (ct : list byte) :=
    pkcs1v15_decrypt g fuel rng (p1dk_inner k) ct.
  (** src/oaep/encrypting_key.rs:52-60 *)
  Definition oek_encrypt (hd hm : hashfn) (rng : R) (k : oaep_encrypting_key) (msg : list byte) :=
    oaep_api_encrypt_digest g hd hm rng (oek_inner k) msg (oek_label k).
  (** src/oaep/decrypting_key.rs:57-79 *)
  Definition odk_decrypt (hd hm : hashfn) (fuel : nat) (rng : option R)
             (k : oaep_decrypting_key) (ct : list byte) :=
    oaep_api_decrypt_digest g hd hm fuel rng (odk_inner k) ct (odk_label k).
End EncKeys.

(** * Random keys *)
Section RandomKeys.
  Context {R : Type} (gp : prime_gen R).
  (** src/pkcs1v15/signing_key.rs:52-58 [random], 91-97 [random_unprefixed] *)
  Definition p1sk_random (hd : hashfn) (oid : list byte) (fuel : nat) (st : R) (bit_size : Z)
    : outcome p1_signing_key :=
    let* key := private_new gp fuel st bit_size in
    let* prefix := pkcs1v15_generate_prefix oid (h_size hd) in
    Ok (mkP1SK key prefix).
  Definition p1sk_random_unprefixed (fuel : nat) (st : R) (bit_size : Z)
    : outcome p1_signing_key :=
    let* key := private_new gp fuel st bit_size in Ok (mkP1SK key []).
  (** src/pss/signing_key.rs:66-81, blinded_signing_key.rs:59-75 *)
  Definition pssk_random_with_salt_len (blinded : bool) (fuel : nat) (st : R) (bit_size : Z)
             (salt_len : nat) : outcome pss_signing_key :=
    let* key := private_new gp fuel st bit_size in Ok (mkPssSK blinded key salt_len).
  Definition pssk_random (hd : hashfn) (blinded : bool) (fuel : nat) (st : R) (bit_size : Z)
    : outcome pss_signing_key :=
    pssk_random_with_salt_len blinded fuel st bit_size (h_size hd).
End RandomKeys.
