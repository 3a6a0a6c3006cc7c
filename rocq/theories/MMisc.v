(** Model of the accessors of src/key.rs, of the conversions between keys and signing or
    verifying keys, and of the deprecated names. *)
From Coq Require Import ZArith List Bool.
From Coq Require Import Init.Byte.
From Verif Require Import Base Bigint MHash MPkcs1 MRsa MGenerate MKey MApi MWrap.
Import ListNotations.
Local Open Scope Z_scope.

(** * [PrivateKeyParts] *)

(** src/key.rs:549-555 [d], [primes] *)
Definition priv_d (k : privkey) : uint := sk_d k.
Definition priv_primes (k : privkey) : list uint := sk_primes k.
(** src/key.rs:557-559 [dp] *)
Definition priv_dp (k : privkey) : option uint := option_map pc_dp (sk_pre k).
(** src/key.rs:561-563 [dq] *)
Definition priv_dq (k : privkey) : option uint := option_map pc_dq (sk_pre k).
(** src/key.rs:565-567 [qinv] *)
Definition priv_qinv (k : privkey) : option mform := option_map pc_qinv (sk_pre k).
(** src/key.rs:569-571 [crt_values]; the element type is src/traits/keys.rs:58-68 *)
Record crt_value := mkCrt { crt_exp : uint; crt_coeff : uint; crt_r : uint }.
Definition priv_crt_values (k : privkey) : option (list crt_value) := None.
(** src/key.rs:573-579 [p_params], [q_params] *)
Definition priv_p_params (k : privkey) : option mparams := option_map pc_p_params (sk_pre k).
Definition priv_q_params (k : privkey) : option mparams := option_map pc_q_params (sk_pre k).

(** * [PublicKeyParts], src/key.rs:174-186 and 256-268 *)
Definition pub_n (k : pubkey) : uint := pk_n k.
Definition pub_e (k : pubkey) : uint := pk_e k.
Definition priv_n (k : privkey) : uint := pk_n (sk_pub k).
Definition priv_e (k : privkey) : uint := pk_e (sk_pub k).

(** * Conversions *)

(** src/pkcs1v15/signing_key.rs:171-178 [as_ref], 207-214 [into] *)
Definition p1sk_as_ref (k : p1_signing_key) : privkey := p1sk_inner k.
Definition p1sk_into (k : p1_signing_key) : privkey := p1sk_inner k.
(** src/pkcs1v15/signing_key.rs:198-205 [from] *)
Definition p1sk_from (hd : hashfn) (oid : list byte) (k : privkey) : outcome p1_signing_key :=
  p1sk_new hd oid k.
(** src/pkcs1v15/verifying_key.rs:121-128 [as_ref], 171-178 [into], 162-169 [from] *)
Definition p1vk_as_ref (k : p1_verifying_key) : pubkey := p1vk_inner k.
Definition p1vk_into (k : p1_verifying_key) : pubkey := p1vk_inner k.
Definition p1vk_from (hd : hashfn) (oid : list byte) (k : pubkey) : outcome p1_verifying_key :=
  p1vk_new hd oid k.
(** src/pkcs1v15/verifying_key.rs:140-151 [clone] *)
Definition p1vk_clone (k : p1_verifying_key) : p1_verifying_key :=
  mkP1VK (p1vk_inner k) (p1vk_prefix k).

(** src/pss/signing_key.rs:160-167, 196-212; src/pss/blinded_signing_key.rs:136-143, 172-188 *)
Definition pssk_as_ref (k : pss_signing_key) : privkey := pssk_inner k.
Definition pssk_into (k : pss_signing_key) : privkey := pssk_inner k.
Definition pssk_from (hd : hashfn) (blinded : bool) (k : privkey) : pss_signing_key :=
  pssk_new hd blinded k.
(** src/pss/signing_key.rs:84-86, blinded_signing_key.rs:78-80 [salt_len] *)
Definition pssk_get_salt_len (k : pss_signing_key) : nat := pssk_salt_len k.
(** src/pss/verifying_key.rs:104-111, 145-161 *)
Definition psvk_as_ref (k : pss_verifying_key) : pubkey := psvk_inner k.
Definition psvk_into (k : pss_verifying_key) : pubkey := psvk_inner k.
Definition psvk_from (hd : hashfn) (k : pubkey) : pss_verifying_key := psvk_new hd k.
(** src/pss/verifying_key.rs:51-53 [salt_len] *)
Definition psvk_get_salt_len (k : pss_verifying_key) : nat := psvk_salt_len k.
(** src/pss/verifying_key.rs:123-134 [clone] *)
Definition psvk_clone (k : pss_verifying_key) : pss_verifying_key :=
  mkPssVK (psvk_inner k) (psvk_salt_len k).

(** * Deprecated names *)

(** src/pkcs1v15.rs:96-99 [new_raw] *)
Definition pkcs1_sign_new_raw : pkcs1_sign_params := pkcs1_sign_new_unprefixed.
(** src/pkcs1v15/signing_key.rs:61-64 [new_with_prefix] *)
Definition p1sk_new_with_prefix (hd : hashfn) (oid : list byte) (k : privkey)
  : outcome p1_signing_key := p1sk_new hd oid k.
(** src/pkcs1v15/verifying_key.rs:50-53 [new_with_prefix] *)
Definition p1vk_new_with_prefix (hd : hashfn) (oid : list byte) (k : pubkey)
  : outcome p1_verifying_key := p1vk_new hd oid k.
(** src/pkcs1v15/signing_key.rs:67-70 [random_with_prefix] *)
Definition p1sk_random_with_prefix {R} (gp : prime_gen R) (hd : hashfn) (oid : list byte)
           (fuel : nat) (st : R) (bit_size : Z) : outcome p1_signing_key :=
  p1sk_random gp hd oid fuel st bit_size.
