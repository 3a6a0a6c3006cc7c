(** How a program can come to hold a key: the public calls of /repo/src that return or
    change one, in any order and any number (C92). *)
From Coq Require Import ZArith List Bool.
From Coq Require Import Init.Byte.
From Verif Require Import Base Bigint SpecGen MHash MRsa MGenerate MKey MWrap MDer MEncoding MSerde.
Import ListNotations.
Local Open Scope Z_scope.

(** A private key obtained by some sequence of calls.  The arguments are any big integers
    ([n] is [Odd<BoxedUint>], src/key.rs:306), any documents and any serialised data. *)
Inductive obtained : privkey -> Prop :=
(** src/key.rs:305-346 *)
| ob_components n e d primes k :
    wf_uint n -> wf_uint e -> wf_uint d -> Forall wf_uint primes -> Z.odd (uval n) = true ->
    from_components n e d primes = Ok k -> obtained k
(** src/key.rs:352-366 *)
| ob_p_q p q e k : wf_uint p -> wf_uint q -> wf_uint e -> from_p_q p q e = Ok k -> obtained k
(** src/key.rs:373-394 *)
| ob_primes ps e k : Forall wf_uint ps -> wf_uint e -> from_primes ps e = Ok k -> obtained k
(** src/key.rs:275-290 *)
| ob_new R (gp : prime_gen R) b fuel st k :
    prime_source gp b -> 0 <= b < 2 ^ 32 -> private_new gp fuel st b = Ok k -> obtained k
| ob_new_with_exp R (gp : prime_gen R) b fuel st e k :
    prime_source gp b -> 0 <= b < 2 ^ 32 -> wf_uint e ->
    private_new_with_exp gp fuel st b e = Ok k -> obtained k
(** src/encoding.rs:46-78, src/key.rs:647-657 *)
| ob_pkcs8 mx tl doc k : mx < 2 ^ 29 -> from_pkcs8_der mx tl doc = Ok k -> obtained k
| ob_pkcs1 mx doc k : mx < 2 ^ 29 -> from_pkcs1_der mx doc = Ok k -> obtained k
| ob_serde mx tl human v k : mx < 2 ^ 29 -> de_private mx tl human v = Ok k -> obtained k
(** The key inside a signing key (src/pkcs1v15/signing_key.rs:42-117, 244-256, 283-295,
    src/pss/signing_key.rs:49-98, 228-238, 265-277, blinded_signing_key.rs:47-93, 204-213,
    240-252) *)
| ob_p1sk_random R (gp : prime_gen R) hd oid b fuel st s :
    prime_source gp b -> 0 <= b < 2 ^ 32 -> p1sk_random gp hd oid fuel st b = Ok s ->
    obtained (p1sk_inner s)
| ob_p1sk_random_unprefixed R (gp : prime_gen R) b fuel st s :
    prime_source gp b -> 0 <= b < 2 ^ 32 -> p1sk_random_unprefixed gp fuel st b = Ok s ->
    obtained (p1sk_inner s)
| ob_pssk_random R (gp : prime_gen R) hd blinded b fuel st s :
    prime_source gp b -> 0 <= b < 2 ^ 32 -> pssk_random gp hd blinded fuel st b = Ok s ->
    obtained (pssk_inner s)
| ob_pssk_random_salt R (gp : prime_gen R) blinded b fuel st salt_len s :
    prime_source gp b -> 0 <= b < 2 ^ 32 ->
    pssk_random_with_salt_len gp blinded fuel st b salt_len = Ok s -> obtained (pssk_inner s)
| ob_p1sk_pkcs8 mx tl hd oid doc s :
    mx < 2 ^ 29 -> p1sk_from_pkcs8_der mx tl hd oid doc = Ok s -> obtained (p1sk_inner s)
| ob_pssk_pkcs8 mx tl hd blinded doc s :
    mx < 2 ^ 29 -> pssk_from_pkcs8_der mx tl hd blinded doc = Ok s -> obtained (pssk_inner s)
| ob_p1sk_serde mx tl human hd oid v s :
    mx < 2 ^ 29 -> de_p1sk mx tl human hd oid v = Ok s -> obtained (p1sk_inner s)
| ob_pssk_serde mx tl human hd blinded v s :
    mx < 2 ^ 29 -> de_pssk mx tl human hd blinded v = Ok s -> obtained (pssk_inner s)
(** The key inside a decrypting key (src/pkcs1v15/decrypting_key.rs:16-20,
    src/oaep/decrypting_key.rs:18-29) *)
| ob_p1dk_serde mx tl human v s :
    mx < 2 ^ 29 -> de_p1dk mx tl human v = Ok s -> obtained (p1dk_inner s)
| ob_odk_serde mx tl human v s :
    mx < 2 ^ 29 -> de_odk mx tl human v = Ok s -> obtained (odk_inner s)
(** Putting a key into a key object and taking it out again ([From], [AsRef]) *)
| ob_p1sk hd oid k s : obtained k -> p1sk_new hd oid k = Ok s -> obtained (p1sk_inner s)
| ob_p1sk_unprefixed k : obtained k -> obtained (p1sk_inner (p1sk_new_unprefixed k))
| ob_pssk hd blinded k : obtained k -> obtained (pssk_inner (pssk_new hd blinded k))
| ob_p1dk k : obtained k -> obtained (p1dk_inner (p1dk_new k))
| ob_odk k : obtained k -> obtained (odk_inner (odk_new k))
(** src/key.rs:405-452; a call that fails leaves the key as it was *)
| ob_precompute k k' : obtained k -> precompute k = Ok k' -> obtained k'
(** src/key.rs:455-457 *)
| ob_clear k : obtained k -> obtained (clear_precomputed k).

(** What happens to a key that is kept: CRT values computed and cleared, moved through key
    objects, saved and loaded again, any number of times. *)
Inductive kept (k0 : privkey) : privkey -> Prop :=
| kept_same : kept k0 k0
| kept_precompute k k' : kept k0 k -> precompute k = Ok k' -> kept k0 k'
| kept_clear k : kept k0 k -> kept k0 (clear_precomputed k)
| kept_p1sk hd oid k s : kept k0 k -> p1sk_new hd oid k = Ok s -> kept k0 (p1sk_inner s)
| kept_pssk hd blinded k : kept k0 k -> kept k0 (pssk_inner (pssk_new hd blinded k))
(** [to_pkcs8_der] then [from_pkcs8_der] (src/encoding.rs:46-151) *)
| kept_pkcs8 mx tl k doc k' :
    kept k0 k -> 2 ^ 21 <= mx < 2 ^ 29 -> uprec (sk_d k) <= 2 ^ 20 ->
    to_pkcs8_der mx k = Ok doc -> tl 0 [] = true -> from_pkcs8_der mx tl doc = Ok k' -> kept k0 k'
(** [Serialize] then [Deserialize] (src/key.rs:636-657) *)
| kept_serde mx tl human k v k' :
    kept k0 k -> 2 ^ 21 <= mx < 2 ^ 29 -> uprec (sk_d k) <= 2 ^ 20 ->
    ser_private mx human k = Ok v -> tl 0 [] = true -> de_private mx tl human v = Ok k' -> kept k0 k'.

(** A public key obtained by some sequence of calls: src/key.rs:161-172, 224-239, 400-402,
    625-634, src/encoding.rs:80-101. *)
Inductive obtained_public : pubkey -> Prop :=
| obp_new n e pk : wf_uint n -> wf_uint e -> public_new n e = Ok pk -> obtained_public pk
| obp_pkcs8 mx doc pk : mx < 2 ^ 29 -> from_public_key_der mx doc = Ok pk -> obtained_public pk
| obp_pkcs1 mx doc pk : mx < 2 ^ 29 -> from_pkcs1_public_der mx doc = Ok pk -> obtained_public pk
| obp_serde mx human v pk : mx < 2 ^ 29 -> de_public mx human v = Ok pk -> obtained_public pk
| obp_of_private k : obtained k -> obtained_public (to_public_key k)
| obp_from_private k : obtained k -> obtained_public (pubkey_from_private k)
| obp_p1vk hd oid pk s : obtained_public pk -> p1vk_new hd oid pk = Ok s -> obtained_public (p1vk_inner s)
| obp_p1sk_verifying hd oid k s : obtained k -> p1sk_new hd oid k = Ok s ->
    obtained_public (p1vk_inner (p1sk_verifying_key s))
| obp_pssk_verifying hd blinded k : obtained k ->
    obtained_public (psvk_inner (pssk_verifying_key (pssk_new hd blinded k))).
