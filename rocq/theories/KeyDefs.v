(** Well-formedness of key objects, as hypotheses of the theorems.  Phrased over
    the key records of MRsa.v and the specification's notion of a valid key. *)
From Coq Require Import ZArith List Bool.
From Coq Require Import Init.Byte.
From Verif Require Import Base Bigint MRsa SpecRFC MKey.
Import ListNotations.
Local Open Scope Z_scope.

(** A public key object as every constructor builds it (src/key.rs:229-253): real
    big integers, an odd modulus, Montgomery parameters for that modulus. *)
Definition wf_pub (k : pubkey) : Prop :=
  wf_uint (pk_n k) /\ wf_uint (pk_e k) /\ pk_params k = mkMP (pk_n k) /\
  Z.odd (uval (pk_n k)) = true.

(** CRT values, if present, are those that [precompute] (src/key.rs:405-452) stores. *)
Definition pre_consistent (k : privkey) : Prop :=
  sk_pre k = None \/ precompute (clear_precomputed k) = Ok k.

(** A private key object whose components form a valid RSA key (RFC 8017 section
    3.2), with d stored at least as wide as n. *)
Definition good_priv (k : privkey) : Prop :=
  wf_pub (sk_pub k) /\ wf_uint (sk_d k) /\ Forall wf_uint (sk_primes k) /\
  valid_rsa_key (uval (pk_n (sk_pub k))) (uval (pk_e (sk_pub k))) (uval (sk_d k))
                (map uval (sk_primes k)) /\
  uprec (pk_n (sk_pub k)) <= uprec (sk_d k) /\ pre_consistent k.

(** A private key object as [from_components] (src/key.rs:305-346) builds it, valid
    RSA numbers or not: big integers, at least two listed primes, CRT values that
    [precompute] computed, and d stored at least as wide as n. *)
Definition sane_priv (k : privkey) : Prop :=
  wf_pub (sk_pub k) /\ wf_uint (sk_d k) /\ Forall wf_uint (sk_primes k) /\
  (2 <= length (sk_primes k))%nat /\ 1 < uval (pk_n (sk_pub k)) /\
  uprec (pk_n (sk_pub k)) <= uprec (sk_d k) /\ pre_consistent k.
