(** Environment of the algorithms: hash functions and random generators.
    Both are arbitrary parameters of every theorem. *)
From Coq Require Import ZArith List.
From Coq Require Import Init.Byte.
From Verif Require Import Base Bigint.
Import ListNotations.

(** A hash function with fixed output size: what the [digest] crate's [Digest] /
    [DynDigest] traits promise.  Used by src/algorithms/mgf.rs:8,39,
    src/algorithms/oaep.rs:63,94, src/algorithms/pss.rs:23,98. *)
Record hashfn := mkHash {
  h_size : nat;
  h_fun  : list byte -> list byte;
  h_len  : forall m, length (h_fun m) = h_size
}.

(** State of a hasher: the function and the bytes absorbed since the last reset
    ([DynDigest] object, e.g. src/algorithms/mgf.rs:8, or [D: Digest + FixedOutputReset]
    value, e.g. src/algorithms/mgf.rs:39). *)
Record digest := mkDigest { d_fn : hashfn; d_pending : list byte }.

(** [D::new()], e.g. src/oaep.rs:72, src/pss.rs:64, src/algorithms/pss.rs:137. *)
Definition digest_new (h : hashfn) : digest := mkDigest h [].

(** [update], e.g. src/algorithms/mgf.rs:20. *)
Definition digest_update (d : digest) (bs : list byte) : digest :=
  mkDigest (d_fn d) (d_pending d ++ bs).

(** [finalize_reset], e.g. src/algorithms/mgf.rs:21. *)
Definition digest_finalize_reset (d : digest) : list byte * digest :=
  (h_fun (d_fn d) (d_pending d), digest_new (d_fn d)).

(** [output_size], e.g. src/algorithms/oaep.rs:68. *)
Definition digest_output_size (d : digest) : nat := h_size (d_fn d).

(** [D::digest(data)], src/algorithms/oaep.rs:109,183. *)
Definition digest_oneshot (h : hashfn) (data : list byte) : list byte := h_fun h data.

(** A (fallible) random generator with state [R]: [try_fill_bytes] on a slice of
    the given length (src/algorithms/pkcs1v15.rs:25,31, oaep.rs:38, src/pss.rs:177,190)
    and [BoxedUint::try_random_mod] (src/algorithms/rsa.rs:161).
    [None] is the generator's error. *)
Record rng_ops (R : Type) := mkRng {
  rng_fill : R -> nat -> option (list byte) * R;
  rng_mod  : R -> Z -> option Z * R
}.
Arguments rng_fill {R} _ _ _.
Arguments rng_mod {R} _ _ _.

(** What a generator must respect (rand_core dependency): it fills exactly the slice, and [random_mod n]
    returns a value below [n].  Nothing is assumed about distribution. *)
Definition rng_ok {R} (g : rng_ops R) : Prop :=
  (forall r n bs r', rng_fill g r n = (Some bs, r') -> length bs = n) /\
  (forall r n v r', (0 < n)%Z -> rng_mod g r n = (Some v, r') -> (0 <= v < n)%Z).
