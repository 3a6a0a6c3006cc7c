(** Independent specification of which keys are acceptable (README and the
    documentation of src/key.rs:209-226, 588-612; RFC 8017 section 3). *)
From Coq Require Import ZArith List.
Import ListNotations.
Local Open Scope Z_scope.

(** Public keys: size limit, odd modulus, odd exponent in 2..2^33-1 and below n. *)
Definition public_acceptable (n e stored_bits max_bits : Z) : Prop :=
  stored_bits <= max_bits /\ Z.odd n = true /\ Z.odd e = true /\ 2 <= e /\ e < n /\ e <= 2 ^ 33 - 1.

(** The same with the library's limit of 4096 bits. *)
Definition public_usable (n e stored_bits : Z) : Prop := public_acceptable n e stored_bits 4096.
