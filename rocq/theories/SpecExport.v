(** Specification vocabulary for what exporting and comparing keys shows. *)
From Coq Require Import ZArith List.
From Verif Require Import Base Bigint SpecRFC SpecDer MHash MRsa MKey.
Import ListNotations.
Local Open Scope Z_scope.

(** The number of octets that write z, and the number of octets of z as a DER integer (one more
    if the first bit is set). *)
Definition looks (z : Z) : Z * nat := (octet_size z, length (int_octets z)).

(** The position of the first difference of two lists: their length if there is none. *)
Fixpoint first_difference (l m : list Z) : nat :=
  match l, m with
  | x :: l, y :: m => if x =? y then S (first_difference l m) else 0%nat
  | _, _ => 0%nat
  end.

(** A key of two primes, with every number within its width *)
Definition two_primes (k : privkey) (p q : uint) : Prop :=
  wf_uint (pk_n (sk_pub k)) /\ wf_uint (pk_e (sk_pub k)) /\ wf_uint (sk_d k) /\
  sk_primes k = [p; q] /\ wf_uint p /\ wf_uint q.

(** The CRT coefficient: the inverse of q modulo p *)
Definition coefficient_of (p q c : Z) : Prop := 0 <= c < p /\ (q * c) mod p = 1.

(** The numbers of the PKCS#1 structure, RFC 8017 A.1.2 *)
Definition exported (k : privkey) (p q : uint) (c : Z) : list Z :=
  let d := uval (sk_d k) in
  [uval (pk_n (sk_pub k)); uval (pk_e (sk_pub k)); d; uval p; uval q;
   d mod (uval p - 1); d mod (uval q - 1); c].

(** Keys stored at the same widths *)
Definition same_widths (k k' : privkey) (p q p' q' : uint) : Prop :=
  uprec (pk_n (sk_pub k)) = uprec (pk_n (sk_pub k')) /\ uprec (pk_e (sk_pub k)) = uprec (pk_e (sk_pub k')) /\
  uprec (sk_d k) = uprec (sk_d k') /\ uprec p = uprec p' /\ uprec q = uprec q'.

(** The numbers of a key in the order in which they are compared *)
Definition secret_values (k : privkey) : list Z :=
  uval (pk_n (sk_pub k)) :: uval (pk_e (sk_pub k)) :: uval (sk_d k) :: map uval (sk_primes k).

(** The same number of primes and the same widths *)
Definition alike_keys (k k' : privkey) : Prop :=
  uprec (pk_n (sk_pub k)) = uprec (pk_n (sk_pub k')) /\ uprec (pk_e (sk_pub k)) = uprec (pk_e (sk_pub k')) /\
  uprec (sk_d k) = uprec (sk_d k') /\ Forall2 (fun p p' => uprec p = uprec p') (sk_primes k) (sk_primes k').
