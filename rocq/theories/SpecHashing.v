(** What "the hashing of a call" means: how many times a hash function is evaluated and
    on how many octets each time, which determines the time. *)
From Coq Require Import Arith List.
From Verif Require Import Base Bigint MLeak.
Import ListNotations.

(** The amounts hashed in a run, in order. *)
Fixpoint hashings (t : list event) : list nat :=
  match t with
  | [] => []
  | EFinal n :: r => n :: hashings r
  | _ :: r => hashings r
  end.

(** RFC 8017 B.2.1: a mask of [out] octets from a seed of [seed] octets, with a hash
    function of output size [h]: the seed and a four-octet counter, ceil(out / h) times. *)
Definition mask_hashings (h seed out : nat) : list nat := repeat (seed + 4) ((out + h - 1) / h).

(** RFC 8017 7.1: a block of [K] octets, [h] and [hm] the output sizes of the two hash
    functions: the label, then the two masks (in this order when decrypting). *)
Definition oaep_hashings (h hm label K : nat) : list nat :=
  label :: mask_hashings hm (K - h - 1) h ++ mask_hashings hm h (K - h - 1).
Definition oaep_encrypt_hashings (h hm label K : nat) : list nat :=
  label :: mask_hashings hm h (K - h - 1) ++ mask_hashings hm (K - h - 1) h.

(** RFC 8017 9.1: an encoding of [emLen] octets with a salt of [salt] octets: eight zero
    octets, the message hash and the salt, and the mask. *)
Definition pss_hashings (h salt emLen : nat) : list nat :=
  (8 + h + salt) :: mask_hashings h h (emLen - h - 1).
Definition pss_verify_hashings (h salt emLen : nat) : list nat :=
  mask_hashings h h (emLen - h - 1) ++ [8 + h + salt].
