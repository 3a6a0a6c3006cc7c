(** What "the work of a call" means: its modular exponentiations, which dominate its
    running time, with the widths that determine the time of each. *)
From Coq Require Import ZArith List.
From Verif Require Import Base Bigint MRsa MKey MLeak.
Import ListNotations.
Local Open Scope Z_scope.

(** The exponentiations of a run, in order: width of the modulus, width of the exponent. *)
Fixpoint exponentiations (t : list event) : list (Z * Z) :=
  match t with
  | [] => []
  | EUint OpMontPow [m; e] :: r => (m, e) :: exponentiations r
  | _ :: r => exponentiations r
  end.

(** One exponentiation with the public exponent; with the private exponent, or one per
    prime when the key has two primes and carries its CRT values. *)
Definition public_work (k : pubkey) : list (Z * Z) := [(uprec (pk_n k), uprec (pk_e k))].
Definition private_work (k : privkey) : list (Z * Z) :=
  match sk_pre k with
  | Some pc =>
      if (2 <? length (sk_primes k))%nat then [(uprec (pk_n (sk_pub k)), uprec (sk_d k))]
      else [(uprec (sk_d k), uprec (sk_d k)); (uprec (sk_d k), uprec (sk_d k))]
  | None => [(uprec (pk_n (sk_pub k)), uprec (sk_d k))]
  end.
Definition operation_work {R} (rng : option R) (k : privkey) : list (Z * Z) :=
  match rng with Some _ => public_work (sk_pub k) | None => [] end
  ++ private_work k ++ public_work (sk_pub k).

(** The time, for any time an exponentiation may take as a function of the two widths. *)
Fixpoint total (cost : Z -> Z -> Z) (w : list (Z * Z)) : Z :=
  match w with
  | [] => 0
  | (m, e) :: r => cost m e + total cost r
  end.
