(** Questions about a ciphertext, put to somebody who decrypts other ciphertexts and says
    only whether that worked. *)
From Coq Require Import ZArith List Bool.
From Coq Require Import Init.Byte.
From Verif Require Import SpecRFC.
Import ListNotations.
Local Open Scope Z_scope.

(** What anybody can make of a ciphertext [c] with the public key: c times the encryption of [s]. *)
Definition mauled (n e : Z) (K : nat) (c s : Z) : list byte := i2osp (c * RSAEP n e s mod n) K.

(** Octets before the first 00. *)
Fixpoint before_zero (l : list byte) : option nat :=
  match l with
  | [] => None
  | b :: r => if Byte.eqb b x00 then Some O else option_map S (before_zero r)
  end.

(** 00 02, at least eight octets other than 00, 00 *)
Definition conforms (K : nat) (x : Z) : bool :=
  match i2osp x K with
  | b0 :: b1 :: rest =>
      Byte.eqb b0 x00 && Byte.eqb b1 x02 &&
      match before_zero rest with Some i => (8 <=? i)%nat | None => false end
  | _ => false
  end.

(** The first number below [n] that fits all the answers: uses the public key only. *)
Definition numbers_below (n : Z) : list Z := map Z.of_nat (seq 0 (Z.to_nat n)).
Definition recover (n : Z) (K : nat) (answers : Z -> bool) : option Z :=
  find (fun m => forallb (fun s => Bool.eqb (answers s) (conforms K (m * s mod n))) (numbers_below n))
       (numbers_below n).
