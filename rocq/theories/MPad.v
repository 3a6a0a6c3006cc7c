(** Model of src/algorithms/pad.rs. *)
From Coq Require Import ZArith List.
From Coq Require Import Init.Byte.
From Verif Require Import Base Bigint.
Import ListNotations.
Local Open Scope Z_scope.

(** src/algorithms/pad.rs:11-19 [left_pad] *)
Definition left_pad (input : list byte) (padded_len : nat) : outcome (list byte) :=
  if (padded_len <? length input)%nat then Err InvalidPadLen
  else
    let out := vec x00 padded_len in
    let* off := usub padded_len (length input) in
    copy_into out off padded_len input.

(** src/algorithms/pad.rs:25-28 [uint_to_be_pad] *)
Definition uint_to_be_pad (input : uint) (padded_len : nat) : outcome (list byte) :=
  let leading_zeros := Z.to_nat (uleading_zeros input / 8) in
  let* b := slice_from (to_be_bytes input) leading_zeros in
  left_pad b padded_len.

(** src/algorithms/pad.rs:34-41 [uint_to_zeroizing_be_pad]; the [Zeroizing]
    wrappers only affect memory after drop and are not modelled here. *)
Definition uint_to_zeroizing_be_pad (input : uint) (padded_len : nat) : outcome (list byte) :=
  let leading_zeros := Z.to_nat (uleading_zeros input / 8) in
  let* m := slice_from (to_be_bytes input) leading_zeros in
  left_pad m padded_len.
