(** Model of src/algorithms/mgf.rs. *)
From Coq Require Import ZArith List.
From Coq Require Import Init.Byte.
From Verif Require Import Base MHash.
Import ListNotations.
Local Open Scope Z_scope.

(** src/algorithms/mgf.rs:67-75 [inc_counter]: the loop [for i in (0..4).rev()];
    [i] counts the positions still to visit. The array has length 4, so the
    indices are always in range (the default of [nth] is never used). *)
Fixpoint inc_counter_from (i : nat) (counter : list byte) : list byte :=
  match i with
  | O => counter
  | S i' =>
      let v := byte_succ (nth i' counter x00) in
      let counter' := firstn i' counter ++ v :: skipn (S i') counter in
      if byte_eqb v x00 then inc_counter_from i' counter' else counter'
  end.
Definition inc_counter (counter : list byte) : list byte := inc_counter_from 4 counter.

(** src/algorithms/mgf.rs:22-31 and 54-63: the inner loop; the list argument is
    [digest_output[j..]]. Returns the buffer and the new value of [i]. *)
Fixpoint xor_block (out : list byte) (i : nat) (digest_output : list byte)
  : outcome (list byte * nat) :=
  match digest_output with
  | [] => Ok (out, i)
  | x :: rest =>
      if (length out <=? i)%nat then Ok (out, i)
      else
        let* b := get_idx out i in
        let* out' := set_idx out i (bxor b x) in
        xor_block out' (S i) rest
  end.

(** src/algorithms/mgf.rs:15-33: the outer loop of [mgf1_xor] (fuel = remaining
    iterations looked at). *)
Fixpoint mgf1_xor_loop (fuel : nat) (out : list byte) (i : nat)
         (counter : list byte) (dg : digest) (seed : list byte)
  : outcome (list byte * digest) :=
  if (length out <=? i)%nat then Ok (out, dg)
  else
    match fuel with
    | O => OutOfFuel
    | S fuel' =>
        let di := vec x00 (length seed + 4) in
        let* di := copy_into di 0 (length seed) seed in
        let* di := copy_into di (length seed) (length di) counter in
        let dg := digest_update dg di in
        let (digest_output, dg) := digest_finalize_reset dg in
        let* (out', i') := xor_block out i digest_output in
        mgf1_xor_loop fuel' out' i' (inc_counter counter) dg seed
    end.

(** src/algorithms/mgf.rs:8-34 [mgf1_xor] *)
Definition mgf1_xor (out : list byte) (dg : digest) (seed : list byte)
  : outcome (list byte * digest) :=
  let* _ := assert_ (Z.of_nat (length out) <=? 2 ^ 32) in
  mgf1_xor_loop (length out) out 0 [x00; x00; x00; x00] dg seed.

(** src/algorithms/mgf.rs:49-65: the outer loop of [mgf1_xor_digest]. *)
Fixpoint mgf1_xor_digest_loop (fuel : nat) (out : list byte) (i : nat)
         (counter : list byte) (dg : digest) (seed : list byte)
  : outcome (list byte * digest) :=
  if (length out <=? i)%nat then Ok (out, dg)
  else
    match fuel with
    | O => OutOfFuel
    | S fuel' =>
        let dg := digest_update dg seed in
        let dg := digest_update dg counter in
        let (digest_output, dg) := digest_finalize_reset dg in
        let* (out', i') := xor_block out i digest_output in
        mgf1_xor_digest_loop fuel' out' i' (inc_counter counter) dg seed
    end.

(** src/algorithms/mgf.rs:39-66 [mgf1_xor_digest] *)
Definition mgf1_xor_digest (out : list byte) (dg : digest) (seed : list byte)
  : outcome (list byte * digest) :=
  let* _ := assert_ (Z.of_nat (length out) <=? 2 ^ 32) in
  mgf1_xor_digest_loop (length out) out 0 [x00; x00; x00; x00] dg seed.
