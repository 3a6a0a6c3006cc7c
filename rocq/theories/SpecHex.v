(** Independent specification of hexadecimal text (ASCII). *)
From Coq Require Import ZArith List.
From Coq Require Import Init.Byte.
From Verif Require Import SpecRFC.
Import ListNotations.
Local Open Scope Z_scope.

(** "0123456789abcdef" and "0123456789ABCDEF" *)
Definition lower_digits : list byte := [x30; x31; x32; x33; x34; x35; x36; x37; x38; x39; x61; x62; x63; x64; x65; x66].
Definition upper_digits : list byte := [x30; x31; x32; x33; x34; x35; x36; x37; x38; x39; x41; x42; x43; x44; x45; x46].

Definition digit_of (digits : list byte) (v : Z) : byte := nth (Z.to_nat v) digits x00.

(** Two digits per octet, high half first. *)
Definition hex_text (digits l : list byte) : list byte :=
  flat_map (fun b => [digit_of digits (octet_val b / 16); digit_of digits (octet_val b mod 16)]) l.

(** [s] is a hexadecimal text of [l], in either or mixed case. *)
Definition digit_means (c : byte) (v : Z) : Prop :=
  0 <= v < 16 /\ (c = digit_of lower_digits v \/ c = digit_of upper_digits v).
Inductive reads_as : list byte -> list byte -> Prop :=
| reads_nil : reads_as [] []
| reads_cons hi lo s b l :
    digit_means hi (octet_val b / 16) -> digit_means lo (octet_val b mod 16) ->
    reads_as s l -> reads_as (hi :: lo :: s) (b :: l).
