(** Textual encodings: base 64 (RFC 4648 section 4) and PEM (RFC 7468 section 3), stated on
    numbers and lines, without the model. *)
From Coq Require Import String.
From Coq Require Import ZArith List.
From Coq Require Import Init.Byte.
From Verif Require Import SpecRFC.
Import ListNotations.
Local Open Scope Z_scope.

Definition alphabet : list byte :=
  list_byte_of_string "ABCDEFGHIJKLMNOPQRSTUVWXYZabcdefghijklmnopqrstuvwxyz0123456789+/".
Definition char64 (v : Z) : byte := nth (Z.to_nat v) alphabet x00.

(** The [n] digits of [v] in base 64 *)
Fixpoint digits64 (n : nat) (v : Z) : list Z :=
  match n with O => [] | S m => digits64 m (v / 64) ++ [v mod 64] end.

(** Zero octets that make the length a multiple of three *)
Definition missing (l : list byte) : nat :=
  match Nat.modulo (List.length l) 3 with 1%nat => 2%nat | 2%nat => 1%nat | _ => 0%nat end.

(** The octets, filled up, are one number; its digits in base 64, with [=] in place of
    the digits that only stem from the filling. *)
Definition base64 (l : list byte) : list byte :=
  let m := missing l in
  let k := (4 * ((List.length l + m) / 3))%nat in
  map char64 (firstn (k - m) (digits64 k (os2ip (l ++ repeat x00 m)))) ++ repeat x3d m.

Definition is_eol (e : list byte) : Prop := e = [x0d] \/ e = [x0a] \/ e = [x0d; x0a].

(** [lines ok chars t]: [t] is [chars] broken into lines of 64, the last one shorter or not, with
    line endings that are [ok] between them *)
Inductive lines (ok : list byte -> Prop) : list byte -> list byte -> Prop :=
| last_line l : (1 <= List.length l <= 64)%nat -> lines ok l l
| next_line l e r t : List.length l = 64%nat -> ok e -> lines ok r t -> lines ok (l ++ r) (l ++ e ++ t).

(** A text holding the document [der] under the label [lab], its line endings being [ok] and the
    last one [last_ok] *)
Definition pem_text (ok last_ok : list byte -> Prop) (lab der t : list byte) : Prop :=
  exists body e1 e2 e3, lines ok (base64 der) body /\ ok e1 /\ ok e2 /\ last_ok e3 /\
  t = list_byte_of_string "-----BEGIN " ++ lab ++ list_byte_of_string "-----" ++ e1 ++ body ++ e2 ++
      list_byte_of_string "-----END " ++ lab ++ list_byte_of_string "-----" ++ e3.

(** The same line ending everywhere *)
Definition uniform_pem_text (e lab der t : list byte) : Prop := pem_text (eq e) (eq e) lab der t.
(** Each line ending is free, and the last one may be missing. *)
Definition free_pem_text (lab der t : list byte) : Prop :=
  pem_text is_eol (fun e => e = [] \/ is_eol e) lab der t.

(** A preamble: text without the octet 00 and without dashes, before a line of its own *)
Definition preamble (pre : list byte) : Prop :=
  pre = [] \/ exists l e, pre = l ++ e /\ ~ In x00 l /\ ~ In x2d l /\ is_eol e.

Definition is_eol_char (c : byte) : bool := match c with x0a | x0d => true | _ => false end.
