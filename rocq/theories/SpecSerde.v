(** serde's data model and what a value of it carries. *)
From Coq Require Import String ZArith List.
From Coq Require Import Init.Byte.
From Verif Require Import SpecHex.
Import ListNotations.
Local Open Scope string_scope.
Local Open Scope list_scope.

(** serde's data model, as far as used. *)
Inductive sval :=
| SStr (s : list byte)                          (* a string, as its characters *)
| SBytes (b : list byte)                        (* a byte array *)
| SSeq (l : list byte)                          (* a sequence of u8 *)
| SNone
| SSome (v : sval)
| SUnitStruct (name : string)
| SStruct (name : string) (fields : list (string * sval))   (* fields by name *)
| STuple (fields : list sval)                   (* a struct's fields by position *).

(** A byte string: hexadecimal text (digits of either case) in human-readable formats,
    a byte array in others. *)
Definition carries (human : bool) (v : sval) (b : list byte) : Prop :=
  if human then exists s, v = SStr s /\ reads_as s b else v = SBytes b.

(** The same struct in a format that writes fields by position and not by name. *)
Definition positional (v : sval) : sval :=
  match v with SStruct _ fields => STuple (map snd fields) | _ => v end.

(** The values given for a field name, in order. *)
Definition values (name : string) (fields : list (string * sval)) : list sval :=
  map snd (filter (fun f => if string_dec (fst f) name then true else false) fields).

(** The values produced: a structure named after its type with the document of the key as
    first field; OAEP keys add their label and two unit structures. *)
Definition key_struct (name : string) (human : bool) (doc : list byte) (rest : list (string * sval)) : sval :=
  SStruct name (("inner", if human then SStr (hex_text lower_digits doc) else SBytes doc) :: rest).
Definition oaep_rest (label : option (list byte)) : list (string * sval) :=
  [("label", match label with None => SNone | Some b => SSome (SSeq b) end);
   ("phantom", SUnitStruct "PhantomData"); ("mg_phantom", SUnitStruct "PhantomData")].
