(** Independent specification: object identifiers (X.690 8.19) and the signature
    algorithms of RFC 8017 appendix A.2.4. *)
From Coq Require Import ZArith List.
From Coq Require Import Init.Byte.
From Verif Require Import SpecRFC.
Import ListNotations.
Local Open Scope Z_scope.

(** 8.19.2: base 128, most significant first, bit 8 set in all but the last octet, no
    leading 0x80. *)
Inductive subidentifier : Z -> list byte -> Prop :=
| sub_octets more last :
    Forall (fun b => 128 <= octet_val b) more -> octet_val last < 128 ->
    hd_error more <> Some x80 ->
    subidentifier (fold_left (fun a b => 128 * a + (octet_val b - 128)) more 0 * 128 + octet_val last)
                  (more ++ [last]).
Inductive subidentifiers : list Z -> list byte -> Prop :=
| subs_nil : subidentifiers [] []
| subs_cons v vs l ls : subidentifier v l -> subidentifiers vs ls -> subidentifiers (v :: vs) (l ++ ls).
(** 8.19.4: the first two arcs share a subidentifier. *)
Inductive oid_encoding : list Z -> list byte -> Prop :=
| oid_enc a b rest l : 0 <= a <= 2 -> 0 <= b -> (a < 2 -> b < 40) ->
    subidentifiers (40 * a + b :: rest) l -> oid_encoding (a :: b :: rest) l.

(** RFC 8017 appendix C: iso(1) member-body(2) us(840) rsadsi(113549) pkcs(1) 1 *)
Definition pkcs_1 (n : Z) : list Z := [1; 2; 840; 113549; 1; 1; n].
(** sha1WithRSAEncryption and so on *)
Definition sha1WithRSAEncryption := pkcs_1 5.
Definition sha224WithRSAEncryption := pkcs_1 14.
Definition sha256WithRSAEncryption := pkcs_1 11.
Definition sha384WithRSAEncryption := pkcs_1 12.
Definition sha512WithRSAEncryption := pkcs_1 13.
