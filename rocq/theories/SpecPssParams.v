(** Independent specification: the RSASSA-PSS algorithm identifier of RFC 4055 section 3.1
    and RFC 8017 A.2.3, as a relation between the octets and the digest, mask generation
    digest and salt length they stand for. *)
From Coq Require Import ZArith List.
From Coq Require Import Init.Byte.
From Verif Require Import SpecRFC SpecDer.
Import ListNotations.
Local Open Scope Z_scope.

(** X.690 8.14: an explicit tag [n], n below 31. *)
Definition explicit (n : Z) (v : asn1) : asn1 := ARaw (der_tlv (octet (160 + n)) (der v)).

(** 1.3.14.3.2.26 and 1.2.840.113549.1.1.8 *)
Definition id_sha1 : list byte := [x2b; x0e; x03; x02; x1a].
Definition id_mgf1 : list byte := [x2a; x86; x48; x86; xf7; x0d; x01; x01; x08].

(** A digest's AlgorithmIdentifier and that of MGF1 with it. *)
Definition HashAlgorithm (oid : list byte) : asn1 := ASequence [AOid oid; ANull].
Definition MaskGenAlgorithm (oid : list byte) : asn1 := ASequence [AOid id_mgf1; HashAlgorithm oid].

(** A field [n] with a default: present with its value, or absent for the default. *)
Definition field {A} (n : Z) (enc : A -> asn1) (default a : A) (l : list asn1) : Prop :=
  l = [explicit n (enc a)] \/ (l = [] /\ a = default).

(** RSASSA-PSS-params ::= SEQUENCE {
      hashAlgorithm [0] HashAlgorithm DEFAULT sha1, maskGenAlgorithm [1] DEFAULT mgf1SHA1,
      saltLength [2] INTEGER DEFAULT 20, trailerField [3] INTEGER DEFAULT 1 };
    the trailer is always 1 and so absent. *)
Definition RSASSA_PSS_params (hash mgf_hash : list byte) (salt : Z) (v : asn1) : Prop :=
  exists f0 f1 f2,
    field 0 HashAlgorithm id_sha1 hash f0 /\
    field 1 MaskGenAlgorithm id_sha1 mgf_hash f1 /\
    field 2 AInteger 20 salt f2 /\
    v = ASequence (f0 ++ f1 ++ f2).

(** X.690 11.5: in DER a field with its default value is absent. *)
Definition der_field {A} (n : Z) (enc : A -> asn1) (default a : A) (l : list asn1) : Prop :=
  (a <> default /\ l = [explicit n (enc a)]) \/ (a = default /\ l = []).
Definition RSASSA_PSS_params_DER (hash mgf_hash : list byte) (salt : Z) (v : asn1) : Prop :=
  exists f0 f1 f2,
    der_field 0 HashAlgorithm id_sha1 hash f0 /\
    der_field 1 MaskGenAlgorithm id_sha1 mgf_hash f1 /\
    der_field 2 AInteger 20 salt f2 /\
    v = ASequence (f0 ++ f1 ++ f2).

(** An octet string is an RSASSA-PSS algorithm identifier with these parameters. *)
Definition pss_identifier (doc hash mgf_hash : list byte) (salt : Z) : Prop :=
  exists v, RSASSA_PSS_params hash mgf_hash salt v /\
    doc = der (ASequence [AOid id_RSASSA_PSS; v]).
