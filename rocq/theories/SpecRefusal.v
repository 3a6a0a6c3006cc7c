(** Independent specification: the shape of encoded keys whose algorithm or contents are not
    the expected ones, and where the key sits in a serialised structure. *)
From Coq Require Import String ZArith List.
From Coq Require Import Init.Byte.
From Verif Require Import SpecDer SpecOid SpecSerde.
Import ListNotations.
Local Open Scope string_scope.
Local Open Scope list_scope.
Local Open Scope Z_scope.

(** RFC 5280 4.1.1.2: any identifier, with optional parameters of any kind (identifier
    octet and contents). *)
Definition AlgorithmIdentifier (oid : list byte) (params : option (byte * list byte)) : asn1 :=
  ASequence (AOid oid :: match params with None => [] | Some (t, c) => [ARaw (der_tlv t c)] end).

(** RFC 5280 4.1.2.7 with a BIT STRING of any number of unused bits. *)
Definition PublicKeyDocument (alg : asn1) (unused : byte) (key : list byte) : asn1 :=
  ASequence [alg; ARaw (der_tlv x03 (unused :: key))].

(** RFC 8017 A.1.2, version 1: further primes follow. *)
Definition RSAPrivateKey_multi (n e d p q dp dq qinv : Z) (others : list byte) : asn1 :=
  ASequence [AInteger 1; AInteger n; AInteger e; AInteger d; AInteger p; AInteger q;
             AInteger dp; AInteger dq; AInteger qinv; ARaw others].

(** RFC 8017 A.1 and RFC 4055 3.1: which identifiers name an RSA key. *)
Definition rsa_oid (oid : list byte) : Prop := oid = rsaEncryption \/ oid = id_RSASSA_PSS.
Definition wrong_params (oid : list byte) (params : option (byte * list byte)) : Prop :=
  (oid = rsaEncryption /\ params <> None /\ params <> Some (x05, [])) \/
  (oid = id_RSASSA_PSS /\ params <> None).

(** The value offered for the key inside a serialised structure, by name or by position. *)
Definition inner_value (v w : sval) : Prop :=
  match v with
  | SStruct _ fields => In w (values "inner" fields)
  | STuple (x :: _) => x = w
  | _ => False
  end.

(** An identifier a DER reader can take in: object identifier octets for arcs of at most 32
    bits (39 octets at most), and parameters of a universal kind. *)
Definition readable_identifier (oid : list byte) (params : option (byte * list byte)) : Prop :=
  (exists arcs, oid_encoding arcs oid /\ Forall (fun a => a < 2 ^ 32) arcs) /\ (length oid <= 39)%nat /\
  match params with
  | None => True
  | Some (t, c) => (t = x05 /\ c = []) \/ In t [x02; x03; x04; x06; x30; x31]
  end.

(** RFC 8017 A.1.2: the further primes of a version 1 key. *)
Definition OtherPrimeInfo (f : Z * Z * Z) : asn1 :=
  let '(r, d, t) := f in ASequence [AInteger r; AInteger d; AInteger t].
Definition OtherPrimeInfos (l : list (Z * Z * Z)) : asn1 := ASequence (map OtherPrimeInfo l).
