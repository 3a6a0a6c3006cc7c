(** RFC 8017 sections 8.1.2 (RSASSA-PSS-VERIFY) and 8.2.2 (RSASSA-PKCS1-V1_5-VERIFY),
    for a public key (n, e) of [k] octets and [b] bits.  Independent of the model. *)
From Coq Require Import ZArith List.
From Coq Require Import Init.Byte.
From Verif Require Import SpecRFC.
Import ListNotations.
Local Open Scope Z_scope.

(** 8.2.2: length check, RSAVP1 range check, I2OSP, comparison with the encoding of
    [T] (here the caller supplies prefix and digest, T = prefix || digest). *)
Definition rfc_pkcs1_verifies (n e : Z) (k : nat) (T sig : list byte) : Prop :=
  length sig = k /\ os2ip sig < n /\
  exists EM, length EM = k /\ os2ip EM = RSAEP n e (os2ip sig) /\ is_emsa_pkcs1 k EM T.

(** 8.1.2: length check, RSAVP1 range check, I2OSP to emLen octets (which fails when
    the integer is too large), EMSA-PSS-VERIFY. *)
Definition rfc_pss_verifies (H : list byte -> list byte) (hLen sLen : nat) (n e : Z)
           (k b : nat) (mHash sig : list byte) : Prop :=
  length sig = k /\ os2ip sig < n /\
  exists EM, length EM = pss_em_len (b - 1) /\ os2ip EM = RSAEP n e (os2ip sig) /\
             pss_consistent H hLen sLen (b - 1) mHash EM.
