(** Keys as PEM text (RFC 7468): what the blanket implementations of the pkcs1, pkcs8 and spki
    dependencies add to the DER conversions of src/encoding.rs, and the text format of the
    pem-rfc7468 and base64ct dependencies.  The crate re-exports these (src/lib.rs:240-242,
    Cargo.toml feature "pem") and documents and tests them (src/lib.rs:120-215,
    tests/pkcs1.rs:275-500, tests/pkcs8.rs).  Texts are lists of octets.  Not modelled: which of
    its errors the text parser reports; all of them reach the caller as an ASN.1 error. *)
From Coq Require Import String.
From Coq Require Import ZArith List Bool.
From Coq Require Import Init.Byte.
From Verif Require Import Base MHash MRsa MKey MWrap MEncoding MSerde.
Import ListNotations.
Local Open Scope Z_scope.

Definition text (s : string) : list byte := list_byte_of_string s.

(** pem-rfc7468 [LineEnding] *)
Inductive line_ending := CR | LF | CRLF.
Definition eol (e : line_ending) : list byte :=
  match e with CR => [x0d] | LF => [x0a] | CRLF => [x0d; x0a] end.

(** The types of document and their labels ([PemLabel::PEM_LABEL] of the pkcs8, spki and pkcs1
    dependencies; src/lib.rs:126-128, 172-174) *)
Inductive document := DocPkcs8 | DocSpki | DocPkcs1Private | DocPkcs1Public.
Definition label (d : document) : list byte :=
  match d with
  | DocPkcs8 => text "PRIVATE KEY" | DocSpki => text "PUBLIC KEY"
  | DocPkcs1Private => text "RSA PRIVATE KEY" | DocPkcs1Public => text "RSA PUBLIC KEY"
  end.

(** ** base64ct *)

(** One character for six bits, by ranges *)
Definition enc6 (v : Z) : byte :=
  z2b (if v <? 26 then v + 65 else if v <? 52 then v + 71 else if v <? 62 then v - 4
       else if v =? 62 then 43 else 47).
Definition dec6 (c : byte) : option Z :=
  let v := b2z c in
  if (65 <=? v) && (v <=? 90) then Some (v - 65)
  else if (97 <=? v) && (v <=? 122) then Some (v - 71)
  else if (48 <=? v) && (v <=? 57) then Some (v + 4)
  else if v =? 43 then Some 62 else if v =? 47 then Some 63 else None.
Definition pad : byte := x3d.

(** [encode]: groups of three octets, the last one filled up with [=] *)
Fixpoint b64_encode (l : list byte) : list byte :=
  match l with
  | [] => []
  | [a] => [enc6 (b2z a / 4); enc6 (b2z a mod 4 * 16); pad; pad]
  | [a; b] => [enc6 (b2z a / 4); enc6 (b2z a mod 4 * 16 + b2z b / 16); enc6 (b2z b mod 16 * 4); pad]
  | a :: b :: c :: r =>
      enc6 (b2z a / 4) :: enc6 (b2z a mod 4 * 16 + b2z b / 16) ::
      enc6 (b2z b mod 16 * 4 + b2z c / 64) :: enc6 (b2z c mod 64) :: b64_encode r
  end.

(** [decode]: groups of four characters; [=] in the last group only, and the bits it leaves
    over have to be zero *)
Fixpoint b64_decode (l : list byte) : option (list byte) :=
  match l with
  | [] => Some []
  | a :: b :: c :: d :: r =>
      match dec6 a, dec6 b with
      | Some x, Some y =>
          match dec6 c, dec6 d with
          | Some z, Some w =>
              match b64_decode r with
              | Some s => Some (z2b (x * 4 + y / 16) :: z2b (y mod 16 * 16 + z / 4) :: z2b (z mod 4 * 64 + w) :: s)
              | None => None
              end
          | Some z, None =>
              if byte_eqb d pad && (List.length r =? 0)%nat && (z mod 4 =? 0)
              then Some [z2b (x * 4 + y / 16); z2b (y mod 16 * 16 + z / 4)] else None
          | None, None =>
              if byte_eqb c pad && byte_eqb d pad && (List.length r =? 0)%nat && (y mod 16 =? 0)
              then Some [z2b (x * 4 + y / 16)] else None
          | None, Some _ => None
          end
      | _, _ => None
      end
  | _ => None
  end.

(** ** pem-rfc7468 *)

Definition begin_mark : list byte := text "-----BEGIN ".
Definition end_mark : list byte := text "-----END ".
Definition dashes : list byte := text "-----".
Definition line_width : nat := 64.

(** The encoder breaks the line before the character that does not fit. *)
Fixpoint wrap (e : line_ending) (pos : nat) (l : list byte) : list byte :=
  match l with
  | [] => []
  | c :: r => if (pos =? line_width)%nat then eol e ++ c :: wrap e 1 r else c :: wrap e (S pos) r
  end.

(** [encode_string] *)
Definition pem_encode (d : document) (e : line_ending) (der : list byte) : list byte :=
  begin_mark ++ label d ++ dashes ++ eol e ++ wrap e 0 (b64_encode der) ++ eol e ++
  end_mark ++ label d ++ dashes ++ eol e.

Fixpoint strip_prefix (p l : list byte) : option (list byte) :=
  match p, l with
  | [], _ => Some l
  | a :: p', b :: l' => if byte_eqb a b then strip_prefix p' l' else None
  | _, _ => None
  end.
Definition strip_suffix (p l : list byte) : option (list byte) :=
  option_map (@rev byte) (strip_prefix (rev p) (rev l)).
Definition strip_leading_eol (l : list byte) : option (list byte) :=
  match l with
  | x0d :: x0a :: r => Some r
  | x0d :: r | x0a :: r => Some r
  | _ => None
  end.
Definition strip_trailing_eol (l : list byte) : option (list byte) :=
  match rev l with
  | x0a :: x0d :: r => Some (rev r)
  | x0a :: r | x0d :: r => Some (rev r)
  | _ => None
  end.
Definition or_same (o : option (list byte)) (l : list byte) : list byte :=
  match o with Some r => r | None => l end.

(** [strip_preamble]: text before the first line that begins with the mark is skipped; it may
    not hold the octet 00. *)
Fixpoint skip_preamble (l : list byte) : option (list byte) :=
  match l with
  | [] => None
  | c :: r =>
      if byte_eqb c x00 then None
      else if byte_eqb c x0a || byte_eqb c x0d then
        match strip_prefix begin_mark r with Some s => Some s | None => skip_preamble r end
      else skip_preamble r
  end.
Definition strip_preamble (l : list byte) : option (list byte) :=
  match strip_prefix begin_mark l with Some s => Some s | None => skip_preamble l end.

(** [split_label]: label characters and single blanks up to the dashes *)
Definition is_labelchar (c : byte) : bool :=
  let v := b2z c in ((33 <=? v) && (v <=? 44)) || ((46 <=? v) && (v <=? 126)).
Definition is_wsp (c : byte) : bool := byte_eqb c x20 || byte_eqb c x09.
Fixpoint scan_label (first last_wsp : bool) (l : list byte) : option (list byte * list byte) :=
  match l with
  | [] => Some ([], [])
  | c :: r =>
      if is_labelchar c then
        match scan_label false false r with Some (a, b) => Some (c :: a, b) | None => None end
      else if byte_eqb c x2d then Some ([], l)
      else if negb first && is_wsp c && negb last_wsp then
        match scan_label false true r with Some (a, b) => Some (c :: a, b) | None => None end
      else None
  end.
Definition split_label (l : list byte) : option (list byte * list byte) :=
  match scan_label true false l with
  | Some (a, b) => match strip_prefix dashes b with Some r => Some (a, r) | None => None end
  | None => None
  end.

(** base64ct [LineReader]: lines of exactly 64 characters, the last one at most that; one line
    ending after the last line is ignored. *)
Fixpoint unwrap (fuel : nat) (l : list byte) : option (list byte) :=
  match fuel with
  | O => None
  | S f =>
      if (List.length l <=? line_width)%nat then Some (or_same (strip_trailing_eol l) l)
      else match strip_leading_eol (skipn line_width l) with
           | None => None
           | Some rest =>
               match unwrap f rest with Some r => Some (firstn line_width l ++ r) | None => None end
           end
  end.

(** [decode_vec]: label and document *)
Definition pem_decode (t : list byte) : option (list byte * list byte) :=
  match strip_preamble t with None => None | Some l =>
  match split_label l with None => None | Some (lab, l1) =>
  match strip_leading_eol l1 with None => None | Some l2 =>
  match strip_suffix dashes (or_same (strip_trailing_eol l2) l2) with None => None | Some l3 =>
  match strip_suffix lab l3 with None => None | Some l4 =>
  match strip_suffix end_mark l4 with None => None | Some l5 =>
  match strip_trailing_eol l5 with None => None | Some body =>
  match unwrap (S (List.length body)) body with None => None | Some chars =>
  match b64_decode chars with None => None | Some der => Some (lab, der)
  end end end end end end end end end.

(** [from_pkcs8_pem], [from_public_key_pem], [from_pkcs1_pem]: the text, the label, then the
    conversion from DER.  [SecretDocument::from_pem] also checks that the octets are one DER
    value, as every [from_der] does. *)
Definition read_pem {A} (d : document) (from_der : list byte -> outcome A) (t : list byte) : outcome A :=
  match pem_decode t with
  | None => Err ErrAsn1
  | Some (lab, der) => if bytes_eqb (label d) lab then from_der der else Err ErrAsn1
  end.

(** [to_pkcs8_pem], [to_public_key_pem], [to_pkcs1_pem] *)
Definition write_pem (d : document) (e : line_ending) (to_der : outcome (list byte)) : outcome (list byte) :=
  let* der := to_der in Ok (pem_encode d e der).

Section Api.
  Context (der_max : Z) (tail_ok : Z -> list byte -> bool).

  (** [DecodePrivateKey::from_pkcs8_pem], [EncodePrivateKey::to_pkcs8_pem] (tests/pkcs8.rs:230-310) *)
  Definition from_pkcs8_pem (t : list byte) : outcome privkey := read_pem DocPkcs8 (from_pkcs8_der der_max tail_ok) t.
  Definition to_pkcs8_pem (e : line_ending) (k : privkey) : outcome (list byte) :=
    write_pem DocPkcs8 e (to_pkcs8_der der_max k).
  (** [DecodePublicKey::from_public_key_pem], [EncodePublicKey::to_public_key_pem] (src/lib.rs:206) *)
  Definition from_public_key_pem (t : list byte) : outcome pubkey := read_pem DocSpki (from_public_key_der der_max) t.
  Definition to_public_key_pem (e : line_ending) (k : pubkey) : outcome (list byte) :=
    write_pem DocSpki e (to_public_key_der der_max k).
  (** [DecodeRsaPrivateKey::from_pkcs1_pem], [EncodeRsaPrivateKey::to_pkcs1_pem] (tests/pkcs1.rs:277, 479) *)
  Definition from_pkcs1_pem (t : list byte) : outcome privkey := read_pem DocPkcs1Private (from_pkcs1_der der_max) t.
  Definition to_pkcs1_pem (e : line_ending) (k : privkey) : outcome (list byte) :=
    write_pem DocPkcs1Private e (to_pkcs1_der der_max tail_ok k).
  (** [DecodeRsaPublicKey::from_pkcs1_pem], [EncodeRsaPublicKey::to_pkcs1_pem] (src/lib.rs:161) *)
  Definition from_pkcs1_public_pem (t : list byte) : outcome pubkey :=
    read_pem DocPkcs1Public (from_pkcs1_public_der der_max) t.
  Definition to_pkcs1_public_pem (e : line_ending) (k : pubkey) : outcome (list byte) :=
    write_pem DocPkcs1Public e (to_pkcs1_public_der der_max k).

  (** The same for the signing and verifying keys, which get the methods from their DER
      conversions: src/pkcs1v15/signing_key.rs:189-196, 269-295, src/pkcs1v15/verifying_key.rs:153-160,
      215-244, src/pss/signing_key.rs:187-194, 251-277, src/pss/blinded_signing_key.rs:163-170,
      226-252, src/pss/verifying_key.rs:136-143, 192-221 *)
  Definition p1sk_from_pkcs8_pem (hd : hashfn) (oid t : list byte) : outcome p1_signing_key :=
    read_pem DocPkcs8 (p1sk_from_pkcs8_der der_max tail_ok hd oid) t.
  Definition p1sk_to_pkcs8_pem (e : line_ending) (k : p1_signing_key) : outcome (list byte) :=
    write_pem DocPkcs8 e (p1sk_to_pkcs8_der der_max k).
  Definition p1vk_from_public_key_pem (hd : hashfn) (oid t : list byte) : outcome p1_verifying_key :=
    read_pem DocSpki (p1vk_from_public_key_der der_max hd oid) t.
  Definition p1vk_to_public_key_pem (e : line_ending) (k : p1_verifying_key) : outcome (list byte) :=
    write_pem DocSpki e (p1vk_to_public_key_der der_max k).
  Definition pssk_from_pkcs8_pem (hd : hashfn) (blinded : bool) (t : list byte) : outcome pss_signing_key :=
    read_pem DocPkcs8 (pssk_from_pkcs8_der der_max tail_ok hd blinded) t.
  Definition pssk_to_pkcs8_pem (e : line_ending) (k : pss_signing_key) : outcome (list byte) :=
    write_pem DocPkcs8 e (pssk_to_pkcs8_der der_max k).
  Definition psvk_from_public_key_pem (hd : hashfn) (t : list byte) : outcome pss_verifying_key :=
    read_pem DocSpki (psvk_from_public_key_der der_max hd) t.
  Definition psvk_to_public_key_pem (e : line_ending) (k : pss_verifying_key) : outcome (list byte) :=
    write_pem DocSpki e (psvk_to_public_key_der der_max k).
End Api.
