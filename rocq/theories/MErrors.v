(** Model of the texts and conversions of src/errors.rs. *)
From Coq Require Import List Bool String.
From Verif Require Import Base.
Import ListNotations.
Local Open Scope string_scope.

(** src/errors.rs:9-75 [Error]: the variants without foreign payload (and [Decode]) are those of
    [Base.error] for which [native] holds; [Pkcs1] and [Pkcs8] carry the foreign error. *)
Definition native (e : error) : bool :=
  match e with
  | ErrKeyMalformed | ErrParametersMalformed | ErrOidUnknown | ErrPkcs1Version | ErrPkcs1Crypto
  | ErrAsn1 | ErrSerde => false
  | _ => true
  end.
Inductive api_error (P1 P8 : Type) :=
| Native (e : error)
| Pkcs1 (e : P1)
| Pkcs8 (e : P8).
Arguments Native {P1 P8} e.
Arguments Pkcs1 {P1 P8} e.
Arguments Pkcs8 {P1 P8} e.

(** [Debug] of [crypto_bigint::DecodeError] (dependency; derived), used at src/errors.rs:103 *)
Definition decode_debug (d : decode_error) : string :=
  match d with DecodeInputSize => "InputSize" | DecodePrecision => "Precision" end.

Section Texts.
  (** [Display] and [Debug] of the foreign errors *)
  Context {P1 P8 : Type} (show1 debug1 : P1 -> string) (show8 debug8 : P8 -> string).

  (** src/errors.rs:79-107 [Display for Error]; the last case is outside the type. *)
  Definition error_display (e : api_error P1 P8) : string :=
    match e with
    | Pkcs1 err => show1 err
    | Pkcs8 err => show8 err
    | Native e =>
        match e with
        | InvalidPaddingScheme => "invalid padding scheme"
        | Decryption => "decryption error"
        | Verification => "verification error"
        | MessageTooLong => "message too long"
        | InputNotHashed => "input must be hashed"
        | NprimesTooSmall => "nprimes must be >= 2"
        | TooFewPrimes => "too few primes of given length to generate an RSA key"
        | InvalidPrime => "invalid prime value"
        | InvalidModulus => "invalid modulus"
        | InvalidExponent => "invalid exponent"
        | InvalidCoefficient => "invalid coefficient"
        | ModulusTooLarge => "modulus too large"
        | PublicExponentTooSmall => "public exponent too small"
        | PublicExponentTooLarge => "public exponent too large"
        | Internal => "internal error"
        | LabelTooLong => "label too long"
        | InvalidPadLen => "invalid padding length"
        | InvalidArguments => "invalid arguments"
        | Decode err => decode_debug err
        | Rng => "rng error"
        | _ => ""
        end
    end.

  (** [derive(Debug)], src/errors.rs:7 *)
  Definition error_debug (e : api_error P1 P8) : string :=
    match e with
    | Pkcs1 err => "Pkcs1(" ++ debug1 err ++ ")"
    | Pkcs8 err => "Pkcs8(" ++ debug8 err ++ ")"
    | Native e =>
        match e with
        | InvalidPaddingScheme => "InvalidPaddingScheme"
        | Decryption => "Decryption"
        | Verification => "Verification"
        | MessageTooLong => "MessageTooLong"
        | InputNotHashed => "InputNotHashed"
        | NprimesTooSmall => "NprimesTooSmall"
        | TooFewPrimes => "TooFewPrimes"
        | InvalidPrime => "InvalidPrime"
        | InvalidModulus => "InvalidModulus"
        | InvalidExponent => "InvalidExponent"
        | InvalidCoefficient => "InvalidCoefficient"
        | ModulusTooLarge => "ModulusTooLarge"
        | PublicExponentTooSmall => "PublicExponentTooSmall"
        | PublicExponentTooLarge => "PublicExponentTooLarge"
        | Internal => "Internal"
        | LabelTooLong => "LabelTooLong"
        | InvalidPadLen => "InvalidPadLen"
        | InvalidArguments => "InvalidArguments"
        | Decode err => "Decode(" ++ decode_debug err ++ ")"
        | Rng => "Rng"
        | _ => ""
        end
    end.

  (** src/errors.rs:110-114, 116-120, 121-125: [From] for the crate's error *)
  Definition error_from_pkcs1 (e : P1) : api_error P1 P8 := Pkcs1 e.
  Definition error_from_pkcs8 (e : P8) : api_error P1 P8 := Pkcs8 e.
  Definition error_from_decode (e : decode_error) : api_error P1 P8 := Native (Decode e).

  (** src/errors.rs:127-139 [From<Error> for signature::Error]: with feature "std" the error is kept
      as the source, without it nothing is. *)
  Definition signature_error (std : bool) (e : api_error P1 P8) : option (api_error P1 P8) :=
    if std then Some e else None.
End Texts.
