(** The private-key operation cut at the point where the secret exponent is applied, so
    that the number it is applied to can be spoken about. *)
From Coq Require Import ZArith List Bool.
From Coq Require Import Init.Byte.
From Verif Require Import Base Bigint SpecBlind MHash MRsa.
Import ListNotations.
Local Open Scope Z_scope.

Section WithRng.
  Context {R : Type} (g : rng_ops R).

  (** src/algorithms/rsa.rs:50-68: the number the private exponent is applied to, and
      what the outcome is multiplied by afterwards. *)
  Definition private_operand (fuel : nat) (rng : option R) (priv_key : privkey) (c : uint)
    : outcome (uint * option uint) :=
    let bits := uprec (sk_d priv_key) in
    match rng with
    | Some st =>
        let* (blinded, unblinder) :=
          blind g fuel st (sk_pub priv_key) c (pk_params (sk_pub priv_key)) in
        let* c := widen blinded bits in
        Ok (c, Some unblinder)
    | None => let* c := widen c bits in Ok (c, None)
    end.
End WithRng.

(** src/algorithms/rsa.rs:70-113: from that number on. *)
Definition private_finish (priv_key : privkey) (c : uint) (ir : option uint) : outcome uint :=
  let n_params := pk_params (sk_pub priv_key) in
  let is_multiprime := (2 <? length (sk_primes priv_key))%nat in
  let* m :=
    match sk_pre priv_key with
    | Some pc =>
        if is_multiprime then pow_mod_params c (sk_d priv_key) n_params
        else
          let* _p := get_idx (sk_primes priv_key) 0 in
          let* q := get_idx (sk_primes priv_key) 1 in
          crt_pow c pc q
    | None => pow_mod_params c (sk_d priv_key) n_params
    end in
  let* m := shorten m (mp_prec n_params) in
  match ir with
  | Some ir => unblind m ir n_params
  | None => Ok m
  end.

(** Observations of the above (src/algorithms/rsa.rs:40-76): the number alone, and whether the single draw [v] makes it
    [b]. *)
Definition operand_value {R} (g : rng_ops R) (fuel : nat) (rng : option R) (k : privkey) (c : uint)
  : outcome uint :=
  let* (x, _) := private_operand g fuel rng k c in Ok x.
Definition operand_is (k : privkey) (c : uint) (b v : Z) : bool :=
  match operand_value (draws v) 1 (Some tt) k c with
  | Ok x => uval x =? b
  | _ => false
  end.
