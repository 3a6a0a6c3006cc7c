(** Model of src/algorithms/generate.rs. *)
From Coq Require Import ZArith List Bool SpecFloat.
From Coq Require Import Init.Byte.
From Verif Require Import Base Bigint MHash MRsa.
Import ListNotations.
Local Open Scope Z_scope.

(** IEEE-754 binary64 arithmetic for src/algorithms/generate.rs:45-58 (stdlib
    [SpecFloat], computable and axiom free). *)
Definition f64 := spec_float.
Definition f64_of_Z (z : Z) : f64 := binary_normalize 53 1024 z 0 false.
Definition f64_mul : f64 -> f64 -> f64 := SFmul 53 1024.
Definition f64_sub : f64 -> f64 -> f64 := SFsub 53 1024.
Definition f64_div : f64 -> f64 -> f64 := SFdiv 53 1024.
Definition f64_lt : f64 -> f64 -> bool := SFltb.
(** [core::f64::consts::LN_2] (src/algorithms/generate.rs:50) = 0x3FE62E42FEFA39EF *)
Definition f64_LN_2 : f64 := S754_finite false 0x162E42FEFA39EF (-53).

(** src/algorithms/generate.rs:44-61: the size check. True = too few primes. *)
Definition too_few_primes (bit_size nprimes : Z) : bool :=
  let prime_limit := f64_of_Z (2 ^ (bit_size / nprimes)) in
  let pi := f64_div prime_limit
              (f64_sub (f64_mul (f64_of_Z (bit_size / nprimes)) f64_LN_2) (f64_of_Z 1)) in
  let pi := f64_div pi (f64_of_Z 4) in
  let pi := f64_div pi (f64_of_Z 2) in
  f64_lt pi (f64_of_Z nprimes).

(** src/algorithms/generate.rs:16-21 [RsaPrivateKeyComponents] *)
Record key_components := mkKC { kc_n : uint; kc_e : uint; kc_d : uint; kc_primes : list uint }.

(** Prime source: what [crypto_primes::sieve_and_find] draws for a bit length
    ([generate_prime_with_rng], src/algorithms/generate.rs:123-132). *)
Definition prime_gen (R : Type) := R -> Z -> uint * R.

Section WithGen.
  Context {R : Type} (gp : prime_gen R).

  (** src/algorithms/generate.rs:123-132 [generate_prime_with_rng]; the sieve
      factory refuses bit lengths below 2 and the code panics then. *)
  Definition generate_prime_with_rng (st : R) (bits : Z) : outcome (uint * R) :=
    if bits <? 2 then Panic else Ok (gp st bits).

  (** src/algorithms/generate.rs:84-88: one draw per prime; [left] primes remain,
      so the divisor [nprimes - i] is [left]. *)
  Fixpoint draw_primes (left : nat) (st : R) (todo : Z) : outcome (list uint * R) :=
    match left with
    | O => Ok ([], st)
    | S left' =>
        let bits := (todo / Z.of_nat left) mod 2 ^ 32 in
        let* (prime, st) := generate_prime_with_rng st bits in
        let* _ := assert_ (ubits prime <=? todo) in
        let* (rest, st) := draw_primes left' st (todo - ubits prime) in
        Ok (prime :: rest, st)
    end.

  (** src/algorithms/generate.rs:91-97: is some prime equal to an earlier one? *)
  Fixpoint has_duplicate (l : list uint) : bool :=
    match l with
    | [] => false
    | p :: rest => existsb (fun q => ueqb q p) rest || has_duplicate rest
    end.

  (** src/algorithms/generate.rs:67-113: the retry loop. *)
  Fixpoint generate_loop (fuel : nat) (st : R) (nprimes : nat) (bit_size : Z) (exp : uint)
    : outcome key_components :=
    match fuel with
    | O => OutOfFuel
    | S fuel' =>
        let todo := if (7 <=? nprimes)%nat
                    then bit_size + (Z.of_nat nprimes - 2) / 5 else bit_size in
        let* (primes, st) := draw_primes nprimes st todo in
        if has_duplicate primes then generate_loop fuel' st nprimes bit_size exp
        else
          let* n := compute_modulus primes in
          if negb (ubits n =? bit_size) then generate_loop fuel' st nprimes bit_size exp
          else
            match compute_private_exponent_euler_totient primes exp with
            | Ok d => Ok (mkKC n exp d primes)
            | Err _ => generate_loop fuel' st nprimes bit_size exp
            | Panic => Panic
            | OutOfFuel => OutOfFuel
            end
    end.

  (** src/algorithms/generate.rs:34-121 [generate_multi_prime_key_with_exp] *)
  Definition generate_multi_prime_key_with_exp (fuel : nat) (st : R) (nprimes : nat)
             (bit_size : Z) (exp : uint) : outcome key_components :=
    if (nprimes <? 2)%nat then Err NprimesTooSmall
    else if (bit_size <? 64) && too_few_primes bit_size (Z.of_nat nprimes)
    then Err TooFewPrimes
    else generate_loop fuel st nprimes bit_size exp.
End WithGen.
