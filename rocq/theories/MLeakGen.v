(** Generating a key once more, with traces (notation and events: MLeak.v). *)
From Coq Require Import ZArith List Bool.
From Coq Require Import Init.Byte.
From Verif Require Import Base Bigint MHash MRsa MGenerate MKey MLeak MLeakKey.
Import ListNotations.
Local Open Scope Z_scope.

(** [BoxedUint::bits] (src/algorithms/generate.rs:87, 101): counts leading zeros in constant time. *)
Definition l_bits (u : uint) : leaky Z := l_op OpLeadingZeros [uprec u] (Ok (ubits u)).

Section WithGen.
  (** [shows st bits]: whatever the search of the crypto-primes dependency for a prime of that many
      bits (src/algorithms/generate.rs:127-131) shows; it is not modelled. *)
  Context {R : Type} (gp : prime_gen R) (shows : R -> Z -> list event).

  (** src/algorithms/generate.rs:123-132; the bit length asked for is public *)
  Definition l_generate_prime (st : R) (bits : Z) : leaky (uint * R) :=
    if bits <? 2 then emit (ECheck false) Panic
    else (ERandMod bits :: shows st bits, Ok (gp st bits)).

  (** src/algorithms/generate.rs:84-88 *)
  Fixpoint l_draw_primes (left : nat) (st : R) (todo : Z) : leaky (list uint * R) :=
    match left with
    | O => lret ([], st)
    | S left' =>
        let bits := (todo / Z.of_nat left) mod 2 ^ 32 in
        let! (prime, st) := l_generate_prime st bits in
        let! b := l_bits prime in
        let! _ := l_assert (b <=? todo) in
        let! (rest, st) := l_draw_primes left' st (todo - b) in
        lret (prime :: rest, st)
    end.

  (** src/algorithms/generate.rs:67-113 *)
  Fixpoint l_generate_loop (fuel : nat) (st : R) (nprimes : nat) (bit_size : Z) (exp : uint)
    : leaky key_components :=
    match fuel with
    | O => ([], OutOfFuel)
    | S fuel' =>
        let todo := if (7 <=? nprimes)%nat
                    then bit_size + (Z.of_nat nprimes - 2) / 5 else bit_size in
        let! (primes, st) := l_draw_primes nprimes st todo in
        let! c := l_repeated [] primes in
        if c then l_generate_loop fuel' st nprimes bit_size exp
        else
          let! n := l_compute_modulus primes in
          let! b := l_bits n in
          let! c := l_if (negb (b =? bit_size)) in
          if c then l_generate_loop fuel' st nprimes bit_size exp
          else
            let (t, o) := l_euler_totient primes exp in
            match o with
            | Ok d => (t, Ok (mkKC n exp d primes))
            | Err _ => let (t', o') := l_generate_loop fuel' st nprimes bit_size exp in (t ++ t', o')
            | Panic => (t, Panic)
            | OutOfFuel => (t, OutOfFuel)
            end
    end.

  (** src/algorithms/generate.rs:34-121; the two checks are of public numbers *)
  Definition l_generate (fuel : nat) (st : R) (nprimes : nat) (bit_size : Z) (exp : uint)
    : leaky key_components :=
    if (nprimes <? 2)%nat then lerr NprimesTooSmall
    else if (bit_size <? 64) && too_few_primes bit_size (Z.of_nat nprimes) then lerr TooFewPrimes
    else l_generate_loop fuel st nprimes bit_size exp.

  (** src/key.rs:283-290 [RsaPrivateKey::new_with_exp] *)
  Definition l_private_new_with_exp (fuel : nat) (st : R) (bit_size : Z) (exp : uint) : leaky privkey :=
    let! c := l_generate fuel st 2 bit_size exp in
    l_from_components (kc_n c) (kc_e c) (kc_d c) (kc_primes c).
  (** src/key.rs:275-277 [RsaPrivateKey::new] *)
  Definition l_private_new (fuel : nat) (st : R) (bit_size : Z) : leaky privkey :=
    l_private_new_with_exp fuel st bit_size (u_of_u64 EXP).
End WithGen.
