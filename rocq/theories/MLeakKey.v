(** Loading a key, with what its execution gives away: the functions of MKey.v and
    MRsa.v that build a private key from its numbers, written so that they also return
    their trace (see MLeak.v).  PLeakKey.v proves that the results are the same. *)
From Coq Require Import ZArith List Bool.
From Coq Require Import Init.Byte.
From Verif Require Import Base Bigint MHash MRsa MGenerate MKey MApi MLeak.
Import ListNotations.
Local Open Scope Z_scope.

(** A constant-time operation (e.g. src/algorithms/rsa.rs:257) followed by an overflow, underflow or zero test. *)
Definition l_opc {A} (op : uop) (precs : list Z) (o : outcome A) : leaky A :=
  let! _ := l_op op precs (Ok tt) in l_check o.

(** The operators of the dependency's big integers, src/algorithms/rsa.rs:249-366. *)
Definition l_usub (a b : uint) : leaky uint := l_opc OpSub [uprec a; uprec b] (usub_big a b).
Definition l_uadd (a b : uint) : leaky uint := l_opc OpAdd [uprec a; uprec b] (uadd_big a b).
Definition l_udiv (a b : uint) : leaky uint := l_opc OpDiv [uprec a; uprec b] (udiv a b).
Definition l_urem (a b : uint) : leaky uint := l_opc OpRem [uprec a; uprec b] (urem a b).
Definition l_umul (a b : uint) : leaky uint := l_op OpMul [uprec a; uprec b] (Ok (umul a b)).
Definition l_ugcd (a b : uint) : leaky uint := l_op OpGcd [uprec a; uprec b] (Ok (ugcd a b)).
Definition l_usqrt (a : uint) : leaky uint := l_op OpSqrt [uprec a] (Ok (usqrt a)).
Definition l_usquare (a : uint) : leaky uint := l_op OpSquare [uprec a] (Ok (usquare a)).
Definition l_wrapping_sub (a b : uint) : leaky uint :=
  l_op OpSub [uprec a; uprec b] (Ok (uwrapping_sub a b)).

(** A comparison followed by a jump on its outcome, e.g. src/key.rs:477. *)
Definition l_jump_cmp (a b : uint) (c : bool) : leaky bool :=
  let! c := l_cmp a b c in l_if c.
(** A test of one number followed by a jump, e.g. src/key.rs:599. *)
Definition l_jump_test (a : uint) (c : bool) : leaky bool :=
  let! c := l_op OpIsZero [uprec a] (Ok c) in l_if c.

(** * src/key.rs *)

(** src/key.rs:473-481 *)
Fixpoint l_product_check (primes : list uint) (m : uint) : leaky uint :=
  match primes with
  | [] => lret m
  | prime :: rest =>
      let! c := l_jump_cmp prime (u_of_u64 1) (ultb prime (u_of_u64 1)) in
      if c then lerr InvalidPrime
      else
        let! m := l_wrapping_mul m prime in
        l_product_check rest m
  end.

(** src/key.rs:494-501: the division has the secret modulus prime - 1. *)
Fixpoint l_exponent_check (primes : list uint) (d2 de : uint) : leaky unit :=
  match primes with
  | [] => lret tt
  | prime :: rest =>
      let! prime := l_widen prime (uprec d2) in
      let! x := l_wrapping_sub prime (u_of_u64 1) in
      let! _ := l_assert (negb (uis_zero x)) in
      let! congruence := l_rem_vartime de x in
      let! c := l_jump_test congruence (negb (uis_one congruence)) in
      if c then lerr InvalidExponent
      else l_exponent_check rest d2 de
  end.

(** src/key.rs:469-504 [validate] *)
Definition l_validate (k : privkey) : leaky unit :=
  let! _ := l_public (check_public (sk_pub k)) in
  let! m := l_product_check (sk_primes k) (u_one_with (uprec (pk_n (sk_pub k)))) in
  let! c := l_jump_cmp m (pk_n (sk_pub k)) (negb (ueqb m (pk_n (sk_pub k)))) in
  if c then lerr InvalidModulus
  else
    let! d := l_widen (sk_d k) (2 * uprec (sk_d k)) in
    let! de := l_wrapping_mul d (pk_e (sk_pub k)) in
    l_exponent_check (sk_primes k) d de.

(** src/key.rs:343 [k.precompute().ok()] *)
Definition l_try_precompute (k : privkey) : leaky privkey :=
  let (t, o) := l_precompute k in
  (t, match o with Err _ => Ok k | _ => o end).

(** src/key.rs:460-465 [crt_coefficient] *)
Definition l_crt_coefficient (k : privkey) : leaky (option uint) :=
  let! p := l_get (sk_primes k) 0 in
  let! q := l_get (sk_primes k) 1 in
  let! r := l_inv_mod q p in
  let! _ := l_if (match r with Some _ => true | None => false end) in
  lret r.

(** * src/algorithms/rsa.rs *)

(** src/algorithms/rsa.rs:236-300 [recover_primes] *)
Definition l_recover_primes (n e d : uint) : leaky (uint * uint) :=
  let! c := l_jump_cmp e (u_of_u64 (2 ^ 16)) (uleb e (u_of_u64 (2 ^ 16))) in
  if c then lerr InvalidArguments
  else
    let bits := uprec d * 2 in
    let! one := l_widen (u_of_u64 1) bits in
    let! e := l_widen e bits in
    let! d := l_widen d bits in
    let! n := l_widen n bits in
    let! de := l_umul d e in
    let! a1 := l_usub de one in
    let! n1 := l_usub n one in
    let! a2 := l_ugcd n1 a1 in
    let! a := l_umul a1 a2 in
    let! n := l_widen n (uprec a) in
    let! m := l_udiv a n in
    let! mn := l_umul m n in
    let! r := l_usub a mn in
    let! nr := l_usub n r in
    let! m1 := l_uadd m one in
    let! modulus_check := l_urem nr m1 in
    let! c := l_jump_test modulus_check (negb (uis_zero modulus_check)) in
    if c then lerr InvalidArguments
    else
      let! b := l_udiv nr m1 in
      let! b := l_uadd b one in
      let four := u_of_u64 4 in
      let! four_n := l_umul n four in
      let! b_squared := l_usquare b in
      let! c := l_jump_cmp b_squared four_n (uleb b_squared four_n) in
      if c then lerr InvalidArguments
      else
        let! b2m4n := l_usub b_squared four_n in
        let! y := l_usqrt b2m4n in
        let! y_squared := l_usquare y in
        let! c := l_jump_cmp y_squared b2m4n (negb (ueqb y_squared b2m4n)) in
        if c then lerr InvalidArguments
        else
          let bits := Z.max (uprec b) (uprec y) in
          let! two := l_widen (u_of_u64 2) bits in
          let! s := l_uadd b y in
          let! p := l_udiv s two in
          let! t := l_usub b y in
          let! q := l_udiv t two in
          lret (p, q).

(** src/algorithms/rsa.rs:306-308 *)
Fixpoint l_mul_all (out : uint) (primes : list uint) : leaky uint :=
  match primes with
  | [] => lret out
  | p :: rest => let! out := l_umul out p in l_mul_all out rest
  end.

(** src/algorithms/rsa.rs:303-310 [compute_modulus] *)
Definition l_compute_modulus (primes : list uint) : leaky uint :=
  match primes with
  | [] => emit (ECheck false) Panic
  | p :: rest =>
      let! out := l_mul_all p rest in
      let! _ := l_assert (uis_odd out) in
      lret out
  end.

(** src/algorithms/rsa.rs:325-327 *)
Fixpoint l_totient_loop (primes : list uint) (totient : uint) : leaky uint :=
  match primes with
  | [] => lret totient
  | prime :: rest =>
      let! p1 := l_usub prime (u_of_u64 1) in
      let! t := l_umul totient p1 in
      l_totient_loop rest t
  end.

(** The inverse is a [CtOption]; turning it into an [Option] is a jump
    (src/algorithms/rsa.rs:332-335, 360-365). *)
Definition l_inverse (exp m : uint) : leaky uint :=
  let! r := l_inv_mod exp m in
  let! _ := l_if (match r with Some _ => true | None => false end) in
  match r with
  | Some d => lret d
  | None => lerr InvalidPrime
  end.

(** src/algorithms/rsa.rs:315-336 [compute_private_exponent_euler_totient] *)
Definition l_euler_totient (primes : list uint) (exp : uint) : leaky uint :=
  let! c := l_if (length primes <? 2)%nat in
  if c then lerr InvalidPrime
  else
    let! p0 := l_get primes 0 in
    let bits := uprec p0 in
    let! totient := l_totient_loop primes (u_one_with bits) in
    let! exp := l_widen exp (uprec totient) in
    l_inverse exp totient.

(** src/algorithms/rsa.rs:347-366 [compute_private_exponent_carmicheal] *)
Definition l_carmicheal (p q exp : uint) : leaky uint :=
  let one := u_of_u64 1 in
  let! p1 := l_usub p one in
  let! q1 := l_usub q one in
  let! gcd := l_ugcd p1 q1 in
  let! quo := l_udiv p1 gcd in
  let! lcm := l_umul quo q1 in
  let! exp := l_widen exp (uprec lcm) in
  l_inverse exp lcm.

(** * src/key.rs: the constructors *)

(** src/key.rs:305-346 [from_components] *)
Definition l_from_components (n e d : uint) (primes : list uint) : leaky privkey :=
  let n_params := mkMP n in
  let! _ := l_public (guard (negb (uis_zero n)) InvalidModulus) in
  let! primes :=
    match primes with
    | [] => let! (p, q) := l_recover_primes n e d in lret [p; q]
    | [_] => lerr NprimesTooSmall
    | _ => lret primes
    end in
  let k := mkPriv (mkPub n e n_params) d primes None in
  let! _ := l_validate k in
  l_try_precompute k.

(** src/key.rs:354-368 [from_p_q] *)
Definition l_from_p_q (p q public_exponent : uint) : leaky privkey :=
  let! c := l_jump_cmp p q (ueqb p q) in
  if c then lerr InvalidPrime
  else
    let! d := l_carmicheal p q public_exponent in
    let! n := l_compute_modulus [p; q] in
    l_from_components n public_exponent d [p; q].

(** src/key.rs:383-387: is [prime1] among the earlier ones? *)
Fixpoint l_among (prime1 : uint) (earlier : list uint) : leaky bool :=
  match earlier with
  | [] => lret false
  | prime2 :: more =>
      let! c := l_jump_cmp prime1 prime2 (ueqb prime1 prime2) in
      if c then lret true else l_among prime1 more
  end.

(** src/key.rs:382-388 *)
Fixpoint l_repeated (earlier primes : list uint) : leaky bool :=
  match primes with
  | [] => lret false
  | prime1 :: rest =>
      let! c := l_among prime1 earlier in
      if c then lret true else l_repeated (earlier ++ [prime1]) rest
  end.

(** src/key.rs:373-394 [from_primes] *)
Definition l_from_primes (primes : list uint) (public_exponent : uint) : leaky privkey :=
  let! c := l_if (length primes <? 2)%nat in
  if c then lerr NprimesTooSmall
  else
    let! c := l_repeated [] primes in
    if c then lerr InvalidPrime
    else
      let! n := l_compute_modulus primes in
      let! d := l_euler_totient primes public_exponent in
      l_from_components n public_exponent d primes.
