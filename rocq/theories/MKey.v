(** Model of src/key.rs. *)
From Coq Require Import ZArith List Bool.
From Coq Require Import Init.Byte.
From Verif Require Import Base Bigint MHash MRsa MGenerate.
Import ListNotations.
Local Open Scope Z_scope.

(** src/key.rs:212,215,218,272 *)
Definition MIN_PUB_EXPONENT : Z := 2.
Definition MAX_PUB_EXPONENT : Z := 2 ^ 33 - 1.
Definition MAX_SIZE : Z := 4096.
Definition EXP : Z := 65537.

(** src/key.rs:590-612 [check_public_with_max_size] *)
Definition check_public_with_max_size (n e : uint) (max_size : Z) : outcome unit :=
  if max_size <? uprec n then Err ModulusTooLarge
  else if uleb n e || uis_even n || uis_zero n then Err InvalidModulus
  else if uis_even e then Err InvalidExponent
  else if ultb e (u_of_u64 MIN_PUB_EXPONENT) then Err PublicExponentTooSmall
  else if ultb (u_of_u64 MAX_PUB_EXPONENT) e then Err PublicExponentTooLarge
  else Ok tt.

(** src/key.rs:584-586 [check_public] *)
Definition check_public (k : pubkey) : outcome unit :=
  check_public_with_max_size (pk_n k) (pk_e k) MAX_SIZE.

(** src/key.rs:229-239 [RsaPublicKey::new_with_max_size] *)
Definition public_new_with_max_size (n e : uint) (max_size : Z) : outcome pubkey :=
  let* _ := check_public_with_max_size n e max_size in
  let* _ := guard (uis_odd n) InvalidModulus in
  let n_params := mkMP n in
  let* _ := assert_ (negb (uis_zero n)) in
  Ok (mkPub n e n_params).

(** src/key.rs:224-226 [RsaPublicKey::new] *)
Definition public_new (n e : uint) : outcome pubkey := public_new_with_max_size n e MAX_SIZE.

(** src/key.rs:247-253 [RsaPublicKey::new_unchecked] *)
Definition public_new_unchecked (n e : uint) : outcome pubkey :=
  let* _ := assert_ (uis_odd n) in
  let* _ := assert_ (negb (uis_zero n)) in
  Ok (mkPub n e (mkMP n)).

(** src/key.rs:473-481: product of the primes modulo 2^precision of n. *)
Fixpoint product_check (primes : list uint) (m : uint) : outcome uint :=
  match primes with
  | [] => Ok m
  | prime :: rest =>
      if ultb prime (u_of_u64 1) then Err InvalidPrime
      else product_check rest (uwrapping_mul m prime)
  end.

(** src/key.rs:494-501: de = 1 modulo each prime - 1; [d2] is the widened d. *)
Fixpoint exponent_check (primes : list uint) (d2 de : uint) : outcome unit :=
  match primes with
  | [] => Ok tt
  | prime :: rest =>
      let* prime := widen prime (uprec d2) in
      let x := uwrapping_sub prime (u_of_u64 1) in
      let* _ := assert_ (negb (uis_zero x)) in
      let* congruence := urem de x in
      if negb (uis_one congruence) then Err InvalidExponent
      else exponent_check rest d2 de
  end.

(** src/key.rs:469-504 [validate] *)
Definition validate (k : privkey) : outcome unit :=
  let* _ := check_public (sk_pub k) in
  let* m := product_check (sk_primes k) (u_one_with (uprec (pk_n (sk_pub k)))) in
  if negb (ueqb m (pk_n (sk_pub k))) then Err InvalidModulus
  else
    let* d := widen (sk_d k) (2 * uprec (sk_d k)) in
    let de := uwrapping_mul d (pk_e (sk_pub k)) in
    exponent_check (sk_primes k) d de.

(** src/key.rs:405-452 [precompute]: the key after the call. *)
Definition precompute (k : privkey) : outcome privkey :=
  match sk_pre k with
  | Some _ => Ok k
  | None =>
      let d := sk_d k in
      let bits := uprec d in
      let* p0 := get_idx (sk_primes k) 0 in
      let* p := widen p0 bits in
      let* p1 := get_idx (sk_primes k) 1 in
      let* q := widen p1 bits in
      let* _ := guard (uis_odd p) InvalidPrime in
      let p_params := mkMP p in
      let* _ := guard (uis_odd q) InvalidPrime in
      let q_params := mkMP q in
      let x := uwrapping_sub p (u_of_u64 1) in
      let* _ := guard (negb (uis_zero x)) InvalidPrime in
      let* dp := urem d x in
      let x := uwrapping_sub q (u_of_u64 1) in
      let* _ := guard (negb (uis_zero x)) InvalidPrime in
      let* dq := urem d x in
      let* qm := mf_new q p_params in
      match mf_invert qm with
      | None => Err InvalidPrime
      | Some qinv =>
          let* _ := assert_ ((uprec dp =? bits) && (uprec dq =? bits)
                             && (mp_prec (mf_params qinv) =? bits)
                             && (mp_prec p_params =? bits) && (mp_prec q_params =? bits)) in
          Ok (mkPriv (sk_pub k) (sk_d k) (sk_primes k)
                     (Some (mkPre dp dq qinv p_params q_params)))
      end
  end.

(** src/key.rs:455-457 [clear_precomputed] *)
Definition clear_precomputed (k : privkey) : privkey :=
  mkPriv (sk_pub k) (sk_d k) (sk_primes k) None.

(** src/key.rs:460-465 [crt_coefficient] *)
Definition crt_coefficient (k : privkey) : outcome (option uint) :=
  let* p := get_idx (sk_primes k) 0 in
  let* q := get_idx (sk_primes k) 1 in
  uinv_mod q p.

(** src/key.rs:343 [k.precompute().ok()]: errors are ignored, the key is then unchanged. *)
Definition try_precompute (k : privkey) : outcome privkey :=
  match precompute k with
  | Err _ => Ok k
  | o => o
  end.

(** src/key.rs:305-346 [from_components]; the argument type [Odd<BoxedUint>]
    guarantees that [n] is odd. *)
Definition from_components (n e d : uint) (primes : list uint) : outcome privkey :=
  let n_params := mkMP n in
  let* _ := guard (negb (uis_zero n)) InvalidModulus in
  let* primes :=
    match primes with
    | [] => let* (p, q) := recover_primes n e d in Ok [p; q]
    | [_] => Err NprimesTooSmall
    | _ => Ok primes
    end in
  let k := mkPriv (mkPub n e n_params) d primes None in
  let* _ := validate k in
  try_precompute k.

(** src/key.rs:354-368 [from_p_q] *)
Definition from_p_q (p q public_exponent : uint) : outcome privkey :=
  if ueqb p q then Err InvalidPrime
  else
    let* d := compute_private_exponent_carmicheal p q public_exponent in
    let* n := compute_modulus [p; q] in
    from_components n public_exponent d [p; q].

(** src/key.rs:373-394 [from_primes] *)
Definition from_primes (primes : list uint) (public_exponent : uint) : outcome privkey :=
  if (length primes <? 2)%nat then Err NprimesTooSmall
  else if has_duplicate primes then Err InvalidPrime
  else
    let* n := compute_modulus primes in
    let* d := compute_private_exponent_euler_totient primes public_exponent in
    from_components n public_exponent d primes.

Section WithGen.
  Context {R : Type} (gp : prime_gen R).

  (** src/key.rs:283-290 [RsaPrivateKey::new_with_exp] *)
  Definition private_new_with_exp (fuel : nat) (st : R) (bit_size : Z) (exp : uint)
    : outcome privkey :=
    let* c := generate_multi_prime_key_with_exp gp fuel st 2 bit_size exp in
    from_components (kc_n c) (kc_e c) (kc_d c) (kc_primes c).

  (** src/key.rs:275-277 [RsaPrivateKey::new] *)
  Definition private_new (fuel : nat) (st : R) (bit_size : Z) : outcome privkey :=
    private_new_with_exp fuel st bit_size (u_of_u64 EXP).
End WithGen.

(** src/key.rs:400-402 [to_public_key] and src/key.rs:161-172 [From<&RsaPrivateKey>] *)
Definition to_public_key (k : privkey) : pubkey := sk_pub k.
Definition pubkey_from_private (k : privkey) : pubkey :=
  mkPub (pk_n (sk_pub k)) (pk_e (sk_pub k)) (pk_params (sk_pub k)).

(** src/key.rs:43-48 [PartialEq for RsaPublicKey] *)
Definition pub_eqb (a b : pubkey) : bool :=
  ueqb (pk_n a) (pk_n b) && ueqb (pk_e a) (pk_e b).

(** [Vec<BoxedUint> == Vec<BoxedUint>], src/key.rs:94 *)
Fixpoint uints_eqb (a b : list uint) : bool :=
  match a, b with
  | [], [] => true
  | x :: a', y :: b' => ueqb x y && uints_eqb a' b'
  | _, _ => false
  end.

(** src/key.rs:89-96 [PartialEq for RsaPrivateKey] *)
Definition priv_eqb (a b : privkey) : bool :=
  pub_eqb (sk_pub a) (sk_pub b) && ueqb (sk_d a) (sk_d b)
  && uints_eqb (sk_primes a) (sk_primes b).

(** What is fed to the hasher (src/key.rs:50-57, 104-110): strings and limb vectors. *)
Inductive hash_item := HBytes (b : list byte) | HLimbs (prec : Z) (v : Z).

(** src/key.rs:50-57 [Hash for RsaPublicKey]; derived [Hash] of [BoxedUint] feeds
    all limbs (dependency). *)
Definition uint_hash (u : uint) : hash_item := HLimbs (uprec u) (uval u).
Definition str_RsaPublicKey : list byte :=
  [x52; x73; x61; x50; x75; x62; x6c; x69; x63; x4b; x65; x79].
Definition str_RsaPrivateKey : list byte :=
  [x52; x73; x61; x50; x72; x69; x76; x61; x74; x65; x4b; x65; x79].
Definition pub_hash (k : pubkey) : list hash_item :=
  [HBytes str_RsaPublicKey; uint_hash (pk_n k); uint_hash (pk_e k)].

(** src/key.rs:104-110 [Hash for RsaPrivateKey] *)
Definition priv_hash (k : privkey) : list hash_item :=
  HBytes str_RsaPrivateKey :: pub_hash (sk_pub k).
