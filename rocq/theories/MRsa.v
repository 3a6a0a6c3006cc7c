(** Model of src/algorithms/rsa.rs together with the key records of src/key.rs
    and the trait accessors of src/traits/keys.rs. *)
From Coq Require Import ZArith List Bool.
From Coq Require Import Init.Byte.
From Verif Require Import Base Bigint MHash.
Import ListNotations.
Local Open Scope Z_scope.

(** src/key.rs:29-39 [RsaPublicKey] *)
Record pubkey := mkPub { pk_n : uint; pk_e : uint; pk_params : mparams }.

(** src/key.rs:123-135 [PrecomputedValues] *)
Record precomp := mkPre {
  pc_dp : uint; pc_dq : uint; pc_qinv : mform;
  pc_p_params : mparams; pc_q_params : mparams
}.

(** src/key.rs:61-70 [RsaPrivateKey] *)
Record privkey := mkPriv {
  sk_pub : pubkey; sk_d : uint; sk_primes : list uint; sk_pre : option precomp
}.

(** src/traits/keys.rs:19-21 [size] *)
Definition key_size (k : pubkey) : nat := div_ceil8 (Z.to_nat (ubits (pk_n k))).

(** src/traits/keys.rs:27-29 [n_bits_precision] *)
Definition n_bits_precision (k : pubkey) : Z := uprec (pk_n k).

(** src/algorithms/rsa.rs:211-223 [reduce_vartime] *)
Definition reduce_vartime (n : uint) (p : mparams) : outcome mform :=
  let bits_precision := uprec (mp_modulus p) in
  let* n := (if uprec n <? bits_precision then widen n bits_precision
             else if uprec n =? bits_precision then Ok n
             else shorten n bits_precision) in
  let* r := urem n (mp_modulus p) in
  let* r := widen r (mp_prec p) in
  mf_new r p.

(** src/algorithms/rsa.rs:206-209 [pow_mod_params] *)
Definition pow_mod_params (base exp : uint) (n_params : mparams) : outcome uint :=
  let* b := reduce_vartime base n_params in
  Ok (mf_retrieve (mf_pow b exp)).

(** src/algorithms/rsa.rs:226-231 [mul_mod_params] *)
Definition mul_mod_params (lhs rhs : uint) (n_params : mparams) : outcome uint :=
  let* l := mf_new lhs n_params in
  let* r := mf_new rhs n_params in
  Ok (mf_retrieve (mf_mul l r)).

(** src/algorithms/rsa.rs:20-23 [rsa_encrypt] *)
Definition rsa_encrypt (key : pubkey) (m : uint) : outcome uint :=
  pow_mod_params m (pk_e key) (pk_params key).

(** src/algorithms/rsa.rs:188-203 [unblind] *)
Definition unblind (m unblinder : uint) (n_params : mparams) : outcome uint :=
  let* _ := assert_ (uprec m =? uprec unblinder) in
  let* _ := assert_ (uprec m =? mp_prec n_params) in
  mul_mod_params m unblinder n_params.

Section WithRng.
  Context {R : Type} (g : rng_ops R).

  (** src/algorithms/rsa.rs:158-168: the loop choosing r; returns (r, r^-1, state). *)
  Fixpoint blind_loop (fuel : nat) (st : R) (key : pubkey) : outcome (uint * uint * R) :=
    match fuel with
    | O => OutOfFuel
    | S fuel' =>
        match rng_mod g st (uval (pk_n key)) with
        | (None, _) => Err Rng
        | (Some v, st') =>
            let r := mkU v (uprec (pk_n key)) in
            let r := if uis_zero r then u_one_with (n_bits_precision key) else r in
            let* ir := uinv_mod r (pk_n key) in
            match ir with
            | Some ir => Ok (r, ir, st')
            | None => blind_loop fuel' st' key
            end
        end
    end.

  (** src/algorithms/rsa.rs:145-185 [blind]: (blinded c, unblinder). *)
  Definition blind (fuel : nat) (st : R) (key : pubkey) (c : uint) (n_params : mparams)
    : outcome (uint * uint) :=
    let* _ := assert_ (ueqb (pk_n key) (mp_modulus n_params)) in
    let bits := n_bits_precision key in
    let* (r, ir, _) := blind_loop fuel st key in
    let* rpowe := pow_mod_params r (pk_e key) n_params in
    let* blinded := mul_mod_params c rpowe n_params in
    let* _ := assert_ (uprec blinded =? bits) in
    let* _ := assert_ (uprec ir =? bits) in
    Ok (blinded, ir).

  (** src/algorithms/rsa.rs:71-96: decryption with the Chinese remainder theorem. *)
  Definition crt_pow (c : uint) (pc : precomp) (q : uint) : outcome uint :=
    let* cp := mf_new c (pc_p_params pc) in
    let m1 := mf_pow cp (pc_dp pc) in
    let* cq := mf_new c (pc_q_params pc) in
    let m2 := mf_retrieve (mf_pow cq (pc_dq pc)) in
    let* m2r := mf_new m2 (pc_p_params pc) in
    let m1 := mf_sub m1 m2r in
    let m := mf_retrieve (mf_mul (pc_qinv pc) m1) in
    let m := uwrapping_mul m q in
    Ok (uwrapping_add m m2).

  (** src/algorithms/rsa.rs:34-114 [rsa_decrypt]; [rng] is the optional generator
      (its state). *)
  Definition rsa_decrypt (fuel : nat) (rng : option R) (priv_key : privkey) (c : uint)
    : outcome uint :=
    let n := pk_n (sk_pub priv_key) in
    let d := sk_d priv_key in
    if uleb n c then Err Decryption
    else
      let n_params := pk_params (sk_pub priv_key) in
      let bits := uprec d in
      let* (c, ir) :=
        match rng with
        | Some st =>
            let* (blinded, unblinder) := blind fuel st (sk_pub priv_key) c n_params in
            let* c := widen blinded bits in
            Ok (c, Some unblinder)
        | None => let* c := widen c bits in Ok (c, None)
        end in
      let is_multiprime := (2 <? length (sk_primes priv_key))%nat in
      let* m :=
        match sk_pre priv_key with
        | Some pc =>
            if is_multiprime then pow_mod_params c d n_params
            else
              let* _p := get_idx (sk_primes priv_key) 0 in
              let* q := get_idx (sk_primes priv_key) 1 in
              crt_pow c pc q
        | None => pow_mod_params c d n_params
        end in
      let* m := shorten m (mp_prec n_params) in
      match ir with
      | Some ir => unblind m ir n_params
      | None => Ok m
      end.

  (** src/algorithms/rsa.rs:126-142 [rsa_decrypt_and_check] *)
  Definition rsa_decrypt_and_check (fuel : nat) (priv_key : privkey) (rng : option R) (c : uint)
    : outcome uint :=
    let* m := rsa_decrypt fuel rng priv_key c in
    let* check := rsa_encrypt (sk_pub priv_key) m in
    if negb (ueqb c check) then Err Internal else Ok m.
End WithRng.

(** src/algorithms/rsa.rs:236-300 [recover_primes] *)
Definition recover_primes (n e d : uint) : outcome (uint * uint) :=
  if uleb e (u_of_u64 (2 ^ 16)) then Err InvalidArguments
  else
    let bits := uprec d * 2 in
    let* one := widen (u_of_u64 1) bits in
    let* e := widen e bits in
    let* d := widen d bits in
    let* n := widen n bits in
    let* a1 := usub_big (umul d e) one in
    let* n1 := usub_big n one in
    let a2 := ugcd n1 a1 in
    let a := umul a1 a2 in
    let* n := widen n (uprec a) in
    let* m := udiv a n in
    let* r := usub_big a (umul m n) in
    let* nr := usub_big n r in
    let* m1 := uadd_big m one in
    let* modulus_check := urem nr m1 in
    if negb (uis_zero modulus_check) then Err InvalidArguments
    else
      let* b := udiv nr m1 in
      let* b := uadd_big b one in
      let four := u_of_u64 4 in
      let four_n := umul n four in
      let b_squared := usquare b in
      if uleb b_squared four_n then Err InvalidArguments
      else
        let* b2m4n := usub_big b_squared four_n in
        let y := usqrt b2m4n in
        let y_squared := usquare y in
        if negb (ueqb y_squared b2m4n) then Err InvalidArguments
        else
          let bits := Z.max (uprec b) (uprec y) in
          let* two := widen (u_of_u64 2) bits in
          let* s := uadd_big b y in
          let* p := udiv s two in
          let* t := usub_big b y in
          let* q := udiv t two in
          Ok (p, q).

(** src/algorithms/rsa.rs:303-310 [compute_modulus]; the [Odd] wrapper is the
    final assertion. *)
Definition compute_modulus (primes : list uint) : outcome uint :=
  match primes with
  | [] => Panic
  | p :: rest =>
      let out := fold_left (fun out p => umul out p) rest p in
      let* _ := assert_ (uis_odd out) in
      Ok out
  end.

(** src/algorithms/rsa.rs:325-327: product of the (prime - 1). *)
Fixpoint totient_loop (primes : list uint) (totient : uint) : outcome uint :=
  match primes with
  | [] => Ok totient
  | prime :: rest =>
      let* p1 := usub_big prime (u_of_u64 1) in
      totient_loop rest (umul totient p1)
  end.

(** src/algorithms/rsa.rs:315-336 [compute_private_exponent_euler_totient] *)
Definition compute_private_exponent_euler_totient (primes : list uint) (exp : uint)
  : outcome uint :=
  if (length primes <? 2)%nat then Err InvalidPrime
  else
    let* p0 := get_idx primes 0 in
    let bits := uprec p0 in
    let* totient := totient_loop primes (u_one_with bits) in
    let* exp := widen exp (uprec totient) in
    let* r := uinv_mod exp totient in
    match r with
    | Some res => Ok res
    | None => Err InvalidPrime
    end.

(** src/algorithms/rsa.rs:347-366 [compute_private_exponent_carmicheal] *)
Definition compute_private_exponent_carmicheal (p q exp : uint) : outcome uint :=
  let one := u_of_u64 1 in
  let* p1 := usub_big p one in
  let* q1 := usub_big q one in
  let gcd := ugcd p1 q1 in
  let* quo := udiv p1 gcd in
  let lcm := umul quo q1 in
  let* exp := widen exp (uprec lcm) in
  let* r := uinv_mod exp lcm in
  match r with
  | Some d => Ok d
  | None => Err InvalidPrime
  end.
