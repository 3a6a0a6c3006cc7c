(** The raw operations of src/algorithms/rsa.rs (exported by src/hazmat.rs) as written:
    generic over the type of the key.  A key is whatever the accessors of the traits
    [PublicKeyParts] and [PrivateKeyParts] answer; any type may implement them. *)
From Coq Require Import ZArith List Bool.
From Coq Require Import Init.Byte.
From Verif Require Import Base Bigint MHash MRsa MKey.
Import ListNotations.
Local Open Scope Z_scope.

(** src/traits/keys.rs:10-57: the answers of the accessors, each on its own.
    [kp_bits] is that of [n_bits_precision], which has a default (27-29) but can be
    overridden.  [size] and [crt_values] are left out: the raw operations never call them.
    Simplified: an accessor answers the same each time it is called. *)
Record key_parts := mkParts {
  kp_n : uint; kp_e : uint; kp_params : mparams; kp_bits : Z;
  kp_d : uint; kp_primes : list uint;
  kp_dp : option uint; kp_dq : option uint; kp_qinv : option mform;
  kp_p_params : option mparams; kp_q_params : option mparams
}.

(** src/algorithms/rsa.rs:20-23 [rsa_encrypt] *)
Definition rsa_encrypt_g (key : key_parts) (m : uint) : outcome uint :=
  pow_mod_params m (kp_e key) (kp_params key).

(** Montgomery parameters are the same: same modulus at the same width. *)
Definition mp_eqb (a b : mparams) : bool :=
  ueqb (mp_modulus a) (mp_modulus b) && (mp_prec a =? mp_prec b).

Section WithRng.
  Context {R : Type} (g : rng_ops R).

  (** src/algorithms/rsa.rs:158-168 *)
  Fixpoint blind_loop_g (fuel : nat) (st : R) (key : key_parts) : outcome (uint * uint * R) :=
    match fuel with
    | O => OutOfFuel
    | S fuel' =>
        match rng_mod g st (uval (kp_n key)) with
        | (None, _) => Err Rng
        | (Some v, st') =>
            let r := mkU v (uprec (kp_n key)) in
            let r := if uis_zero r then u_one_with (kp_bits key) else r in
            let* ir := uinv_mod r (kp_n key) in
            match ir with
            | Some ir => Ok (r, ir, st')
            | None => blind_loop_g fuel' st' key
            end
        end
    end.

  (** src/algorithms/rsa.rs:145-185 [blind] *)
  Definition blind_g (fuel : nat) (st : R) (key : key_parts) (c : uint) (n_params : mparams)
    : outcome (uint * uint) :=
    let* _ := assert_ (ueqb (kp_n key) (mp_modulus n_params)) in
    let bits := kp_bits key in
    let* (r, ir, _) := blind_loop_g fuel st key in
    let* rpowe := pow_mod_params r (kp_e key) n_params in
    let* blinded := mul_mod_params c rpowe n_params in
    let* _ := assert_ (uprec blinded =? bits) in
    let* _ := assert_ (uprec ir =? bits) in
    Ok (blinded, ir).

  (** src/algorithms/rsa.rs:71-96.  [qinv] brings its own parameters: the multiplication of
      line 92 asserts (in debug builds of crypto-bigint) that they are those of [m1]. *)
  Definition crt_pow_g (c dp dq : uint) (qinv : mform) (p_params q_params : mparams) (q : uint)
    : outcome uint :=
    let* cp := mf_new c p_params in
    let m1 := mf_pow cp dp in
    let* cq := mf_new c q_params in
    let m2 := mf_retrieve (mf_pow cq dq) in
    let* m2r := mf_new m2 p_params in
    let m1 := mf_sub m1 m2r in
    let* _ := assert_ (mp_eqb (mf_params qinv) (mf_params m1)) in
    let m := mf_retrieve (mf_mul qinv m1) in
    let m := uwrapping_mul m q in
    Ok (uwrapping_add m m2).

  (** src/algorithms/rsa.rs:34-114 [rsa_decrypt] *)
  Definition rsa_decrypt_g (fuel : nat) (rng : option R) (priv_key : key_parts) (c : uint)
    : outcome uint :=
    let n := kp_n priv_key in
    let d := kp_d priv_key in
    if uleb n c then Err Decryption
    else
      let n_params := kp_params priv_key in
      let bits := uprec d in
      let* (c, ir) :=
        match rng with
        | Some st =>
            let* (blinded, unblinder) := blind_g fuel st priv_key c n_params in
            let* c := widen blinded bits in
            Ok (c, Some unblinder)
        | None => let* c := widen c bits in Ok (c, None)
        end in
      let is_multiprime := (2 <? length (kp_primes priv_key))%nat in
      let* m :=
        match kp_dp priv_key, kp_dq priv_key, kp_qinv priv_key,
              kp_p_params priv_key, kp_q_params priv_key with
        | Some dp, Some dq, Some qinv, Some p_params, Some q_params =>
            if is_multiprime then pow_mod_params c d n_params
            else
              let* _p := get_idx (kp_primes priv_key) 0 in
              let* q := get_idx (kp_primes priv_key) 1 in
              crt_pow_g c dp dq qinv p_params q_params q
        | _, _, _, _, _ => pow_mod_params c d n_params
        end in
      let* m := shorten m (mp_prec n_params) in
      match ir with
      | Some ir => unblind m ir n_params
      | None => Ok m
      end.

  (** src/algorithms/rsa.rs:126-142 [rsa_decrypt_and_check] *)
  Definition rsa_decrypt_and_check_g (fuel : nat) (priv_key : key_parts) (rng : option R) (c : uint)
    : outcome uint :=
    let* m := rsa_decrypt_g fuel rng priv_key c in
    let* check := rsa_encrypt_g priv_key m in
    if negb (ueqb c check) then Err Internal else Ok m.
End WithRng.

(** src/key.rs:256-268 and 548-581: what the accessors of [RsaPrivateKey] answer. *)
Definition parts_of (k : privkey) : key_parts :=
  mkParts (pk_n (sk_pub k)) (pk_e (sk_pub k)) (pk_params (sk_pub k)) (n_bits_precision (sk_pub k))
    (sk_d k) (sk_primes k)
    (option_map pc_dp (sk_pre k)) (option_map pc_dq (sk_pre k)) (option_map pc_qinv (sk_pre k))
    (option_map pc_p_params (sk_pre k)) (option_map pc_q_params (sk_pre k)).
