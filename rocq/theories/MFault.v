(** The private-key operation on a machine that miscalculates.  Every number computed on
    the way from the input to the result may be replaced by an arbitrary other number of the
    same width; the comparison that follows (src/algorithms/rsa.rs:133-139) is computed
    correctly. *)
From Coq Require Import ZArith List Bool.
From Coq Require Import Init.Byte.
From Verif Require Import Base Bigint MHash MPad MPkcs1 MOaep MPss MRsa MKey.
Import ListNotations.
Local Open Scope Z_scope.

(** The numbers computed by src/algorithms/rsa.rs:34-114 and 145-203, in order. *)
Inductive site :=
| At_rpowe | At_blinded | At_unblinder   (* 171-181 *)
| At_operand                             (* 57-61 *)
| At_cp | At_m1 | At_cq | At_m2          (* 79-83 *)
| At_m2r | At_diff | At_h                (* 86-92 *)
| At_hq | At_sum                         (* 95-96 *)
| At_power                               (* 101 *)
| At_short | At_result.                  (* 106, 110 *)

(** A fault in one of the computations of src/algorithms/rsa.rs:40-120: what each number is replaced by, if it is. *)
Definition fault := site -> option Z.
Definition no_fault : fault := fun _ => None.

Definition hit (F : fault) (s : site) (u : uint) : uint :=
  match F s with
  | Some v => mkU (v mod 2 ^ uprec u) (uprec u)
  | None => u
  end.
Definition hitm (F : fault) (s : site) (f : mform) : mform :=
  match F s with
  | Some v => mkMF (v mod 2 ^ mp_prec (mf_params f)) (mf_params f)
  | None => f
  end.

Section WithRng.
  Context {R : Type} (g : rng_ops R) (F : fault).

  (** src/algorithms/rsa.rs:145-185 [blind] *)
  Definition blind_f (fuel : nat) (st : R) (key : pubkey) (c : uint) (n_params : mparams)
    : outcome (uint * uint) :=
    let* _ := assert_ (ueqb (pk_n key) (mp_modulus n_params)) in
    let bits := n_bits_precision key in
    let* (r, ir, _) := blind_loop g fuel st key in
    let* rpowe := pow_mod_params r (pk_e key) n_params in
    let* blinded := mul_mod_params c (hit F At_rpowe rpowe) n_params in
    let* _ := assert_ (uprec blinded =? bits) in
    let* _ := assert_ (uprec ir =? bits) in
    Ok (hit F At_blinded blinded, hit F At_unblinder ir).

  (** src/algorithms/rsa.rs:71-96 *)
  Definition crt_pow_f (c : uint) (pc : precomp) (q : uint) : outcome uint :=
    let* cp := mf_new c (pc_p_params pc) in
    let m1 := hitm F At_m1 (mf_pow (hitm F At_cp cp) (pc_dp pc)) in
    let* cq := mf_new c (pc_q_params pc) in
    let m2 := hit F At_m2 (mf_retrieve (mf_pow (hitm F At_cq cq) (pc_dq pc))) in
    let* m2r := mf_new m2 (pc_p_params pc) in
    let m1 := hitm F At_diff (mf_sub m1 (hitm F At_m2r m2r)) in
    let m := hit F At_h (mf_retrieve (mf_mul (pc_qinv pc) m1)) in
    let m := hit F At_hq (uwrapping_mul m q) in
    Ok (hit F At_sum (uwrapping_add m m2)).

  (** src/algorithms/rsa.rs:34-114 [rsa_decrypt] *)
  Definition rsa_decrypt_f (fuel : nat) (rng : option R) (priv_key : privkey) (c : uint)
    : outcome uint :=
    let n := pk_n (sk_pub priv_key) in
    let d := sk_d priv_key in
    if uleb n c then Err Decryption
    else
      let n_params := pk_params (sk_pub priv_key) in
      let bits := uprec d in
      let* (c, ir) :=
        match rng with
        | Some st =>
            let* (blinded, unblinder) := blind_f fuel st (sk_pub priv_key) c n_params in
            let* c := widen blinded bits in
            Ok (hit F At_operand c, Some unblinder)
        | None => let* c := widen c bits in Ok (hit F At_operand c, None)
        end in
      let is_multiprime := (2 <? length (sk_primes priv_key))%nat in
      let* m :=
        match sk_pre priv_key with
        | Some pc =>
            if is_multiprime then
              let* m := pow_mod_params c d n_params in Ok (hit F At_power m)
            else
              let* _p := get_idx (sk_primes priv_key) 0 in
              let* q := get_idx (sk_primes priv_key) 1 in
              crt_pow_f c pc q
        | None => let* m := pow_mod_params c d n_params in Ok (hit F At_power m)
        end in
      let* m := shorten m (mp_prec n_params) in
      let m := hit F At_short m in
      match ir with
      | Some ir => let* m := unblind m ir n_params in Ok (hit F At_result m)
      | None => Ok (hit F At_result m)
      end.

  (** src/algorithms/rsa.rs:126-142 [rsa_decrypt_and_check] *)
  Definition rsa_decrypt_and_check_f (fuel : nat) (priv_key : privkey) (rng : option R) (c : uint)
    : outcome uint :=
    let* m := rsa_decrypt_f fuel rng priv_key c in
    let* check := rsa_encrypt (sk_pub priv_key) m in
    if negb (ueqb c check) then Err Internal else Ok m.

  (** src/pkcs1v15.rs:160-172 [decrypt] *)
  Definition pkcs1v15_decrypt_f (fuel : nat) (rng : option R) (priv_key : privkey)
             (ciphertext : list byte) : outcome (list byte) :=
    let pk := sk_pub priv_key in
    let* _ := check_public pk in
    let* c := from_be_slice ciphertext (n_bits_precision pk) in
    let* em := rsa_decrypt_and_check_f fuel priv_key rng c in
    let* em := uint_to_zeroizing_be_pad em (key_size pk) in
    pkcs1v15_encrypt_unpad em (key_size pk).

  (** src/pkcs1v15.rs:188-198 [sign] *)
  Definition pkcs1v15_sign_f (fuel : nat) (rng : option R) (priv_key : privkey)
             (prefix hashed : list byte) : outcome (list byte) :=
    let pk := sk_pub priv_key in
    let* em := pkcs1v15_sign_pad prefix hashed (key_size pk) in
    let* em := from_be_slice em (n_bits_precision pk) in
    let* s := rsa_decrypt_and_check_f fuel priv_key rng em in
    uint_to_zeroizing_be_pad s (key_size pk).

  (** src/oaep.rs:239-257 [decrypt] *)
  Definition oaep_api_decrypt_f (fuel : nat) (rng : option R) (priv_key : privkey)
             (ciphertext : list byte) (dg mgf_digest : digest) (label : option (list byte))
    : outcome (list byte) :=
    let pk := sk_pub priv_key in
    if negb (length ciphertext =? key_size pk)%nat then Err Decryption
    else
      let* c := from_be_slice ciphertext (n_bits_precision pk) in
      let* em := rsa_decrypt_and_check_f fuel priv_key rng c in
      let* em := uint_to_zeroizing_be_pad em (key_size pk) in
      oaep_decrypt em dg mgf_digest label (key_size pk).

  (** src/pss.rs:200-214 [sign_pss_with_salt] *)
  Definition sign_pss_with_salt_f (fuel : nat) (blind_rng : option R) (priv_key : privkey)
             (hashed salt : list byte) (dg : digest) : outcome (list byte) :=
    let pk := sk_pub priv_key in
    let* em_bits := usub (Z.to_nat (ubits (pk_n pk))) 1 in
    let* (em, _) := emsa_pss_encode hashed em_bits salt dg in
    let* em := from_be_slice em (n_bits_precision pk) in
    let* raw := rsa_decrypt_and_check_f fuel priv_key blind_rng em in
    uint_to_zeroizing_be_pad raw (key_size pk).
End WithRng.
