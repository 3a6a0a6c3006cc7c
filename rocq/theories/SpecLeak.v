(** What an observer of a run may be able to tell apart.  Nothing here refers to how
    the code computes. *)
From Coq Require Import ZArith List.
From Coq Require Import Init.Byte.
From Verif Require Import Base Bigint MHash MRsa SpecRFC.
Import ListNotations.
Local Open Scope Z_scope.

(** Number of leading zero octets. *)
Fixpoint zero_octets (l : list byte) : nat :=
  match l with
  | x00 :: r => S (zero_octets r)
  | _ => O
  end.

(** Two answers that only differ in the contents of the returned bytes (or two runs
    that have not come to an answer yet). *)
Definition same_answer (o o' : outcome (list byte)) : Prop :=
  match o, o' with
  | Ok m, Ok m' => length m = length m'
  | Err _, Err _ => True
  | OutOfFuel, OutOfFuel => True
  | _, _ => False
  end.

(** Two private keys for one public key whose components are stored with the same
    precisions; the secret numbers themselves may differ. *)
Definition same_shape (k k' : privkey) : Prop :=
  sk_pub k = sk_pub k' /\ uprec (sk_d k) = uprec (sk_d k') /\
  map uprec (sk_primes k) = map uprec (sk_primes k') /\
  match sk_pre k, sk_pre k' with
  | None, None => True
  | Some a, Some b =>
      uprec (pc_dp a) = uprec (pc_dp b) /\ uprec (pc_dq a) = uprec (pc_dq b) /\
      mp_prec (mf_params (pc_qinv a)) = mp_prec (mf_params (pc_qinv b)) /\
      mp_prec (pc_p_params a) = mp_prec (pc_p_params b) /\
      mp_prec (pc_q_params a) = mp_prec (pc_q_params b)
  | _, _ => False
  end.

(** What the number of leading zero octets of an answer is, if there is one. *)
Definition zeros_of (o : outcome (list byte)) : option nat :=
  match o with
  | Ok c => Some (zero_octets c)
  | _ => None
  end.

(** A private key with all secret numbers replaced by 0. *)
Definition blank_uint (u : uint) : uint := mkU 0 (uprec u).
Definition blank_params (p : mparams) : mparams := mkMP (blank_uint (mp_modulus p)).
Definition blank_key (k : privkey) : privkey :=
  mkPriv (sk_pub k) (blank_uint (sk_d k)) (map blank_uint (sk_primes k))
    (match sk_pre k with
     | Some pc => Some (mkPre (blank_uint (pc_dp pc)) (blank_uint (pc_dq pc))
                              (mkMF 0 (blank_params (mf_params (pc_qinv pc))))
                              (blank_params (pc_p_params pc)) (blank_params (pc_q_params pc)))
     | None => None
     end).

(** Two decryptions that look alike from outside: ciphertexts of one length, on the
    same side of n, and recovered numbers with the same number of leading zero
    octets. *)
Definition same_public_view (k k' : privkey) (ct ct' : list byte) : Prop :=
  let n := uval (pk_n (sk_pub k)) in
  let size := key_size (sk_pub k) in
  length ct = length ct' /\ (os2ip ct < n <-> os2ip ct' < n) /\
  zero_octets (i2osp (RSADP n (uval (sk_d k)) (os2ip ct)) size)
  = zero_octets (i2osp (RSADP n (uval (sk_d k')) (os2ip ct')) size).

(** Both states of the random source deliver [n] bytes, or both fail to. *)
Definition fills_alike {R} (g : rng_ops R) (st st' : R) (n : nat) : Prop :=
  fst (rng_fill g st n) = None <-> fst (rng_fill g st' n) = None.
