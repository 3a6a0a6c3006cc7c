(** The complete list of what a call gives back to the allocator, object by object. *)
From Coq Require Import ZArith List.
From Coq Require Import Init.Byte.
From Verif Require Import Base Bigint SpecRFC MRsa MResidue.
Import ListNotations.
Local Open Scope Z_scope.

(** What an object holds: a number (integers and Montgomery forms) or octets. *)
Inductive content := Number (z : Z) | Text (b : list byte).
(** Given back as it is, or erased first. *)
Inductive fate := Kept (c : content) | Wiped (c : content).

Definition content_of (o : object) : content :=
  match o with
  | Int u => Number (uval u)
  | Form f => Number (mf_res f)
  | Octets b => Text b
  end.
Definition fate_of (f : freed) : fate :=
  match f with
  | Plain o => Kept (content_of o)
  | Erased o => Wiped (content_of o)
  end.
(** In the order in which the objects are freed. *)
Definition inventory {A} (run : holding A) : list fate := map fate_of (heap run).

Definition kept (l : list Z) : list fate := map (fun z => Kept (Number z)) l.
Definition kept_texts (l : list (list byte)) : list fate := map (fun b => Kept (Text b)) l.

(** A power b^e mod n: the reduced base, the base, the modulus, the power, the base again. *)
Definition power_list (n b e : Z) : list fate := kept [b mod n; b; n; b ^ e mod n; b mod n].

(** A power by the Chinese remainder theorem, with m1 and m2 the powers modulo p and q. *)
Definition crt_list (p q dp dq qinv c : Z) : list fate :=
  let m1 := c ^ dp mod p in let m2 := c ^ dq mod q in
  kept [(qinv * (m1 - m2)) mod p; (m1 - m2) mod p; m2 mod p; m2; c mod q; c mod p].

(** The private power of [c]: by the Chinese remainder theorem exactly for a key with two
    primes and CRT values. *)
Definition private_power_list (k : privkey) (c : Z) (l : list fate) : Prop :=
  let n := uval (pk_n (sk_pub k)) in let d := uval (sk_d k) in
  match sk_pre k, sk_primes k with
  | Some _, [p; q] =>
      exists qinv, 0 <= qinv < uval p /\ (qinv * uval q) mod uval p = 1 /\
        l = crt_list (uval p) (uval q) (d mod (uval p - 1)) (d mod (uval q - 1)) qinv c
  | _, _ => l = power_list n c d ++ kept [c]
  end.

(** The raw operation on [c], without and with blinding. *)
Definition private_list {R} (rng : option R) (k : privkey) (c : Z) (l : list fate) : Prop :=
  let n := uval (pk_n (sk_pub k)) in let e := uval (pk_e (sk_pub k)) in let d := uval (sk_d k) in
  match rng with
  | None => exists l0, private_power_list k c l0 /\ l = l0 ++ kept [RSADP n d c]
  | Some _ =>
      exists zero rejected r ri l0,
        (zero = [] \/ zero = [0] /\ r = 1) /\ Forall (fun x => 0 < x < n /\ Z.gcd x n <> 1) rejected /\
        0 < r < n /\ 0 <= ri < n /\ (r * ri) mod n = 1 /\
        let x := r ^ e mod n in let b := (c * x) mod n in let m := RSADP n d b in
        private_power_list k b l0 /\
        l = kept (n :: zero ++ rev (1 :: rejected)) ++ power_list n r e ++ kept [b] ++ [Wiped (Number x)] ++
            kept [r; b] ++ l0 ++ kept [(m * ri) mod n; m; ri; m]
  end.

(** The operation with its check: the result [m] is encrypted again, giving [c]. *)
Definition checked_list {R} (rng : option R) (k : privkey) (c : Z) (l : list fate) : Prop :=
  let n := uval (pk_n (sk_pub k)) in
  exists l0, private_list rng k c l0 /\
    l = l0 ++ power_list n (RSADP n (uval (sk_d k)) c) (uval (pk_e (sk_pub k))) ++ kept [c].

(** A number [z] written out: at the modulus' precision [prec], in octets and as an integer. *)
Definition octets_of (prec z : Z) : list byte := i2osp z (Z.to_nat (prec / 8)).
Definition wiped_twice (prec z : Z) : list fate := [Wiped (Text (octets_of prec z)); Wiped (Number z)].

(** The inputs and outputs of the hash calls of MGF1 over [len] octets, output first. *)
Definition mgf_list (H : list byte -> list byte) (h_len : nat) (seed : list byte) (len : nat) : list fate :=
  flat_map (fun i => let x := seed ++ i2osp (Z.of_nat i) 4 in kept_texts [H x; x])
           (seq 0 ((len + h_len - 1) / h_len)).
