(** Random sources and what it means that one hides a number, over the generator
    interface only; and the values RFC 8017 gives for a chosen random string. *)
From Coq Require Import ZArith List.
From Coq Require Import Init.Byte.
From Verif Require Import Base Bigint SpecRFC MHash MRsa.
Import ListNotations.
Local Open Scope Z_scope.

(** The source [g] with every number it draws below [n] multiplied by [t] modulo [n].
    For [t] invertible this permutes the numbers below [n]: a uniform source stays
    uniform. *)
Definition scaled {R} (n t : Z) (g : rng_ops R) : rng_ops R :=
  mkRng R (rng_fill g)
    (fun st m => match rng_mod g st m with
                 | (Some v, st') => (Some (if m =? n then (v * t) mod n else v), st')
                 | (None, st') => (None, st')
                 end).

(** The source that draws the one number [v] (reduced if it is asked for less). *)
Definition draws (v : Z) : rng_ops unit :=
  mkRng unit (fun _ n => (Some (repeat x00 n), tt)) (fun _ m => (Some (v mod m), tt)).

(** All numbers a source can draw below [n]. *)
Definition all_draws (n : Z) : list Z := map Z.of_nat (seq 0 (Z.to_nat n)).

(** A source that does not draw zero below [n]. *)
Definition never_zero {R} (n : Z) (g : rng_ops R) : Prop :=
  forall st st', rng_mod g st n <> (Some 0, st').

(** A source that hands out the octets of a tape one after the other, and fails when the
    tape is used up. *)
Definition tape : rng_ops (list byte) :=
  mkRng (list byte)
    (fun t n => if (n <=? length t)%nat then (Some (firstn n t), skipn n t) else (None, t))
    (fun t m => (None, t)).

(** All tapes of a length: taking each once is the uniform distribution. *)
Fixpoint all_tapes (L : nat) : list (list byte) :=
  match L with
  | O => [[]]
  | S L => flat_map (fun t => map (fun i => z2b (Z.of_nat i) :: t) (seq 0 256)) (all_tapes L)
  end.

(** How many tapes of length [L] make the computation [run] succeed with the value [v]. *)
Definition tapes_giving (L : nat) (run : list byte -> outcome (list byte)) (v : list byte) : nat :=
  length (filter (fun t => match run t with Ok x => bytes_eqb x v | _ => false end) (all_tapes L)).

(** RFC 8017 section 7.2.1: the ciphertext for a given padding string. *)
Definition pkcs1_ciphertext (pk : pubkey) (PS msg : list byte) : list byte :=
  i2osp (RSAEP (uval (pk_n pk)) (uval (pk_e pk)) (os2ip (eme_pkcs1 PS msg))) (key_size pk).

(** Section 7.1.1: the ciphertext for a given seed. *)
Definition oaep_ciphertext (pk : pubkey) (hd hm : hashfn) (label seed msg : list byte) : list byte :=
  i2osp (RSAEP (uval (pk_n pk)) (uval (pk_e pk))
           (os2ip (oaep_encode (h_fun hd) (h_size hd) (h_fun hm) (h_size hm) label seed msg (key_size pk))))
        (key_size pk).

(** Section 8.1.1: the signature for a given salt; emBits is one less than the length of
    n in bits. *)
Definition pss_signature (k : privkey) (hd : hashfn) (mHash salt : list byte) : list byte :=
  let n := uval (pk_n (sk_pub k)) in
  i2osp (RSADP n (uval (sk_d k))
           (os2ip (pss_encode (h_fun hd) (h_size hd) mHash salt (Z.to_nat (ubits (pk_n (sk_pub k))) - 1))))
        (key_size (sk_pub k)).
