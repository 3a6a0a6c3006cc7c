(** The secret-handling code once more, this time with what its execution gives
    away.  Every function below is the function of the same name (without [l_]) in
    MPad.v, MPkcs1.v, MMgf.v, MOaep.v, MRsa.v, MApi.v, written so that it also
    returns the trace of its conditional jumps, memory positions, allocation and
    copy sizes, overflow checks, and calls into the dependencies.  PLeak.v proves
    that the results are the same. *)
From Coq Require Import ZArith List Bool.
From Coq Require Import Init.Byte.
From Verif Require Import Base Bigint MHash MPad MMgf MPkcs1 MOaep MRsa MKey MApi.
Import ListNotations.
Local Open Scope Z_scope.

(** Big integer operations of the dependency (crypto-bigint) whose running time and
    memory accesses depend on the precisions of their operands only, as used in
    src/algorithms/rsa.rs:34-366 and src/algorithms/pad.rs:25-41. *)
Inductive uop :=
| OpCmp | OpWiden | OpShorten | OpMontNew | OpMontPow | OpMontMul | OpMontSub
| OpRetrieve | OpMul | OpAdd | OpInv | OpIsZero | OpLeadingZeros | OpToBytes
| OpFromBytes | OpSub | OpDiv | OpRem | OpGcd | OpSqrt | OpSquare.

(** What an observer of the execution sees (the observer's notion; no counterpart in the code). *)
Inductive event :=
(** a conditional jump *)
| EBranch (taken : bool)
(** [l[i]], for a buffer of length [len] *)
| EIndex (i len : nat)
(** [l[a..b]], for a buffer of length [len] *)
| ERange (a b len : nat)
(** an overflow check, an assertion or [expect] *)
| ECheck (ok : bool)
(** [vec![..; n]] *)
| EAlloc (n : nat)
(** [copy_from_slice] or [to_vec] of [n] bytes *)
| ECopy (n : nat)
(** [subtle]'s [ct_eq] of two slices *)
| ECtEq (n m : nat)
(** [n] bytes fed to a hasher *)
| EUpdate (n : nat)
(** a hasher finalised over [n] bytes *)
| EFinal (n : nat)
(** [n] bytes asked of the random generator *)
| EFill (n : nat)
(** a number below [n] asked of the random generator (rejection sampling) *)
| ERandMod (n : Z)
(** a constant-time big integer operation, with the precisions of its operands *)
| EUint (op : uop) (precs : list Z)
(** [rem_vartime]: the dependency's division is variable-time in the modulus,
    and constant-time in the dividend for a fixed modulus *)
| EVartime (prec modulus : Z).

(** A computation with its trace (no counterpart in the code).  After an error or a panic nothing follows. *)
Definition leaky (A : Type) : Type := (list event * outcome A)%type.

Definition lret {A} (a : A) : leaky A := ([], Ok a).
Definition lerr {A} (e : error) : leaky A := ([], Err e).
Definition lbind {A B} (m : leaky A) (k : A -> leaky B) : leaky B :=
  match snd m with
  | Ok a => let (t, r) := k a in (fst m ++ t, r)
  | Err e => (fst m, Err e)
  | Panic => (fst m, Panic)
  | OutOfFuel => (fst m, OutOfFuel)
  end.

Notation "'let!' x ':=' m 'in' k" := (lbind m (fun x => k))
  (at level 200, x pattern, m at level 100, k at level 200, right associativity).

Definition trace {A} (m : leaky A) : list event := fst m.
Definition result {A} (m : leaky A) : outcome A := snd m.

(** One event, then a result. *)
Definition emit {A} (ev : event) (r : outcome A) : leaky A := ([ev], r).

(** The condition of an [if] or a loop, e.g. src/algorithms/pad.rs:12. *)
Definition l_if (b : bool) : leaky bool := emit (EBranch b) (Ok b).
(** [assert!], [expect], e.g. src/algorithms/rsa.rs:155, 180. *)
Definition l_assert (ok : bool) : leaky unit := emit (ECheck ok) (assert_ ok).

Definition has_value {A} (o : outcome A) : bool := match o with Ok _ => true | _ => false end.

(** Checked machine arithmetic, e.g. src/algorithms/pad.rs:17; then indexing, slicing and
    copying, e.g. src/algorithms/oaep.rs:36-45. *)
Definition l_check {A} (o : outcome A) : leaky A := emit (ECheck (has_value o)) o.

Definition l_get {A} (l : list A) (i : nat) : leaky A := emit (EIndex i (length l)) (get_idx l i).
Definition l_set {A} (l : list A) (i : nat) (v : A) : leaky (list A) :=
  emit (EIndex i (length l)) (set_idx l i v).
Definition l_slice {A} (l : list A) (a b : nat) : leaky (list A) :=
  emit (ERange a b (length l)) (slice l a b).
Definition l_slice_from {A} (l : list A) (a : nat) : leaky (list A) :=
  emit (ERange a (length l) (length l)) (slice_from l a).
Definition l_split_at {A} (l : list A) (i : nat) : leaky (list A * list A) :=
  emit (ERange 0 i (length l)) (split_at l i).
Definition l_copy_into {A} (l : list A) (a b : nat) (src : list A) : leaky (list A) :=
  let! _ := emit (ERange a b (length l)) (Ok tt) in
  emit (ECopy (length src)) (copy_into l a b src).
Definition l_vec (b : byte) (n : nat) : leaky (list byte) := emit (EAlloc n) (Ok (vec b n)).
Definition l_to_vec (l : list byte) : leaky (list byte) := emit (ECopy (length l)) (Ok l).

(** [subtle]: the selection itself leaves no trace
    (src/algorithms/pkcs1v15.rs:102-115, src/algorithms/oaep.rs:236-241). *)
Definition ct_select {A} (b : bool) (x y : A) : A := if b then x else y.
Definition l_ct_eq (a b : list byte) : leaky bool :=
  emit (ECtEq (length a) (length b)) (Ok (bytes_eqb a b)).

(** Hashers, e.g. src/algorithms/mgf.rs:20, 50-51: time depends on the amounts of data only. *)
Definition l_update (d : digest) (bs : list byte) : leaky digest :=
  emit (EUpdate (length bs)) (Ok (digest_update d bs)).
Definition l_finalize_reset (d : digest) : leaky (list byte * digest) :=
  emit (EFinal (length (d_pending d))) (Ok (digest_finalize_reset d)).
Definition l_oneshot (h : hashfn) (data : list byte) : leaky (list byte) :=
  emit (EFinal (length data)) (Ok (digest_oneshot h data)).

(** Big integers, src/algorithms/rsa.rs:33-240. *)
Definition l_op {A} (op : uop) (precs : list Z) (r : outcome A) : leaky A :=
  emit (EUint op precs) r.
Definition l_widen (u : uint) (p : Z) : leaky uint := l_op OpWiden [uprec u; p] (widen u p).
Definition l_shorten (u : uint) (p : Z) : leaky uint := l_op OpShorten [uprec u; p] (shorten u p).
Definition l_mf_new (x : uint) (p : mparams) : leaky mform :=
  l_op OpMontNew [uprec x; mp_prec p] (mf_new x p).
Definition l_mf_pow (f : mform) (e : uint) : leaky mform :=
  l_op OpMontPow [mp_prec (mf_params f); uprec e] (Ok (mf_pow f e)).
Definition l_mf_retrieve (f : mform) : leaky uint :=
  l_op OpRetrieve [mp_prec (mf_params f)] (Ok (mf_retrieve f)).
Definition l_mf_mul (a b : mform) : leaky mform :=
  l_op OpMontMul [mp_prec (mf_params a); mp_prec (mf_params b)] (Ok (mf_mul a b)).
Definition l_mf_sub (a b : mform) : leaky mform :=
  l_op OpMontSub [mp_prec (mf_params a); mp_prec (mf_params b)] (Ok (mf_sub a b)).
Definition l_wrapping_mul (a b : uint) : leaky uint :=
  l_op OpMul [uprec a; uprec b] (Ok (uwrapping_mul a b)).
Definition l_wrapping_add (a b : uint) : leaky uint :=
  l_op OpAdd [uprec a; uprec b] (Ok (uwrapping_add a b)).
(** the inverse (src/algorithms/rsa.rs:167) is a [CtOption]; turning it into an [Option] is a jump *)
Definition l_inv_mod (a m : uint) : leaky (option uint) :=
  l_op OpInv [uprec a; uprec m] (uinv_mod a m).
Definition l_cmp {A} (a b : uint) (r : A) : leaky A :=
  l_op OpCmp [uprec a; uprec b] (Ok r).
Definition l_rem_vartime (a m : uint) : leaky uint :=
  emit (EVartime (uprec a) (uval m)) (urem a m).
(** [from_be_slice] on secret bytes (src/pkcs1v15.rs:146, src/pss.rs:211): its checks are jumps on the length and on the
    bits beyond the precision. *)
Definition l_from_be_slice (bs : list byte) (bits : Z) : leaky uint :=
  let! _ := l_op OpFromBytes [Z.of_nat (length bs); bits] (Ok tt) in
  emit (ECheck (has_value (from_be_slice bs bits))) (from_be_slice bs bits).

(** * src/algorithms/pad.rs *)

(** src/algorithms/pad.rs:11-19 [left_pad] *)
Definition l_left_pad (input : list byte) (padded_len : nat) : leaky (list byte) :=
  let! c := l_if (padded_len <? length input)%nat in
  if c then lerr InvalidPadLen
  else
    let! out := l_vec x00 padded_len in
    let! off := l_check (usub padded_len (length input)) in
    l_copy_into out off padded_len input.

(** src/algorithms/pad.rs:25-28 [uint_to_be_pad] and 34-41
    [uint_to_zeroizing_be_pad]: the slice starts at a position computed from the
    number itself. *)
Definition l_uint_to_be_pad (input : uint) (padded_len : nat) : leaky (list byte) :=
  let! lz := l_op OpLeadingZeros [uprec input] (Ok (Z.to_nat (uleading_zeros input / 8))) in
  let! bs := l_op OpToBytes [uprec input] (Ok (to_be_bytes input)) in
  let! b := l_slice_from bs lz in
  l_left_pad b padded_len.

(** * src/algorithms/pkcs1v15.rs *)

Section WithRng.
  Context {R : Type} (g : rng_ops R).

  (** [try_fill_bytes], src/algorithms/pkcs1v15.rs:25, 31, src/algorithms/oaep.rs:38 *)
  Definition l_fill (r : R) (n : nat) : leaky (list byte * R) :=
    emit (EFill n) (match rng_fill g r n with
                    | (None, _) => Err Rng
                    | (Some bs, r') => Ok (bs, r')
                    end).

  (** src/algorithms/pkcs1v15.rs:30-32 *)
  Fixpoint l_refill (fuel : nat) (r : R) : leaky (byte * R) :=
    match fuel with
    | O => ([], OutOfFuel)
    | S fuel' =>
        let! (bs, r') := l_fill r 1 in
        let! el := l_get bs 0 in
        let! c := l_if (byte_eqb el x00) in
        if c then l_refill fuel' r' else lret (el, r')
    end.

  (** src/algorithms/pkcs1v15.rs:27-34 *)
  Fixpoint l_nz_loop (fuel : nat) (r : R) (data : list byte) : leaky (list byte * R) :=
    match data with
    | [] => lret ([], r)
    | el :: rest =>
        let! c := l_if (byte_eqb el x00) in
        let! (el', r') := (if c then l_refill fuel r else lret (el, r)) in
        let! (rest', r'') := l_nz_loop fuel r' rest in
        lret (el' :: rest', r'')
    end.

  (** src/algorithms/pkcs1v15.rs:21-37 [non_zero_random_bytes] *)
  Definition l_non_zero_random_bytes (fuel : nat) (r : R) (n : nat) : leaky (list byte * R) :=
    let! (data, r') := l_fill r n in
    l_nz_loop fuel r' data.

  (** src/algorithms/pkcs1v15.rs:41-60 [pkcs1v15_encrypt_pad] *)
  Definition l_pkcs1v15_encrypt_pad (fuel : nat) (r : R) (msg : list byte) (k : nat)
    : leaky (list byte) :=
    let! c := l_if (k <? length msg + 11)%nat in
    if c then lerr MessageTooLong
    else
      let! em := l_vec x00 k in
      let! em := l_set em 1 x02 in
      let! k1 := l_check (usub k (length msg)) in
      let! k2 := l_check (usub k1 1) in
      let! w := l_check (usub k2 2) in
      let! (ps, _) := l_non_zero_random_bytes fuel r w in
      let! em := l_copy_into em 2 k2 ps in
      let! em := l_set em k2 x00 in
      l_copy_into em k1 k msg.
End WithRng.

(** src/algorithms/pkcs1v15.rs:100-104; [i] is the position of the head of the list,
    [len] the length of the whole buffer. *)
Fixpoint l_find_zero (l : list byte) (i len : nat) (looking : bool) (index : Z)
  : leaky (bool * Z) :=
  match l with
  | [] => lret (looking, index)
  | el :: rest =>
      let! _ := emit (EIndex i len) (Ok tt) in
      let equals0 := byte_eqb el x00 in
      let index := ct_select (looking && equals0) (as_u32 (Z.of_nat i)) index in
      let looking := ct_select equals0 false looking in
      l_find_zero rest (S i) len looking index
  end.

(** src/algorithms/pkcs1v15.rs:85-118 [decrypt_inner] *)
Definition l_pkcs1_decrypt_inner (em : list byte) (k : nat) : leaky (bool * list byte * Z) :=
  let! c := l_if (k <? 11)%nat in
  if c then lerr Decryption
  else
    let! b0 := l_get em 0 in
    let! b1 := l_get em 1 in
    let first_byte_is_zero := byte_eqb b0 x00 in
    let second_byte_is_two := byte_eqb b1 x02 in
    let! (looking, index) := l_find_zero (skipn 2 em) 2 (length em) true 0 in
    let! t := l_check (i32_sub 10 (as_i32 index)) in
    let! t := l_check (i32_sub t 1) in
    let valid_ps := Z.land (Z.shiftr t 31) 1 =? 1 in
    let valid := first_byte_is_zero && second_byte_is_two && negb looking && valid_ps in
    let! index1 := l_check (u32_add index 1) in
    let index := ct_select valid index1 0 in
    lret (valid, em, index).

(** src/algorithms/pkcs1v15.rs:70-77 [pkcs1v15_encrypt_unpad] *)
Definition l_pkcs1v15_encrypt_unpad (em : list byte) (k : nat) : leaky (list byte) :=
  let! (valid, out, index) := l_pkcs1_decrypt_inner em k in
  let! c := l_if valid in
  if c then let! s := l_slice_from out (Z.to_nat index) in l_to_vec s
  else lerr Decryption.

(** src/algorithms/pkcs1v15.rs:121-137 [pkcs1v15_sign_pad] *)
Definition l_pkcs1v15_sign_pad (prefix hashed : list byte) (k : nat) : leaky (list byte) :=
  let hash_len := length hashed in
  let t_len := (length prefix + length hashed)%nat in
  let! c := l_if (k <? t_len + 11)%nat in
  if c then lerr MessageTooLong
  else
    let! em := l_vec xff k in
    let! em := l_set em 0 x00 in
    let! em := l_set em 1 x01 in
    let! a := l_check (usub k t_len) in
    let! a1 := l_check (usub a 1) in
    let! b := l_check (usub k hash_len) in
    let! em := l_set em a1 x00 in
    let! em := l_copy_into em a b prefix in
    l_copy_into em b k hashed.

(** * src/algorithms/mgf.rs *)

(** src/algorithms/mgf.rs:67-75 [inc_counter] *)
Fixpoint l_inc_counter_from (i : nat) (counter : list byte) : leaky (list byte) :=
  match i with
  | O => lret counter
  | S i' =>
      let! _ := emit (EIndex i' (length counter)) (Ok tt) in
      let v := byte_succ (nth i' counter x00) in
      let counter' := firstn i' counter ++ v :: skipn (S i') counter in
      let! c := l_if (byte_eqb v x00) in
      if c then l_inc_counter_from i' counter' else lret counter'
  end.
Definition l_inc_counter (counter : list byte) : leaky (list byte) := l_inc_counter_from 4 counter.

(** src/algorithms/mgf.rs:22-31 and 54-63; [j] is the position in the hash value of
    the head of the list, [len] the length of the hash value. *)
Fixpoint l_xor_block (out : list byte) (i : nat) (digest_output : list byte) (j len : nat)
  : leaky (list byte * nat) :=
  match digest_output with
  | [] => let! _ := l_if true in lret (out, i)
  | x :: rest =>
      let! _ := l_if false in
      let! c := l_if (length out <=? i)%nat in
      if c then lret (out, i)
      else
        let! _ := emit (EIndex j len) (Ok tt) in
        let! b := l_get out i in
        let! out' := l_set out i (bxor b x) in
        l_xor_block out' (S i) rest (S j) len
  end.

(** src/algorithms/mgf.rs:15-33 *)
Fixpoint l_mgf1_xor_loop (fuel : nat) (out : list byte) (i : nat)
         (counter : list byte) (dg : digest) (seed : list byte)
  : leaky (list byte * digest) :=
  let! c := l_if (length out <=? i)%nat in
  if c then lret (out, dg)
  else
    match fuel with
    | O => ([], OutOfFuel)
    | S fuel' =>
        let! di := l_vec x00 (length seed + 4) in
        let! di := l_copy_into di 0 (length seed) seed in
        let! di := l_copy_into di (length seed) (length di) counter in
        let! dg := l_update dg di in
        let! (digest_output, dg) := l_finalize_reset dg in
        let! (out', i') := l_xor_block out i digest_output 0 (length digest_output) in
        let! counter := l_inc_counter counter in
        l_mgf1_xor_loop fuel' out' i' counter dg seed
    end.

(** src/algorithms/mgf.rs:8-34 [mgf1_xor] *)
Definition l_mgf1_xor (out : list byte) (dg : digest) (seed : list byte)
  : leaky (list byte * digest) :=
  let! _ := l_assert (Z.of_nat (length out) <=? 2 ^ 32) in
  l_mgf1_xor_loop (length out) out 0 [x00; x00; x00; x00] dg seed.

(** src/algorithms/mgf.rs:49-65 *)
Fixpoint l_mgf1_xor_digest_loop (fuel : nat) (out : list byte) (i : nat)
         (counter : list byte) (dg : digest) (seed : list byte)
  : leaky (list byte * digest) :=
  let! c := l_if (length out <=? i)%nat in
  if c then lret (out, dg)
  else
    match fuel with
    | O => ([], OutOfFuel)
    | S fuel' =>
        let! dg := l_update dg seed in
        let! dg := l_update dg counter in
        let! (digest_output, dg) := l_finalize_reset dg in
        let! (out', i') := l_xor_block out i digest_output 0 (length digest_output) in
        let! counter := l_inc_counter counter in
        l_mgf1_xor_digest_loop fuel' out' i' counter dg seed
    end.

(** src/algorithms/mgf.rs:39-66 [mgf1_xor_digest] *)
Definition l_mgf1_xor_digest (out : list byte) (dg : digest) (seed : list byte)
  : leaky (list byte * digest) :=
  let! _ := l_assert (Z.of_nat (length out) <=? 2 ^ 32) in
  l_mgf1_xor_digest_loop (length out) out 0 [x00; x00; x00; x00] dg seed.

(** * src/algorithms/oaep.rs *)

(** src/algorithms/oaep.rs:231-241; [pos] is the position in the buffer of the head
    of the list, [i] its rank after the label hash. *)
Fixpoint l_oaep_scan (l : list byte) (pos len : nat) (i : Z) (looking : bool) (index : Z)
         (nzb1 : bool) : leaky (bool * Z * bool) :=
  match l with
  | [] => lret (looking, index, nzb1)
  | el :: rest =>
      let! _ := emit (EIndex pos len) (Ok tt) in
      let equals0 := byte_eqb el x00 in
      let equals1 := byte_eqb el x01 in
      let index := ct_select (looking && equals1) (as_u32 i) index in
      let looking := looking && negb equals1 in
      let nzb1 := nzb1 || (looking && negb equals0) in
      l_oaep_scan rest (S pos) len (i + 1) looking index nzb1
  end.

(** src/algorithms/oaep.rs:202-249 [decrypt_inner] *)
Definition l_oaep_decrypt_inner (em : list byte) (h_size : nat) (expected_p_hash : list byte)
           (k : nat) (mgf : list byte -> list byte -> leaky (list byte * list byte))
  : leaky (list byte * Z * bool) :=
  let! c := l_if (k <? 11)%nat in
  if c then lerr Decryption
  else
    let! c := l_if (k <? h_size * 2 + 2)%nat in
    if c then lerr Decryption
    else
      let! b0 := l_get em 0 in
      let first_byte_is_zero := byte_eqb b0 x00 in
      let! (head, payload) := l_split_at em 1 in
      let! (seed, db) := l_split_at payload h_size in
      let! (seed, db) := mgf seed db in
      let! hh := l_slice db 0 h_size in
      let! hash_are_equal := l_ct_eq hh expected_p_hash in
      let! (looking, index, nzb1) :=
        l_oaep_scan (skipn h_size db) h_size (length db) 0 true 0 false in
      let valid := first_byte_is_zero && hash_are_equal && negb nzb1 && negb looking in
      let! out := l_to_vec (head ++ seed ++ db) in
      let! idx := l_check (u32_add index 2) in
      let! idx := l_check (u32_add idx (as_u32 (Z.of_nat (h_size * 2)))) in
      lret (out, idx, valid).

(** src/algorithms/oaep.rs:149-157 and 188-196: the answer. *)
Definition l_oaep_finish (r : list byte * Z * bool) : leaky (list byte) :=
  let '(out, index, valid) := r in
  let! c := l_if (negb valid) in
  if c then lerr Decryption
  else
    let! _ := l_assert valid in
    let! s := l_slice_from out (Z.to_nat index) in
    l_to_vec s.

(** src/algorithms/oaep.rs:129-158 [oaep_decrypt] *)
Definition l_oaep_decrypt (em : list byte) (dg mgf_digest : digest)
           (label : option (list byte)) (k : nat) : leaky (list byte) :=
  let h_size := digest_output_size dg in
  let label := label_bytes label in
  let! c := l_if (MAX_LABEL_LEN <=? Z.of_nat (length label)) in
  if c then lerr Decryption
  else
    let! dg := l_update dg label in
    let! (expected_p_hash, _) := l_finalize_reset dg in
    let! r :=
      l_oaep_decrypt_inner em h_size expected_p_hash k (fun seed db =>
        let! (seed, md) := l_mgf1_xor seed mgf_digest db in
        let! (db, _) := l_mgf1_xor db md seed in
        lret (seed, db)) in
    l_oaep_finish r.

(** src/algorithms/oaep.rs:171-197 [oaep_decrypt_digest] *)
Definition l_oaep_decrypt_digest (hd hm : hashfn) (em : list byte)
           (label : option (list byte)) (k : nat) : leaky (list byte) :=
  let hsize := h_size hd in
  let label := label_bytes label in
  let! c := l_if (MAX_LABEL_LEN <=? Z.of_nat (length label)) in
  if c then lerr LabelTooLong
  else
    let! expected_p_hash := l_oneshot hd label in
    let! r :=
      l_oaep_decrypt_inner em hsize expected_p_hash k (fun seed db =>
        let! (seed, md) := l_mgf1_xor_digest seed (digest_new hm) db in
        let! (db, _) := l_mgf1_xor_digest db md seed in
        lret (seed, db)) in
    l_oaep_finish r.

(** * src/algorithms/rsa.rs *)

(** src/algorithms/rsa.rs:211-223 [reduce_vartime] *)
Definition l_reduce_vartime (n : uint) (p : mparams) : leaky mform :=
  let bits_precision := uprec (mp_modulus p) in
  let! lt := l_if (uprec n <? bits_precision) in
  let! eq := l_if (uprec n =? bits_precision) in
  let! n := (if lt then l_widen n bits_precision
             else if eq then lret n
             else l_shorten n bits_precision) in
  let! r := l_rem_vartime n (mp_modulus p) in
  let! r := l_widen r (mp_prec p) in
  l_mf_new r p.

(** src/algorithms/rsa.rs:206-209 [pow_mod_params] *)
Definition l_pow_mod_params (base exp : uint) (n_params : mparams) : leaky uint :=
  let! b := l_reduce_vartime base n_params in
  let! r := l_mf_pow b exp in
  l_mf_retrieve r.

(** src/algorithms/rsa.rs:226-231 [mul_mod_params] *)
Definition l_mul_mod_params (lhs rhs : uint) (n_params : mparams) : leaky uint :=
  let! l := l_mf_new lhs n_params in
  let! r := l_mf_new rhs n_params in
  let! m := l_mf_mul l r in
  l_mf_retrieve m.

(** src/algorithms/rsa.rs:20-23 [rsa_encrypt] *)
Definition l_rsa_encrypt (key : pubkey) (m : uint) : leaky uint :=
  l_pow_mod_params m (pk_e key) (pk_params key).

(** src/algorithms/rsa.rs:188-203 [unblind] *)
Definition l_unblind (m unblinder : uint) (n_params : mparams) : leaky uint :=
  let! _ := l_assert (uprec m =? uprec unblinder) in
  let! _ := l_assert (uprec m =? mp_prec n_params) in
  l_mul_mod_params m unblinder n_params.

Section WithRng2.
  Context {R : Type} (g : rng_ops R).

  (** src/algorithms/rsa.rs:161 [try_random_mod] *)
  Definition l_random_mod (st : R) (n : uint) : leaky (uint * R) :=
    emit (ERandMod (uval n)) (match rng_mod g st (uval n) with
                              | (None, _) => Err Rng
                              | (Some v, st') => Ok (mkU v (uprec n), st')
                              end).

  (** src/algorithms/rsa.rs:158-168 *)
  Fixpoint l_blind_loop (fuel : nat) (st : R) (key : pubkey) : leaky (uint * uint * R) :=
    match fuel with
    | O => ([], OutOfFuel)
    | S fuel' =>
        let! (r, st') := l_random_mod st (pk_n key) in
        let! z := l_op OpIsZero [uprec r] (Ok (uis_zero r)) in
        let! z := l_if z in
        let r := if z then u_one_with (n_bits_precision key) else r in
        let! ir := l_inv_mod r (pk_n key) in
        let! none := l_if (match ir with Some _ => false | None => true end) in
        match ir with
        | Some ir => lret (r, ir, st')
        | None => l_blind_loop fuel' st' key
        end
    end.

  (** src/algorithms/rsa.rs:145-185 [blind] *)
  Definition l_blind (fuel : nat) (st : R) (key : pubkey) (c : uint) (n_params : mparams)
    : leaky (uint * uint) :=
    let! _ := l_assert (ueqb (pk_n key) (mp_modulus n_params)) in
    let bits := n_bits_precision key in
    let! (r, ir, _) := l_blind_loop fuel st key in
    let! rpowe := l_pow_mod_params r (pk_e key) n_params in
    let! blinded := l_mul_mod_params c rpowe n_params in
    let! _ := l_assert (uprec blinded =? bits) in
    let! _ := l_assert (uprec ir =? bits) in
    lret (blinded, ir).

  (** src/algorithms/rsa.rs:71-96 *)
  Definition l_crt_pow (c : uint) (pc : precomp) (q : uint) : leaky uint :=
    let! cp := l_mf_new c (pc_p_params pc) in
    let! m1 := l_mf_pow cp (pc_dp pc) in
    let! cq := l_mf_new c (pc_q_params pc) in
    let! m2 := l_mf_pow cq (pc_dq pc) in
    let! m2 := l_mf_retrieve m2 in
    let! m2r := l_mf_new m2 (pc_p_params pc) in
    let! m1 := l_mf_sub m1 m2r in
    let! m := l_mf_mul (pc_qinv pc) m1 in
    let! m := l_mf_retrieve m in
    let! m := l_wrapping_mul m q in
    l_wrapping_add m m2.

  (** src/algorithms/rsa.rs:34-114 [rsa_decrypt] *)
  Definition l_rsa_decrypt (fuel : nat) (rng : option R) (priv_key : privkey) (c : uint)
    : leaky uint :=
    let n := pk_n (sk_pub priv_key) in
    let d := sk_d priv_key in
    let! ge := l_cmp c n (uleb n c) in
    let! ge := l_if ge in
    if ge then lerr Decryption
    else
      let n_params := pk_params (sk_pub priv_key) in
      let bits := uprec d in
      let! _ := l_if (match rng with Some _ => true | None => false end) in
      let! (c, ir) :=
        match rng with
        | Some st =>
            let! (blinded, unblinder) := l_blind fuel st (sk_pub priv_key) c n_params in
            let! c := l_widen blinded bits in
            lret (c, Some unblinder)
        | None => let! c := l_widen c bits in lret (c, None)
        end in
      let is_multiprime := (2 <? length (sk_primes priv_key))%nat in
      let! _ := l_if (match sk_pre priv_key with Some _ => true | None => false end) in
      let! m :=
        match sk_pre priv_key with
        | Some pc =>
            let! mp := l_if is_multiprime in
            if mp then l_pow_mod_params c d n_params
            else
              let! _p := l_get (sk_primes priv_key) 0 in
              let! q := l_get (sk_primes priv_key) 1 in
              l_crt_pow c pc q
        | None => l_pow_mod_params c d n_params
        end in
      let! m := l_shorten m (mp_prec n_params) in
      let! _ := l_if (match ir with Some _ => true | None => false end) in
      match ir with
      | Some ir => l_unblind m ir n_params
      | None => lret m
      end.

  (** src/algorithms/rsa.rs:126-142 [rsa_decrypt_and_check] *)
  Definition l_rsa_decrypt_and_check (fuel : nat) (priv_key : privkey) (rng : option R)
             (c : uint) : leaky uint :=
    let! m := l_rsa_decrypt fuel rng priv_key c in
    let! check := l_rsa_encrypt (sk_pub priv_key) m in
    let! ne := l_cmp c check (negb (ueqb c check)) in
    let! ne := l_if ne in
    if ne then lerr Internal else lret m.

  (** * src/pkcs1v15.rs, src/oaep.rs *)

  (** A step that only looks at public data (the public key, the ciphertext; e.g.
      src/pkcs1v15.rs:143): its
      trace is a function of that data and is left out. *)
  Definition l_public {A} (o : outcome A) : leaky A := ([], o).

  (** src/pkcs1v15.rs:138-148 [encrypt] *)
  Definition l_pkcs1v15_encrypt (fuel : nat) (rng : R) (pub_key : pubkey) (msg : list byte)
    : leaky (list byte) :=
    let! _ := l_public (check_public pub_key) in
    let! em := l_pkcs1v15_encrypt_pad g fuel rng msg (key_size pub_key) in
    let! int := l_from_be_slice em (n_bits_precision pub_key) in
    let! c := l_rsa_encrypt pub_key int in
    l_uint_to_be_pad c (key_size pub_key).

  (** src/pkcs1v15.rs:160-172 [decrypt] *)
  Definition l_pkcs1v15_decrypt (fuel : nat) (rng : option R) (priv_key : privkey)
             (ciphertext : list byte) : leaky (list byte) :=
    let pk := sk_pub priv_key in
    let! _ := l_public (check_public pk) in
    let! c := l_public (from_be_slice ciphertext (n_bits_precision pk)) in
    let! em := l_rsa_decrypt_and_check fuel priv_key rng c in
    let! em := l_uint_to_be_pad em (key_size pk) in
    l_pkcs1v15_encrypt_unpad em (key_size pk).

  (** src/pkcs1v15.rs:188-198 [sign] *)
  Definition l_pkcs1v15_sign (fuel : nat) (rng : option R) (priv_key : privkey)
             (prefix hashed : list byte) : leaky (list byte) :=
    let pk := sk_pub priv_key in
    let! em := l_pkcs1v15_sign_pad prefix hashed (key_size pk) in
    let! em := l_from_be_slice em (n_bits_precision pk) in
    let! s := l_rsa_decrypt_and_check fuel priv_key rng em in
    l_uint_to_be_pad s (key_size pk).

  (** src/oaep.rs:239-257 [decrypt] *)
  Definition l_oaep_api_decrypt (fuel : nat) (rng : option R) (priv_key : privkey)
             (ciphertext : list byte) (dg mgf_digest : digest) (label : option (list byte))
    : leaky (list byte) :=
    let pk := sk_pub priv_key in
    let! c := l_if (negb (length ciphertext =? key_size pk)%nat) in
    if c then lerr Decryption
    else
      let! c := l_public (from_be_slice ciphertext (n_bits_precision pk)) in
      let! em := l_rsa_decrypt_and_check fuel priv_key rng c in
      let! em := l_uint_to_be_pad em (key_size pk) in
      l_oaep_decrypt em dg mgf_digest label (key_size pk).

  (** src/oaep.rs:272-289 [decrypt_digest] *)
  Definition l_oaep_api_decrypt_digest (hd hm : hashfn) (fuel : nat) (rng : option R)
             (priv_key : privkey) (ciphertext : list byte) (label : option (list byte))
    : leaky (list byte) :=
    let pk := sk_pub priv_key in
    let! _ := l_public (check_public pk) in
    let! c := l_if (negb (length ciphertext =? key_size pk)%nat) in
    if c then lerr Decryption
    else
      let! c := l_public (from_be_slice ciphertext (n_bits_precision pk)) in
      let! em := l_rsa_decrypt_and_check fuel priv_key rng c in
      let! em := l_uint_to_be_pad em (key_size pk) in
      l_oaep_decrypt_digest hd hm em label (key_size pk).
End WithRng2.

(** * src/key.rs *)

(** src/key.rs:405-452 [precompute]: the divisions have the secret moduli p-1 and q-1. *)
Definition l_precompute (k : privkey) : leaky privkey :=
  let! _ := l_if (match sk_pre k with Some _ => true | None => false end) in
  match sk_pre k with
  | Some _ => lret k
  | None =>
      let d := sk_d k in
      let bits := uprec d in
      let! p0 := l_get (sk_primes k) 0 in
      let! p := l_widen p0 bits in
      let! p1 := l_get (sk_primes k) 1 in
      let! q := l_widen p1 bits in
      let! c := l_if (uis_odd p) in
      let! _ := emit (ECheck c) (guard c InvalidPrime) in
      let p_params := mkMP p in
      let! c := l_if (uis_odd q) in
      let! _ := emit (ECheck c) (guard c InvalidPrime) in
      let q_params := mkMP q in
      let x := uwrapping_sub p (u_of_u64 1) in
      let! _ := emit (ECheck (negb (uis_zero x))) (guard (negb (uis_zero x)) InvalidPrime) in
      let! dp := l_rem_vartime d x in
      let x := uwrapping_sub q (u_of_u64 1) in
      let! _ := emit (ECheck (negb (uis_zero x))) (guard (negb (uis_zero x)) InvalidPrime) in
      let! dq := l_rem_vartime d x in
      let! qm := l_mf_new q p_params in
      let! qinv := l_op OpInv [mp_prec p_params] (Ok (mf_invert qm)) in
      let! _ := l_if (match qinv with Some _ => true | None => false end) in
      match qinv with
      | None => lerr InvalidPrime
      | Some qinv =>
          let! _ := l_assert ((uprec dp =? bits) && (uprec dq =? bits)
                             && (mp_prec (mf_params qinv) =? bits)
                             && (mp_prec p_params =? bits) && (mp_prec q_params =? bits)) in
          lret (mkPriv (sk_pub k) (sk_d k) (sk_primes k)
                       (Some (mkPre dp dq qinv p_params q_params)))
      end
  end.
