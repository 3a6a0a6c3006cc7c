(** The code that handles secrets once more, this time with the memory it gives back.
    Every function below is the function of the same name (without [z_]) in MPad.v,
    MMgf.v, MPkcs1.v, MOaep.v, MRsa.v, MApi.v or MEncoding.v, written so that it also lists the heap
    objects it frees: its own locals and temporaries at the end of their scope and
    the values it overwrites.  PResidue.v proves that the results are the same.

    An object moved into a function of a dependency ([BoxedMontyForm::new], the
    by-value operators) is that dependency's to free and is not listed, nor are
    the dependencies' own temporaries; arrays and digest states live on the stack and
    are not listed either.  After a panic nothing is claimed. *)
From Coq Require Import ZArith List Bool.
From Coq Require Import Init.Byte.
From Verif Require Import Base Bigint MHash MPad MMgf MPkcs1 MOaep MRsa MKey MApi MDer MEncoding.
Import ListNotations.
Local Open Scope Z_scope.

(** Heap objects: [Vec<u8>] / [Box<[u8]>] (src/algorithms/pad.rs:16), [BoxedUint]
    (src/algorithms/rsa.rs:37), [BoxedMontyForm] (src/algorithms/rsa.rs:78) *)
Inductive object := Octets (bs : list byte) | Int (u : uint) | Form (f : mform).

(** An object freed: with its content, or erased first ([Zeroizing], [zeroize],
    e.g. src/algorithms/pad.rs:37).  The combinators below have no counterpart in the code. *)
Inductive freed := Plain (o : object) | Erased (o : object).

Definition holding (A : Type) : Type := (list freed * outcome A)%type.

Definition z_lift {A} (o : outcome A) : holding A := ([], o).
Definition z_ret {A} (a : A) : holding A := ([], Ok a).
Definition zbind {A B} (m : holding A) (k : A -> holding B) : holding B :=
  match snd m with
  | Ok a => let (t, r) := k a in (fst m ++ t, r)
  | Err e => (fst m, Err e)
  | Panic => (fst m, Panic)
  | OutOfFuel => (fst m, OutOfFuel)
  end.

Notation "'let~' x ':=' m 'in' k" := (zbind m (fun x => k))
  (at level 200, x pattern, m at level 100, k at level 200, right associativity).

(** A local that goes out of scope when [m] is done, whatever its outcome. *)
Definition owning {A} (f : freed) (m : holding A) : holding A := (fst m ++ [f], snd m).

(** A local that [m] returns: freed when [m] fails only. *)
Definition owning_if_err {A} (f : freed) (m : holding A) : holding A :=
  match snd m with
  | Err _ => owning f m
  | _ => m
  end.

Definition heap {A} (m : holding A) : list freed := fst m.
Definition outcome_of {A} (m : holding A) : outcome A := snd m.

(** * src/algorithms/pad.rs *)

(** src/algorithms/pad.rs:25-28 [uint_to_be_pad]: [input] and the temporary
    [input.to_be_bytes()] *)
Definition z_uint_to_be_pad (input : uint) (padded_len : nat) : holding (list byte) :=
  owning (Plain (Int input))
    (owning (Plain (Octets (to_be_bytes input)))
       (z_lift (uint_to_be_pad input padded_len))).

(** src/algorithms/pad.rs:34-41 [uint_to_zeroizing_be_pad]: both wrapped; the result is
    a plain [Vec] *)
Definition z_uint_to_zeroizing_be_pad (input : uint) (padded_len : nat) : holding (list byte) :=
  owning (Erased (Int input))
    (owning (Erased (Octets (to_be_bytes input)))
       (z_lift (uint_to_zeroizing_be_pad input padded_len))).

(** * src/algorithms/rsa.rs *)

(** src/algorithms/rsa.rs:211-223 [reduce_vartime]: the copy of the modulus, the resized
    copy of [n], the remainder before it is widened; the widened one is moved *)
Definition z_reduce_vartime (n : uint) (p : mparams) : holding mform :=
  let bits_precision := uprec (mp_modulus p) in
  owning (Plain (Int (mp_modulus p)))
    (let~ n := z_lift (if uprec n <? bits_precision then widen n bits_precision
                       else if uprec n =? bits_precision then Ok n
                       else shorten n bits_precision) in
     owning (Plain (Int n))
       (let~ r := z_lift (urem n (mp_modulus p)) in
        owning (Plain (Int r))
          (let~ r := z_lift (widen r (mp_prec p)) in
           z_lift (mf_new r p)))).

(** src/algorithms/rsa.rs:206-209 [pow_mod_params]: [base] and the temporary power *)
Definition z_pow_mod_params (base exp : uint) (n_params : mparams) : holding uint :=
  let~ b := z_reduce_vartime base n_params in
  owning (Plain (Form b))
    (owning (Plain (Form (mf_pow b exp))) (z_ret (mf_retrieve (mf_pow b exp)))).

(** src/algorithms/rsa.rs:226-231 [mul_mod_params]: the temporary product *)
Definition z_mul_mod_params (lhs rhs : uint) (n_params : mparams) : holding uint :=
  let~ l := z_lift (mf_new lhs n_params) in
  let~ r := z_lift (mf_new rhs n_params) in
  owning (Plain (Form (mf_mul l r))) (z_ret (mf_retrieve (mf_mul l r))).

(** src/algorithms/rsa.rs:20-23 [rsa_encrypt] *)
Definition z_rsa_encrypt (key : pubkey) (m : uint) : holding uint :=
  z_pow_mod_params m (pk_e key) (pk_params key).

(** src/algorithms/rsa.rs:188-203 [unblind] *)
Definition z_unblind (m unblinder : uint) (n_params : mparams) : holding uint :=
  let~ _ := z_lift (assert_ (uprec m =? uprec unblinder)) in
  let~ _ := z_lift (assert_ (uprec m =? mp_prec n_params)) in
  z_mul_mod_params m unblinder n_params.

Section WithRng.
  Context {R : Type} (g : rng_ops R).

  (** src/algorithms/rsa.rs:157-168: [r0] is the value of [r] when the body starts; it is
      overwritten, or freed when the generator fails.  The result's [r] is still alive. *)
  Fixpoint z_blind_loop (fuel : nat) (st : R) (key : pubkey) (r0 : uint)
    : holding (uint * uint * R) :=
    match fuel with
    | O => z_lift OutOfFuel
    | S fuel' =>
        owning (Plain (Int r0))
          match rng_mod g st (uval (pk_n key)) with
          | (None, _) => z_lift (Err Rng)
          | (Some v, st') =>
              let r := mkU v (uprec (pk_n key)) in
              let~ r := (if uis_zero r
                         then owning (Plain (Int r)) (z_ret (u_one_with (n_bits_precision key)))
                         else z_ret r) in
              let~ ir := z_lift (uinv_mod r (pk_n key)) in
              match ir with
              | Some ir => z_ret (r, ir, st')
              | None => z_blind_loop fuel' st' key r
              end
          end
    end.

  (** src/algorithms/rsa.rs:145-185 [blind]: [r] is freed, [rpowe] erased; the blinded
      value and the unblinder are returned.  The copy of the modulus is a
      [debug_assert] temporary. *)
  Definition z_blind (fuel : nat) (st : R) (key : pubkey) (c : uint) (n_params : mparams)
    : holding (uint * uint) :=
    let~ _ := owning (Plain (Int (pk_n key)))
                (z_lift (assert_ (ueqb (pk_n key) (mp_modulus n_params)))) in
    let bits := n_bits_precision key in
    let~ (r, ir, _) := z_blind_loop fuel st key (u_one_with bits) in
    owning (Plain (Int r))
      (let~ rpowe := z_pow_mod_params r (pk_e key) n_params in
       let~ blinded := owning (Erased (Int rpowe)) (z_mul_mod_params c rpowe n_params) in
       let~ _ := z_lift (assert_ (uprec blinded =? bits)) in
       let~ _ := z_lift (assert_ (uprec ir =? bits)) in
       z_ret (blinded, ir)).

  (** src/algorithms/rsa.rs:71-96: [c.clone()], [c], [m2.clone()], [q.clone()] and [m2]
      are moved; [cp], [m1] (after the subtraction in place), [cq], its power, [m2r] and
      the product with [qinv] are freed. *)
  Definition z_crt_pow (c : uint) (pc : precomp) (q : uint) : holding uint :=
    let~ cp := z_lift (mf_new c (pc_p_params pc)) in
    owning (Plain (Form cp))
      (let m1 := mf_pow cp (pc_dp pc) in
       let~ cq := z_lift (mf_new c (pc_q_params pc)) in
       owning (Plain (Form cq))
         (owning (Plain (Form (mf_pow cq (pc_dq pc))))
            (let m2 := mf_retrieve (mf_pow cq (pc_dq pc)) in
             let~ m2r := z_lift (mf_new m2 (pc_p_params pc)) in
             owning (Plain (Form m2r))
               (let m1 := mf_sub m1 m2r in
                owning (Plain (Form m1))
                  (owning (Plain (Form (mf_mul (pc_qinv pc) m1)))
                     (let m := mf_retrieve (mf_mul (pc_qinv pc) m1) in
                      let m := uwrapping_mul m q in
                      z_ret (uwrapping_add m m2))))))).

  (** src/algorithms/rsa.rs:34-114 [rsa_decrypt]: [blinded] is freed, the widened [c] is
      moved in the CRT case and freed otherwise; the result before it is shortened,
      the result before it is unblinded and the unblinder are freed. *)
  Definition z_rsa_decrypt (fuel : nat) (rng : option R) (priv_key : privkey) (c : uint)
    : holding uint :=
    let n := pk_n (sk_pub priv_key) in
    let d := sk_d priv_key in
    if uleb n c then z_lift (Err Decryption)
    else
      let n_params := pk_params (sk_pub priv_key) in
      let bits := uprec d in
      let~ (c, ir) :=
        match rng with
        | Some st =>
            let~ (blinded, unblinder) := z_blind fuel st (sk_pub priv_key) c n_params in
            let~ c := owning (Plain (Int blinded)) (z_lift (widen blinded bits)) in
            z_ret (c, Some unblinder)
        | None => let~ c := z_lift (widen c bits) in z_ret (c, None)
        end in
      let is_multiprime := (2 <? length (sk_primes priv_key))%nat in
      let~ m :=
        match sk_pre priv_key with
        | Some pc =>
            if is_multiprime
            then owning (Plain (Int c)) (z_pow_mod_params c d n_params)
            else
              let~ _p := z_lift (get_idx (sk_primes priv_key) 0) in
              let~ q := z_lift (get_idx (sk_primes priv_key) 1) in
              z_crt_pow c pc q
        | None => owning (Plain (Int c)) (z_pow_mod_params c d n_params)
        end in
      owning (Plain (Int m))
        (let~ m := z_lift (shorten m (mp_prec n_params)) in
         match ir with
         | Some ir =>
             owning (Plain (Int ir)) (owning (Plain (Int m)) (z_unblind m ir n_params))
         | None => z_ret m
         end).

  (** src/algorithms/rsa.rs:126-142 [rsa_decrypt_and_check]: [check]; [m] when the check
      fails *)
  Definition z_rsa_decrypt_and_check (fuel : nat) (priv_key : privkey) (rng : option R)
             (c : uint) : holding uint :=
    let~ m := z_rsa_decrypt fuel rng priv_key c in
    owning_if_err (Plain (Int m))
      (let~ check := z_rsa_encrypt (sk_pub priv_key) m in
       owning (Plain (Int check))
         (if negb (ueqb c check) then z_lift (Err Internal) else z_ret m)).

  (** * src/algorithms/mgf.rs *)

  (** src/algorithms/mgf.rs:15-33: [digest_input] and the boxed [digest_output], freed in
      every round.  [mgf1_xor_digest] has no heap objects. *)
  Fixpoint z_mgf1_xor_loop (fuel : nat) (out : list byte) (i : nat)
           (counter : list byte) (dg : digest) (seed : list byte)
    : holding (list byte * digest) :=
    if (length out <=? i)%nat then z_ret (out, dg)
    else
      match fuel with
      | O => z_lift OutOfFuel
      | S fuel' =>
          let di := vec x00 (length seed + 4) in
          let~ di := z_lift (copy_into di 0 (length seed) seed) in
          let~ di := z_lift (copy_into di (length seed) (length di) counter) in
          let dg := digest_update dg di in
          let (digest_output, dg) := digest_finalize_reset dg in
          let~ (out', i') := owning (Plain (Octets di))
                               (owning (Plain (Octets digest_output))
                                  (z_lift (xor_block out i digest_output))) in
          z_mgf1_xor_loop fuel' out' i' (inc_counter counter) dg seed
      end.

  (** src/algorithms/mgf.rs:8-34 [mgf1_xor] *)
  Definition z_mgf1_xor (out : list byte) (dg : digest) (seed : list byte)
    : holding (list byte * digest) :=
    let~ _ := z_lift (assert_ (Z.of_nat (length out) <=? 2 ^ 32)) in
    z_mgf1_xor_loop (length out) out 0 [x00; x00; x00; x00] dg seed.

  (** * src/algorithms/oaep.rs *)

  (** src/algorithms/oaep.rs:22-50 [encrypt_internal]: [em] is erased when the generator
      fails, and returned otherwise *)
  Definition z_oaep_encrypt_internal (r : R) (msg p_hash : list byte) (h_size k : nat)
             (mgf : list byte -> list byte -> holding (list byte * list byte))
    : holding (list byte) :=
    if (k <? length msg + 2 * h_size + 2)%nat then z_lift (Err MessageTooLong)
    else
      let em := vec x00 k in
      owning_if_err (Erased (Octets em))
        (let~ (head, payload) := z_lift (split_at em 1) in
         let~ (seed, db) := z_lift (split_at payload h_size) in
         match rng_fill g r (length seed) with
         | (None, _) => z_lift (Err Rng)
         | (Some seed, _) =>
             let~ db_len := z_lift (usub k h_size) in
             let~ db_len := z_lift (usub db_len 1) in
             let~ db := z_lift (copy_into db 0 h_size p_hash) in
             let~ pos := z_lift (usub db_len (length msg)) in
             let~ pos1 := z_lift (usub pos 1) in
             let~ db := z_lift (set_idx db pos1 x01) in
             let~ db := z_lift (copy_into db pos (length db) msg) in
             let~ (seed, db) := mgf seed db in
             z_ret (head ++ seed ++ db)
         end).

  (** src/algorithms/oaep.rs:60-82 [oaep_encrypt]: [label] and the boxed [p_hash] *)
  Definition z_oaep_encrypt (r : R) (msg : list byte) (dg mgf_digest : digest)
             (label : option (list byte)) (k : nat) : holding (list byte) :=
    let h_size := digest_output_size dg in
    let label := label_bytes label in
    owning (Plain (Octets label))
      (if MAX_LABEL_LEN <=? Z.of_nat (length label) then z_lift (Err LabelTooLong)
       else
         let dg := digest_update dg label in
         let (p_hash, _) := digest_finalize_reset dg in
         owning (Plain (Octets p_hash))
           (z_oaep_encrypt_internal r msg p_hash h_size k (fun seed db =>
              let~ (db, md) := z_mgf1_xor db mgf_digest seed in
              let~ (seed, _) := z_mgf1_xor seed md db in
              z_ret (seed, db)))).

  (** src/algorithms/oaep.rs:92-116 [oaep_encrypt_digest]: [label]; the hash is an array *)
  Definition z_oaep_encrypt_digest (hd hm : hashfn) (r : R) (msg : list byte)
             (label : option (list byte)) (k : nat) : holding (list byte) :=
    let hsize := h_size hd in
    let label := label_bytes label in
    owning (Plain (Octets label))
      (if MAX_LABEL_LEN <=? Z.of_nat (length label) then z_lift (Err LabelTooLong)
       else
         let p_hash := digest_oneshot hd label in
         z_oaep_encrypt_internal r msg p_hash hsize k (fun seed db =>
           let~ (db, md) := z_lift (mgf1_xor_digest db (digest_new hm) seed) in
           let~ (seed, _) := z_lift (mgf1_xor_digest seed md db) in
           z_ret (seed, db))).

  (** src/algorithms/oaep.rs:202-249 [decrypt_inner]: its result holds a copy of [em] as it
      was left, [em.to_vec()]; the copy belongs to the result *)
  Definition z_oaep_decrypt_inner (em : list byte) (h_size : nat) (expected_p_hash : list byte)
             (k : nat) (mgf : list byte -> list byte -> holding (list byte * list byte))
    : holding (list byte * Z * bool) :=
    if (k <? 11)%nat then z_lift (Err Decryption)
    else if (k <? h_size * 2 + 2)%nat then z_lift (Err Decryption)
    else
      let~ b0 := z_lift (get_idx em 0) in
      let first_byte_is_zero := byte_eqb b0 x00 in
      let~ (head, payload) := z_lift (split_at em 1) in
      let~ (seed, db) := z_lift (split_at payload h_size) in
      let~ (seed, db) := mgf seed db in
      let~ hh := z_lift (slice db 0 h_size) in
      let hash_are_equal := bytes_eqb hh expected_p_hash in
      let '(looking, index, nzb1) := oaep_scan (skipn h_size db) 0 true 0 false in
      let valid := first_byte_is_zero && hash_are_equal && negb nzb1 && negb looking in
      let~ idx := z_lift (u32_add index 2) in
      let~ idx := z_lift (u32_add idx (as_u32 (Z.of_nat (h_size * 2)))) in
      z_ret (head ++ seed ++ db, idx, valid).

  (** The rest of [oaep_decrypt] and [oaep_decrypt_digest]
      (src/algorithms/oaep.rs:147-157, 185-196), together with the end of the caller, who
      owns [em] (src/oaep.rs:254-256, 286-288): [em] as [decrypt_inner] left it, and the
      copy in its result, valid or not. *)
  Definition z_oaep_finish (em : list byte) (inner : holding (list byte * Z * bool))
    : holding (list byte) :=
    match outcome_of inner with
    | Ok (out, _, _) =>
        owning (Plain (Octets out))
          (let~ (out, index, valid) := inner in
           owning (Plain (Octets out))
             (z_lift (if valid then slice_from out (Z.to_nat index) else Err Decryption)))
    | _ => owning (Plain (Octets em)) (let~ _ := inner in z_lift Panic)
    end.

  (** src/algorithms/oaep.rs:129-158 [oaep_decrypt]: [label], the boxed hash *)
  Definition z_oaep_decrypt (em : list byte) (dg mgf_digest : digest)
             (label : option (list byte)) (k : nat) : holding (list byte) :=
    let h_size := digest_output_size dg in
    let label := label_bytes label in
    owning (Plain (Octets label))
      (if MAX_LABEL_LEN <=? Z.of_nat (length label)
       then owning (Plain (Octets em)) (z_lift (Err Decryption))
       else
         let dg := digest_update dg label in
         let (expected_p_hash, _) := digest_finalize_reset dg in
         owning (Plain (Octets expected_p_hash))
           (z_oaep_finish em
              (z_oaep_decrypt_inner em h_size expected_p_hash k (fun seed db =>
                 let~ (seed, md) := z_mgf1_xor seed mgf_digest db in
                 let~ (db, _) := z_mgf1_xor db md seed in
                 z_ret (seed, db))))).

  (** src/algorithms/oaep.rs:171-197 [oaep_decrypt_digest]: [label] *)
  Definition z_oaep_decrypt_digest (hd hm : hashfn) (em : list byte)
             (label : option (list byte)) (k : nat) : holding (list byte) :=
    let hsize := h_size hd in
    let label := label_bytes label in
    owning (Plain (Octets label))
      (if MAX_LABEL_LEN <=? Z.of_nat (length label)
       then owning (Plain (Octets em)) (z_lift (Err LabelTooLong))
       else
         let expected_p_hash := digest_oneshot hd label in
         z_oaep_finish em
           (z_oaep_decrypt_inner em hsize expected_p_hash k (fun seed db =>
              let~ (seed, md) := z_lift (mgf1_xor_digest seed (digest_new hm) db) in
              let~ (db, _) := z_lift (mgf1_xor_digest db md seed) in
              z_ret (seed, db)))).

  (** * src/algorithms/pkcs1v15.rs *)

  (** src/algorithms/pkcs1v15.rs:41-60 [pkcs1v15_encrypt_pad]: [em] is erased when the
      generator fails, and returned otherwise.  No [em] is made for a message too long. *)
  Definition z_pkcs1v15_encrypt_pad (fuel : nat) (r : R) (msg : list byte) (k : nat)
    : holding (list byte) :=
    if (k <? length msg + 11)%nat then z_lift (Err MessageTooLong)
    else owning_if_err (Erased (Octets (vec x00 k))) (z_lift (pkcs1v15_encrypt_pad g fuel r msg k)).

  (** src/algorithms/pkcs1v15.rs:70-77 [pkcs1v15_encrypt_unpad]: [em] is moved through
      [decrypt_inner] and freed, also when that fails *)
  Definition z_pkcs1v15_encrypt_unpad (em : list byte) (k : nat) : holding (list byte) :=
    owning (Plain (Octets em)) (z_lift (pkcs1v15_encrypt_unpad em k)).

  (** * src/pkcs1v15.rs, src/oaep.rs *)

  (** The end of the three encryption functions (src/pkcs1v15.rs:146-147,
      src/oaep.rs:201-202, 222-223): [em] is erased, [int] is not *)
  Definition z_finish_encrypt (pub_key : pubkey) (em : list byte) : holding (list byte) :=
    owning (Erased (Octets em))
      (let~ int := z_lift (from_be_slice em (n_bits_precision pub_key)) in
       owning (Plain (Int int))
         (let~ c := z_rsa_encrypt pub_key int in
          z_uint_to_be_pad c (key_size pub_key))).

  (** src/pkcs1v15.rs:138-148 [encrypt] *)
  Definition z_pkcs1v15_encrypt (fuel : nat) (rng : R) (pub_key : pubkey) (msg : list byte)
    : holding (list byte) :=
    let~ _ := z_lift (check_public pub_key) in
    let~ em := z_pkcs1v15_encrypt_pad fuel rng msg (key_size pub_key) in
    z_finish_encrypt pub_key em.

  (** src/oaep.rs:189-203 [encrypt] *)
  Definition z_oaep_api_encrypt (rng : R) (pub_key : pubkey) (msg : list byte)
             (dg mgf_digest : digest) (label : option (list byte)) : holding (list byte) :=
    let~ _ := z_lift (check_public pub_key) in
    let~ em := z_oaep_encrypt rng msg dg mgf_digest label (key_size pub_key) in
    z_finish_encrypt pub_key em.

  (** src/oaep.rs:212-224 [encrypt_digest] *)
  Definition z_oaep_api_encrypt_digest (hd hm : hashfn) (rng : R) (pub_key : pubkey)
             (msg : list byte) (label : option (list byte)) : holding (list byte) :=
    let~ _ := z_lift (check_public pub_key) in
    let~ em := z_oaep_encrypt_digest hd hm rng msg label (key_size pub_key) in
    z_finish_encrypt pub_key em.

  (** The common part of the decryption functions (src/pkcs1v15.rs:167-171,
      src/oaep.rs:251-256, 283-288): the integer of the ciphertext *)
  Definition z_decrypt_with (fuel : nat) (rng : option R) (priv_key : privkey)
             (ciphertext : list byte) (unpad : list byte -> holding (list byte))
    : holding (list byte) :=
    let pk := sk_pub priv_key in
    let~ c := z_lift (from_be_slice ciphertext (n_bits_precision pk)) in
    owning (Plain (Int c))
      (let~ em := z_rsa_decrypt_and_check fuel priv_key rng c in
       let~ em := z_uint_to_zeroizing_be_pad em (key_size pk) in
       unpad em).

  (** src/pkcs1v15.rs:160-172 [decrypt] *)
  Definition z_pkcs1v15_decrypt (fuel : nat) (rng : option R) (priv_key : privkey)
             (ciphertext : list byte) : holding (list byte) :=
    let~ _ := z_lift (check_public (sk_pub priv_key)) in
    z_decrypt_with fuel rng priv_key ciphertext
      (fun em => z_pkcs1v15_encrypt_unpad em (key_size (sk_pub priv_key))).

  (** src/oaep.rs:239-257 [decrypt] *)
  Definition z_oaep_api_decrypt (fuel : nat) (rng : option R) (priv_key : privkey)
             (ciphertext : list byte) (dg mgf_digest : digest) (label : option (list byte))
    : holding (list byte) :=
    if negb (length ciphertext =? key_size (sk_pub priv_key))%nat then z_lift (Err Decryption)
    else
      z_decrypt_with fuel rng priv_key ciphertext
        (fun em => z_oaep_decrypt em dg mgf_digest label (key_size (sk_pub priv_key))).

  (** src/oaep.rs:272-289 [decrypt_digest] *)
  Definition z_oaep_api_decrypt_digest (hd hm : hashfn) (fuel : nat) (rng : option R)
             (priv_key : privkey) (ciphertext : list byte) (label : option (list byte))
    : holding (list byte) :=
    let~ _ := z_lift (check_public (sk_pub priv_key)) in
    if negb (length ciphertext =? key_size (sk_pub priv_key))%nat then z_lift (Err Decryption)
    else
      z_decrypt_with fuel rng priv_key ciphertext
        (fun em => z_oaep_decrypt_digest hd hm em label (key_size (sk_pub priv_key))).

  (** src/pkcs1v15.rs:188-198 [sign]: the padded hash and its integer *)
  Definition z_pkcs1v15_sign (fuel : nat) (rng : option R) (priv_key : privkey)
             (prefix hashed : list byte) : holding (list byte) :=
    let pk := sk_pub priv_key in
    let~ em := z_lift (pkcs1v15_sign_pad prefix hashed (key_size pk)) in
    owning (Plain (Octets em))
      (let~ int := z_lift (from_be_slice em (n_bits_precision pk)) in
       owning (Plain (Int int))
         (let~ s := z_rsa_decrypt_and_check fuel priv_key rng int in
          z_uint_to_zeroizing_be_pad s (key_size pk))).
End WithRng.

(** * src/encoding.rs *)

Section Encoding.
  Variable der_max : Z.

  (** src/encoding.rs:118-121, 122-125: [primes[i].widen(bits)], the constant one and
      the remainder are temporaries; the difference is moved into the division.  The
      remainder's octets are erased at the end of the function. *)
  Definition z_crt_exponent {A} (d prime : uint) (k : uint -> holding A) : holding A :=
    let~ x := (let~ p := z_lift (widen prime (uprec d)) in
               owning (Plain (Int p))
                 (owning (Plain (Int (u_of_u64 1)))
                    (let~ x := z_lift (usub_big p (u_of_u64 1)) in
                     let~ _ := z_lift (assert_ (negb (uis_zero x))) in
                     let~ r := z_lift (urem d x) in
                     owning (Plain (Int r)) (z_ret r)))) in
    owning (Erased (Octets (to_be_bytes x))) (k x).

  (** src/encoding.rs:103-151 [to_pkcs8_der]: the octets of n and e, and the DER text of the
      PKCS#1 structure, which [to_der] (dependency: [der::Encode]) returns in a plain
      [Vec<u8>]; the octets of the private values are erased.  The result is a
      [SecretDocument]. *)
  Definition z_to_pkcs8_der (k : privkey) : holding (list byte) :=
    if (2 <? length (sk_primes k))%nat then z_lift (Err ErrPkcs1Version)
    else
      let modulus := to_be_bytes (pk_n (sk_pub k)) in
      let public_exponent := to_be_bytes (pk_e (sk_pub k)) in
      let private_exponent := to_be_bytes (sk_d k) in
      owning (Plain (Octets modulus)) (owning (Plain (Octets public_exponent))
      (owning (Erased (Octets private_exponent))
      (let~ p := z_lift (get_idx (sk_primes k) 0) in
       let~ q := z_lift (get_idx (sk_primes k) 1) in
       let prime1 := to_be_bytes p in
       let prime2 := to_be_bytes q in
       owning (Erased (Octets prime1)) (owning (Erased (Octets prime2))
       (z_crt_exponent (sk_d k) p (fun dp =>
        z_crt_exponent (sk_d k) q (fun dq =>
        let~ coefficient := z_lift (crt_coefficient k) in
        match coefficient with
        | None => z_lift (Err ErrPkcs1Crypto)
        | Some coefficient =>
            owning (Plain (Int coefficient))
            (owning (Erased (Octets (to_be_bytes coefficient)))
            (let~ modulus := z_lift (uint_ref_new der_max modulus) in
             let~ public_exponent := z_lift (uint_ref_new der_max public_exponent) in
             let~ private_exponent := z_lift (uint_ref_new der_max private_exponent) in
             let~ prime1 := z_lift (uint_ref_new der_max prime1) in
             let~ prime2 := z_lift (uint_ref_new der_max prime2) in
             let~ exponent1 := z_lift (uint_ref_new der_max (to_be_bytes dp)) in
             let~ exponent2 := z_lift (uint_ref_new der_max (to_be_bytes dq)) in
             let~ coefficient := z_lift (uint_ref_new der_max (to_be_bytes coefficient)) in
             let~ private_key := z_lift (encode_p1_private der_max
                 (mkP1Priv false modulus public_exponent private_exponent prime1 prime2
                           exponent1 exponent2 coefficient)) in
             owning (Plain (Octets private_key))
               (let~ _ := z_lift (guard (Z.of_nat (length private_key) <=? der_max) ErrAsn1) in
                z_lift (encode_key_info der_max (mkKI rsa_algorithm_id private_key)))))
        end))))))).
End Encoding.
