(** Model of src/algorithms/pkcs1v15.rs. *)
From Coq Require Import ZArith List Bool.
From Coq Require Import Init.Byte.
From Verif Require Import Base Bigint MHash.
Import ListNotations.
Local Open Scope Z_scope.

(** Casts and checked machine arithmetic used by src/algorithms/pkcs1v15.rs:102-115
    and src/algorithms/oaep.rs:238-246. *)
Definition as_u32 (z : Z) : Z := z mod 2 ^ 32.
Definition as_i32 (z : Z) : Z :=
  let u := z mod 2 ^ 32 in if u <? 2 ^ 31 then u else u - 2 ^ 32.
Definition i32_sub (a b : Z) : outcome Z :=
  let r := a - b in
  if (- 2 ^ 31 <=? r) && (r <? 2 ^ 31) then Ok r else Panic.
Definition u32_add (a b : Z) : outcome Z :=
  let r := a + b in if r <? 2 ^ 32 then Ok r else Panic.

Section WithRng.
  Context {R : Type} (g : rng_ops R).

  (** src/algorithms/pkcs1v15.rs:30-32: refill one byte while it is zero. *)
  Fixpoint refill (fuel : nat) (r : R) : outcome (byte * R) :=
    match fuel with
    | O => OutOfFuel
    | S fuel' =>
        match rng_fill g r 1 with
        | (None, _) => Err Rng
        | (Some bs, r') =>
            let* el := get_idx bs 0 in
            if byte_eqb el x00 then refill fuel' r' else Ok (el, r')
        end
    end.

  (** src/algorithms/pkcs1v15.rs:27-34: loop over the slice. *)
  Fixpoint nz_loop (fuel : nat) (r : R) (data : list byte) : outcome (list byte * R) :=
    match data with
    | [] => Ok ([], r)
    | el :: rest =>
        let* (el', r') := (if byte_eqb el x00 then refill fuel r else Ok (el, r)) in
        let* (rest', r'') := nz_loop fuel r' rest in
        Ok (el' :: rest', r'')
    end.

  (** src/algorithms/pkcs1v15.rs:21-37 [non_zero_random_bytes] on a slice of
      length [n]; the generator's error is mapped to [Error::Rng] here rather
      than at line 56. *)
  Definition non_zero_random_bytes (fuel : nat) (r : R) (n : nat) : outcome (list byte * R) :=
    match rng_fill g r n with
    | (None, _) => Err Rng
    | (Some data, r') => nz_loop fuel r' data
    end.

  (** src/algorithms/pkcs1v15.rs:41-60 [pkcs1v15_encrypt_pad] *)
  Definition pkcs1v15_encrypt_pad (fuel : nat) (r : R) (msg : list byte) (k : nat)
    : outcome (list byte) :=
    if (k <? length msg + 11)%nat then Err MessageTooLong
    else
      let em := vec x00 k in
      let* em := set_idx em 1 x02 in
      let* k1 := usub k (length msg) in
      let* k2 := usub k1 1 in
      let* w := usub k2 2 in
      let* (ps, _) := non_zero_random_bytes fuel r w in
      let* em := copy_into em 2 k2 ps in
      let* em := set_idx em k2 x00 in
      copy_into em k1 k msg.
End WithRng.

(** src/algorithms/pkcs1v15.rs:100-104: constant-time scan for the first zero byte;
    [i] is the position of the head of the list. *)
Fixpoint find_zero (l : list byte) (i : Z) (looking : bool) (index : Z) : bool * Z :=
  match l with
  | [] => (looking, index)
  | el :: rest =>
      let equals0 := byte_eqb el x00 in
      let index' := if looking && equals0 then as_u32 i else index in
      let looking' := if equals0 then false else looking in
      find_zero rest (i + 1) looking' index'
  end.

(** src/algorithms/pkcs1v15.rs:85-118 [decrypt_inner]: (valid, em, index). *)
Definition pkcs1_decrypt_inner (em : list byte) (k : nat) : outcome (bool * list byte * Z) :=
  if (k <? 11)%nat then Err Decryption
  else
    let* b0 := get_idx em 0 in
    let* b1 := get_idx em 1 in
    let first_byte_is_zero := byte_eqb b0 x00 in
    let second_byte_is_two := byte_eqb b1 x02 in
    let (looking, index) := find_zero (skipn 2 em) 2 true 0 in
    let* t := i32_sub 10 (as_i32 index) in
    let* t := i32_sub t 1 in
    let valid_ps := Z.land (Z.shiftr t 31) 1 =? 1 in
    let valid := first_byte_is_zero && second_byte_is_two && negb looking && valid_ps in
    let* index1 := u32_add index 1 in
    let index := if valid then index1 else 0 in
    Ok (valid, em, index).

(** src/algorithms/pkcs1v15.rs:70-77 [pkcs1v15_encrypt_unpad] *)
Definition pkcs1v15_encrypt_unpad (em : list byte) (k : nat) : outcome (list byte) :=
  let* (valid, out, index) := pkcs1_decrypt_inner em k in
  if valid then slice_from out (Z.to_nat index) else Err Decryption.

(** src/algorithms/pkcs1v15.rs:121-137 [pkcs1v15_sign_pad] *)
Definition pkcs1v15_sign_pad (prefix hashed : list byte) (k : nat) : outcome (list byte) :=
  let hash_len := length hashed in
  let t_len := (length prefix + length hashed)%nat in
  if (k <? t_len + 11)%nat then Err MessageTooLong
  else
    let em := vec xff k in
    let* em := set_idx em 0 x00 in
    let* em := set_idx em 1 x01 in
    let* a := usub k t_len in
    let* a1 := usub a 1 in
    let* b := usub k hash_len in
    let* em := set_idx em a1 x00 in
    let* em := copy_into em a b prefix in
    copy_into em b k hashed.

(** src/algorithms/pkcs1v15.rs:140-163 [pkcs1v15_sign_unpad] *)
Definition pkcs1v15_sign_unpad (prefix hashed em : list byte) (k : nat) : outcome unit :=
  let hash_len := length hashed in
  let t_len := (length prefix + length hashed)%nat in
  if (k <? t_len + 11)%nat then Err Verification
  else
    let* b0 := get_idx em 0 in
    let* b1 := get_idx em 1 in
    let* b := usub k hash_len in
    let* a := usub k t_len in
    let* a1 := usub a 1 in
    let* h := slice em b k in
    let* p := slice em a b in
    let* sep := get_idx em a1 in
    let* psl := usub a 3 in
    let ok := byte_eqb b0 x00 && byte_eqb b1 x01 && bytes_eqb h hashed
              && bytes_eqb p prefix && byte_eqb sep x00 in
    let ok := fold_left (fun ok el => ok && byte_eqb el xff) (firstn psl (skipn 2 em)) ok in
    if ok then Ok tt else Err Verification.

(** src/algorithms/pkcs1v15.rs:167-185 [pkcs1v15_generate_prefix]: [oid] is
    [D::OID.as_bytes()], [output_size] the digest size.  Additions on u8 panic on
    overflow; the casts [as u8] truncate. *)
Definition u8_add (a b : Z) : outcome Z :=
  let r := a + b in if r <? 256 then Ok r else Panic.

Definition pkcs1v15_generate_prefix (oid : list byte) (output_size : nat) : outcome (list byte) :=
  let oid_len := Z.of_nat (length oid) mod 256 in
  let digest_len := Z.of_nat output_size mod 256 in
  let* a := u8_add oid_len 8 in
  let* a := u8_add a digest_len in
  let* b := u8_add oid_len 4 in
  let v := [x30; z2b a; x30; z2b b; x06; z2b oid_len] in
  Ok ((v ++ oid) ++ [x05; x00; x04; z2b digest_len]).
