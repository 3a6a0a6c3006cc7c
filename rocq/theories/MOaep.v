(** Model of src/algorithms/oaep.rs. *)
From Coq Require Import ZArith List Bool.
From Coq Require Import Init.Byte.
From Verif Require Import Base Bigint MHash MMgf MPkcs1.
Import ListNotations.
Local Open Scope Z_scope.

(** src/algorithms/oaep.rs:19 *)
Definition MAX_LABEL_LEN : Z := 2 ^ 61.

(** src/algorithms/oaep.rs:70,104,138,178 [label.unwrap_or_default()] *)
Definition label_bytes (label : option (list byte)) : list byte :=
  match label with Some l => l | None => [] end.

Section WithRng.
  Context {R : Type} (g : rng_ops R).

  (** src/algorithms/oaep.rs:22-50 [encrypt_internal]; [mgf seed db] returns the two
      mutated buffers. *)
  Definition oaep_encrypt_internal (r : R) (msg p_hash : list byte) (h_size k : nat)
             (mgf : list byte -> list byte -> outcome (list byte * list byte))
    : outcome (list byte) :=
    if (k <? length msg + 2 * h_size + 2)%nat then Err MessageTooLong
    else
      let em := vec x00 k in
      let* (head, payload) := split_at em 1 in
      let* (seed, db) := split_at payload h_size in
      match rng_fill g r (length seed) with
      | (None, _) => Err Rng
      | (Some seed, _) =>
          let* db_len := usub k h_size in
          let* db_len := usub db_len 1 in
          let* db := copy_into db 0 h_size p_hash in
          let* pos := usub db_len (length msg) in
          let* pos1 := usub pos 1 in
          let* db := set_idx db pos1 x01 in
          let* db := copy_into db pos (length db) msg in
          let* (seed, db) := mgf seed db in
          Ok (head ++ seed ++ db)
      end.

  (** src/algorithms/oaep.rs:60-82 [oaep_encrypt] *)
  Definition oaep_encrypt (r : R) (msg : list byte) (dg mgf_digest : digest)
             (label : option (list byte)) (k : nat) : outcome (list byte) :=
    let h_size := digest_output_size dg in
    let label := label_bytes label in
    if MAX_LABEL_LEN <=? Z.of_nat (length label) then Err LabelTooLong
    else
      let dg := digest_update dg label in
      let (p_hash, _) := digest_finalize_reset dg in
      oaep_encrypt_internal r msg p_hash h_size k (fun seed db =>
        let* (db, md) := mgf1_xor db mgf_digest seed in
        let* (seed, _) := mgf1_xor seed md db in
        Ok (seed, db)).

  (** src/algorithms/oaep.rs:92-116 [oaep_encrypt_digest]; [hd], [hm] are the types D, MGD *)
  Definition oaep_encrypt_digest (hd hm : hashfn) (r : R) (msg : list byte)
             (label : option (list byte)) (k : nat) : outcome (list byte) :=
    let hsize := h_size hd in
    let label := label_bytes label in
    if MAX_LABEL_LEN <=? Z.of_nat (length label) then Err LabelTooLong
    else
      let p_hash := digest_oneshot hd label in
      oaep_encrypt_internal r msg p_hash hsize k (fun seed db =>
        let* (db, md) := mgf1_xor_digest db (digest_new hm) seed in
        let* (seed, _) := mgf1_xor_digest seed md db in
        Ok (seed, db)).
End WithRng.

(** src/algorithms/oaep.rs:231-241: constant-time scan; state
    (looking_for_index, index, nonzero_before_one). *)
Fixpoint oaep_scan (l : list byte) (i : Z) (looking : bool) (index : Z) (nzb1 : bool)
  : bool * Z * bool :=
  match l with
  | [] => (looking, index, nzb1)
  | el :: rest =>
      let equals0 := byte_eqb el x00 in
      let equals1 := byte_eqb el x01 in
      let index := if looking && equals1 then as_u32 i else index in
      let looking := looking && negb equals1 in
      let nzb1 := nzb1 || (looking && negb equals0) in
      oaep_scan rest (i + 1) looking index nzb1
  end.

(** src/algorithms/oaep.rs:202-249 [decrypt_inner]; the result is the [CtOption]:
    its payload (em, index) and the validity flag. *)
Definition oaep_decrypt_inner (em : list byte) (h_size : nat) (expected_p_hash : list byte)
           (k : nat) (mgf : list byte -> list byte -> outcome (list byte * list byte))
  : outcome (list byte * Z * bool) :=
  if (k <? 11)%nat then Err Decryption
  else if (k <? h_size * 2 + 2)%nat then Err Decryption
  else
    let* b0 := get_idx em 0 in
    let first_byte_is_zero := byte_eqb b0 x00 in
    let* (head, payload) := split_at em 1 in
    let* (seed, db) := split_at payload h_size in
    let* (seed, db) := mgf seed db in
    let* hh := slice db 0 h_size in
    let hash_are_equal := bytes_eqb hh expected_p_hash in
    let '(looking, index, nzb1) := oaep_scan (skipn h_size db) 0 true 0 false in
    let valid := first_byte_is_zero && hash_are_equal && negb nzb1 && negb looking in
    let* idx := u32_add index 2 in
    let* idx := u32_add idx (as_u32 (Z.of_nat (h_size * 2))) in
    Ok (head ++ seed ++ db, idx, valid).

(** src/algorithms/oaep.rs:129-158 [oaep_decrypt] *)
Definition oaep_decrypt (em : list byte) (dg mgf_digest : digest)
           (label : option (list byte)) (k : nat) : outcome (list byte) :=
  let h_size := digest_output_size dg in
  let label := label_bytes label in
  if MAX_LABEL_LEN <=? Z.of_nat (length label) then Err Decryption
  else
    let dg := digest_update dg label in
    let (expected_p_hash, _) := digest_finalize_reset dg in
    let* (out, index, valid) :=
      oaep_decrypt_inner em h_size expected_p_hash k (fun seed db =>
        let* (seed, md) := mgf1_xor seed mgf_digest db in
        let* (db, _) := mgf1_xor db md seed in
        Ok (seed, db)) in
    if valid then slice_from out (Z.to_nat index) else Err Decryption.

(** src/algorithms/oaep.rs:171-197 [oaep_decrypt_digest] *)
Definition oaep_decrypt_digest (hd hm : hashfn) (em : list byte)
           (label : option (list byte)) (k : nat) : outcome (list byte) :=
  let hsize := h_size hd in
  let label := label_bytes label in
  if MAX_LABEL_LEN <=? Z.of_nat (length label) then Err LabelTooLong
  else
    let expected_p_hash := digest_oneshot hd label in
    let* (out, index, valid) :=
      oaep_decrypt_inner em hsize expected_p_hash k (fun seed db =>
        let* (seed, md) := mgf1_xor_digest seed (digest_new hm) db in
        let* (db, _) := mgf1_xor_digest db md seed in
        Ok (seed, db)) in
    if valid then slice_from out (Z.to_nat index) else Err Decryption.
