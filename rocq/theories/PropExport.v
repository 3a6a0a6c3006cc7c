(** C85: generated keys and export. *)
From Coq Require Import ZArith Znumtheory List Bool Lia.
From Coq Require Import Init.Byte.
From Verif Require Import Base Bigint SpecRFC SpecKey SpecGen SpecDer SpecRng SpecSig BytesLemmas BigintLemmas MHash MPkcs1
  MRsa MGenerate MKey MApi MWrap MDer MEncoding KeyDefs.
From Verif Require Import PRsa PApi PSig PSign PCodec PGenerate PExport KeyExamples PropGen PropEncoding.
Import ListNotations.
Local Open Scope Z_scope.

(** * C85: a generated key survives export and import, or cannot be exported at all *)

(** For every size, exponent and source of primes: export and import give an equal valid key
    exactly unless the size is 1 modulo 128.  Then the primes are stored at different widths
    and export panics. *)
Theorem C85_export : forall {R} (gp : prime_gen R) b, prime_source gp b ->
  forall fuel st e k mx tl, 0 <= b < 2 ^ 32 -> wf_uint e ->
  private_new_with_exp gp fuel st b e = Ok k -> tl 0 [] = true -> 2 ^ 21 <= mx < 2 ^ 32 ->
  (b mod 128 <> 1 ->
   exists doc k', to_pkcs8_der mx k = Ok doc /\ from_pkcs8_der mx tl doc = Ok k' /\
     priv_eqb k' k = true /\ good_priv k' /\ sk_pre k' <> None /\
     stored_minimally (pk_n (sk_pub k'))) /\
  (b mod 128 = 1 -> to_pkcs8_der mx k = Panic).
Proof. exact @generated_export. Qed.

(** Its public key always survives. *)
Theorem C85_public : forall {R} (gp : prime_gen R) b, prime_source gp b ->
  forall fuel st e k mx, 0 <= b < 2 ^ 32 -> wf_uint e ->
  private_new_with_exp gp fuel st b e = Ok k -> 2 ^ 21 <= mx < 2 ^ 32 ->
  exists doc pk, to_public_key_der mx (to_public_key k) = Ok doc /\ from_public_key_der mx doc = Ok pk /\
    pub_eqb pk (to_public_key k) = true /\ wf_pub pk /\ stored_minimally (pk_n pk).
Proof. exact @generated_public. Qed.

(** Any key, generated or not: the widths of d and the two primes at which export panics. *)
Theorem C85_widths : forall mx k p q,
  wf_uint (sk_d k) -> sk_primes k = [p; q] -> wf_uint p -> wf_uint q ->
  2 <= uval p -> 2 <= uval q ->
  uprec (sk_d k) < uprec p \/ uprec (sk_d k) < uprec q \/ uprec p <> uprec q ->
  to_pkcs8_der mx k = Panic.
Proof. exact export_widths. Qed.

(** An equal public key whose modulus is stored in the fewest limbs, such as an imported one,
    accepts the PKCS#1 v1.5 signatures that the generated key itself may reject (C49). *)
Theorem C85_reimported_verifies : forall {R} (g : rng_ops R) fuel rng k pk s hashed,
  (rng <> None -> rng_ok g) -> good_priv k ->
  wf_pub pk -> pub_eqb pk (sk_pub k) = true -> stored_minimally (pk_n pk) ->
  uprec (pk_n pk) < 2 ^ 32 ->
  hash_len_ok s hashed -> (length (p1_prefix s ++ hashed) + 11 <= key_size (sk_pub k))%nat ->
  blinding_succeeds g (uval (pk_n (sk_pub k))) rng fuel ->
  exists sig, scheme_sign g fuel rng k (SigPkcs1v15 s) hashed = Ok sig /\
    public_verify pk (SigPkcs1v15 s) hashed sig = Ok tt.
Proof. exact @verify_reimported. Qed.

(** Together: generate, export, import, sign with the old key or the new, verify with the new. *)
Theorem C85_repaired : forall {R S} (gp : prime_gen R) (g : rng_ops S) b, prime_source gp b ->
  forall fuel st e k mx tl doc k', 0 <= b < 2 ^ 32 - 64 -> wf_uint e ->
  private_new_with_exp gp fuel st b e = Ok k -> tl 0 [] = true -> 2 ^ 21 <= mx < 2 ^ 32 ->
  to_pkcs8_der mx k = Ok doc -> from_pkcs8_der mx tl doc = Ok k' ->
  forall signer fuel' rng s hashed, (signer = k \/ signer = k') ->
  (rng <> None -> rng_ok g) ->
  hash_len_ok s hashed -> (length (p1_prefix s ++ hashed) + 11 <= key_size (sk_pub k))%nat ->
  blinding_succeeds g (uval (pk_n (sk_pub k))) rng fuel' ->
  exists sig, scheme_sign g fuel' rng signer (SigPkcs1v15 s) hashed = Ok sig /\
    public_verify (sk_pub k') (SigPkcs1v15 s) hashed sig = Ok tt.
Proof. exact @repaired. Qed.

(** A source of primes for 129-bit keys: 64 and 65 bits, stored in one and two limbs. *)
Definition p129 : uint := mkU 13932502654620287867 64.
Definition q129 : uint := mkU 28476381703824780937 128.
Lemma prime_3447971 : prime 3447971. Proof. by_trial. Qed.
Lemma prime_1771608875453 : prime 1771608875453. Proof. by_pock 3447971 513812 2 prime_3447971. Qed.
Lemma prime_p129 : prime (uval p129). Proof. by_pock 1771608875453 7864322 2 prime_1771608875453. Qed.
Lemma prime_3605843 : prime 3605843. Proof. by_trial. Qed.
Lemma prime_1475510955601 : prime 1475510955601. Proof. by_pock 3605843 409200 2 prime_3605843. Qed.
Lemma prime_q129 : prime (uval q129). Proof. by_pock 1475510955601 19299336 2 prime_1475510955601. Qed.

Definition source129 : prime_gen nat := fun st bits => (if bits =? 64 then p129 else q129, S st).
Lemma source129_ok : prime_source source129 129.
Proof.
  intros st bits H _. assert (X : bits = 64 \/ bits = 65) by (destruct H; subst; auto).
  clear H. destruct X; subst bits; unfold source129; cbn [Z.eqb Pos.eqb fst];
    (split; [first [exact prime_p129|exact prime_q129]|split; [vm_compute; split; congruence|reflexivity]]).
Qed.

(** "Every generated key can be exported" is false: the 129-bit key panics. *)
Theorem C85_every_key_exports_refuted : exists k,
  prime_source source129 129 /\ private_new source129 1 0%nat 129 = Ok k /\ to_pkcs8_der mx28 k = Panic.
Proof.
  assert (E : exists k, private_new source129 1 0%nat 129 = Ok k)
    by (eexists; vm_compute; reflexivity).
  destruct E as (k & E). exists k. split; [exact source129_ok|]. split; [exact E|].
  rewrite private_new_eq in E.
  destruct (C85_export source129 129 source129_ok 1 0%nat (u_of_u64 EXP) k mx28 opt28
              ltac:(lia) wf_exp E eq_refl ltac:(unfold mx28; lia)) as (_ & B).
  apply B. reflexivity.
Qed.

(** A 160-bit key, which rejects its own signatures (C49), is exported and imported. *)
Example C85_case : exists k doc k',
  private_new toy_source 1 0%nat 160 = Ok k /\ to_pkcs8_der mx28 k = Ok doc /\
  from_pkcs8_der mx28 opt28 doc = Ok k' /\ ~ stored_minimally (pk_n (sk_pub k)) /\
  stored_minimally (pk_n (sk_pub k')) /\ priv_eqb k' k = true.
Proof.
  assert (E : exists k, private_new toy_source 1 0%nat 160 = Ok k)
    by (eexists; vm_compute; reflexivity).
  destruct E as (k & E). rewrite private_new_eq in E.
  destruct (C85_export toy_source 160 toy_source_160 1 0%nat (u_of_u64 EXP) k mx28 opt28
              ltac:(lia) wf_exp E eq_refl ltac:(unfold mx28; lia)) as (A & _).
  destruct A as (doc & k' & A1 & A2 & A3 & _ & _ & A6); [discriminate|].
  exists k, doc, k'. rewrite private_new_eq. split; [exact E|]. split; [exact A1|]. split; [exact A2|].
  split; [|split; [exact A6|exact A3]].
  rewrite (C49_generated_width toy_source 160 toy_source_160 1 0%nat (u_of_u64 EXP) k ltac:(lia) wf_exp E).
  intros X. apply X. vm_compute. split; congruence.
Qed.

Print Assumptions C85_export.
Print Assumptions C85_public.
Print Assumptions C85_widths.
Print Assumptions C85_reimported_verifies.
Print Assumptions C85_repaired.
Print Assumptions C85_every_key_exports_refuted.
