(** Properties of key generation: C30, C31, C32, C49. *)
From Coq Require Import ZArith List Bool Lia Znumtheory.
From Coq Require Import Init.Byte.
From Verif Require Import Base Bigint NumTheory SpecRFC SpecRng SpecKey SpecGen MHash MRsa MGenerate MKey MApi KeyDefs
  BigintLemmas PRsa PApi PSign PKey PFloat PGenerate KeyExamples.
Import ListNotations.
Local Open Scope Z_scope.

(** A concrete prime source: it draws 32-bit primes [p64] and [q64] in turn, after a
    first pair of equal primes; and 80-bit primes in turn. *)
Definition p80 : uint := mkU 906694364847421822839589 128.
Definition q80 : uint := mkU 906694364932440100113689 128.
Lemma prime_3111281 : prime 3111281. Proof. by_trial. Qed.
Lemma prime_1631313076483 : prime 1631313076483. Proof. by_pock 3111281 524322 2 prime_3111281. Qed.
Lemma prime_p80 : prime (uval p80). Proof. by_pock 1631313076483 555806471436 2 prime_1631313076483. Qed.
Lemma prime_2895943 : prime 2895943. Proof. by_trial. Qed.
Lemma prime_1518406625647 : prime 1518406625647. Proof. by_pock 2895943 524322 2 prime_2895943. Qed.
Lemma prime_q80 : prime (uval q80). Proof. by_pock 1518406625647 597135411304 2 prime_1518406625647. Qed.

Definition toy_source : prime_gen nat := fun st bits =>
  let first := (Nat.even st || (st <=? 1)%nat)%bool in
  (if bits =? 32 then (if first then p64 else q64)
   else (if Nat.even st then p80 else q80), S st).

Lemma toy_source_64 : prime_source toy_source 64.
Proof.
  intros st bits H _. assert (bits = 32) by (destruct H; subst; reflexivity). subst bits. clear H.
  unfold toy_source. cbn [Z.eqb Pos.eqb fst].
  destruct (Nat.even st || (st <=? 1)%nat)%bool;
    (split; [first [exact prime_p64|exact prime_q64]|split; [vm_compute; split; congruence|reflexivity]]).
Qed.

Lemma toy_source_160 : prime_source toy_source 160.
Proof.
  intros st bits H _. assert (bits = 80) by (destruct H; subst; reflexivity). subst bits. clear H.
  unfold toy_source. cbn [Z.eqb Pos.eqb fst].
  destruct (Nat.even st);
    (split; [first [exact prime_p80|exact prime_q80]|split; [vm_compute; split; congruence|reflexivity]]).
Qed.

(** ** C30: generated keys are valid *)

(** Every key returned, for every size, exponent, retry history and generator state. *)
Theorem C30_generated_keys_are_valid : forall {R} (gp : prime_gen R) b, prime_source gp b ->
  forall fuel st e k, 0 <= b < 2 ^ 32 -> wf_uint e ->
  private_new_with_exp gp fuel st b e = Ok k ->
  exists p q,
    sk_primes k = [p; q] /\ prime (uval p) /\ prime (uval q) /\ uval p <> uval q /\
    uval (pk_n (sk_pub k)) = uval p * uval q /\ pk_e (sk_pub k) = e /\
    zbits (uval (pk_n (sk_pub k))) = b /\ zbits (uval p) = b / 2 /\ zbits (uval q) = b - b / 2 /\
    uprec (pk_n (sk_pub k)) = prec_for (b / 2) + prec_for (b - b / 2) /\
    0 < uval (sk_d k) < (uval p - 1) * (uval q - 1) /\
    (uval e * uval (sk_d k)) mod ((uval p - 1) * (uval q - 1)) = 1 /\
    validate k = Ok tt /\ sk_pre k <> None /\ good_priv k.
Proof. exact @c30_valid. Qed.

(** With the default exponent and 17 to 4096 bits, generation ends with a key made of
    the first fit pair drawn, or is still running: it never fails nor panics. *)
Theorem C30_default_exponent : forall {R} (gp : prime_gen R) b, prime_source gp b ->
  forall fuel st, 17 <= b <= 4096 ->
  (exists k, private_new gp fuel st b = Ok k /\
     exists j p q, (j < fuel)%nat /\ fit_at gp b 65537 st j p q /\ sk_primes k = [p; q]) \/
  (private_new gp fuel st b = OutOfFuel /\ unfit_for gp b 65537 st fuel).
Proof. exact @c30_new. Qed.

(** The same for any odd exponent from 3 to 2^33-1 below 9*2^(b-4) in a width that fits. *)
Theorem C30_any_exponent : forall {R} (gp : prime_gen R) b, prime_source gp b ->
  forall fuel st e,
  12 <= b < 2 ^ 32 -> wf_uint e -> uprec e <= prec_for (b / 2) + key_prec b ->
  key_prec b <= 4096 -> Z.odd (uval e) = true -> 2 <= uval e < 9 * 2 ^ (b - 4) ->
  uval e <= 2 ^ 33 - 1 ->
  (exists k, private_new_with_exp gp fuel st b e = Ok k /\
     exists j p q, (j < fuel)%nat /\ fit_at gp b (uval e) st j p q /\ sk_primes k = [p; q]) \/
  (private_new_with_exp gp fuel st b e = OutOfFuel /\ unfit_for gp b (uval e) st fuel).
Proof. exact @c30_terminates. Qed.

(** All other sizes are refused, those from 12 bits on only after the primes are drawn. *)
Theorem C30_refused_sizes : forall {R} (gp : prime_gen R) b, prime_source gp b ->
  forall fuel st, 0 <= b < 2 ^ 32 ->
  (b < 12 -> private_new gp fuel st b = Err TooFewPrimes) /\
  (12 <= b < 17 -> private_new gp fuel st b = Err InvalidModulus \/ private_new gp fuel st b = OutOfFuel) /\
  (4096 < b -> private_new gp fuel st b = Err ModulusTooLarge \/ private_new gp fuel st b = OutOfFuel).
Proof. exact @c30_new_refused. Qed.

(** Any number of primes (the internal entry point). *)
Theorem C30_multi_prime : forall {R} (gp : prime_gen R), returns_primes gp ->
  forall fuel st k b e c, wf_uint e ->
  generate_multi_prime_key_with_exp gp fuel st k b e = Ok c ->
  length (kc_primes c) = k /\ (2 <= k)%nat /\ Forall wf_uint (kc_primes c) /\
  Forall prime (map uval (kc_primes c)) /\ NoDup (map uval (kc_primes c)) /\
  uval (kc_n c) = product (map uval (kc_primes c)) /\ zbits (uval (kc_n c)) = b /\
  kc_e c = e /\ 0 < uval (kc_d c) < totient (map uval (kc_primes c)) /\
  (uval e * uval (kc_d c)) mod totient (map uval (kc_primes c)) = 1.
Proof. exact @c30_multi. Qed.

(** The first pair of [toy_source] (two equal primes) is skipped; the second gives the key. *)
Example C30_case : prime_source toy_source 64 /\ wf_uint (u_of_u64 EXP) /\
  private_new toy_source 1 0%nat 64 = OutOfFuel /\
  exists k, private_new toy_source 2 0%nat 64 = Ok k /\ sk_primes k = [p64; q64] /\
    uval (pk_n (sk_pub k)) = uval n64 /\ uprec (pk_n (sk_pub k)) = 128.
Proof.
  split; [exact toy_source_64|]. split; [exact wf_exp|]. split; [vm_compute; reflexivity|].
  eexists. split; [vm_compute; reflexivity|]. split; [|split]; vm_compute; reflexivity.
Qed.

Definition three_source : prime_gen nat := fun st bits =>
  (match st with O => mkU 113 64 | 1%nat => mkU 109 64 | _ => mkU 127 64 end, S st).

Example C30_multi_case : returns_primes three_source /\
  exists c, generate_multi_prime_key_with_exp three_source 1 0%nat 3 21 (mkU 5 64) = Ok c /\
  uval (kc_n c) = 1564259 /\ uval (kc_d c) = 1219277.
Proof.
  split.
  - intros st bits _. unfold three_source. cbn [fst].
    assert (P : prime 113 /\ prime 109 /\ prime 127).
    { split; [|split]; apply (prime_trial _ 20); try reflexivity; vm_compute; reflexivity. }
    destruct st as [|[|st]]; cbn [uval]; (split; [|split; [apply P|vm_compute; congruence]]);
      (split; [vm_compute; split; congruence|split; [vm_compute; congruence|reflexivity]]).
  - eexists. split; [vm_compute; reflexivity|].
    split; vm_compute; reflexivity.
Qed.

(** ** C31: key generation with an even exponent never returns *)

Theorem C31_even_exponent_never_returns : forall {R} (gp : prime_gen R) b, prime_source gp b ->
  forall fuel st e, 12 <= b < 2 ^ 32 -> wf_uint e ->
  uprec e <= prec_for (b / 2) + key_prec b -> Z.even (uval e) = true ->
  private_new_with_exp gp fuel st b e = OutOfFuel.
Proof. exact @c31_even. Qed.

(** Exactly the runs in which no fit pair is ever drawn do not return. *)
Theorem C31_stuck : forall {R} (gp : prime_gen R) b, prime_source gp b ->
  forall fuel st e, 12 <= b < 2 ^ 32 -> wf_uint e ->
  uprec e <= prec_for (b / 2) + key_prec b ->
  (private_new_with_exp gp fuel st b e = OutOfFuel <-> unfit_for gp b (uval e) st fuel).
Proof. exact @c31_stuck. Qed.

Example C31_case : prime_source toy_source 64 /\ wf_uint (mkU 65536 64) /\
  uprec (mkU 65536 64) <= prec_for (64 / 2) + key_prec 64 /\
  private_new_with_exp toy_source 5 0%nat 64 (mkU 65536 64) = OutOfFuel.
Proof.
  split; [exact toy_source_64|]. split; [|split; [vm_compute; congruence|vm_compute; reflexivity]].
  split; [vm_compute; split; congruence|split; [vm_compute; congruence|reflexivity]].
Qed.

(** ** C32: too-small key sizes are refused up front *)

Theorem C32_boundary : forall {R} (gp : prime_gen R) fuel st b e, 0 <= b ->
  (private_new_with_exp gp fuel st b e = Err TooFewPrimes <-> b < 12).
Proof. exact @c32_boundary. Qed.

(** No prime is drawn: the answer is the same with no fuel and any generator. *)
Theorem C32_up_front : forall {R} (gp : prime_gen R) fuel st b e, 0 <= b < 12 ->
  private_new_with_exp gp fuel st b e = Err TooFewPrimes.
Proof. exact @c32_small. Qed.

(** Every number of primes: the only two errors and exactly when each occurs. *)
Theorem C32_errors : forall {R} (gp : prime_gen R) fuel st k b e err, 0 <= b ->
  (generate_multi_prime_key_with_exp gp fuel st k b e = Err err <->
   (k < 2)%nat /\ err = NprimesTooSmall \/
   (2 <= k)%nat /\ b < min_bits (Z.of_nat k) /\ err = TooFewPrimes).
Proof. exact @c32_errors. Qed.

Example C32_case :
  private_new_with_exp toy_source 0 0%nat 11 (u_of_u64 EXP) = Err TooFewPrimes /\
  private_new_with_exp toy_source 0 0%nat 12 (u_of_u64 EXP) = OutOfFuel /\
  generate_multi_prime_key_with_exp toy_source 0 0%nat 7 55 (u_of_u64 EXP) = Err TooFewPrimes /\
  generate_multi_prime_key_with_exp toy_source 0 0%nat 7 56 (u_of_u64 EXP) = OutOfFuel /\
  generate_multi_prime_key_with_exp toy_source 0 0%nat 1 64 (u_of_u64 EXP) = Err NprimesTooSmall.
Proof. split; [|split; [|split; [|split]]]; vm_compute; reflexivity. Qed.

(** ** C49: generated keys whose own signatures are rejected *)

Theorem C49_generated_width : forall {R} (gp : prime_gen R) b, prime_source gp b ->
  forall fuel st e k, 0 <= b < 2 ^ 32 -> wf_uint e ->
  private_new_with_exp gp fuel st b e = Ok k ->
  (stored_minimally (pk_n (sk_pub k)) <-> ~ 2 <= b mod 128 <= 64).
Proof. exact @c49_minimal. Qed.

Theorem C49_generated_signatures : forall {R} (gp : prime_gen R) {Q} (g : rng_ops Q)
    gfuel st b e k fuel rng s hashed,
  prime_source gp b -> 0 <= b < 2 ^ 32 -> wf_uint e ->
  private_new_with_exp gp gfuel st b e = Ok k ->
  (rng <> None -> rng_ok g) -> hash_len_ok s hashed ->
  8 * (Z.of_nat (length (p1_prefix s ++ hashed)) + 11) <= b ->
  blinding_succeeds g (uval (pk_n (sk_pub k))) rng fuel ->
  exists sig, scheme_sign g fuel rng k (SigPkcs1v15 s) hashed = Ok sig /\
    (public_verify (sk_pub k) (SigPkcs1v15 s) hashed sig = Ok tt <-> ~ 2 <= b mod 128 <= 64).
Proof. exact @c49_signatures. Qed.

Lemma private_new_eq {R} (gp : prime_gen R) fuel st b :
  private_new gp fuel st b = private_new_with_exp gp fuel st b (u_of_u64 EXP).
Proof. reflexivity. Qed.
Lemma private_sign_eq {R} (g : rng_ops R) fuel k s h :
  private_sign g fuel k s h = scheme_sign g fuel None k s h.
Proof. reflexivity. Qed.

(** A generated 160-bit key signs a message and then rejects the signature. *)
Theorem C49_generated_key_verifies_refuted : exists k sig,
  prime_source toy_source 160 /\ private_new toy_source 1 0%nat 160 = Ok k /\
  private_sign dead_rng 0 k (SigPkcs1v15 (mkP1S None [])) [x41] = Ok sig /\
  public_verify (sk_pub k) (SigPkcs1v15 (mkP1S None [])) [x41] sig <> Ok tt.
Proof.
  destruct (C30_default_exponent toy_source 160 toy_source_160 1 0%nat) as [(k & E & _)|(E & U)].
  - lia.
  - rewrite private_new_eq in E.
    assert (B0 : 0 <= 160 < 2 ^ 32) by (clear; lia).
    assert (N0 : forall x : option unit, x = None -> x <> None -> rng_ok dead_rng)
      by (intros x X Y; contradiction).
    assert (L0 : 8 * (Z.of_nat (length (p1_prefix (mkP1S None []) ++ [x41])) + 11) <= 160)
      by (vm_compute; congruence).
    destruct (c49_signatures toy_source dead_rng 1 0%nat 160 (u_of_u64 EXP) k 0 None (mkP1S None []) [x41]
      toy_source_160 B0 wf_exp E (N0 None eq_refl) I L0 I) as (sig & A & B).
    + exists k, sig. split; [exact toy_source_160|]. rewrite private_new_eq, private_sign_eq.
      split; [exact E|]. split; [exact A|].
      intros V. apply B in V. apply V. vm_compute. split; congruence.
  - exfalso. inversion U as [|st f NF _]. apply NF. split; [vm_compute; congruence|vm_compute; reflexivity].
Qed.

(** The two kinds of sizes: 64 bits (one wide limb too many) and 128 bits. *)
Example C49_case :
  (exists k, private_new toy_source 2 0%nat 64 = Ok k /\ ~ stored_minimally (pk_n (sk_pub k))) /\
  2 <= 64 mod 128 <= 64 /\ 2 <= 160 mod 128 <= 64 /\ ~ 2 <= 2048 mod 128 <= 64 /\ ~ 2 <= 3072 mod 128 <= 64.
Proof.
  split.
  - destruct C30_case as (_ & _ & _ & k & E & _ & _ & P). exists k. split; [exact E|].
    rewrite (C49_generated_width toy_source 64 toy_source_64 2 0%nat (u_of_u64 EXP) k); [lia|lia|exact wf_exp|].
    rewrite <- private_new_eq. exact E.
  - cbv - [Z.le]; lia.
Qed.

Print Assumptions C30_generated_keys_are_valid.
Print Assumptions C30_default_exponent.
Print Assumptions C30_any_exponent.
Print Assumptions C30_refused_sizes.
Print Assumptions C30_multi_prime.
Print Assumptions C31_even_exponent_never_returns.
Print Assumptions C31_stuck.
Print Assumptions C32_boundary.
Print Assumptions C32_up_front.
Print Assumptions C32_errors.
Print Assumptions C49_generated_width.
Print Assumptions C49_generated_signatures.
Print Assumptions C49_generated_key_verifies_refuted.
