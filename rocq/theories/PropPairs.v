(** C86: how key generation picks the primes. *)
From Coq Require Import ZArith Znumtheory List Bool Lia.
From Verif Require Import Base Bigint SpecRFC SpecGen SpecDraws SpecPairs MRsa MGenerate MKey PGenerate PPairs KeyExamples.
Import ListNotations.
Local Open Scope Z_scope.

(** * C86: no generated key is favoured *)

(** [primes] lists the primes the source may draw for each bit length; each sequence of [f]
    pairs of draws is counted once. *)
Section Statement.
  Context (primes : Z -> list uint) (b : Z) (e : uint).

  Definition accepted_size : Prop :=
    12 <= b < 2 ^ 32 /\ wf_uint e /\ uprec e <= prec_for (b / 2) + key_prec b /\ key_prec b <= 4096 /\
    Z.odd (uval e) = true /\ 2 <= uval e < 9 * 2 ^ (b - 4) /\ uval e <= 2 ^ 33 - 1.

  Definition draws (f : nat) : list (list nat) :=
    all_choices (length (primes (b / 2))) (length (primes (b - b / 2))) f.

  Definition generate (f : nat) (s : list nat) : outcome privkey :=
    private_new_with_exp (chosen primes) f s b e.

  Definition all_pairs : Z := Z.of_nat (length (prime_pairs primes b)).
  Definition useless_pairs : Z := Z.of_nat (length (unfit_pairs primes b (uval e))).
End Statement.

(** Every sequence ends with the key of a fit pair, or all its pairs are unfit. *)
Theorem C86_ends : forall primes b e f s, prime_lists primes b -> accepted_size b e ->
  In s (draws primes b f) ->
  (exists k x y, generate primes b e f s = Ok k /\ map uval (sk_primes k) = [x; y] /\
     In (x, y) (prime_pairs primes b) /\ unfit (uval e) (x, y) = false) \/
  generate primes b e f s = OutOfFuel.
Proof. intros primes b e f s HL (A1 & A2 & A3 & A4 & A5 & A6 & A7). apply run_ends; auto. Qed.

(** How many of them are still drawing after [f] pairs. *)
Theorem C86_still_drawing : forall primes b e f, prime_lists primes b -> accepted_size b e ->
  Z.of_nat (length (draws primes b f)) = all_pairs primes b ^ Z.of_nat f /\
  Z.of_nat (unfinished (generate primes b e f) (draws primes b f)) = useless_pairs primes b e ^ Z.of_nat f.
Proof.
  intros primes b e f HL (A1 & A2 & A3 & A4 & A5 & A6 & A7). split; [|apply run_unfinished; auto].
  unfold draws, all_pairs. rewrite choices_words, map_length, words_length, pairs_length, Nat2Z.inj_pow. reflexivity.
Qed.

(** Every fit pair is returned by the same number of them, every other pair by none. *)
Theorem C86_equal_shares : forall primes b e f, prime_lists primes b -> accepted_size b e ->
  (forall x y, In (x, y) (prime_pairs primes b) -> unfit (uval e) (x, y) = false ->
   (all_pairs primes b - useless_pairs primes b e) *
   Z.of_nat (yielding (generate primes b e f) x y (draws primes b f)) =
   all_pairs primes b ^ Z.of_nat f - useless_pairs primes b e ^ Z.of_nat f) /\
  (forall x y, ~ (In (x, y) (prime_pairs primes b) /\ unfit (uval e) (x, y) = false) ->
   yielding (generate primes b e f) x y (draws primes b f) = 0%nat).
Proof.
  intros primes b e f HL (A1 & A2 & A3 & A4 & A5 & A6 & A7). split; intros x y.
  - apply run_fit; auto.
  - apply run_other; auto.
Qed.

(** The primes determine the key, whatever the source. *)
Theorem C86_primes_determine : forall {R R'} (gp : prime_gen R) (gp' : prime_gen R') b f f' st st' e k k',
  prime_source gp b -> prime_source gp' b -> 0 <= b < 2 ^ 32 -> wf_uint e ->
  private_new_with_exp gp f st b e = Ok k -> private_new_with_exp gp' f' st' b e = Ok k' ->
  map uval (sk_primes k) = map uval (sk_primes k') -> priv_eqb k k' = true.
Proof. intros R R'. exact primes_determine. Qed.

(** How many pairs are fit, when the exponent is prime: the primes [p] with [p - 1] not a
    multiple of it, paired with a different one. *)
Theorem C86_fit_pairs : forall primes b e, prime_lists primes b -> 4 <= b -> prime (uval e) ->
  let good bits := length (filter (suits (uval e)) (map uval (primes bits))) in
  all_pairs primes b - useless_pairs primes b e =
  if Z.even b then Z.of_nat (good (b / 2)) * Z.of_nat (good (b / 2) - 1)
  else Z.of_nat (good (b / 2)) * Z.of_nat (good (b - b / 2)).
Proof. intros primes b e. apply fit_count. Qed.

(** The default exponent is such a prime and its sizes are accepted from 17 to 4096 bits. *)
Theorem C86_default_exponent : prime (uval (u_of_u64 EXP)) /\
  (forall b, 17 <= b <= 4096 -> accepted_size b (u_of_u64 EXP)) /\
  (forall {R} (gp : prime_gen R) f st b,
     private_new gp f st b = private_new_with_exp gp f st b (u_of_u64 EXP)).
Proof.
  split; [cbn [uval u_of_u64]; unfold EXP; by_trial|]. split; [|reflexivity].
  intros b H. split; [lia|]. split; [exact wf_exp|]. split; [cbn [uprec u_of_u64]; apply exp_fits|].
  split; [apply key_prec_max; lia|]. split; [reflexivity|]. cbn [uval u_of_u64]. unfold EXP. split; [|lia].
  assert (2 ^ 13 <= 2 ^ (b - 4)) by (apply Z.pow_le_mono_r; lia). change (2 ^ 13) with 8192 in *. lia.
Qed.

(** Three 10-bit primes, exponent 3: 787 is never used, and of the 81 sequences of two pairs
    16 give 773 and 797; of the 9 pairs 7 are unfit. *)
Definition some_primes (bits : Z) : list uint := [mkU 773 64; mkU 787 64; mkU 797 64].

Example C86_case : prime_lists some_primes 20 /\ accepted_size 20 (u_of_u64 3) /\
  length (draws some_primes 20 2) = 81%nat /\
  yielding (generate some_primes 20 (u_of_u64 3) 2) 773 797 (draws some_primes 20 2) = 16%nat /\
  yielding (generate some_primes 20 (u_of_u64 3) 1) 773 787 (draws some_primes 20 1) = 0%nat /\
  unfinished (generate some_primes 20 (u_of_u64 3) 1) (draws some_primes 20 1) = 7%nat.
Proof.
  split.
  { intros bits H. assert (bits = 10) as -> by (destruct H; subst; reflexivity).
    split; [discriminate|]. split.
    - repeat constructor; cbn; intuition discriminate.
    - repeat (apply Forall_cons; [split; [cbn [uval]; by_trial|split; [vm_compute; split; congruence|reflexivity]]|]).
      apply Forall_nil. }
  split. { unfold accepted_size. repeat split; vm_compute; congruence. }
  split; [vm_compute; reflexivity|].
  split; [vm_compute; reflexivity|]. split; vm_compute; reflexivity.
Qed.

Print Assumptions C86_ends.
Print Assumptions C86_still_drawing.
Print Assumptions C86_equal_shares.
Print Assumptions C86_primes_determine.
Print Assumptions C86_fit_pairs.
Print Assumptions C86_default_exponent.
