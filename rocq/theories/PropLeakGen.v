(** What an observer can tell of generating a key: C99.  [gp] is the prime generator of the
    dependency, [shows] whatever its search shows (MLeakGen.v). *)
From Coq Require Import ZArith List Bool Lia.
From Coq Require Import Init.Byte.
From Verif Require Import Base Bigint SpecRFC SpecKey SpecGen SpecTries MHash MRsa MGenerate MKey MApi
  MLeak MLeakKey MLeakGen KeyDefs PLeakGen KeyExamples PropGen.
Import ListNotations.
Local Open Scope Z_scope.

(** The traced generation is the generation. *)
Theorem C99_same_program : forall {R} (gp : prime_gen R) shows fuel st b e,
  (forall k, result (l_generate gp shows fuel st k b e) = generate_multi_prime_key_with_exp gp fuel st k b e) /\
  result (l_private_new_with_exp gp shows fuel st b e) = private_new_with_exp gp fuel st b e /\
  result (l_private_new gp shows fuel st b) = private_new gp fuel st b.
Proof.
  intros. split; [intros; apply rf_gen|]. split; [apply rf_new_exp|]. apply rf_new_exp.
Qed.

(** Whatever the search for primes shows, the primes of the key can be read off the run. *)
Theorem C99_reveals_primes : exists read : list event -> list Z,
  forall (R : Type) (gp : prime_gen R) shows b e fuel st k, prime_source gp b -> 0 <= b < 2 ^ 32 -> wf_uint e ->
  private_new_with_exp gp fuel st b e = Ok k ->
  read (trace (l_private_new_with_exp gp shows fuel st b e)) = map uval (sk_primes k).
Proof. exists read_last. intros R gp shows b e fuel st k. apply new_reads. Qed.

(** That is not the search's doing.  If looking for a prime shows nothing, choosing the primes and
    computing the private exponent show, for each pair that was drawn, whether it was dropped for
    being equal, dropped for the exponent or kept, and nothing else. *)
Theorem C99_search : forall {R R'} (gp : prime_gen R) (gp' : prime_gen R') b e,
  prime_source gp b -> prime_source gp' b -> 12 <= b < 2 ^ 32 -> wf_uint e ->
  uprec e <= prec_for (b / 2) + key_prec b -> forall fuel fuel' st st',
  trace (l_generate gp (fun _ _ => []) fuel st 2 b e) = trace (l_generate gp' (fun _ _ => []) fuel' st' 2 b e) <->
  verdicts gp b (uval e) fuel st = verdicts gp' b (uval e) fuel' st'.
Proof. intros R R' gp gp'. exact (gen_iff gp gp'). Qed.

(** The whole call shows that and the primes. *)
Theorem C99_new : forall {R R'} (gp : prime_gen R) (gp' : prime_gen R') b e fuel fuel' st st' k k',
  prime_source gp b -> prime_source gp' b -> 0 <= b < 2 ^ 32 -> wf_uint e ->
  private_new_with_exp gp fuel st b e = Ok k -> private_new_with_exp gp' fuel' st' b e = Ok k' ->
  (trace (l_private_new_with_exp gp (fun _ _ => []) fuel st b e) =
   trace (l_private_new_with_exp gp' (fun _ _ => []) fuel' st' b e) <->
   verdicts gp b (uval e) fuel st = verdicts gp' b (uval e) fuel' st' /\
   map uval (sk_primes k) = map uval (sk_primes k')).
Proof. intros R R' gp gp'. exact (new_iff gp gp'). Qed.

(** So generating a key is not oblivious: two runs of the same length, with the same modulus. *)
Definition swapped : prime_gen nat := fun st bits => (if Nat.even st then q64 else p64, S st).

Theorem C99_oblivious_refuted : exists (gp gp' : prime_gen nat) st st' b fuel k k',
  prime_source gp b /\ prime_source gp' b /\
  private_new gp fuel st b = Ok k /\ private_new gp' fuel st' b = Ok k' /\ sk_pub k = sk_pub k' /\
  verdicts gp b EXP fuel st = verdicts gp' b EXP fuel st' /\
  trace (l_private_new gp (fun _ _ => []) fuel st b) <> trace (l_private_new gp' (fun _ _ => []) fuel st' b).
Proof.
  exists toy_source, swapped, 2%nat, 0%nat, 64, 1%nat. do 2 eexists.
  split; [exact toy_source_64|]. split.
  { intros st bits H _. assert (bits = 32) by (destruct H; subst; reflexivity). subst bits. clear H.
    unfold swapped. cbn [fst].
    destruct (Nat.even st);
      (split; [first [exact prime_p64|exact prime_q64]|split; [vm_compute; split; congruence|reflexivity]]). }
  split; [vm_compute; reflexivity|]. split; [vm_compute; reflexivity|]. split; [vm_compute; reflexivity|].
  split; [vm_compute; reflexivity|]. vm_compute. discriminate.
Qed.

(** Runs that are told apart by the tries, and runs that are not. *)
Example C99_case :
  prime_source toy_source 64 /\ wf_uint (u_of_u64 EXP) /\ uprec (u_of_u64 EXP) <= prec_for (64 / 2) + key_prec 64 /\
  verdicts toy_source 64 EXP 5 0%nat = [Equal; Kept] /\ verdicts toy_source 64 EXP 5 2%nat = [Kept] /\
  verdicts toy_source 64 EXP 5 4%nat = [Kept] /\ verdicts toy_source 64 6 2 0%nat = [Equal; NoInverse] /\
  is_ok (private_new toy_source 5 0%nat 64) = true /\ is_ok (private_new toy_source 5 2%nat 64) = true /\
  length (trace (l_generate toy_source (fun _ _ => []) 5 0%nat 2 64 (u_of_u64 EXP))) = 31%nat /\
  read_last (trace (l_private_new toy_source (fun _ _ => []) 5 0%nat 64)) = [uval p64; uval q64].
Proof.
  split; [exact toy_source_64|]. split; [split; [split; [discriminate|reflexivity]|split; [discriminate|reflexivity]]|].
  split; [vm_compute; discriminate|]. repeat (split; [vm_compute; reflexivity|]). vm_compute. reflexivity.
Qed.

Print Assumptions C99_same_program.
Print Assumptions C99_reveals_primes.
Print Assumptions C99_search.
Print Assumptions C99_new.
Print Assumptions C99_oblivious_refuted.
