(** Lemmas for PropShared.v: keys that share a modulus or a prime. *)
From Coq Require Import ZArith List Bool Lia Znumtheory Zpow_facts.
From Coq Require Import Init.Byte.
From Verif Require Import Base Bigint BytesLemmas NumTheory SpecRFC SpecRng SpecKey BigintLemmas MHash MRsa MGenerate MKey MApi
  KeyDefs.
From Verif Require Import PRsa PKey PDraws PropKey.
Import ListNotations.
Local Open Scope Z_scope.

(** e is invertible modulo (p - 1) and (q - 1), hence modulo their least common multiple. *)
Lemma unit_of_inverse e d m : 0 < m -> (e * d) mod m = 1 mod m -> Z.gcd e m = 1.
Proof.
  intros M H. apply Zgcd_1_rel_prime. apply bezout_rel_prime.
  assert (D : (m | e * d - 1)).
  { apply Z.mod_divide; [lia|]. rewrite Zminus_mod, H, <- Zminus_mod. rewrite Z.sub_diag. apply Zmod_0_l. }
  destruct D as (k & D). apply (Bezout_intro e m 1 d (- k)). lia.
Qed.

Lemma gcd_lcm_1 e a b : 0 < a -> 0 < b -> Z.gcd e a = 1 -> Z.gcd e b = 1 -> Z.gcd e (Z.lcm a b) = 1.
Proof.
  intros A B Ha Hb. apply Zgcd_1_rel_prime in Ha, Hb. apply Zgcd_1_rel_prime.
  pose proof (rel_prime_mult e a b Ha Hb) as H.
  apply rel_prime_sym in H. apply rel_prime_sym. apply (rel_prime_div (a * b)); [exact H|].
  apply Z.lcm_least; [exists b; ring|exists a; ring].
Qed.

Section G.
  Context {R : Type} (g : rng_ops R).

  (** A good key reads what is encrypted to its numbers. *)
  Lemma good_reads fuel rng k m : (rng <> None -> rng_ok g) -> good_priv k ->
    0 <= m < uval (pk_n (sk_pub k)) -> blinding_succeeds g (uval (pk_n (sk_pub k))) rng fuel ->
    rsa_decrypt_and_check g fuel k rng
      (mkU (RSAEP (uval (pk_n (sk_pub k))) (uval (pk_e (sk_pub k))) m) (uprec (pk_n (sk_pub k))))
    = Ok (mkU m (uprec (pk_n (sk_pub k)))).
  Proof.
    intros Hg G Hm S. pose proof G as (((N & P1 & P2) & _) & _ & _ & V & _). pose proof (good_gt1 k G).
    assert (B : 0 <= RSAEP (uval (pk_n (sk_pub k))) (uval (pk_e (sk_pub k))) m < uval (pk_n (sk_pub k)))
      by (apply Z.mod_pos_bound; lia).
    destruct (rsa_decrypt_and_check_good g fuel rng k
      (mkU (RSAEP (uval (pk_n (sk_pub k))) (uval (pk_e (sk_pub k))) m) (uprec (pk_n (sk_pub k)))))
      as (A & _); auto.
    - apply wf_mk; auto. lia.
    - cbn [uval]. lia.
    - rewrite (A S). cbn [uval]. erewrite rsa_dec_enc; eauto.
  Qed.
End G.

(** The exponent of a good key is invertible modulo p - 1 for each prime p dividing its modulus. *)
Lemma unit_at k u : good_priv k -> prime u -> (u | uval (pk_n (sk_pub k))) ->
  3 <= u /\ Z.gcd (uval (pk_e (sk_pub k))) (u - 1) = 1.
Proof.
  intros ((_ & _ & _ & O) & _ & _ & (_ & F & _ & N & _ & _ & C) & _) P D.
  pose proof (prime_ge_2 _ P) as P2.
  assert (U3 : 3 <= u).
  { destruct (Z.eq_dec u 2) as [->|]; [|lia]. destruct D as (t & D). rewrite D, Z.odd_mul in O.
    rewrite andb_false_r in O. discriminate. }
  split; [exact U3|].
  assert (I : In u (map uval (sk_primes k))).
  { destruct (sharing_factor _ u F) as (p & I & Dp).
    - rewrite <- N. intros G. apply Zgcd_1_rel_prime in G. destruct G as [_ _ G].
      specialize (G u (Z.divide_refl u) D). apply Z.divide_1_r_nonneg in G; lia.
    - rewrite Forall_forall in F. apply prime_div_prime in Dp; auto. rewrite <- Dp. exact I. }
  eapply unit_of_inverse; [lia|exact (C u I)].
Qed.

(** From two primes whose product is the modulus of a good key, and its exponent, [from_p_q]
    makes a good key with these numbers. *)
Lemma rebuild k u v e : good_priv k -> wf_uint u -> wf_uint v -> prime (uval u) -> prime (uval v) ->
  uval u <> uval v -> uval u * uval v = uval (pk_n (sk_pub k)) ->
  wf_uint e -> uval e = uval (pk_e (sk_pub k)) -> uprec e <= uprec u + uprec v ->
  public_usable (uval (pk_n (sk_pub k))) (uval e) (uprec u + uprec v) ->
  exists k', from_p_q u v e = Ok k' /\ good_priv k' /\
    uval (pk_n (sk_pub k')) = uval (pk_n (sk_pub k)) /\ pk_e (sk_pub k') = e /\
    uprec (pk_n (sk_pub k')) = uprec u + uprec v.
Proof.
  intros G Wu Wv P Q NE N We Ee L U.
  destruct (unit_at k (uval u) G P) as (U3 & Gu); [exists (uval v); lia|].
  destruct (unit_at k (uval v) G Q) as (V3 & Gv); [exists (uval u); lia|].
  destruct (proj2 (C29_pq_exact u v e Wu Wv We L)) as (k' & E').
  { rewrite N, Ee. split; [exact NE|]. split; [exact U3|]. split; [exact V3|].
    split; [apply gcd_lcm_1; auto; lia|]. rewrite <- Ee. exact U. }
  exists k'. split; [exact E'|].
  destruct (C29_pq_result u v e k' Wu Wv We E') as (R1 & R2 & R3 & _ & _ & _ & _ & _ & R4).
  destruct (R4 P Q) as (G' & _). split; [exact G'|]. split; [lia|]. auto.
Qed.

(** A proper divisor of a product of two primes is one of them. *)
Lemma proper_divisor p q d : prime p -> prime q -> (d | p * q) -> 1 < d < p * q -> d = p \/ d = q.
Proof.
  intros P Q D B. pose proof (prime_ge_2 _ P). pose proof (prime_ge_2 _ Q).
  destruct (Zdivide_dec p d) as [X|X].
  - left. destruct X as (h & X). rewrite X, Z.mul_comm in D.
    assert (D2 : (h | q)).
    { destruct D as (t & D). exists t. apply (Z.mul_reg_l _ _ p); [lia|]. rewrite D. ring. }
    assert (H1 : 1 <= h) by (clear - X B H; destruct (Z.le_gt_cases 1 h); [assumption|exfalso; nia]).
    destruct (prime_divisors q Q h D2) as [E|[E|[E|E]]]; try lia.
  - right. assert (RP : rel_prime d p) by (apply rel_prime_sym; apply prime_rel_prime; auto).
    apply Gauss in D; [|exact RP]. destruct (prime_divisors q Q d D) as [E|[E|[E|E]]]; lia.
Qed.

(** Exponents without a common factor. *)
Lemma bezout_pos e1 e2 : 0 < e1 -> 0 < e2 -> Z.gcd e1 e2 = 1 ->
  exists a b, 0 <= a /\ 0 <= b /\ a * e1 = 1 + b * e2.
Proof.
  intros P1 P2 H. apply Zgcd_1_rel_prime in H. apply rel_prime_bezout in H. destruct H as [u v E].
  pose proof (Z.mod_pos_bound u e2 P2) as B. pose proof (Z.div_mod u e2 ltac:(lia)) as D.
  remember (u mod e2 + e2) as a eqn:Ha. remember (e1 - v - u / e2 * e1) as b eqn:Hb.
  assert (Q : a * e1 = 1 + b * e2).
  { subst a b. replace (u mod e2) with (u - e2 * (u / e2)) by lia. ring_simplify.
    replace (u * e1) with (1 - v * e2) by lia. ring. }
  exists a, b. split; [lia|]. split; [|exact Q]. clear E D Hb.
  assert (A1 : 1 <= a) by lia. clear Ha B.
  destruct (Z.lt_ge_cases b 0) as [N|]; [exfalso|assumption].
  assert (1 <= a * e1) by nia. assert (b * e2 < 0) by (apply Z.mul_neg_pos; lia). lia.
Qed.

Lemma common_modulus n e1 e2 a b m x : 1 < n -> 0 < e1 -> 0 < e2 -> 0 <= a -> 0 <= b -> a * e1 = 1 + b * e2 ->
  0 <= m < n -> Z.gcd m n = 1 -> 0 <= x < n ->
  ((x * RSAEP n e2 m ^ b) mod n = RSAEP n e1 m ^ a mod n <-> x = m).
Proof.
  intros N E1 E2 A B H M G X. unfold RSAEP.
  assert (EB : 0 <= e2 * b) by (apply Z.mul_nonneg_nonneg; lia).
  assert (L : (x * (m ^ e2 mod n) ^ b) mod n = (x * m ^ (e2 * b)) mod n).
  { rewrite Zmult_mod, pow_mod_base by lia. rewrite <- Z.pow_mul_r by lia. rewrite <- Zmult_mod. reflexivity. }
  assert (R : (m ^ e1 mod n) ^ a mod n = (m * m ^ (e2 * b)) mod n).
  { rewrite pow_mod_base by lia. rewrite <- Z.pow_mul_r by lia. f_equal.
    replace (e1 * a) with (Z.succ (e2 * b)) by lia. apply Z.pow_succ_r. exact EB. }
  rewrite L, R. split; [|intros ->; reflexivity]. intros E.
  assert (D : (n | (x - m) * m ^ (e2 * b))).
  { apply Z.mod_divide; [lia|]. rewrite Z.mul_sub_distr_r, Zminus_mod, E, <- Zminus_mod, Z.sub_diag. apply Zmod_0_l. }
  assert (C : Z.gcd n (m ^ (e2 * b)) = 1).
  { apply Zgcd_1_rel_prime. apply rel_prime_Zpower_r; [exact EB|]. apply Zgcd_1_rel_prime. rewrite Z.gcd_comm. exact G. }
  rewrite Z.mul_comm in D. apply Z.gauss in D; [|exact C].
  destruct D as (t & D). clear - D M X N.
  destruct (Z.lt_trichotomy t 0) as [T|[->|T]]; [|lia|]; exfalso.
  - pose proof (Z.mul_le_mono_nonneg_r t (-1) n ltac:(lia) ltac:(lia)). lia.
  - pose proof (Z.mul_le_mono_nonneg_r 1 t n ltac:(lia) ltac:(lia)). lia.
Qed.

Lemma in_divides_product r ps : In r ps -> (r | product ps).
Proof.
  induction ps as [|p ps IH]; [contradiction|]. intros [->|I].
  - exists (product ps). cbn [product fold_right]. apply Z.mul_comm.
  - change (product (p :: ps)) with (p * product ps). apply Z.divide_mul_r. auto.
Qed.
