(** Proofs for PropWeak.v: a working exponent splits the modulus for half of all bases. *)
From Coq Require Import ZArith List Bool Lia Znumtheory Zpow_facts.
From Verif Require Import Base Bigint NumTheory SpecRFC SpecWeak BigintLemmas PRsa PWeak.
Import ListNotations.
Local Open Scope Z_scope.

Lemma two_adic m : 0 < m -> exists t s, 0 <= s /\ m = 2 ^ Z.of_nat t * (2 * s + 1).
Proof.
  intros M. assert (G : forall b m, 0 < m -> m < 2 ^ Z.of_nat b -> exists t s, 0 <= s /\ m = 2 ^ Z.of_nat t * (2 * s + 1)).
  { clear. induction b as [|b IH]; intros m M B; [change (2 ^ Z.of_nat 0) with 1 in B; lia|].
    rewrite Nat2Z.inj_succ, Z.pow_succ_r in B by lia.
    destruct (Z.Even_or_Odd m) as [(h & H)|(h & H)].
    - destruct (IH h ltac:(lia) ltac:(lia)) as (t & s & S0 & E). exists (S t), s. split; [exact S0|].
      rewrite Nat2Z.inj_succ, Z.pow_succ_r by lia. rewrite H, E. ring.
    - exists 0%nat, h. split; [lia|]. rewrite H. change (2 ^ Z.of_nat 0) with 1. ring. }
  apply (G (S (Z.to_nat (Z.log2 m)))); [exact M|]. rewrite Nat2Z.inj_succ, Z2Nat.id by apply Z.log2_nonneg.
  apply Z.log2_spec. exact M.
Qed.

(** Square roots of one modulo an odd prime. *)
Lemma root_of_one p z : prime p -> (z * z) mod p = 1 -> z mod p = 1 \/ z mod p = p - 1.
Proof.
  intros P H. pose proof (prime_ge_2 p P) as P2.
  assert (D : (p | (z - 1) * (z + 1))).
  { replace ((z - 1) * (z + 1)) with (z * z - 1) by ring. apply divide_mod_eq; [lia|].
    rewrite H. symmetry. apply Z.mod_small. lia. }
  apply prime_mult in D; [|exact P]. destruct D as [D|D].
  - left. apply divide_mod_eq in D; [|lia]. rewrite D. apply Z.mod_small. lia.
  - right. replace (z + 1) with (z - (-1)) in D by ring. apply divide_mod_eq in D; [|lia]. rewrite D.
    replace (-1) with (p - 1 + (-1) * p) by ring. rewrite Z_mod_plus_full. apply Z.mod_small. lia.
Qed.

Section Flip.
  Context (p s : Z) (P : prime p) (P2 : 2 < p) (S0 : 0 <= s).
  Definition e (j : nat) : Z := 2 ^ Z.of_nat j * (2 * s + 1).
  Definition one_at (x : Z) (j : nat) : bool := x ^ e j mod p =? 1.

  Lemma e_pos j : 0 < e j.
  Proof. unfold e. apply Z.mul_pos_pos; [apply Z.pow_pos_nonneg; lia|lia]. Qed.

  Lemma e_S j : e (S j) = 2 * e j.
  Proof. unfold e. rewrite Nat2Z.inj_succ, Z.pow_succ_r by lia. ring. Qed.

  Lemma one_at_S x j : x ^ e (S j) = (x ^ e j) * (x ^ e j).
  Proof. rewrite e_S. pose proof (e_pos j). replace (2 * e j) with (e j + e j) by ring. apply Z.pow_add_r; lia. Qed.

  Lemma minus_one_odd k : 0 <= k -> (-1) ^ (2 * k + 1) = -1.
  Proof. intros K. rewrite Z.pow_add_r, Z.pow_mul_r by lia. change ((-1) ^ 2) with 1. rewrite Z.pow_1_l by lia. reflexivity. Qed.

  (** Units: 1 .. p-1. *)
  Let units : list Z := map Z.of_nat (seq 1 (Z.to_nat p - 1)).
  Lemma in_units x : In x units <-> 0 < x < p.
  Proof.
    unfold units. rewrite in_map_iff. split.
    - intros (i & <- & I). apply in_seq in I. lia.
    - intros H. exists (Z.to_nat x). split; [apply Z2Nat.id; lia|apply in_seq; lia].
  Qed.

  Lemma turning_point t : (forall x, 0 < x < p -> one_at x t = true) ->
    exists j g, (j < t)%nat /\ 0 < g < p /\ one_at g j = false /\ forall x, 0 < x < p -> one_at x (S j) = true.
  Proof.
    induction t as [|t IH]; intros H.
    - exfalso. specialize (H (p - 1) ltac:(lia)). unfold one_at in H. apply Z.eqb_eq in H.
      assert (E : e 0 = 2 * s + 1) by (unfold e; change (2 ^ Z.of_nat 0) with 1; ring). rewrite E in H.
      rewrite <- pow_mod_base in H by lia. replace (p - 1) with (-1 + 1 * p) in H by ring.
      rewrite Z_mod_plus_full, pow_mod_base, minus_one_odd in H by lia.
      replace (-1) with (p - 1 + (-1) * p) in H by ring. rewrite Z_mod_plus_full, Z.mod_small in H by lia. lia.
    - destruct (forallb (fun x => one_at x t) units) eqn:A.
      + rewrite forallb_forall in A. destruct IH as (j & g & J & R); [intros x X; apply A, in_units, X|].
        exists j, g. split; [lia|exact R].
      + assert (N : exists g, In g units /\ one_at g t = false).
        { clear - A. induction units as [|u us IHu]; [discriminate|]. cbn [forallb] in A. apply andb_false_iff in A.
          destruct A as [A|A]; [exists u; split; [left; reflexivity|exact A]|].
          destruct (IHu A) as (g & G1 & G2). exists g. split; [right; exact G1|exact G2]. }
        destruct N as (g & G1 & G2). exists t, g. split; [lia|]. split; [apply in_units; exact G1|]. split; [exact G2|exact H].
  Qed.

  Lemma one_at_mod x j : one_at (x mod p) j = one_at x j.
  Proof. unfold one_at. rewrite pow_mod_base by lia. reflexivity. Qed.

  Lemma one_at_cong x y j : x mod p = y mod p -> one_at x j = one_at y j.
  Proof. intros H. rewrite <- (one_at_mod x), <- (one_at_mod y), H. reflexivity. Qed.

  Lemma flips j g : one_at g j = false -> 0 < g < p -> (forall x, 0 < x < p -> one_at x (S j) = true) ->
    forall x, ~ (p | x) -> one_at (g * x) j = negb (one_at x j).
  Proof.
    intros G R A x X.
    assert (V : forall y, ~ (p | y) -> y ^ e j mod p = 1 \/ y ^ e j mod p = p - 1).
    { intros y Y. apply root_of_one; [exact P|]. rewrite <- one_at_S. apply Z.eqb_eq. fold (one_at y (S j)).
      rewrite <- one_at_mod. apply A. pose proof (Z.mod_pos_bound y p ltac:(lia)).
      assert (y mod p <> 0) by (intros C; apply Y, Z.mod_divide; [lia|exact C]). lia. }
    assert (Gv : g ^ e j mod p = p - 1).
    { destruct (V g) as [W|W]; [|unfold one_at in G; apply Z.eqb_neq in G; contradiction|exact W].
      intros D. apply Z.divide_pos_le in D; lia. }
    unfold one_at. rewrite Z.pow_mul_l. rewrite Z.mul_mod, Gv by lia.
    destruct (V x X) as [W|W]; rewrite W.
    - rewrite Z.mul_1_r, Z.mod_small by lia. change (1 =? 1) with true. destruct (Z.eqb_spec (p - 1) 1); [lia|reflexivity].
    - replace ((p - 1) * (p - 1)) with (1 + (p - 2) * p) by ring. rewrite Z_mod_plus_full, Z.mod_small by lia.
      destruct (Z.eqb_spec (p - 1) 1); [lia|reflexivity].
  Qed.
End Flip.

(** A base that gives no factor cannot tell two prime factors apart. *)
Lemma gcd_proper n y : 1 < n -> proper_factor n (Z.gcd y n) = false -> Z.gcd y n = 1 \/ (n | y).
Proof.
  intros N H. pose proof (Z.gcd_nonneg y n) as G0. pose proof (Z.gcd_divide_r y n) as D.
  pose proof (Z.divide_pos_le (Z.gcd y n) n ltac:(lia) D) as L.
  destruct (Z.eq_dec (Z.gcd y n) 1) as [E1|N1]; [left; exact E1|].
  destruct (Z.eq_dec (Z.gcd y n) n) as [E2|N2]; [right; rewrite <- E2 at 1; apply Z.gcd_divide_l|].
  destruct (Z.eq_dec (Z.gcd y n) 0) as [E0|N0]; [apply Z.gcd_eq_0_r in E0; lia|].
  assert (T : proper_factor n (Z.gcd y n) = true) by (apply proper_factor_spec; split; [lia|exact D]). congruence.
Qed.

Lemma find_false {A} f (l : list A) : find f l = None -> forall x, In x l -> f x = false.
Proof. intros H x I. exact (find_none f l H x I). Qed.

Lemma unsplit n t s x : 1 < n -> 0 <= s -> split_with n (2 ^ Z.of_nat t * (2 * s + 1)) x = None ->
  (Z.gcd x n = 1 \/ (n | x)) /\
  forall j p q, (j <= t)%nat -> 1 < p -> 1 < q -> (p | n) -> (q | n) -> one_at p s x j = one_at q s x j.
Proof.
  intros N S0 H. pose proof (find_false _ _ H) as F. split; [apply gcd_proper; [exact N|apply F; left; reflexivity]|].
  intros j p q J P Q Dp Dq.
  set (m := 2 ^ Z.of_nat t * (2 * s + 1)) in *.
  assert (T2 : 0 < 2 ^ Z.of_nat t) by (apply Z.pow_pos_nonneg; lia).
  assert (M : 0 < m) by (unfold m; apply Z.mul_pos_pos; lia).
  assert (LG : Z.of_nat t <= Z.log2 m).
  { apply Z.log2_le_pow2; [exact M|]. unfold m. rewrite <- (Z.mul_1_r (2 ^ Z.of_nat t)) at 1. apply Z.mul_le_mono_nonneg_l; lia. }
  assert (E : m / 2 ^ Z.of_nat (t - j) = e s j).
  { unfold m, e. replace (Z.of_nat t) with (Z.of_nat j + Z.of_nat (t - j)) by lia. rewrite Z.pow_add_r by lia.
    replace (2 ^ Z.of_nat j * 2 ^ Z.of_nat (t - j) * (2 * s + 1)) with (2 ^ Z.of_nat j * (2 * s + 1) * 2 ^ Z.of_nat (t - j)) by ring.
    apply Z_div_mult. apply Z.lt_gt, Z.pow_pos_nonneg; lia. }
  assert (G : proper_factor n (Z.gcd (Zpow_mod x (e s j) n - 1) n) = false).
  { apply F. right. rewrite <- E. apply in_map_iff. exists (t - j)%nat. split; [reflexivity|]. apply in_seq. lia. }
  pose proof (e_pos s S0 j) as EP. rewrite Zpow_mod_correct in G by lia.
  set (y := x ^ e s j) in *.
  assert (Y : forall r, 1 < r -> (r | n) -> (one_at r s x j = true <-> (r | y mod n - 1))).
  { intros r R D. unfold one_at. fold y. rewrite Z.eqb_eq. rewrite divide_mod_eq by lia.
    rewrite (Z.mod_small 1 r) by lia. destruct D as (c & C).
    assert (W : (y mod n) mod r = y mod r).
    { symmetry. apply divide_mod_eq; [lia|]. exists (c * (y / n)). rewrite (Z.div_mod y n) at 1 by lia. rewrite C at 1. ring. }
    rewrite W. reflexivity. }
  apply gcd_proper in G; [|exact N]. apply eq_true_iff_eq. rewrite (Y p P Dp), (Y q Q Dq). destruct G as [G|G].
  - split; intros D; exfalso.
    + assert (X : (p | 1)) by (rewrite <- G; apply Z.gcd_greatest; assumption). apply Z.divide_1_r_nonneg in X; lia.
    + assert (X : (q | 1)) by (rewrite <- G; apply Z.gcd_greatest; assumption). apply Z.divide_1_r_nonneg in X; lia.
  - split; intros _; [apply (Z.divide_trans q n)|apply (Z.divide_trans p n)]; assumption.
Qed.

Lemma in_bases n x : In x (bases n) <-> 0 < x < n.
Proof.
  unfold bases. rewrite in_map_iff. split.
  - intros (i & <- & I). apply in_seq in I. lia.
  - intros H. exists (Z.to_nat x). split; [apply Z2Nat.id; lia|apply in_seq; lia].
Qed.

Lemma nodup_bases n : NoDup (bases n).
Proof. apply FinFun.Injective_map_NoDup; [intros a b; apply Nat2Z.inj|apply seq_NoDup]. Qed.

Lemma filter_split {A} (f : A -> bool) l : (length (filter f l) + length (filter (fun x => negb (f x)) l) = length l)%nat.
Proof. induction l as [|a l IH]; [reflexivity|]. cbn [filter length]. destruct (f a); cbn [negb length]; lia. Qed.

Lemma half_split n m p q r :
  prime p -> 2 < p -> prime q -> 2 < q -> n = p * (q * r) -> 0 < r -> Z.gcd p (q * r) = 1 -> 0 < m ->
  (forall x, 0 < x < p -> x ^ m mod p = 1) ->
  n - 1 <= 2 * Z.of_nat (length (splitting n m)).
Proof.
  intros P P2 Q Q2 N R G M FE. destruct (two_adic m M) as (t & s & S0 & EM).
  assert (QR : 0 < q * r) by (apply Z.mul_pos_pos; lia).
  assert (N1 : 1 < n) by (rewrite N; nia).
  assert (HT : forall x, 0 < x < p -> one_at p s x t = true).
  { intros x X. unfold one_at, e. rewrite <- EM. apply Z.eqb_eq. apply FE, X. }
  destruct (turning_point p s P2 S0 t HT) as (j & g & J & Gg & G0 & G1).
  pose proof (flips p s P P2 S0 j g G0 Gg G1) as FL.
  destruct (zinv_exists (q * r) p ltac:(lia) ltac:(rewrite Z.gcd_comm; exact G)) as (i & I).
  apply zinv_some in I. destruct I as (_ & Ir & I). rewrite (Z.mod_small 1 p) in I by lia.
  set (h := 1 + q * r * i * (g - 1)).
  assert (Hp : h mod p = g mod p).
  { apply divide_mod_eq; [lia|]. assert (D : (p | q * r * i - 1)).
    { apply divide_mod_eq; [lia|]. rewrite I. symmetry. apply Z.mod_small. lia. }
    destruct D as (c & C). exists (c * (g - 1)). unfold h. replace (q * r * i) with (c * p + 1) by lia. ring. }
  assert (Hq : h mod q = 1 mod q).
  { apply divide_mod_eq; [lia|]. exists (r * i * (g - 1)). unfold h. ring. }
  assert (Hg : Z.gcd h n = 1).
  { assert (A : Z.gcd h p = 1).
    { apply Zgcd_1_rel_prime. apply rel_prime_sym, prime_rel_prime; [exact P|]. intros D.
      assert (DG : (p | g)); [|apply Z.divide_pos_le in DG; lia].
      apply Z.mod_divide; [lia|]. rewrite <- Hp. apply Z.mod_divide; [lia|exact D]. }
    assert (B : Z.gcd h (q * r) = 1).
    { unfold h. replace (1 + q * r * i * (g - 1)) with (1 + i * (g - 1) * (q * r)) by ring.
      rewrite Z.gcd_comm, Z.gcd_add_mult_diag_r. apply Z.gcd_1_r. }
    rewrite N. apply Zgcd_1_rel_prime. apply rel_prime_mult; apply Zgcd_1_rel_prime; assumption. }
  clearbody h. assert (PN : p <> 0 /\ 0 < p) by (clear - P2; lia). assert (QN : q <> 0 /\ 0 < q) by (clear - Q2; lia).
  destruct PN as (PN & P0). destruct QN as (QN & Q0).
  set (f := fun x => match split_with n m x with Some _ => true | None => false end).
  set (bad := filter (fun x => negb (f x)) (bases n)).
  assert (BAD : forall x, In x bad -> 0 < x < n /\ split_with n m x = None /\ Z.gcd x n = 1).
  { intros x X. apply filter_In in X. destruct X as (X1 & X2). apply in_bases in X1. split; [exact X1|].
    assert (W : split_with n m x = None) by (unfold f in X2; destruct (split_with n m x); [discriminate|reflexivity]).
    split; [exact W|]. rewrite EM in W. destruct (unsplit n t s x N1 S0 W) as ([D|D] & _); [exact D|].
    apply Z.divide_pos_le in D; lia. }
  assert (DP : (p | n)) by (exists (q * r); rewrite N; ring).
  assert (DQ : (q | n)) by (exists (p * r); rewrite N; ring).
  assert (SEND : forall x, In x bad -> In ((h * x) mod n) (splitting n m)).
  { intros x X. destruct (BAD x X) as (X1 & X2 & X3).
    pose proof (Z.mod_pos_bound (h * x) n ltac:(lia)) as B.
    assert (HX : Z.gcd (h * x) n = 1).
    { apply Zgcd_1_rel_prime. apply rel_prime_sym, rel_prime_mult; apply rel_prime_sym, Zgcd_1_rel_prime; assumption. }
    assert (NZ : (h * x) mod n <> 0).
    { intros C. apply Z.mod_divide in C; [|lia]. assert (D1 : (n | 1)) by (rewrite <- HX; apply Z.gcd_greatest; [exact C|apply Z.divide_refl]).
      apply Z.divide_1_r_nonneg in D1; lia. }
    apply filter_In. split; [apply in_bases; lia|].
    destruct (split_with n m ((h * x) mod n)) eqn:W; [reflexivity|exfalso].
    rewrite EM in X2, W. destruct (unsplit n t s x N1 S0 X2) as (_ & U1).
    destruct (unsplit n t s _ N1 S0 W) as (_ & U2).
    specialize (U1 j p q ltac:(lia) ltac:(lia) ltac:(lia) DP DQ).
    specialize (U2 j p q ltac:(lia) ltac:(lia) ltac:(lia) DP DQ).
    assert (RD : forall v, 0 < v -> (v | n) -> ((h * x) mod n) mod v = (h * x) mod v).
    { intros v V (c & C). symmetry. apply divide_mod_eq; [exact V|]. exists (c * ((h * x) / n)).
      rewrite (Z.div_mod (h * x) n) at 1 by lia. rewrite C at 1. ring. }
    assert (A1 : one_at p s ((h * x) mod n) j = one_at p s (g * x) j).
    { apply one_at_cong; [exact P2|]. rewrite (RD p P0 DP), (Z.mul_mod h x p PN), Hp, <- (Z.mul_mod g x p PN). reflexivity. }
    assert (A2 : one_at q s ((h * x) mod n) j = one_at q s x j).
    { apply one_at_cong; [exact Q2|]. rewrite (RD q Q0 DQ), (Z.mul_mod h x q QN), Hq, <- (Z.mul_mod 1 x q QN).
      rewrite Z.mul_1_l. reflexivity. }
    assert (NP : ~ (p | x)).
    { intros D. assert (D1 : (p | 1)) by (rewrite <- X3; apply Z.gcd_greatest; [exact D|exact DP]).
      apply Z.divide_1_r_nonneg in D1; lia. }
    rewrite A1, A2, (FL x NP), U1 in U2. destruct (one_at q s x j); discriminate. }
  assert (INJ : NoDup (map (fun x => (h * x) mod n) bad)).
  { assert (ND : NoDup bad) by (apply NoDup_filter, nodup_bases).
    clearbody bad. clear SEND. induction bad as [|a l IH]; [constructor|]. cbn [map].
    apply NoDup_cons_iff in ND. destruct ND as (ND1 & ND2). constructor; [|apply IH; [|exact ND2]].
    - intros C. apply in_map_iff in C. destruct C as (b & C1 & C2). 
      destruct (BAD a (or_introl eq_refl)) as (Ra & _). destruct (BAD b (or_intror C2)) as (Rb & _).
      assert (D : (n | h * (b - a))).
      { replace (h * (b - a)) with (h * b - h * a) by ring. apply divide_mod_eq; [lia|exact C1]. }
      apply Gauss in D; [|apply rel_prime_sym, Zgcd_1_rel_prime; exact Hg].
      assert (b = a); [|congruence]. destruct D as (c & C). assert (c = 0) by (clear - C Ra Rb; nia). subst c. clear - C. lia.
    - intros x X. apply BAD. right. exact X. }
  assert (LEN : (length bad <= length (splitting n m))%nat).
  { rewrite <- (map_length (fun x => (h * x) mod n) bad). apply NoDup_incl_length; [exact INJ|].
    intros y Y. apply in_map_iff in Y. destruct Y as (x & <- & X). apply SEND, X. }
  pose proof (filter_split f (bases n)) as T. fold bad in T. fold f in T.
  change (filter f (bases n)) with (splitting n m) in T.
  assert (LB : length (bases n) = (Z.to_nat n - 1)%nat) by (unfold bases; rewrite map_length, seq_length; reflexivity).
  clear - T LEN LB N1. lia.
Qed.
