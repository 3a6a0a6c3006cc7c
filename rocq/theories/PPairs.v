(** Proofs about how key generation picks its primes (C86). *)
From Coq Require Import ZArith Znumtheory List Bool Lia.
From Verif Require Import Base Bigint BytesLemmas BigintLemmas NumTheory SpecRFC SpecGen SpecDraws SpecPairs
  MRsa MGenerate MKey PPub PUniform PGenerate PDraws.
Import ListNotations.
Local Open Scope Z_scope.

(** ** Counting sequences by their first fit pair *)

Section Count.
  Context {A : Type} (dec : forall x y : A, {x = y} + {x <> y}) (bad : A -> bool) (L : list A).

  Fixpoint words (f : nat) : list (list A) :=
    match f with O => [[]] | S f => flat_map (fun x => map (cons x) (words f)) L end.

  Fixpoint first_good (s : list A) : option A :=
    match s with [] => None | x :: s => if bad x then first_good s else Some x end.

  Definition none_good s := match first_good s with None => true | Some _ => false end.
  Definition first_is x s := match first_good s with Some y => if dec y x then true else false | None => false end.

  Definition Lbad := length (filter bad L).

  Lemma words_length f : length (words f) = (length L ^ f)%nat.
  Proof.
    induction f as [|f IH]; cbn [words]; [reflexivity|].
    rewrite (flat_map_length_const _ (length L ^ f)%nat).
    - cbn [Nat.pow]. lia.
    - intros x _. rewrite map_length. exact IH.
  Qed.

  Lemma none_count f : length (filter none_good (words f)) = (Lbad ^ f)%nat.
  Proof.
    induction f as [|f IH]; [reflexivity|]. cbn [words Nat.pow]. rewrite <- IH. unfold Lbad.
    set (W := words f). clear IH. induction L as [|x M IHl]; [reflexivity|].
    cbn [flat_map filter]. rewrite filter_app_length, IHl, filter_map_comm.
    unfold none_good at 1. cbn [first_good]. destruct (bad x); cbn [length].
    - reflexivity.
    - rewrite filter_false. reflexivity.
  Qed.

  Lemma first_count x f : NoDup L -> In x L -> bad x = false ->
    length (filter (first_is x) (words (S f))) =
      (length L ^ f + Lbad * length (filter (first_is x) (words f)))%nat.
  Proof.
    intros ND Hx Hb. rewrite <- words_length. cbn [words]. unfold Lbad. set (W := words f).
    assert (G : forall M, NoDup M ->
      length (filter (first_is x) (flat_map (fun y => map (cons y) W) M)) =
      ((if in_dec dec x M then length W else 0) + length (filter bad M) * length (filter (first_is x) W))%nat).
    { induction M as [|y M IHl]; intros N; [reflexivity|]. inversion N; subst.
      cbn [flat_map filter]. rewrite filter_app_length, (IHl H2), filter_map_comm.
      assert (EW : forall h : bool, length (filter (fun _ : list A => h) W) = if h then length W else 0%nat).
      { clear. intros h. induction W; cbn [filter]; destruct h; cbn [length]; auto. }
      unfold first_is at 1. cbn [first_good].
      destruct (bad y) eqn:By.
      - cbn [length]. assert (y <> x) by congruence.
        destruct (in_dec dec x (y :: M)) as [I|I], (in_dec dec x M) as [J|J]; cbn [In] in *; try tauto;
          fold (first_is x); change (filter (fun s => first_is x s) W) with (filter (first_is x) W); lia.
      - destruct (dec y x) as [->|NE].
        + rewrite EW. destruct (in_dec dec x (x :: M)) as [I|I]; [|destruct I; left; auto].
          destruct (in_dec dec x M); [contradiction|]. lia.
        + rewrite EW. destruct (in_dec dec x (y :: M)) as [I|I], (in_dec dec x M) as [J|J]; cbn [In] in *; try tauto; lia. }
    rewrite (G L ND). destruct (in_dec dec x L); [reflexivity|contradiction].
  Qed.

  Lemma first_none x f : (~ In x L \/ bad x = true) -> length (filter (first_is x) (words f)) = 0%nat.
  Proof.
    intros H. replace (filter (first_is x) (words f)) with (@nil (list A)); [reflexivity|]. symmetry.
    assert (G : forall s, In s (words f) -> first_is x s = false).
    { induction f as [|f IH]; intros s Hs; cbn [words] in Hs.
      - destruct Hs as [<-|[]]. reflexivity.
      - apply in_flat_map in Hs. destruct Hs as (y & Hy & Hs). apply in_map_iff in Hs.
        destruct Hs as (s' & <- & Hs). unfold first_is. cbn [first_good].
        destruct (bad y) eqn:By; [apply (IH s' Hs)|].
        destruct (dec y x) as [->|]; auto. destruct H as [H|H]; [contradiction|congruence]. }
    revert G. generalize (words f). induction l as [|s l IH]; intros G; [reflexivity|].
    cbn [filter]. rewrite (G s) by (left; auto). apply IH. intros s' Hs'. apply G. right. auto.
  Qed.

  Lemma first_closed x f : NoDup L -> In x L -> bad x = false ->
    (Z.of_nat (length L) - Z.of_nat Lbad) * Z.of_nat (length (filter (first_is x) (words f))) =
    Z.of_nat (length L) ^ Z.of_nat f - Z.of_nat Lbad ^ Z.of_nat f.
  Proof.
    intros ND Hx Hb. induction f as [|f IH]; [cbn [words filter first_is first_good length]; lia|].
    rewrite first_count by auto. rewrite Nat2Z.inj_add, Nat2Z.inj_mul, Nat2Z.inj_pow.
    rewrite Nat2Z.inj_succ, !Z.pow_succ_r by lia. rewrite Z.mul_add_distr_l.
    replace ((Z.of_nat (length L) - Z.of_nat Lbad) * (Z.of_nat Lbad * Z.of_nat (length (filter (first_is x) (words f)))))
      with (Z.of_nat Lbad * ((Z.of_nat (length L) - Z.of_nat Lbad) * Z.of_nat (length (filter (first_is x) (words f)))))
      by ring.
    rewrite IH. ring.
  Qed.
End Count.

(** ** The sequences of positions *)

Fixpoint flatten (w : list (nat * nat)) : list nat :=
  match w with [] => [] | ij :: w => fst ij :: snd ij :: flatten w end.

Definition grid (a c : nat) := list_prod (seq 0 a) (seq 0 c).

Lemma choices_words a c f : all_choices a c f = map flatten (words (grid a c) f).
Proof.
  induction f as [|f IH]; [reflexivity|]. cbn [all_choices words]. fold (grid a c). rewrite IH.
  generalize (words (grid a c) f). intros W. generalize (grid a c). intros L. induction L as [|x M IHl]; [reflexivity|].
  cbn [flat_map]. rewrite map_app, IHl, !map_map. reflexivity.
Qed.

Lemma list_prod_map {A B C D} (f : A -> C) (g : B -> D) l l' :
  list_prod (map f l) (map g l') = map (fun xy => (f (fst xy), g (snd xy))) (list_prod l l').
Proof.
  induction l as [|x l IH]; [reflexivity|]. cbn [map list_prod]. rewrite IH, map_app, !map_map. reflexivity.
Qed.

Lemma nodup_grid a c : NoDup (grid a c).
Proof.
  unfold grid. generalize 0%nat at 1. induction a as [|a IH]; intros m; cbn [seq list_prod]; [constructor|].
  apply NoDup_app_intro.
  - apply FinFun.Injective_map_NoDup; [intros x y E; congruence|apply seq_NoDup].
  - apply IH.
  - intros (i & j) H1 H2. apply in_map_iff in H1. destruct H1 as (y & E & _). injection E as <- <-.
    apply in_prod_iff in H2. destruct H2 as (H2 & _). apply in_seq in H2. lia.
Qed.

Lemma map_nth_seq {A} (l : list A) d : map (fun i => nth i l d) (seq 0 (length l)) = l.
Proof.
  induction l as [|x l IH]; [reflexivity|]. cbn [length seq map nth]. f_equal.
  rewrite <- seq_shift, map_map. exact IH.
Qed.

Lemma words_range {A} (L : list A) f : forall w, In w (words L f) -> length w = f /\ Forall (fun x => In x L) w.
Proof.
  induction f as [|f IH]; intros w H; cbn [words] in H.
  - destruct H as [<-|[]]. split; constructor.
  - apply in_flat_map in H. destruct H as (x & Hx & H). apply in_map_iff in H. destruct H as (w' & <- & H).
    apply IH in H. destruct H as (<- & F). split; [reflexivity|constructor; auto].
Qed.

Definition pair_dec : forall x y : nat * nat, {x = y} + {x <> y}.
Proof. decide equality; apply Nat.eq_dec. Defined.

Section Source.
  Context (primes : Z -> list uint) (b : Z) (HL : prime_lists primes b).

  Notation P := (primes (b / 2)). Notation Q := (primes (b - b / 2)).
  Definition at_p (i : nat) : uint := nth i P (mkU 3 64).
  Definition at_q (i : nat) : uint := nth i Q (mkU 3 64).
  Definition value_pair (ij : nat * nat) : Z * Z := (uval (at_p (fst ij)), uval (at_q (snd ij))).

  Lemma chosen_source : prime_source (chosen primes) b.
  Proof.
    intros st bits Hb _. cbv zeta. destruct (HL bits Hb) as (NE & _ & F). rewrite Forall_forall in F.
    apply F. unfold chosen.
    assert (0 < length (primes bits))%nat by (destruct (primes bits); [congruence|cbn; lia]).
    destruct st as [|i st]; cbn [fst]; apply nth_In; [auto|apply Nat.mod_upper_bound; lia].
  Qed.

  Lemma pairs_grid : prime_pairs primes b = map value_pair (grid (length P) (length Q)).
  Proof.
    unfold prime_pairs, grid. rewrite <- (map_nth_seq P (mkU 3 64)) at 1. rewrite <- (map_nth_seq Q (mkU 3 64)) at 1.
    rewrite !map_map, list_prod_map. reflexivity.
  Qed.

  Lemma in_grid i j : In (i, j) (grid (length P) (length Q)) <-> (i < length P)%nat /\ (j < length Q)%nat.
  Proof. unfold grid. rewrite in_prod_iff, !in_seq. lia. Qed.

  Lemma value_inj x y : In x (grid (length P) (length Q)) -> In y (grid (length P) (length Q)) ->
    value_pair x = value_pair y -> x = y.
  Proof.
    destruct x as (i & j), y as (i' & j'). rewrite !in_grid. intros (I & J) (I' & J') E.
    unfold value_pair, at_p, at_q in E. cbn [fst snd] in E. injection E as E1 E2.
    destruct (HL (b / 2) (or_introl eq_refl)) as (_ & N1 & _).
    destruct (HL (b - b / 2) (or_intror eq_refl)) as (_ & N2 & _).
    rewrite <- !(map_nth uval) in E1, E2.
    f_equal; [eapply NoDup_nth in E1|eapply NoDup_nth in E2]; eauto; rewrite map_length; auto.
  Qed.

  Definition bad (e : Z) (ij : nat * nat) : bool := unfit e (value_pair ij).

  Lemma pair_at i j s : (i < length P)%nat -> (j < length Q)%nat ->
    pair_p (chosen primes) (i :: j :: s) b = at_p i /\ pair_q (chosen primes) (i :: j :: s) b = at_q j /\
    pair_next (chosen primes) (i :: j :: s) b = s.
  Proof.
    intros I J. unfold pair_p, pair_q, pair_next, chosen, at_p, at_q. cbn [fst snd].
    rewrite !Nat.mod_small by auto. auto.
  Qed.

  Lemma fit_bad e i j s : (i < length P)%nat -> (j < length Q)%nat ->
    (pair_fit (chosen primes) (i :: j :: s) b e <-> bad e (i, j) = false).
  Proof.
    intros I J. destruct (pair_at i j s I J) as (E1 & E2 & _). unfold pair_fit. rewrite E1, E2.
    unfold bad, unfit, value_pair. cbn [fst snd]. rewrite orb_false_iff, negb_false_iff, Z.eqb_eq, Z.eqb_neq. reflexivity.
  Qed.

  Lemma fit_first e : forall st j p q, fit_at (chosen primes) b e st j p q ->
    forall w, st = flatten w -> Forall (fun x => In x (grid (length P) (length Q))) w -> (j < length w)%nat ->
    exists ij, In ij w /\ first_good (bad e) w = Some ij /\ p = at_p (fst ij) /\ q = at_q (snd ij).
  Proof.
    intros st j p q F. induction F as [st PF|st j p q NF F IH]; intros w -> R L.
    - destruct w as [|(i & j) w]; [cbn in L; lia|]. inversion R as [|? ? G R']; subst. apply in_grid in G.
      exists (i, j). split; [left; auto|]. cbn [flatten fst snd] in *. destruct G as (I & J).
      apply (fit_bad e i j _ I J) in PF. cbn [first_good]. rewrite PF.
      destruct (pair_at i j (flatten w) I J) as (-> & -> & _). auto.
    - destruct w as [|(i & j') w]; [cbn in L; lia|]. inversion R as [|? ? G R']; subst. apply in_grid in G.
      cbn [flatten fst snd] in *. destruct G as (I & J).
      destruct (pair_at i j' (flatten w) I J) as (_ & _ & EN). rewrite EN in IH.
      destruct (IH w eq_refl R') as (ij & H1 & H2 & H3); [cbn in L; lia|].
      exists ij. split; [right; auto|]. cbn [first_good]. rewrite (fit_bad e i j' _ I J) in NF.
      destruct (bad e (i, j')); [auto|congruence].
  Qed.

  Lemma unfit_first e : forall st f, unfit_for (chosen primes) b e st f ->
    forall w, st = flatten w -> Forall (fun x => In x (grid (length P) (length Q))) w -> (length w <= f)%nat ->
    first_good (bad e) w = None.
  Proof.
    intros st f U. induction U as [st|st f NF U IH]; intros w -> R L.
    - destruct w; [reflexivity|cbn in L; lia].
    - destruct w as [|(i & j) w]; [reflexivity|]. inversion R as [|? ? G R']; subst. apply in_grid in G.
      cbn [flatten fst snd] in *. destruct G as (I & J).
      destruct (pair_at i j (flatten w) I J) as (_ & _ & EN). rewrite EN in IH.
      cbn [first_good]. rewrite (fit_bad e i j _ I J) in NF. destruct (bad e (i, j)); [|congruence].
      apply IH; auto. cbn in L; lia.
  Qed.

  Lemma unfit_length e : length (unfit_pairs primes b e) = Lbad (bad e) (grid (length P) (length Q)).
  Proof. unfold unfit_pairs. rewrite pairs_grid, filter_map_comm. reflexivity. Qed.

  Lemma pairs_length : length (prime_pairs primes b) = length (grid (length P) (length Q)).
  Proof. rewrite pairs_grid, map_length. reflexivity. Qed.

  Section Run.
    Context (e : uint) (B : 12 <= b < 2 ^ 32) (We : wf_uint e)
      (Le : uprec e <= prec_for (b / 2) + key_prec b) (Kp : key_prec b <= 4096)
      (Oe : Z.odd (uval e) = true) (E1 : 2 <= uval e < 9 * 2 ^ (b - 4)) (E2 : uval e <= 2 ^ 33 - 1).

    Definition run f (s : list nat) : outcome privkey := private_new_with_exp (chosen primes) f s b e.

    Lemma run_first f w : In w (words (grid (length P) (length Q)) f) ->
      match first_good (bad (uval e)) w with
      | Some ij => exists k, run f (flatten w) = Ok k /\ map uval (sk_primes k) = [fst (value_pair ij); snd (value_pair ij)]
      | None => run f (flatten w) = OutOfFuel
      end.
    Proof.
      intros Hw. apply words_range in Hw. destruct Hw as (L & R). unfold run.
      destruct (c30_terminates (chosen primes) b chosen_source f (flatten w) e B We Le Kp Oe E1 E2)
        as [(k & A & j & p & q & J & F & EP)|(A & U)]; rewrite A.
      - destruct (fit_first _ _ _ _ _ F w eq_refl R ltac:(lia)) as (ij & _ & G & -> & ->). rewrite G.
        exists k. split; [reflexivity|]. rewrite EP. reflexivity.
      - rewrite (unfit_first _ _ _ U w eq_refl R ltac:(lia)). reflexivity.
    Qed.

    Lemma filter_words (p : list nat -> bool) (r : list (nat * nat) -> bool) f :
      (forall w, In w (words (grid (length P) (length Q)) f) -> p (flatten w) = r w) ->
      length (filter p (all_choices (length P) (length Q) f)) =
      length (filter r (words (grid (length P) (length Q)) f)).
    Proof.
      intros H. rewrite choices_words, filter_map_comm. f_equal. apply filter_ext_in. exact H.
    Qed.

    Lemma run_unfinished f :
      Z.of_nat (unfinished (run f) (all_choices (length P) (length Q) f)) =
      Z.of_nat (length (unfit_pairs primes b (uval e))) ^ Z.of_nat f.
    Proof.
      rewrite unfit_length, <- Nat2Z.inj_pow, <- none_count. f_equal. unfold unfinished. apply filter_words.
      intros w Hw. apply run_first in Hw. unfold none_good.
      destruct (first_good (bad (uval e)) w); [destruct Hw as (k & -> & _)|rewrite Hw]; reflexivity.
    Qed.

    Lemma run_ends f s : In s (all_choices (length P) (length Q) f) ->
      (exists k x y, run f s = Ok k /\ map uval (sk_primes k) = [x; y] /\ In (x, y) (prime_pairs primes b) /\
         unfit (uval e) (x, y) = false) \/ run f s = OutOfFuel.
    Proof.
      intros H. rewrite choices_words in H. apply in_map_iff in H. destruct H as (w & <- & Hw).
      pose proof (run_first f w Hw) as RF. apply words_range in Hw. destruct Hw as (_ & R).
      destruct (first_good (bad (uval e)) w) as [ij|] eqn:G; [left|right; auto].
      destruct RF as (k & A & EP). exists k, (fst (value_pair ij)), (snd (value_pair ij)).
      split; [exact A|]. split; [exact EP|]. rewrite <- surjective_pairing.
      assert (In ij w /\ bad (uval e) ij = false) as (I & NB).
      { clear - G. induction w as [|x w IH]; [discriminate|]. cbn [first_good] in G.
        destruct (bad (uval e) x) eqn:X; [destruct (IH G); split; [right|]; auto|].
        injection G as <-. split; [left|]; auto. }
      split; [|exact NB]. rewrite pairs_grid. apply in_map. rewrite Forall_forall in R. auto.
    Qed.

    Lemma run_yield f ij : In ij (grid (length P) (length Q)) ->
      yielding (run f) (fst (value_pair ij)) (snd (value_pair ij)) (all_choices (length P) (length Q) f) =
      length (filter (first_is pair_dec (bad (uval e)) ij) (words (grid (length P) (length Q)) f)).
    Proof.
      intros HI. unfold yielding. apply filter_words. intros w Hw.
      pose proof (run_first f w Hw) as RF. apply words_range in Hw. destruct Hw as (_ & R).
      unfold first_is. destruct (first_good (bad (uval e)) w) as [x|] eqn:G; [|rewrite RF; reflexivity].
      destruct RF as (k & -> & ->).
      assert (I : In x w).
      { clear - G. induction w as [|y w IH]; [discriminate|]. cbn [first_good] in G.
        destruct (bad (uval e) y); [right; auto|]. injection G as <-. left; auto. }
      rewrite Forall_forall in R. specialize (R x I).
      destruct (list_eq_dec _ _ _) as [E|E], (pair_dec x ij) as [E'|E']; auto.
      - destruct E'. apply value_inj; auto. clear - E.
        destruct (value_pair x), (value_pair ij). cbn [fst snd] in E. congruence.
      - subst. congruence.
    Qed.

    Lemma run_fit f x y : In (x, y) (prime_pairs primes b) -> unfit (uval e) (x, y) = false ->
      (Z.of_nat (length (prime_pairs primes b)) - Z.of_nat (length (unfit_pairs primes b (uval e)))) *
      Z.of_nat (yielding (run f) x y (all_choices (length P) (length Q) f)) =
      Z.of_nat (length (prime_pairs primes b)) ^ Z.of_nat f -
      Z.of_nat (length (unfit_pairs primes b (uval e))) ^ Z.of_nat f.
    Proof.
      intros I NU. rewrite pairs_grid in I. apply in_map_iff in I. destruct I as (ij & E & I).
      pose proof (run_yield f ij I) as Y. rewrite E in Y. cbn [fst snd] in Y. rewrite Y.
      rewrite unfit_length, pairs_length. apply first_closed; auto using nodup_grid.
      unfold bad. rewrite E. exact NU.
    Qed.

    Lemma run_other f x y : ~ (In (x, y) (prime_pairs primes b) /\ unfit (uval e) (x, y) = false) ->
      yielding (run f) x y (all_choices (length P) (length Q) f) = 0%nat.
    Proof.
      intros N. unfold yielding. set (l := all_choices _ _ _).
      assert (G : forall s, In s l -> run f s = OutOfFuel \/ exists k, run f s = Ok k /\ map uval (sk_primes k) <> [x; y]).
      { intros s Hs. destruct (run_ends f s Hs) as [(k & x' & y' & A & B' & C & D)|A]; [right|left; auto].
        exists k. split; auto. rewrite B'. intros E. injection E as -> ->. tauto. }
      clearbody l. induction l as [|s l IH]; [reflexivity|]. cbn [filter].
      destruct (G s (or_introl eq_refl)) as [->|(k & -> & NE)].
      - apply IH. intros s' Hs. apply G. right. auto.
      - destruct (list_eq_dec _ _ _); [contradiction|]. apply IH. intros s' Hs. apply G. right. auto.
    Qed.
  End Run.
End Source.

(** ** How many pairs are fit for a prime exponent *)

Lemma prime_gcd e m : prime e -> (Z.gcd e m = 1 <-> m mod e <> 0).
Proof.
  intros Pe. pose proof (prime_ge_2 e Pe). split.
  - intros G M. apply Z.mod_divide in M; [|lia]. assert (X : (e | Z.gcd e m)) by (apply Z.gcd_greatest; [exists 1; lia|auto]).
    rewrite G in X. apply Z.divide_1_r in X. lia.
  - intros M. apply Zgcd_1_rel_prime. apply prime_rel_prime; auto. intros D. apply M. apply Z.mod_divide; [lia|auto].
Qed.

Lemma prime_unfit e x y : prime e ->
  negb (unfit e (x, y)) = negb (x =? y) && (negb ((x - 1) mod e =? 0) && negb ((y - 1) mod e =? 0)).
Proof.
  intros Pe. unfold unfit. cbn [fst snd]. rewrite negb_orb, negb_involutive. f_equal.
  apply eq_true_iff_eq. rewrite andb_true_iff, !negb_true_iff, Z.eqb_eq, !Z.eqb_neq, prime_gcd by auto.
  pose proof (prime_ge_2 e Pe).
  rewrite !Z.mod_divide by lia. split.
  - intros N. split; intros D; apply N; [apply Z.divide_mul_l|apply Z.divide_mul_r]; auto.
  - intros (N1 & N2) D. apply prime_mult in D; tauto.
Qed.

Definition suits (e x : Z) : bool := negb ((x - 1) mod e =? 0).

Lemma filter_length_neg {A} (p : A -> bool) l :
  Z.of_nat (length l) - Z.of_nat (length (filter p l)) = Z.of_nat (length (filter (fun x => negb (p x)) l)).
Proof. induction l as [|x l IH]; [reflexivity|]. cbn [length filter]. destruct (p x); cbn [negb length]; lia. Qed.

Lemma prod_count (p : Z * Z -> bool) (gx : Z -> bool) c l l' :
  (forall x, In x l -> length (filter (fun y => p (x, y)) l') = if gx x then c else 0%nat) ->
  length (filter p (list_prod l l')) = (length (filter gx l) * c)%nat.
Proof.
  induction l as [|x l IH]; intros H; [reflexivity|]. cbn [list_prod filter].
  rewrite filter_app_length, filter_map_comm, IH by (intros; apply H; right; auto).
  rewrite (H x) by (left; auto). destruct (gx x); cbn [length]; lia.
Qed.

Lemma filter_without g x l : NoDup l -> In x l -> g x = true ->
  length (filter (fun y => negb (x =? y) && g y) l) = (length (filter g l) - 1)%nat.
Proof.
  intros N. induction N as [|y l NI N IH]; intros I G; [destruct I|]. cbn [filter].
  destruct (Z.eqb_spec x y) as [->|NE]; cbn [negb andb].
  - rewrite G. cbn [length]. rewrite Nat.sub_succ, Nat.sub_0_r. f_equal. apply filter_ext_in.
    intros z Hz. destruct (Z.eqb_spec y z); [subst; contradiction|reflexivity].
  - destruct I as [->|I]; [congruence|]. specialize (IH I G).
    assert (1 <= length (filter g l))%nat.
    { assert (X : In x (filter g l)) by (apply filter_In; auto). destruct (filter g l); [destruct X|cbn; lia]. }
    destruct (g y); cbn [length]; lia.
Qed.

Lemma fit_count primes b e : prime_lists primes b -> 4 <= b -> prime e ->
  let good := fun bits => length (filter (suits e) (map uval (primes bits))) in
  Z.of_nat (length (prime_pairs primes b)) - Z.of_nat (length (unfit_pairs primes b e)) =
  if Z.even b then Z.of_nat (good (b / 2)) * Z.of_nat (good (b / 2) - 1)
  else Z.of_nat (good (b / 2)) * Z.of_nat (good (b - b / 2)).
Proof.
  intros HL Hb Pe good. unfold unfit_pairs. rewrite filter_length_neg.
  rewrite (filter_ext _ (fun xy => negb (fst xy =? snd xy) && (suits e (fst xy) && suits e (snd xy))))
    by (intros (x & y); apply prime_unfit; auto).
  unfold prime_pairs. destruct (HL (b / 2) (or_introl eq_refl)) as (_ & N1 & F1).
  destruct (HL (b - b / 2) (or_intror eq_refl)) as (_ & N2 & F2).
  pose proof (Z.div_mod b 2 ltac:(lia)) as DM. rewrite Zmod_even in DM.
  destruct (Z.even b) eqn:Ev.
  - assert (E : b - b / 2 = b / 2) by lia. rewrite E in *.
    rewrite (prod_count _ (suits e) (good (b / 2) - 1)); [unfold good; lia|].
    intros x Hx. cbn [fst snd]. destruct (suits e x) eqn:S; cbn [andb].
    + apply filter_without; auto.
    + rewrite (filter_ext _ (fun _ => false)) by (intros; apply andb_false_r). apply filter_false.
  - rewrite (prod_count _ (suits e) (good (b - b / 2))); [unfold good; lia|].
    intros x Hx. cbn [fst snd]. destruct (suits e x) eqn:S; cbn [andb].
    + unfold good. f_equal. apply filter_ext_in. intros y Hy.
      assert (x <> y); [|destruct (Z.eqb_spec x y); [contradiction|reflexivity]].
      apply in_map_iff in Hx. destruct Hx as (p & <- & Hp). apply in_map_iff in Hy. destruct Hy as (q & <- & Hq).
      rewrite Forall_forall in F1, F2. destruct (F1 p Hp) as (_ & A & _). destruct (F2 q Hq) as (_ & B & _).
      assert (E : b - b / 2 = b / 2 + 1) by lia. rewrite E in B. replace (b / 2 + 1 - 2) with (b / 2 - 1) in B by lia.
      replace (b / 2) with (b / 2 - 1 + 1) in A at 2 by lia. rewrite Z.pow_add_r in A by lia.
      change (2 ^ 1) with 2 in A. lia.
    + rewrite (filter_ext _ (fun _ => false)) by (intros; apply andb_false_r). apply filter_false.
Qed.

(** ** The primes determine the key *)

Lemma primes_determine {R R'} (gp : prime_gen R) (gp' : prime_gen R') b f f' st st' e k k' :
  prime_source gp b -> prime_source gp' b -> 0 <= b < 2 ^ 32 -> wf_uint e ->
  private_new_with_exp gp f st b e = Ok k -> private_new_with_exp gp' f' st' b e = Ok k' ->
  map uval (sk_primes k) = map uval (sk_primes k') -> priv_eqb k k' = true.
Proof.
  intros S S' B We H H' E.
  destruct (c30_valid gp b S f st e k B We H) as (p & q & A1 & A2 & A3 & _ & A4 & A5 & _ & _ & _ & _ & A6 & A7 & _).
  destruct (c30_valid gp' b S' f' st' e k' B We H') as (p' & q' & B1 & B2 & B3 & _ & B4 & B5 & _ & _ & _ & _ & B6 & B7 & _).
  rewrite A1, B1 in E. cbn [map] in E. injection E as Ep Eq. rewrite <- Ep, <- Eq in *.
  apply priv_eqb_spec. rewrite A4, B4, A5, B5, A1, B1. cbn [map]. rewrite Ep, Eq.
  split; [reflexivity|]. split; [reflexivity|]. split; [|reflexivity].
  pose proof (prime_ge_2 _ A2). pose proof (prime_ge_2 _ A3). set (m := (uval p - 1) * (uval q - 1)) in *.
  assert (M : 1 < m) by (clearbody m; destruct (Z.eq_dec m 1) as [->|]; [rewrite Z.mod_1_r in A7; discriminate|lia]).
  assert (D : (m | uval (sk_d k) - uval (sk_d k'))).
  { apply Z.mod_divide; [lia|]. rewrite Zminus_mod.
    replace (uval (sk_d k) mod m) with (uval (sk_d k') mod m); [rewrite Z.sub_diag; apply Z.mod_0_l; lia|].
    transitivity ((uval (sk_d k') * ((uval e * uval (sk_d k)) mod m)) mod m).
    - rewrite A7, Z.mul_1_r. reflexivity.
    - rewrite Zmult_mod_idemp_r.
      replace (uval (sk_d k') * (uval e * uval (sk_d k))) with (uval (sk_d k) * (uval e * uval (sk_d k'))) by ring.
      rewrite <- Zmult_mod_idemp_r, B7, Z.mul_1_r. reflexivity. }
  destruct D as (c & D). clearbody m. assert (c = 0) by nia. subst c. lia.
Qed.
