(** Fermat's little theorem over Z, from the standard library only: for p prime
    not dividing a, multiplication by a permutes 1..p-1. *)
From Coq Require Import ZArith Znumtheory List Permutation Lia.
Import ListNotations.
Local Open Scope Z_scope.

Definition lprod (l : list Z) : Z := fold_right Z.mul 1 l.

Lemma lprod_perm l l' : Permutation l l' -> lprod l = lprod l'.
Proof. induction 1; simpl; try congruence; ring. Qed.

(** 1 .. p-1 *)
Definition residues (p : Z) : list Z := map Z.of_nat (seq 1 (Z.to_nat (p - 1))).

Lemma in_residues p x : In x (residues p) <-> 1 <= x < p.
Proof.
  unfold residues. rewrite in_map_iff. split.
  - intros (n & <- & H). apply in_seq in H. lia.
  - intros H. exists (Z.to_nat x). split; [lia|]. apply in_seq. lia.
Qed.

Lemma residues_nodup p : NoDup (residues p).
Proof.
  apply FinFun.Injective_map_NoDup; [|apply seq_NoDup].
  intros a b H. lia.
Qed.

Lemma mod_eq_divide a b p : 0 < p -> a mod p = b mod p -> (p | a - b).
Proof.
  intros Hp H. apply Zmod_divide; [lia|]. rewrite Zminus_mod, H, Z.sub_diag. apply Zmod_0_l.
Qed.

Lemma nodup_map_in (f : Z -> Z) l :
  NoDup l -> (forall x y, In x l -> In y l -> f x = f y -> x = y) -> NoDup (map f l).
Proof.
  induction 1 as [|x l Hx Hl IH]; simpl; intros Hf; constructor.
  - rewrite in_map_iff. intros (y & E & Hy). apply Hx.
    rewrite (Hf x y); auto.
  - apply IH. intros; apply Hf; auto.
Qed.

Lemma mul_perm p a : prime p -> ~ (p | a) ->
  Permutation (map (fun i => (a * i) mod p) (residues p)) (residues p).
Proof.
  intros Hp Ha. pose proof (prime_ge_2 p Hp).
  apply NoDup_Permutation_bis.
  - apply nodup_map_in; [apply residues_nodup|].
    intros x y Hx Hy E. apply in_residues in Hx, Hy.
    apply mod_eq_divide in E; [|lia].
    replace (a * x - a * y) with (a * (x - y)) in E by ring.
    apply Gauss in E; [|apply prime_rel_prime; auto].
    destruct E as [k Hk]. assert (k = 0) by nia. lia.
  - rewrite map_length. auto.
  - intros x Hx. apply in_map_iff in Hx. destruct Hx as (i & <- & Hi).
    apply in_residues in Hi. apply in_residues.
    pose proof (Z.mod_pos_bound (a * i) p ltac:(lia)).
    assert ((a * i) mod p <> 0); [|lia].
    intros E. apply Zmod_divide in E; [|lia].
    apply prime_mult in E; auto. destruct E as [E|E]; auto.
    apply Z.divide_pos_le in E; lia.
Qed.

Lemma lprod_map_mod p a l : 0 < p ->
  lprod (map (fun i => (a * i) mod p) l) mod p
  = (a ^ Z.of_nat (length l) * lprod l) mod p.
Proof.
  intros Hp. induction l; [reflexivity|].
  cbn [map lprod fold_right length]. fold (lprod l).
  fold (lprod (map (fun i => (a * i) mod p) l)).
  rewrite Z.mul_mod_idemp_l by lia.
  rewrite Z.mul_mod, IHl, <- Z.mul_mod by lia.
  rewrite Nat2Z.inj_succ, Z.pow_succ_r by lia. f_equal. ring.
Qed.

Lemma rel_prime_lprod p l : prime p -> (forall x, In x l -> 1 <= x < p) -> rel_prime p (lprod l).
Proof.
  intros Hp. induction l as [|x l IH]; intros H; cbn [lprod fold_right].
  - apply rel_prime_sym, rel_prime_1.
  - apply rel_prime_mult.
    + apply rel_prime_sym. apply rel_prime_le_prime; auto. apply H; simpl; auto.
    + apply IH. intros; apply H; simpl; auto.
Qed.

Lemma fermat_coprime p a : prime p -> ~ (p | a) -> a ^ (p - 1) mod p = 1.
Proof.
  intros Hp Ha. pose proof (prime_ge_2 p Hp).
  pose proof (lprod_map_mod p a (residues p) ltac:(lia)) as E.
  rewrite (lprod_perm _ _ (mul_perm p a Hp Ha)) in E.
  assert (L : Z.of_nat (length (residues p)) = p - 1)
    by (unfold residues; rewrite map_length, seq_length; lia).
  rewrite L in E. symmetry in E. apply mod_eq_divide in E; [|lia].
  replace (a ^ (p - 1) * lprod (residues p) - lprod (residues p))
    with (lprod (residues p) * (a ^ (p - 1) - 1)) in E by ring.
  apply Gauss in E.
  - destruct E as [k Hk]. replace (a ^ (p - 1)) with (1 + k * p) by lia.
    rewrite Z_mod_plus_full. apply Z.mod_small; lia.
  - apply rel_prime_lprod; auto. intros x Hx. apply in_residues; auto.
Qed.

Lemma fermat_nat_Z p a : prime p -> 0 <= a -> a ^ p mod p = a mod p.
Proof.
  intros Hp _. pose proof (prime_ge_2 p Hp).
  replace p with (Z.succ (p - 1)) at 1 by lia.
  rewrite Z.pow_succ_r by lia.
  destruct (Zdivide_dec p a) as [Hd|Hd].
  - apply Zdivide_mod in Hd. rewrite Z.mul_mod, Hd by lia. reflexivity.
  - rewrite Z.mul_mod, fermat_coprime by (auto; lia). rewrite Z.mul_1_r. apply Zmod_mod.
Qed.
