(** Concrete keys used to show that the hypotheses of the theorems are met. *)
From Coq Require Import ZArith List Bool Lia Znumtheory Zpow_facts.
From Coq Require Import Init.Byte.
From Verif Require Import Base Bigint BytesLemmas NumTheory SpecRFC MHash MRsa MKey KeyDefs.
Import ListNotations.
Local Open Scope Z_scope.

(** * Primality by trial division *)
Fixpoint no_divisor (fuel : nat) (d p : Z) : bool :=
  match fuel with
  | O => p <? d * d
  | S f => if p <? d * d then true else negb (p mod d =? 0) && no_divisor f (d + 1) p
  end.

Lemma no_divisor_sound fuel : forall d p, 1 < d ->
  no_divisor fuel d p = true ->
  forall x, d <= x -> x * x <= p -> ~ (x | p).
Proof.
  induction fuel; intros d p Hd H x Hx Hxx Hdiv; simpl in H;
    destruct (Z.ltb_spec p (d * d)); try discriminate; try nia.
  apply andb_true_iff in H. destruct H as [H1 H2].
  destruct (Z.eq_dec x d) as [->|].
  - apply Zdivide_mod in Hdiv. rewrite Hdiv in H1. discriminate.
  - eapply IHfuel; [| |  |exact Hxx|exact Hdiv]; [| exact H2|]; lia.
Qed.

Lemma prime_trial p fuel : 1 < p -> no_divisor fuel 2 p = true -> prime p.
Proof.
  intros H1 H. destruct (prime_dec p) as [|Hn]; auto. exfalso.
  destruct (not_prime_divide p H1 Hn) as (x & Hx & Hd).
  destruct Hd as [y Hy].
  destruct (Z_le_gt_dec x y).
  - apply (no_divisor_sound fuel 2 p) with (x := x); auto; try lia. nia. exists y; auto.
  - assert (2 <= y) by nia.
    apply (no_divisor_sound fuel 2 p) with (x := y); auto; try lia. nia. exists x; lia.
Qed.

(** Pocklington's criterion with one large prime factor of N - 1; the certificates
    below are checked by modular exponentiation, not by trial division. *)
Lemma prime_divisor n : 1 < n -> exists p, prime p /\ (p | n).
Proof.
  intros Hn. assert (H0 : 0 <= n) by lia. revert Hn. revert n H0.
  apply (Zlt_0_ind (fun n => 1 < n -> exists p, prime p /\ (p | n))).
  intros n IH Hn0 Hn. destruct (prime_dec n) as [|Np]; [exists n; split; auto; apply Z.divide_refl|].
  destruct (not_prime_divide n Hn Np) as (x & Hx & Hd).
  destruct (IH x ltac:(lia) ltac:(lia)) as (p & Hp & Hpd).
  exists p. split; auto. eapply Z.divide_trans; eauto.
Qed.

Lemma small_prime_divisor n : 1 < n -> ~ prime n -> exists p, prime p /\ (p | n) /\ p * p <= n.
Proof.
  intros Hn Np. destruct (not_prime_divide n Hn Np) as (x & Hx & Hd). destruct Hd as [y Hy].
  assert (1 < y < n) by nia.
  assert (exists z, 1 < z /\ (z | n) /\ z * z <= n) as (z & Hz & Hzd & Hzz).
  { destruct (Z_le_gt_dec x y).
    - exists x. repeat split; [lia|exists y; lia|nia].
    - exists y. repeat split; [lia|exists x; lia|nia]. }
  destruct (prime_divisor z Hz) as (p & Hp & Hpd).
  pose proof (prime_ge_2 p Hp). pose proof (Z.divide_pos_le p z ltac:(lia) Hpd).
  exists p. split; auto. split; [eapply Z.divide_trans; eauto|nia].
Qed.

Lemma bezout_nonneg q m u v : 0 < q -> 0 < m -> u * q + v * m = 1 ->
  exists U V, 0 <= U /\ 0 <= V /\ U * q = 1 + V * m.
Proof.
  intros Hq Hm E. set (t := Z.abs u + Z.abs v).
  assert (t <= t * m) by nia. assert (t <= t * q) by nia.
  exists (u + t * m), (t * q - v). split; [lia|]. split; [lia|].
  clearbody t. replace 1 with (u * q + v * m) by lia. ring.
Qed.

Lemma pocklington n q r a :
  1 < n -> prime q -> 0 < r -> n = q * r + 1 -> n <= q * q ->
  powm a (n - 1) n = 1 -> Z.gcd (powm a r n - 1) n = 1 -> prime n.
Proof.
  intros Hn Hq Hr En Hqq Ha Hg. destruct (prime_dec n) as [|Np]; auto. exfalso.
  pose proof (prime_ge_2 q Hq).
  destruct (small_prime_divisor n Hn Np) as (p & Hp & Hpn & Hpp).
  pose proof (prime_ge_2 p Hp).
  rewrite powm_spec in Ha, Hg by lia.
  assert (Amod : forall x, x mod n mod p = x mod p).
  { intros x. destruct Hpn as [c ->]. rewrite (Z.mul_comm c p).
    rewrite Z.rem_mul_r by nia. rewrite (Z.mul_comm p), Z_mod_plus_full. apply Zmod_mod. }
  assert (A1 : a ^ (n - 1) mod p = 1).
  { rewrite <- Amod, Ha. apply Z.mod_small; lia. }
  assert (Ar : a ^ r mod p <> 1).
  { intros H1. assert (D : (p | a ^ r mod n - 1)).
    { apply divide_mod_eq; [lia|]. rewrite Amod, H1. symmetry; apply Z.mod_small; lia. }
    assert (p | 1) by (rewrite <- Hg; apply Z.gcd_greatest; auto).
    apply Z.divide_1_r_nonneg in H2; lia. }
  assert (Hna : ~ (p | a)).
  { intros Hd. apply Zdivide_mod in Hd. rewrite Zpower_mod, Hd in A1 by lia.
    rewrite Z.pow_0_l, Zmod_0_l in A1 by lia. lia. }
  assert (Hqp : (q | p - 1)).
  { destruct (Zdivide_dec q (p - 1)) as [|Nd]; auto. exfalso. apply Ar.
    pose proof (prime_rel_prime q Hq (p - 1) Nd) as RP.
    apply Zgcd_1_rel_prime in RP.
    destruct (Z.gcd_bezout q (p - 1) 1 RP) as (u & v & Huv).
    destruct (bezout_nonneg q (p - 1) u v ltac:(lia) ltac:(lia) Huv) as (U & V & HU & HV & E).
    assert (E2 : (n - 1) * U = r + (p - 1) * (V * r)).
    { replace (n - 1) with (q * r) by lia.
      replace (q * r * U) with (r * (U * q)) by ring. rewrite E. ring. }
    assert (HW : 0 <= V * r) by (apply Z.mul_nonneg_nonneg; lia).
    assert (HW2 : 0 <= (p - 1) * (V * r)) by (apply Z.mul_nonneg_nonneg; lia).
    assert (F1 : a ^ ((n - 1) * U) mod p = 1).
    { rewrite Z.pow_mul_r by lia. rewrite Zpower_mod, A1 by lia. rewrite Z.pow_1_l by lia.
      apply Z.mod_small; lia. }
    rewrite E2 in F1. rewrite Z.pow_add_r in F1 by lia. rewrite Z.pow_mul_r in F1 by lia.
    rewrite Zmult_mod in F1. rewrite (Zpower_mod (a ^ (p - 1))) in F1 by lia.
    rewrite fermat_pm1 in F1 by auto. rewrite Z.pow_1_l in F1 by lia.
    rewrite (Z.mod_small 1 p) in F1 by lia. rewrite Z.mul_1_r, Zmod_mod in F1. exact F1. }
  apply Z.divide_pos_le in Hqp; [|lia]. nia.
Qed.

Ltac by_trial := apply (prime_trial _ (Z.to_nat 3000)); [reflexivity|vm_compute; reflexivity].
Ltac by_pock q r a pq :=
  apply (pocklington _ q r a); [reflexivity|exact pq|reflexivity|reflexivity|vm_compute; congruence
    |vm_compute; reflexivity|vm_compute; reflexivity].

(** * A 64-bit two-prime key (the key of src/key.rs:1020-1033, tests) *)
Definition p64 : uint := mkU 0xd2aaa725 64.
Definition q64 : uint := mkU 0xd46b68cb 64.
Definition n64 : uint := mkU 0xaecdb5fae1b09257 64.
Definition e64 : uint := mkU 65537 64.
Definition d64 : uint := mkU 0x69bf9ae9d6712899 64.
Definition pub64 : pubkey := mkPub n64 e64 (mkMP n64).
Definition key64_plain : privkey := mkPriv pub64 d64 [p64; q64] None.
Definition key64 : privkey :=
  match precompute key64_plain with Ok k => k | _ => key64_plain end.

Lemma prime_8578639 : prime 8578639. Proof. by_trial. Qed.
Lemma prime_p64 : prime (uval p64). Proof. by_pock 8578639 412 2 prime_8578639. Qed.
Lemma prime_8692217 : prime 8692217. Proof. by_trial. Qed.
Lemma prime_q64 : prime (uval q64). Proof. by_pock 8692217 410 2 prime_8692217. Qed.

Lemma wf_pub64 : wf_pub pub64.
Proof.
  unfold wf_pub, wf_uint. cbn. repeat split; try reflexivity; intros H; vm_compute in H; discriminate.
Qed.

Lemma valid64 : valid_rsa_key (uval n64) (uval e64) (uval d64) (map uval [p64; q64]).
Proof.
  unfold valid_rsa_key. repeat split.
  - simpl; lia.
  - repeat apply Forall_cons; try apply Forall_nil; [apply prime_p64|apply prime_q64].
  - repeat constructor; cbn; intuition discriminate.
  - intros p [<-|[<-|[]]]; vm_compute; reflexivity.
Qed.

Lemma good64_plain : good_priv key64_plain.
Proof.
  repeat split; try apply wf_pub64; try apply valid64;
    try (left; reflexivity);
    try (repeat apply Forall_cons; try apply Forall_nil);
    try (unfold wf_uint; repeat split; vm_compute; congruence).
Qed.

Lemma good64 : good_priv key64.
Proof.
  replace key64 with (mkPriv pub64 d64 [p64; q64] (sk_pre key64)) by (vm_compute; reflexivity).
  destruct good64_plain as (A & B & C & D & E & _).
  split; [exact A|]. split; [exact B|]. split; [exact C|]. split; [exact D|].
  split; [exact E|]. right. vm_compute. reflexivity.
Qed.

(** * A 91-bit three-prime key, stored with 128-bit precision

    The three primes minus one share a large factor, so that d is short and the
    examples compute quickly. *)
Definition ps91 : list uint := [mkU 805310491 64; mkU 1073747321 64; mkU 1610620981 64].
Definition n91 : uint := mkU 1392703933737654800408983391 128.
Definition e91 : uint := mkU 7 64.
Definition d91 : uint := mkU 460177423 128.
Definition pub91 : pubkey := mkPub n91 e91 (mkMP n91).
Definition key91_plain : privkey := mkPriv pub91 d91 ps91 None.
Definition key91 : privkey :=
  match precompute key91_plain with Ok k => k | _ => key91_plain end.

Lemma prime_276739 : prime 276739. Proof. by_trial. Qed.
Lemma prime_91a : prime 805310491. Proof. by_pock 276739 2910 2 prime_276739. Qed.
Lemma prime_91b : prime 1073747321. Proof. by_pock 276739 3880 2 prime_276739. Qed.
Lemma prime_91c : prime 1610620981. Proof. by_pock 276739 5820 2 prime_276739. Qed.

Lemma wf_pub91 : wf_pub pub91.
Proof.
  unfold wf_pub, wf_uint. cbn. repeat split; try reflexivity; intros H; vm_compute in H; discriminate.
Qed.

Lemma valid91 : valid_rsa_key (uval n91) (uval e91) (uval d91) (map uval ps91).
Proof.
  unfold valid_rsa_key. repeat split.
  - simpl; lia.
  - repeat apply Forall_cons; try apply Forall_nil;
      [apply prime_91a|apply prime_91b|apply prime_91c].
  - repeat constructor; cbn; intuition discriminate.
  - intros p [<-|[<-|[<-|[]]]]; vm_compute; reflexivity.
Qed.

Lemma good91_plain : good_priv key91_plain.
Proof.
  split; [apply wf_pub91|]. split; [unfold wf_uint; repeat split; vm_compute; congruence|].
  split; [repeat apply Forall_cons; try apply Forall_nil;
          unfold wf_uint; repeat split; vm_compute; congruence|].
  split; [apply valid91|]. split; [vm_compute; congruence|]. left; reflexivity.
Qed.

Lemma good91 : good_priv key91.
Proof.
  replace key91 with (mkPriv pub91 d91 ps91 (sk_pre key91)) by (vm_compute; reflexivity).
  destruct good91_plain as (A & B & C & D & E & _).
  split; [exact A|]. split; [exact B|]. split; [exact C|]. split; [exact D|].
  split; [exact E|]. right. vm_compute. reflexivity.
Qed.

(** * A 65-bit two-prime key (bit length 1 modulo 8), 128-bit precision *)
Definition ps65 : list uint := [mkU 4549199597 64; mkU 6417563813 64].
Definition n65 : uint := mkU 29194778711821383361 128.
Definition d65 : uint := mkU 7137657207823341957 128.
Definition pub65 : pubkey := mkPub n65 e64 (mkMP n65).
Definition key65_plain : privkey := mkPriv pub65 d65 ps65 None.
Definition key65 : privkey :=
  match precompute key65_plain with Ok k => k | _ => key65_plain end.

Lemma prime_119981 : prime 119981. Proof. by_trial. Qed.
Lemma prime_65a : prime 4549199597. Proof. by_pock 119981 37916 2 prime_119981. Qed.
Lemma prime_2472097 : prime 2472097. Proof. by_trial. Qed.
Lemma prime_65b : prime 6417563813. Proof. by_pock 2472097 2596 2 prime_2472097. Qed.

Lemma wf_pub65 : wf_pub pub65.
Proof.
  unfold wf_pub, wf_uint. cbn. repeat split; try reflexivity; intros H; vm_compute in H; discriminate.
Qed.

Lemma valid65 : valid_rsa_key (uval n65) (uval e64) (uval d65) (map uval ps65).
Proof.
  unfold valid_rsa_key. repeat split.
  - simpl; lia.
  - repeat apply Forall_cons; try apply Forall_nil; [apply prime_65a|apply prime_65b].
  - repeat constructor; cbn; intuition discriminate.
  - intros p [<-|[<-|[]]]; vm_compute; reflexivity.
Qed.

Lemma good65_plain : good_priv key65_plain.
Proof.
  split; [apply wf_pub65|]. split; [unfold wf_uint; repeat split; vm_compute; congruence|].
  split; [repeat apply Forall_cons; try apply Forall_nil;
          unfold wf_uint; repeat split; vm_compute; congruence|].
  split; [apply valid65|]. split; [vm_compute; congruence|]. left; reflexivity.
Qed.

Lemma good65 : good_priv key65.
Proof.
  replace key65 with (mkPriv pub65 d65 ps65 (sk_pre key65)) by (vm_compute; reflexivity).
  destruct good65_plain as (A & B & C & D & E & _).
  split; [exact A|]. split; [exact B|]. split; [exact C|]. split; [exact D|].
  split; [exact E|]. right. vm_compute. reflexivity.
Qed.

(** * A 199-bit five-prime key, 256-bit precision, large enough for a DigestInfo

    As above the primes minus one share a large factor, so that d is short. *)
Definition ps199 : list uint :=
  [mkU 561797196577 64; mkU 665286153841 64; mkU 902888351641 64; mkU 936328660961 64; mkU 1580054615371 64].
Definition n199 : uint := mkU 499255110165360654514598536336441448536493950339008267981347 256.
Definition e199 : uint := mkU 29 64.
Definition d199 : uint := mkU 871754270549 256.
Definition pub199 : pubkey := mkPub n199 e199 (mkMP n199).
Definition key199 : privkey := mkPriv pub199 d199 ps199 None.

Lemma prime_4000037 : prime 4000037. Proof. by_trial. Qed.
Lemma prime_199a : prime 561797196577. Proof. by_pock 4000037 140448 2 prime_4000037. Qed.
Lemma prime_199b : prime 665286153841. Proof. by_pock 4000037 166320 2 prime_4000037. Qed.
Lemma prime_199c : prime 902888351641. Proof. by_pock 4000037 225720 2 prime_4000037. Qed.
Lemma prime_199d : prime 936328660961. Proof. by_pock 4000037 234080 2 prime_4000037. Qed.
Lemma prime_199e : prime 1580054615371. Proof. by_pock 4000037 395010 2 prime_4000037. Qed.

Lemma wf_pub199 : wf_pub pub199.
Proof.
  unfold wf_pub, wf_uint. cbn. repeat split; try reflexivity; intros H; vm_compute in H; discriminate.
Qed.

Lemma valid199 : valid_rsa_key (uval n199) (uval e199) (uval d199) (map uval ps199).
Proof.
  unfold valid_rsa_key. repeat split.
  - simpl; lia.
  - repeat apply Forall_cons; try apply Forall_nil;
      [apply prime_199a|apply prime_199b|apply prime_199c|apply prime_199d|apply prime_199e].
  - repeat constructor; cbn; intuition discriminate.
  - intros p [<-|[<-|[<-|[<-|[<-|[]]]]]]; vm_compute; reflexivity.
Qed.

Lemma good199 : good_priv key199.
Proof.
  split; [apply wf_pub199|]. split; [unfold wf_uint; repeat split; vm_compute; congruence|].
  split; [repeat apply Forall_cons; try apply Forall_nil;
          unfold wf_uint; repeat split; vm_compute; congruence|].
  split; [apply valid199|]. split; [vm_compute; congruence|]. left; reflexivity.
Qed.

(** * Generators *)

(** A counting generator: state s yields bytes s, s+1, ... (it does yield zeros) and
    the number s modulo the bound. *)
Definition count_rng : rng_ops Z :=
  mkRng Z (fun s n => (Some (map (fun i => z2b (s + Z.of_nat i)) (seq 0 n)), s + Z.of_nat n))
          (fun s n => (Some (s mod n), s + 1)).
Lemma count_rng_ok : rng_ok count_rng.
Proof.
  split.
  - intros r n bs r' [= <- _]. rewrite map_length, seq_length. reflexivity.
  - intros r n v r' Hn [= <- _]. apply Z.mod_pos_bound; auto.
Qed.

(** A generator that always fails. *)
Definition dead_rng : rng_ops unit := mkRng unit (fun _ _ => (None, tt)) (fun _ _ => (None, tt)).
Lemma dead_rng_ok : rng_ok dead_rng.
Proof. split; discriminate. Qed.

(** * A hash function *)

(** A toy 2-byte hash used by the non-vacuity examples: first and last octet sums. *)
Definition toy_fun (m : list byte) : list byte :=
  [z2b (fold_left (fun a b => a + b2z b) m 7); z2b (fold_left (fun a b => 3 * a + b2z b) m 1)].
Definition toy_hash : hashfn := mkHash 2 toy_fun (fun _ => eq_refl).
