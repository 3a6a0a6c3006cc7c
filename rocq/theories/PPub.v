(** Public key constructors, key equality and hashing (src/key.rs:43-110, 209-253,
    584-612).  C25, C36. *)
From Coq Require Import ZArith List Bool Lia Znumtheory.
From Coq Require Import Init.Byte.
From Verif Require Import Base Bigint BytesLemmas SpecRFC SpecRng SpecSig SpecKey BigintLemmas
  MHash MRsa MKey MApi KeyDefs PRsa PApi PKey PSig PSign.
Import ListNotations.
Local Open Scope Z_scope.

(** * C25 *)

(** The documented errors with their precedence. *)
Definition public_error (n e stored max : Z) : error :=
  if max <? stored then ModulusTooLarge
  else if n <=? e then InvalidModulus
  else if Z.even n then InvalidModulus
  else if Z.even e then InvalidExponent
  else if e <? 2 then PublicExponentTooSmall
  else PublicExponentTooLarge.

Lemma c25_exact n e max : wf_uint n -> wf_uint e ->
  (public_acceptable (uval n) (uval e) (uprec n) max ->
   public_new_with_max_size n e max = Ok (mkPub n e (mkMP n)) /\ wf_pub (mkPub n e (mkMP n))) /\
  (~ public_acceptable (uval n) (uval e) (uprec n) max ->
   public_new_with_max_size n e max = Err (public_error (uval n) (uval e) (uprec n) max)).
Proof.
  intros Wn We. pose proof Wn as ((N0 & _) & _). pose proof We as ((E0 & _) & _).
  destruct (check_public_max_spec n e max N0 E0) as [(E & A)|(err & E & A)];
    (split; [intros B|intros B]); try contradiction.
  - unfold public_new_with_max_size. rewrite E. cbn [bind].
    pose proof A as (_ & O & _ & A1 & A2 & _). unfold guard, assert_, uis_odd, uis_zero. rewrite O. cbn [bind].
    destruct (Z.eqb_spec (uval n) 0); [lia|]. cbn [negb bind]. split; [reflexivity|].
    apply mk_wf_pub; auto.
  - unfold public_new_with_max_size. rewrite E. cbn [bind]. f_equal.
    revert E. unfold check_public_with_max_size, public_error.
    destruct (max <? uprec n) eqn:L1; [intros [= <-]; auto|].
    unfold uleb, uis_even, uis_zero, ultb, u_of_u64, MIN_PUB_EXPONENT, MAX_PUB_EXPONENT. cbn [uval].
    destruct (Z.leb_spec (uval n) (uval e)) as [L2|L2]; cbn [orb]; [intros [= <-]; auto|].
    destruct (Z.even (uval n)) eqn:L3; cbn [orb]; [intros [= <-]; auto|].
    destruct (Z.eqb_spec (uval n) 0); [lia|].
    destruct (Z.even (uval e)) eqn:L4; [intros [= <-]; auto|].
    destruct (uval e <? 2) eqn:L5; [intros [= <-]; auto|].
    destruct (2 ^ 33 - 1 <? uval e) eqn:L6; [intros [= <-]; auto|discriminate].
Qed.

Lemma c25_iff n e max : wf_uint n -> wf_uint e ->
  ((exists k, public_new_with_max_size n e max = Ok k) <->
   public_acceptable (uval n) (uval e) (uprec n) max).
Proof.
  intros Wn We. destruct (c25_exact n e max Wn We) as (A & B). split.
  - intros (k & H).
    pose proof Wn as ((N0 & _) & _). pose proof We as ((E0 & _) & _).
    destruct (check_public_max_spec n e max N0 E0) as [(_ & X)|(err & _ & X)]; auto.
    rewrite (B X) in H. discriminate.
  - intros X. destruct (A X) as (E & _). eauto.
Qed.

Lemma c25_new n e : public_new n e = public_new_with_max_size n e 4096.
Proof. reflexivity. Qed.

Lemma c25_unchecked n e : wf_uint n -> wf_uint e ->
  (Z.odd (uval n) = true -> public_new_unchecked n e = Ok (mkPub n e (mkMP n)) /\ wf_pub (mkPub n e (mkMP n))) /\
  (Z.odd (uval n) = false -> public_new_unchecked n e = Panic).
Proof.
  intros Wn We. unfold public_new_unchecked, assert_, uis_odd, uis_zero. split; intros O; rewrite O; [|reflexivity].
  cbn [bind]. destruct (Z.eqb_spec (uval n) 0) as [E|]; [rewrite E in O; discriminate|].
  split; [reflexivity|apply mk_wf_pub; auto].
Qed.

(** A key above the 4096-bit limit never encrypts. *)
Lemma oversize_check pk : 4096 < uprec (pk_n pk) -> check_public pk = Err ModulusTooLarge.
Proof.
  intros H. unfold check_public, check_public_with_max_size, MAX_SIZE.
  destruct (Z.ltb_spec 4096 (uprec (pk_n pk))); [reflexivity|lia].
Qed.

Lemma c25_oversize_encrypt {R} (g : rng_ops R) fuel st pk pad msg :
  4096 < uprec (pk_n pk) -> public_encrypt g fuel st pk pad msg = Err ModulusTooLarge.
Proof.
  intros H. pose proof (oversize_check pk H) as E.
  destruct pad as [|o]; unfold public_encrypt, pkcs1v15_encrypt, oaep_api_encrypt; rewrite E; reflexivity.
Qed.

Lemma c25_oversize_encrypt_digest {R} (g : rng_ops R) hd hm st pk msg label :
  4096 < uprec (pk_n pk) -> oaep_api_encrypt_digest g hd hm st pk msg label = Err ModulusTooLarge.
Proof.
  intros H. pose proof (oversize_check pk H) as E. unfold oaep_api_encrypt_digest. rewrite E. reflexivity.
Qed.

(** * C36 *)

Lemma pub_eqb_spec a b : pub_eqb a b = true <->
  uval (pk_n a) = uval (pk_n b) /\ uval (pk_e a) = uval (pk_e b).
Proof. unfold pub_eqb, ueqb. rewrite andb_true_iff, !Z.eqb_eq. tauto. Qed.

Lemma uints_eqb_spec a : forall b, uints_eqb a b = true <-> map uval a = map uval b.
Proof.
  induction a as [|x a IH]; intros [|y b]; cbn [uints_eqb map]; try (split; congruence).
  unfold ueqb. rewrite andb_true_iff, Z.eqb_eq, IH. split.
  - intros [-> ->]. reflexivity.
  - intros [= -> ->]. auto.
Qed.

Lemma priv_eqb_spec a b : priv_eqb a b = true <->
  uval (pk_n (sk_pub a)) = uval (pk_n (sk_pub b)) /\ uval (pk_e (sk_pub a)) = uval (pk_e (sk_pub b)) /\
  uval (sk_d a) = uval (sk_d b) /\ map uval (sk_primes a) = map uval (sk_primes b).
Proof.
  unfold priv_eqb. rewrite !andb_true_iff, pub_eqb_spec, uints_eqb_spec. unfold ueqb. rewrite Z.eqb_eq. tauto.
Qed.

Lemma c36_pub_equiv :
  (forall a, pub_eqb a a = true) /\
  (forall a b, pub_eqb a b = true -> pub_eqb b a = true) /\
  (forall a b c, pub_eqb a b = true -> pub_eqb b c = true -> pub_eqb a c = true).
Proof.
  split; [|split].
  - intros a. apply pub_eqb_spec. auto.
  - intros a b H. apply pub_eqb_spec in H. apply pub_eqb_spec. intuition.
  - intros a b c H1 H2. apply pub_eqb_spec in H1, H2. apply pub_eqb_spec. intuition congruence.
Qed.

Lemma c36_priv_equiv :
  (forall a, priv_eqb a a = true) /\
  (forall a b, priv_eqb a b = true -> priv_eqb b a = true) /\
  (forall a b c, priv_eqb a b = true -> priv_eqb b c = true -> priv_eqb a c = true).
Proof.
  split; [|split].
  - intros a. apply priv_eqb_spec. auto.
  - intros a b H. apply priv_eqb_spec in H. apply priv_eqb_spec. intuition.
  - intros a b c H1 H2. apply priv_eqb_spec in H1, H2. apply priv_eqb_spec. intuition congruence.
Qed.

Lemma uint_eq a b : uval a = uval b -> uprec a = uprec b -> a = b.
Proof. destruct a, b. cbn. congruence. Qed.

(** Equal keys hash equally exactly when n and e are stored equally wide. *)
Lemma c36_pub_hash a b : pub_eqb a b = true ->
  (pub_hash a = pub_hash b <-> uprec (pk_n a) = uprec (pk_n b) /\ uprec (pk_e a) = uprec (pk_e b)).
Proof.
  intros H. apply pub_eqb_spec in H. destruct H as [Hn He]. unfold pub_hash, uint_hash. split.
  - intros [= A B C D]. auto.
  - intros [A B]. rewrite A, B, Hn, He. reflexivity.
Qed.

Lemma c36_priv_hash a b : priv_eqb a b = true ->
  (priv_hash a = priv_hash b <->
   uprec (pk_n (sk_pub a)) = uprec (pk_n (sk_pub b)) /\ uprec (pk_e (sk_pub a)) = uprec (pk_e (sk_pub b))).
Proof.
  intros H. apply priv_eqb_spec in H. destruct H as (Hn & He & _).
  rewrite <- c36_pub_hash by (apply pub_eqb_spec; auto). unfold priv_hash. split.
  - intros E. injection E. intros. unfold pub_hash, uint_hash. congruence.
  - intros ->. reflexivity.
Qed.

(** Conversely, equal hash input means equal public part. *)
Lemma c36_hash_inj a b : pub_hash a = pub_hash b -> pub_eqb a b = true.
Proof. unfold pub_hash, uint_hash. intros [= A B C D]. apply pub_eqb_spec. auto. Qed.

(** The public half of equal private keys is equal. *)
Lemma c36_to_public a b : priv_eqb a b = true -> pub_eqb (to_public_key a) (to_public_key b) = true.
Proof. intros H. apply priv_eqb_spec in H. apply pub_eqb_spec. unfold to_public_key. tauto. Qed.
