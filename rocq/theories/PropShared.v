(** C108: keys that share a modulus or a prime. *)
From Coq Require Import ZArith List Bool Lia Znumtheory.
From Coq Require Import Init.Byte.
From Verif Require Import Base Bigint NumTheory SpecRFC SpecRng SpecKey MHash MRsa MGenerate MKey MApi KeyDefs.
From Verif Require Import PRsa PDraws PShared KeyExamples.
Import ListNotations.
Local Open Scope Z_scope.

(** [acts_for k n e]: the private key [k] reads whatever is encrypted to (n, e), with and
    without blinding, and produces for every number what (n, e) maps to it (a signature). *)
Definition acts_for (k : privkey) (n e : Z) : Prop :=
  forall (R : Type) (g : rng_ops R) fuel rng, (rng <> None -> rng_ok g) -> blinding_succeeds g n rng fuel ->
  (forall m, 0 <= m < n ->
     rsa_decrypt_and_check g fuel k rng (mkU (m ^ e mod n) (uprec (pk_n (sk_pub k))))
     = Ok (mkU m (uprec (pk_n (sk_pub k))))) /\
  (forall c, 0 <= c < n -> exists s,
     rsa_decrypt_and_check g fuel k rng (mkU c (uprec (pk_n (sk_pub k)))) = Ok s /\ uval s ^ e mod n = c).

Lemma good_acts k : good_priv k -> acts_for k (uval (pk_n (sk_pub k))) (uval (pk_e (sk_pub k))).
Proof.
  intros G R g fuel rng Hg S. split.
  - intros m Hm. apply good_reads; auto.
  - intros c Hc. pose proof G as (((N & P1 & P2) & _) & _ & _ & V & _).
    assert (W : wf_uint (mkU c (uprec (pk_n (sk_pub k))))) by (apply wf_mk; auto; lia).
    destruct (rsa_decrypt_and_check_good g fuel rng k _ Hg G W eq_refl) as (A & _); [cbn [uval]; lia|].
    eexists. split; [exact (A S)|]. cbn [uval]. eapply rsa_enc_dec; eauto.
Qed.

(** One message sent raw to two keys with the same modulus and exponents without a common
    factor is determined by the two ciphertexts: it is the only solution of an equation
    with public coefficients. *)
Theorem C108_common_modulus : forall k1 k2, wf_pub k1 -> wf_pub k2 -> uval (pk_n k1) = uval (pk_n k2) ->
  1 < uval (pk_n k1) -> 0 < uval (pk_e k1) -> 0 < uval (pk_e k2) -> Z.gcd (uval (pk_e k1)) (uval (pk_e k2)) = 1 ->
  exists a b, 0 <= a /\ 0 <= b /\
  forall m c1 c2, wf_uint m -> uval m < uval (pk_n k1) -> Z.gcd (uval m) (uval (pk_n k1)) = 1 ->
    rsa_encrypt k1 m = Ok c1 -> rsa_encrypt k2 m = Ok c2 ->
    forall x, 0 <= x < uval (pk_n k1) ->
      ((x * uval c2 ^ b) mod uval (pk_n k1) = uval c1 ^ a mod uval (pk_n k1) <-> x = uval m).
Proof.
  intros k1 k2 W1 W2 EN N E1 E2 G. destruct (bezout_pos _ _ E1 E2 G) as (a & b & A & B & H).
  exists a, b. split; [exact A|]. split; [exact B|]. intros m c1 c2 Wm Hm Gm H1 H2 x X.
  pose proof W1 as ((N1 & _) & _). pose proof W2 as ((N2 & _) & _).
  rewrite rsa_encrypt_small in H1 by (auto; lia). rewrite rsa_encrypt_small in H2 by (auto; lia).
  injection H1 as <-. injection H2 as <-. cbn [uval]. rewrite <- EN.
  apply common_modulus; auto. destruct Wm as (Wm & _). lia.
Qed.

(** Whoever holds a two-prime key can act for every other key with its modulus: their primes
    and the other's public exponent make, by [from_p_q], the other's private key. *)
Theorem C108_same_modulus : forall k1 k2 p q, good_priv k1 -> good_priv k2 ->
  sk_primes k1 = [p; q] -> uval (pk_n (sk_pub k1)) = uval (pk_n (sk_pub k2)) ->
  let n := uval (pk_n (sk_pub k2)) in let e := pk_e (sk_pub k2) in
  uprec e <= uprec p + uprec q -> public_usable n (uval e) (uprec p + uprec q) ->
  exists k, from_p_q p q e = Ok k /\ good_priv k /\
    uval (pk_n (sk_pub k)) = n /\ pk_e (sk_pub k) = e /\ acts_for k n (uval e).
Proof.
  intros k1 k2 p q G1 G2 EP EN n e L U. pose proof G1 as (_ & _ & WP & V & _).
  rewrite EP in WP, V. cbn [map] in V. destruct V as (_ & F & ND & N & _).
  apply Forall_cons_iff in WP. destruct WP as (Wp & WP). apply Forall_cons_iff in WP. destruct WP as (Wq & _).
  apply Forall_cons_iff in F. destruct F as (P & F). apply Forall_cons_iff in F. destruct F as (Q & _).
  cbn [product fold_right] in N.
  destruct (rebuild k2 p q e) as (k & E & G & R1 & R2 & R3); auto.
  - inversion ND as [|x l NI _]. intros X. apply NI. left. auto.
  - lia.
  - exact (proj1 (proj2 (proj1 G2))).
  - exists k. split; [exact E|]. split; [exact G|]. split; [exact R1|]. split; [exact R2|].
    pose proof (good_acts k G) as A. rewrite R1, R2 in A. exact A.
Qed.

(** Two moduli with a common factor: anyone who sees both public keys divides, and makes by
    [from_p_q] the private key of each two-prime key among them.  [n2] may be any number. *)
Theorem C108_shared_prime : forall k p q n2 u v, good_priv k -> sk_primes k = [p; q] ->
  let n := uval (pk_n (sk_pub k)) in let e := pk_e (sk_pub k) in
  1 < Z.gcd n n2 < n ->
  wf_uint u -> wf_uint v -> uval u = Z.gcd n n2 -> uval v = n / Z.gcd n n2 ->
  uprec e <= uprec u + uprec v -> public_usable n (uval e) (uprec u + uprec v) ->
  prime (uval u) /\ prime (uval v) /\
  exists k', from_p_q u v e = Ok k' /\ good_priv k' /\
    uval (pk_n (sk_pub k')) = n /\ pk_e (sk_pub k') = e /\ acts_for k' n (uval e).
Proof.
  intros k p q n2 u v G EP n e B Wu Wv Eu Ev L U. pose proof G as (_ & _ & _ & V & _).
  rewrite EP in V. cbn [map] in V. destruct V as (_ & F & ND & N & _). fold n in N.
  apply Forall_cons_iff in F. destruct F as (P & F). apply Forall_cons_iff in F. destruct F as (Q & _).
  cbn [product fold_right] in N. rewrite Z.mul_1_r in N.
  pose proof (prime_ge_2 _ P). pose proof (prime_ge_2 _ Q).
  assert (NE : uval p <> uval q) by (inversion ND as [|x l NI _]; intros X; apply NI; left; auto).
  assert (D : Z.gcd n n2 = uval p \/ Z.gcd n n2 = uval q).
  { apply proper_divisor; auto; rewrite <- N; [apply Z.gcd_divide_l|exact B]. }
  assert (X : prime (uval u) /\ prime (uval v) /\ uval u <> uval v /\ uval u * uval v = n).
  { rewrite Ev, Eu. destruct D as [->| ->].
    - rewrite N, (Z.mul_comm (uval p)), Z.div_mul by lia. split; [exact P|]. split; [exact Q|]. split; [exact NE|ring].
    - rewrite N, Z.div_mul by lia. split; [exact Q|]. split; [exact P|]. split; [auto|ring]. }
  destruct X as (X1 & X2 & X3 & X4). split; [exact X1|]. split; [exact X2|].
  destruct (rebuild k u v e) as (k' & E & G' & R1 & R2 & R3); auto.
  - exact (proj1 (proj2 (proj1 G))).
  - exists k'. split; [exact E|]. split; [exact G'|]. split; [exact R1|]. split; [exact R2|].
    pose proof (good_acts k' G') as A. rewrite R1, R2 in A. exact A.
Qed.

(** The hypothesis on the moduli is met as soon as two keys share a prime and the first
    modulus does not divide the other. *)
Theorem C108_shared_prime_seen : forall k1 k2 r, good_priv k1 -> good_priv k2 ->
  In r (map uval (sk_primes k1)) -> In r (map uval (sk_primes k2)) ->
  let n1 := uval (pk_n (sk_pub k1)) in let n2 := uval (pk_n (sk_pub k2)) in
  ~ (n1 | n2) -> 1 < Z.gcd n1 n2 < n1.
Proof.
  intros k1 k2 r G1 G2 I1 I2 n1 n2 ND.
  pose proof (good_gt1 k1 G1) as B1. fold n1 in B1.
  destruct G1 as (_ & _ & _ & (_ & F1 & _ & N1 & _) & _). destruct G2 as (_ & _ & _ & (_ & F2 & _ & N2 & _) & _).
  fold n1 in N1. fold n2 in N2.
  assert (P : prime r) by (rewrite Forall_forall in F1; auto).
  pose proof (prime_ge_2 _ P) as P2.
  assert (D1 : (r | n1)) by (rewrite N1; apply in_divides_product; exact I1).
  assert (D2 : (r | n2)) by (rewrite N2; apply in_divides_product; exact I2).
  pose proof (Z.gcd_greatest n1 n2 r D1 D2) as DG.
  pose proof (Z.gcd_nonneg n1 n2) as G0.
  assert (GN : Z.gcd n1 n2 <> 0) by (intros X; apply Z.gcd_eq_0_l in X; lia).
  split; [apply Z.divide_pos_le in DG; lia|].
  assert (N0 : 0 < n1) by lia.
  pose proof (Z.divide_pos_le _ _ N0 (Z.gcd_divide_l n1 n2)) as LE.
  destruct (Z.eq_dec (Z.gcd n1 n2) n1) as [X|X]; [|lia].
  exfalso. apply ND. rewrite <- X. apply Z.gcd_divide_r.
Qed.

(** ** Cases *)

(** A second key with the modulus of the 64-bit key: exponent 3 instead of 65537. *)
Definition pub64_3 : pubkey := mkPub n64 (mkU 3 64) (mkMP n64).
Definition key64_3 : privkey := mkPriv pub64_3 (mkU 2099320635809972327 64) [q64; p64] None.

Lemma wf_pub64_3 : wf_pub pub64_3.
Proof.
  unfold wf_pub, wf_uint. cbn. repeat split; try reflexivity; intros H; vm_compute in H; discriminate.
Qed.

Lemma good64_3 : good_priv key64_3.
Proof.
  split; [apply wf_pub64_3|].
  split; [unfold wf_uint; repeat split; vm_compute; congruence|].
  split; [repeat apply Forall_cons; try apply Forall_nil; unfold wf_uint; repeat split; vm_compute; congruence|].
  split; [|split; [vm_compute; discriminate|left; reflexivity]].
  unfold valid_rsa_key. repeat split.
  - simpl; lia.
  - repeat apply Forall_cons; try apply Forall_nil; [apply prime_q64|apply prime_p64].
  - repeat constructor; cbn; intuition discriminate.
  - intros p [<-|[<-|[]]]; vm_compute; reflexivity.
Qed.

Example C108_common_modulus_case :
  wf_pub pub64 /\ wf_pub pub64_3 /\ Z.gcd (uval (pk_e pub64)) (uval (pk_e pub64_3)) = 1 /\
  2 * uval (pk_e pub64) = 1 + 43691 * uval (pk_e pub64_3) /\ Z.gcd 5000000 (uval n64) = 1 /\
  exists c1 c2, rsa_encrypt pub64 (mkU 5000000 64) = Ok c1 /\ rsa_encrypt pub64_3 (mkU 5000000 64) = Ok c2 /\
    uval c1 <> uval c2 /\
    (5000000 * uval c2 ^ 43691) mod uval n64 = uval c1 ^ 2 mod uval n64.
Proof.
  split; [apply wf_pub64|]. split; [apply wf_pub64_3|].
  split; [vm_compute; reflexivity|]. split; [vm_compute; reflexivity|]. split; [vm_compute; reflexivity|].
  eexists. eexists. split; [vm_compute; reflexivity|]. split; [vm_compute; reflexivity|].
  split; [vm_compute; discriminate|].
  rewrite Zmult_mod, <- Zpow_facts.Zpow_mod_correct by (vm_compute; discriminate). vm_compute. reflexivity.
Qed.

Example C108_same_modulus_case : good_priv key64 /\ good_priv key64_3 /\ sk_primes key64 = [p64; q64] /\
  pk_e (sk_pub key64) <> pk_e (sk_pub key64_3) /\
  public_usable (uval n64) (uval (pk_e (sk_pub key64_3))) (uprec p64 + uprec q64) /\
  (let* k := from_p_q p64 q64 (mkU 3 64) in rsa_decrypt_and_check count_rng 5 k (Some 3) (mkU (5000000 ^ 3 mod uval n64) 128))
  = Ok (mkU 5000000 128).
Proof.
  split; [apply good64|]. split; [apply good64_3|]. split; [vm_compute; reflexivity|].
  split; [vm_compute; discriminate|]. split; [repeat split; vm_compute; congruence|]. vm_compute. reflexivity.
Qed.

(** The modulus of the 64-bit key and another with its first prime. *)
Example C108_shared_prime_case : let n2 := uval p64 * 1610620981 in
  good_priv key64 /\ Z.gcd (uval n64) n2 = uval p64 /\ uval n64 / Z.gcd (uval n64) n2 = uval q64 /\
  wf_uint p64 /\ wf_uint q64 /\ public_usable (uval n64) (uval e64) (uprec p64 + uprec q64) /\
  is_ok (from_p_q p64 q64 e64) = true /\ ~ (uval n64 | n2).
Proof.
  split; [apply good64|]. split; [vm_compute; reflexivity|]. split; [vm_compute; reflexivity|].
  split; [unfold wf_uint; repeat split; vm_compute; congruence|].
  split; [unfold wf_uint; repeat split; vm_compute; congruence|].
  split; [repeat split; vm_compute; congruence|]. split; [vm_compute; reflexivity|].
  intros D. apply Z.mod_divide in D; [|vm_compute; discriminate]. vm_compute in D. discriminate.
Qed.

Print Assumptions C108_common_modulus.
Print Assumptions C108_same_modulus.
Print Assumptions C108_shared_prime.
Print Assumptions C108_shared_prime_seen.
