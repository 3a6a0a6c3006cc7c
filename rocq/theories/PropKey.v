(** Properties of key construction and validation: C25-C29, C36. *)
From Coq Require Import String.
From Coq Require Import ZArith List Bool Lia Znumtheory.
From Coq Require Import Init.Byte.
From Verif Require Import Base Bigint SpecRFC SpecRng SpecKey SpecSig MHash MRsa MGenerate MKey MApi KeyDefs
  BigintLemmas PRsa PApi PSig PSign PKey PRecover PBuild PPub KeyExamples.
Import ListNotations.
Local Open Scope Z_scope.

Ltac wfu := split; [vm_compute; split; congruence|split; [vm_compute; congruence|reflexivity]].
Ltac wfl := repeat (constructor; [wfu|]); constructor.

(** ** C25: public key validation is exact *)

Theorem C25_exact : forall n e max, wf_uint n -> wf_uint e ->
  ((exists k, public_new_with_max_size n e max = Ok k) <->
   public_acceptable (uval n) (uval e) (uprec n) max).
Proof. exact c25_iff. Qed.

Theorem C25_result : forall n e max, wf_uint n -> wf_uint e ->
  (public_acceptable (uval n) (uval e) (uprec n) max ->
   public_new_with_max_size n e max = Ok (mkPub n e (mkMP n)) /\ wf_pub (mkPub n e (mkMP n))) /\
  (~ public_acceptable (uval n) (uval e) (uprec n) max ->
   public_new_with_max_size n e max =
   Err (if max <? uprec n then ModulusTooLarge
        else if uval n <=? uval e then InvalidModulus
        else if Z.even (uval n) then InvalidModulus
        else if Z.even (uval e) then InvalidExponent
        else if uval e <? 2 then PublicExponentTooSmall
        else PublicExponentTooLarge)).
Proof. exact c25_exact. Qed.

Theorem C25_new : forall n e, public_new n e = public_new_with_max_size n e 4096.
Proof. exact c25_new. Qed.

Theorem C25_unchecked : forall n e, wf_uint n -> wf_uint e ->
  (Z.odd (uval n) = true ->
   public_new_unchecked n e = Ok (mkPub n e (mkMP n)) /\ wf_pub (mkPub n e (mkMP n))) /\
  (Z.odd (uval n) = false -> public_new_unchecked n e = Panic).
Proof. exact c25_unchecked. Qed.

Theorem C25_oversize_encrypt : forall {R} (g : rng_ops R) fuel st pk pad msg,
  4096 < uprec (pk_n pk) -> public_encrypt g fuel st pk pad msg = Err ModulusTooLarge.
Proof. exact @c25_oversize_encrypt. Qed.

Theorem C25_oversize_encrypt_digest : forall {R} (g : rng_ops R) hd hm st pk msg label,
  4096 < uprec (pk_n pk) -> oaep_api_encrypt_digest g hd hm st pk msg label = Err ModulusTooLarge.
Proof. exact @c25_oversize_encrypt_digest. Qed.

Example C25_case :
  public_new n64 e64 = Ok pub64 /\
  public_new (mkU 15 64) (mkU 1 64) = Err PublicExponentTooSmall /\
  public_new (mkU (2 ^ 40 + 1) 64) (mkU (2 ^ 33 + 1) 64) = Err PublicExponentTooLarge /\
  public_new (mkU 15 64) (mkU 4 64) = Err InvalidExponent /\
  public_new (mkU 15 4160) (mkU 4 64) = Err ModulusTooLarge /\
  public_new (mkU 15 64) (mkU 16 64) = Err InvalidModulus /\
  public_new_unchecked (mkU 16 64) e64 = Panic.
Proof. repeat split; vm_compute; reflexivity. Qed.

(** An oversize key, made with [new_with_max_size]: it refuses to encrypt but
    verifies a PKCS#1 v1.5 signature.  Its modulus is [s^3 - EM], with EM the encoded
    message of length 520 for T = 41, so that [s] is a signature under e = 3. *)
Definition big_em : list byte := emsa_pkcs1 [x41] 520.
Definition big_n : uint := mkU ((2 ^ 1385) ^ 3 - os2ip big_em) 4160.
Definition big_pub : pubkey := mkPub big_n (mkU 3 64) (mkMP big_n).
Definition big_sig : list byte := be_bytes 520 (2 ^ 1385).

Lemma em_bound T k : (length T + 3 <= k)%nat ->
  0 <= os2ip (emsa_pkcs1 T k) < 256 ^ (Z.of_nat k - 1).
Proof.
  intros L. unfold emsa_pkcs1. rewrite os2ip_cons. change (b2z x00) with 0. rewrite Z.mul_0_l, Z.add_0_l.
  match goal with |- 0 <= os2ip ?l < _ => pose proof (os2ip_range l) as R; set (M := l) in * end.
  assert (EL : Z.of_nat (length M) = Z.of_nat k - 1).
  { unfold M. cbn [length]. rewrite app_length, repeat_length. cbn [length]. lia. }
  rewrite EL in R. exact R.
Qed.

Lemma em_odd k : Z.odd (os2ip (emsa_pkcs1 [x41] k)) = true.
Proof.
  unfold emsa_pkcs1. set (r := repeat _ _). clearbody r.
  replace (x00 :: x01 :: r ++ [x00; x41]) with ((x00 :: x01 :: r ++ [x00]) ++ [x41])
    by (cbn [app]; rewrite <- app_assoc; reflexivity).
  rewrite os2ip_app. change (256 ^ Z.of_nat (length [x41])) with 256. change (os2ip [x41]) with 65.
  set (y := os2ip (x00 :: _)). clearbody y.
  replace (y * 256 + 65) with (2 * (128 * y + 32) + 1) by ring.
  apply Z.odd_spec. eexists. reflexivity.
Qed.

Lemma big_powers a : 3 <= a ->
  let P := 2 ^ (3 * a - 3) in
  1 <= P /\ 2 ^ (3 * a) = 8 * P /\ 2 ^ (3 * a - 1) = 4 * P /\ 2 ^ a <= P /\ (2 ^ a) ^ 3 = 8 * P.
Proof.
  intros Ha P.
  assert (E1 : 2 ^ (3 * a) = 8 * P).
  { unfold P. replace (3 * a) with (3 + (3 * a - 3)) at 1 by lia. rewrite Z.pow_add_r by lia. reflexivity. }
  split; [apply (Z.pow_le_mono_r 2 0); lia|]. split; [exact E1|].
  split; [|split].
  - unfold P. replace (3 * a - 1) with (2 + (3 * a - 3)) at 1 by lia. rewrite Z.pow_add_r by lia. reflexivity.
  - apply Z.pow_le_mono_r; lia.
  - rewrite <- E1, <- Z.pow_mul_r by lia. f_equal. lia.
Qed.

Lemma big_n_facts : exists P, 1 <= P /\ 2 ^ 4155 = 8 * P /\ 2 ^ 4154 = 4 * P /\ 2 ^ 1385 <= P /\
  0 < os2ip big_em < P /\ uval big_n = 8 * P - os2ip big_em /\ Z.odd (uval big_n) = true /\
  (2 ^ 1385) ^ 3 = 8 * P.
Proof.
  destruct (big_powers 1385) as (P1 & E1 & E2 & S1 & C3); [lia|].
  assert (V : 0 <= os2ip big_em < 2 ^ (3 * 1385 - 3)).
  { unfold big_em. pose proof (em_bound [x41] 520) as B. rewrite pow256_2 in B by (clear; lia).
    apply B. cbn [length]. clear; lia. }
  exists (2 ^ (3 * 1385 - 3)).
  assert (N : uval big_n = 8 * 2 ^ (3 * 1385 - 3) - os2ip big_em)
    by (rewrite <- C3; reflexivity).
  pose proof (em_odd 520) as O. fold big_em in O.
  assert (O2 : Z.odd (uval big_n) = true).
  { rewrite N, Z.odd_sub, O, Z.odd_mul. reflexivity. }
  assert (V' : 0 < os2ip big_em < 2 ^ (3 * 1385 - 3)).
  { destruct V as (V1 & V2). split; [|exact V2].
    clear - V1 O. revert V1 O. generalize (os2ip big_em). intros v V1 O.
    destruct (Z.eq_dec v 0) as [->|ne]; [discriminate|lia]. }
  exact (conj P1 (conj E1 (conj E2 (conj S1 (conj V' (conj N (conj O2 C3))))))).
Qed.

Lemma big_wf : wf_uint big_n.
Proof.
  destruct big_n_facts as (P & P1 & E1 & _ & _ & V & N & _ & _).
  split; [|split; [unfold big_n; cbn [uprec]; lia|reflexivity]].
  change (uprec big_n) with 4160. rewrite N.
  replace 4160 with (5 + 4155) by reflexivity. rewrite Z.pow_add_r, E1 by lia.
  change (2 ^ 5) with 32. lia.
Qed.

Theorem C25_oversize_verifies :
  public_new big_n (mkU 3 64) = Err ModulusTooLarge /\
  public_new_with_max_size big_n (mkU 3 64) 8192 = Ok big_pub /\
  (forall (R : Type) (g : rng_ops R) fuel st pad msg,
     public_encrypt g fuel st big_pub pad msg = Err ModulusTooLarge) /\
  public_verify big_pub (SigPkcs1v15 (mkP1S (Some 1%nat) [])) [x41] big_sig = Ok tt.
Proof.
  pose proof big_wf as W. assert (W3 : wf_uint (mkU 3 64)) by wfu.
  destruct big_n_facts as (P & P1 & E1 & E2 & S1 & V & N & O & C3).
  assert (S0 : 0 < 2 ^ 1385) by (apply Z.pow_pos_nonneg; clear; lia).
  remember (2 ^ 1385) as s eqn:Hs. symmetry in Hs.
  split; [reflexivity|].
  destruct (c25_exact big_n (mkU 3 64) 8192 W W3) as (A & _).
  assert (S2 : s < uval big_n) by (clear - N V P1 S1; lia).
  assert (S3 : 3 < uval big_n) by (clear - N V P1; lia).
  destruct A as (A & Wp).
  { split; [cbn [uprec big_n]; lia|]. split; [exact O|]. split; [reflexivity|]. cbn [uval]. lia. }
  fold big_pub in A, Wp. split; [exact A|].
  split; [intros; apply c25_oversize_encrypt; reflexivity|].
  assert (K : key_size big_pub = 520%nat).
  { unfold key_size, ubits. cbn [pk_n big_pub].
    assert (Z0 : zbits (uval big_n) = 4155).
    { apply zbits_unique; [clear; lia|]. change (4155 - 1) with 4154. rewrite E1, E2, N. clear - V P1. lia. }
    rewrite Z0. reflexivity. }
  assert (Lem : length big_em = 520%nat) by (vm_compute; reflexivity).
  apply (c13_rfc big_pub (mkP1S (Some 1%nat) []) [x41] big_sig Wp).
  - reflexivity.
  - unfold stored_minimally. cbn [pk_n big_pub]. change (uprec big_n - 64) with 4096. rewrite N.
    assert (H : 2 ^ 4096 <= 2 ^ 4154) by (apply Z.pow_le_mono_r; clear; lia). rewrite E2 in H.
    revert H. generalize (2 ^ 4096). clear - V P1. revert V. generalize (os2ip big_em). intros; lia.
  - rewrite K. apply be_bytes_length.
  - reflexivity.
  - change (uval (pk_n big_pub)) with (uval big_n). change (uval (pk_e big_pub)) with 3.
    rewrite K. unfold rfc_pkcs1_verifies.
    assert (Es : os2ip big_sig = s).
    { unfold big_sig. rewrite Hs, os2ip_be_bytes. apply Z.mod_small. split; [lia|].
      rewrite pow256_2 by lia. change (8 * Z.of_nat 520) with (5 + 4155).
      rewrite Z.pow_add_r, E1 by (clear; lia). change (2 ^ 5) with 32. clear - S1 P1. lia. }
    rewrite Es. split; [apply be_bytes_length|]. split; [exact S2|].
    exists big_em. split; [exact Lem|]. split.
    + unfold RSAEP. rewrite C3. clear - V N P1. revert V N P1.
      generalize (os2ip big_em) (uval big_n). intros v m V N P1.
      replace (8 * P) with (v + 1 * m) by lia.
      rewrite Z.mod_add by lia. symmetry. apply Z.mod_small. lia.
    + split; [cbn [p1_prefix app length]; lia|reflexivity].
Qed.

(** ** C26: what [validate] guarantees *)

Theorem C26_exact : forall k,
  wf_pub (sk_pub k) -> wf_uint (sk_d k) -> Forall wf_uint (sk_primes k) ->
  let n := pk_n (sk_pub k) in let e := pk_e (sk_pub k) in
  (validate k = Ok tt <->
   public_usable (uval n) (uval e) (uprec n) /\
   product (map uval (sk_primes k)) mod 2 ^ uprec n = uval n /\
   Forall (fun p => 3 <= uval p /\ uprec p <= 2 * uprec (sk_d k) /\
                    (uval e * uval (sk_d k)) mod (uval p - 1) = 1) (sk_primes k)).
Proof. exact validate_exact. Qed.

Theorem C26_valid : forall k,
  wf_pub (sk_pub k) -> wf_uint (sk_d k) -> Forall wf_uint (sk_primes k) ->
  validate k = Ok tt ->
  (2 <= length (sk_primes k))%nat -> Forall prime (map uval (sk_primes k)) ->
  NoDup (map uval (sk_primes k)) ->
  product (map uval (sk_primes k)) < 2 ^ uprec (pk_n (sk_pub k)) ->
  valid_rsa_key (uval (pk_n (sk_pub k))) (uval (pk_e (sk_pub k))) (uval (sk_d k))
                (map uval (sk_primes k)).
Proof. exact validate_valid. Qed.

Example C26_case : good_priv key91 /\ validate key91 = Ok tt.
Proof. split; [exact good91|vm_compute; reflexivity]. Qed.

(** Composite "primes" pass, and the key then decrypts wrongly. *)
Definition key45 : privkey :=
  mkPriv (mkPub (mkU 45 64) (mkU 3 64) (mkMP (mkU 45 64))) (mkU 3 64) [mkU 9 64; mkU 5 64] None.
Theorem C26_primality_refuted : exists k m c,
  from_components (mkU 45 64) (mkU 3 64) (mkU 3 64) [mkU 9 64; mkU 5 64] = Ok k /\
  validate k = Ok tt /\ ~ prime 9 /\ uval m < 45 /\
  rsa_encrypt (sk_pub k) m = Ok c /\
  (exists m', rsa_decrypt dead_rng 1 None k c = Ok m' /\ uval m' <> uval m).
Proof.
  eexists _, (mkU 3 64), (mkU 27 64).
  split; [vm_compute; reflexivity|]. split; [vm_compute; reflexivity|].
  split; [intros [_ H]; pose proof (H 3 ltac:(lia)) as G; destruct G as [_ _ G];
          pose proof (G 3 ltac:(exists 1; lia) ltac:(exists 3; lia)) as [x X]; lia|].
  split; [vm_compute; reflexivity|]. split; [vm_compute; reflexivity|].
  exists (mkU 18 64). split; [vm_compute; reflexivity|vm_compute; congruence].
Qed.

(** The product is only compared modulo 2^precision: primes that do not multiply to n. *)
Theorem C26_product_refuted : exists n k,
  from_components n e64 d65 ps65 = Ok k /\ validate k = Ok tt /\
  product (map uval (sk_primes k)) <> uval (pk_n (sk_pub k)).
Proof.
  eexists (mkU 10748034638111831745 64), _. split; [vm_compute; reflexivity|].
  split; [vm_compute; reflexivity|vm_compute; congruence].
Qed.

(** ** C27: [from_components] *)

Theorem C27_exact : forall n e d primes,
  wf_uint n -> wf_uint e -> wf_uint d -> Forall wf_uint primes ->
  Z.odd (uval n) = true -> (2 <= length primes)%nat ->
  Forall (fun p => uprec p <= uprec d) primes ->
  ((exists k, from_components n e d primes = Ok k) <->
   public_usable (uval n) (uval e) (uprec n) /\
   product (map uval primes) mod 2 ^ uprec n = uval n /\
   Forall (fun p => 3 <= uval p /\ (uval e * uval d) mod (uval p - 1) = 1) primes).
Proof. exact c27_exact. Qed.

Theorem C27_no_panic : forall n e d primes,
  wf_uint n -> wf_uint e -> wf_uint d -> Forall wf_uint primes ->
  Z.odd (uval n) = true -> (2 <= length primes)%nat ->
  Forall (fun p => uval p <> 1 /\ uprec p <= uprec d) primes ->
  (exists k, from_components n e d primes = Ok k) \/
  (exists err, from_components n e d primes = Err err).
Proof. exact c27_no_panic. Qed.

Theorem C27_result : forall n e d primes k,
  wf_uint n -> wf_uint e -> wf_uint d -> Forall wf_uint primes ->
  Z.odd (uval n) = true -> (2 <= length primes)%nat ->
  from_components n e d primes = Ok k ->
  pk_n (sk_pub k) = n /\ pk_e (sk_pub k) = e /\ sk_d k = d /\ sk_primes k = primes /\
  validate k = Ok tt /\
  (uprec n <= uprec d -> sane_priv k) /\
  (uprec n <= uprec d -> Forall prime (map uval primes) -> NoDup (map uval primes) ->
   product (map uval primes) < 2 ^ uprec n -> good_priv k) /\
  (forall p q rest, primes = p :: q :: rest ->
     (sk_pre k <> None <-> Z.gcd (uval p) (uval q) = 1)).
Proof. exact c27_result. Qed.

Example C27_case : exists k, from_components n91 e91 d91 ps91 = Ok k /\ sk_pre k <> None.
Proof. eexists. split; [vm_compute; reflexivity|vm_compute; congruence]. Qed.

(** A factor 1 panics, for every otherwise acceptable public key. *)
Theorem C27_prime_one : forall n e d one n',
  wf_uint n -> wf_uint e -> wf_uint d -> wf_uint one -> wf_uint n' ->
  public_usable (uval n) (uval e) (uprec n) -> uval one = 1 -> uval n' = uval n ->
  from_components n e d [one; n'] = Panic.
Proof. exact c27_prime_one. Qed.

Theorem C27_panic_refuted : exists n e d primes,
  wf_uint n /\ wf_uint e /\ wf_uint d /\ Forall wf_uint primes /\
  from_components n e d primes = Panic.
Proof.
  exists n64, e64, d64, [mkU 1 64; n64].
  split; [wfu|]. split; [wfu|]. split; [wfu|]. split; [wfl|]. vm_compute. reflexivity.
Qed.

(** One of the first two primes stored wider than d: panic instead of a key. *)
Theorem C27_wide_prime : forall n e d primes,
  wf_uint n -> wf_uint e -> wf_uint d -> Forall wf_uint primes ->
  Z.odd (uval n) = true -> (2 <= length primes)%nat ->
  (exists p, In p (firstn 2 primes) /\ uprec d < uprec p) ->
  public_usable (uval n) (uval e) (uprec n) ->
  product (map uval primes) mod 2 ^ uprec n = uval n ->
  Forall (fun p => 3 <= uval p /\ uprec p <= 2 * uprec d /\
                   (uval e * uval d) mod (uval p - 1) = 1) primes ->
  from_components n e d primes = Panic.
Proof.
  intros n e d primes Wn We Wd F O L P U M E. apply c27_wide_prime; auto. split; auto.
Qed.

Example C27_wide_case :
  from_components n64 e64 d64 [mkU (uval p64) 128; q64] = Panic.
Proof. vm_compute. reflexivity. Qed.

(** No primes given: either recovery fails with an error, or it succeeds and
    validation of its over-wide results panics; a key is never returned. *)
Theorem C27_empty : forall n e d p q,
  wf_uint n -> wf_uint e -> wf_uint d ->
  public_usable (uval n) (uval e) (uprec n) ->
  recover_primes n e d = Ok (p, q) -> from_components n e d [] = Panic.
Proof. exact c27_empty. Qed.

Theorem C27_empty_never_ok : forall n e d k,
  wf_uint n -> wf_uint e -> wf_uint d -> Z.odd (uval n) = true ->
  from_components n e d [] <> Ok k.
Proof. exact c27_empty_never_ok. Qed.

(** A single prime is refused, so every constructed key has at least two. *)
Theorem C27_single_prime : forall n e d p, Z.odd (uval n) = true ->
  from_components n e d [p] = Err NprimesTooSmall.
Proof.
  intros n e d p O. unfold from_components, guard, uis_zero.
  destruct (Z.eqb_spec (uval n) 0) as [E|_]; [rewrite E in O; discriminate|reflexivity].
Qed.

Theorem C27_two_primes : forall n e d primes k,
  wf_uint n -> wf_uint e -> wf_uint d -> Forall wf_uint primes -> Z.odd (uval n) = true ->
  from_components n e d primes = Ok k -> (2 <= length primes)%nat /\ sk_primes k = primes.
Proof.
  intros n e d primes k Wn We Wd Wp O H. destruct primes as [|p [|q ps]].
  - exfalso. exact (C27_empty_never_ok n e d k Wn We Wd O H).
  - rewrite C27_single_prime in H by exact O. discriminate.
  - assert (L : (2 <= length (p :: q :: ps))%nat) by (cbn [length]; lia). split; [exact L|].
    destruct (C27_result n e d (p :: q :: ps) k) as (_ & _ & _ & E & _); auto.
Qed.

Example C27_empty_case : from_components n65 e64 d65 [] = Panic.
Proof. vm_compute. reflexivity. Qed.

(** ** C28: prime recovery *)

Theorem C28_sound : forall n e d p q,
  wf_uint n -> wf_uint e -> wf_uint d -> 1 <= uval n ->
  recover_primes n e d = Ok (p, q) -> uval p * uval q = uval n /\ 1 < uval q < uval p.
Proof. exact c28_sound. Qed.

Theorem C28_total : forall n e d,
  wf_uint n -> wf_uint e -> wf_uint d -> 1 <= uval n -> 1 <= uval d ->
  uprec n <= 2 * uprec d -> uprec e <= 2 * uprec d ->
  (exists r, recover_primes n e d = Ok r) \/ recover_primes n e d = Err InvalidArguments.
Proof. exact c28_total. Qed.

Theorem C28_complete : forall n e d p q k,
  wf_uint n -> wf_uint e -> wf_uint d -> 2 ^ 16 < uval e ->
  uprec n <= 2 * uprec d -> uprec e <= 2 * uprec d ->
  uval n = p * q -> 1 < q < p -> 1 <= k ->
  uval e * uval d = 1 + k * Z.lcm (p - 1) (q - 1) -> k * k * (p + q - 1) <= p * q ->
  exists u v, recover_primes n e d = Ok (u, v) /\ uval u = p /\ uval v = q.
Proof. exact c28_complete. Qed.

Theorem C28_complete_nist : forall n e d p q,
  wf_uint n -> wf_uint e -> wf_uint d -> 2 ^ 16 < uval e ->
  uprec n <= 2 * uprec d -> uprec e <= 2 * uprec d ->
  uval n = p * q -> 1 < q < p ->
  (uval e * uval d) mod Z.lcm (p - 1) (q - 1) = 1 -> 0 < uval d < Z.lcm (p - 1) (q - 1) ->
  uval e * uval e * (p + q - 1) <= p * q ->
  exists u v, recover_primes n e d = Ok (u, v) /\ uval u = p /\ uval v = q.
Proof. exact c28_complete_nist. Qed.

(** A zero private exponent underflows. *)
Theorem C28_zero_d_refuted : exists n e d,
  wf_uint n /\ wf_uint e /\ wf_uint d /\ public_usable (uval n) (uval e) (uprec n) /\
  recover_primes n e d = Panic /\ from_components n e d [] = Panic.
Proof.
  exists n64, e64, (mkU 0 64). split; [wfu|]. split; [wfu|]. split; [wfu|].
  split; [repeat split; vm_compute; congruence|]. split; vm_compute; reflexivity.
Qed.

Example C28_case : let p := 2000000000041 in let q := 1000000000039 in
  let n := mkU 2000000000119000000001599 128 in let d := mkU 51726505641036666310673 128 in
  (wf_uint n /\ wf_uint d) /\ uval n = p * q /\
  (65537 * uval d) mod Z.lcm (p - 1) (q - 1) = 1 /\ uval d < Z.lcm (p - 1) (q - 1) /\
  65537 * 65537 * (p + q - 1) <= p * q /\
  recover_primes n e64 d = Ok (mkU p 4096, mkU q 4096).
Proof.
  split; [split; wfu|]. split; [vm_compute; reflexivity|]. split; [vm_compute; reflexivity|].
  split; [vm_compute; reflexivity|]. split; [vm_compute; congruence|vm_compute; reflexivity].
Qed.

(** ** C29: rebuilding a key from its primes *)

Theorem C29_pq_exact : forall p q e,
  wf_uint p -> wf_uint q -> wf_uint e -> uprec e <= uprec p + uprec q ->
  ((exists k, from_p_q p q e = Ok k) <->
   uval p <> uval q /\ 3 <= uval p /\ 3 <= uval q /\
   Z.gcd (uval e) (Z.lcm (uval p - 1) (uval q - 1)) = 1 /\
   public_usable (uval p * uval q) (uval e) (uprec p + uprec q)).
Proof. exact c29_pq_exact. Qed.

Theorem C29_pq_result : forall p q e k,
  wf_uint p -> wf_uint q -> wf_uint e ->
  from_p_q p q e = Ok k ->
  let lam := Z.lcm (uval p - 1) (uval q - 1) in
  uval (pk_n (sk_pub k)) = uval p * uval q /\ uprec (pk_n (sk_pub k)) = uprec p + uprec q /\
  pk_e (sk_pub k) = e /\ sk_primes k = [p; q] /\
  0 < uval (sk_d k) < lam /\ (uval e * uval (sk_d k)) mod lam = 1 /\
  validate k = Ok tt /\ sane_priv k /\
  (prime (uval p) -> prime (uval q) -> good_priv k /\ sk_pre k <> None).
Proof. exact c29_pq_result. Qed.

Theorem C29_pq_equal : forall p q e, uval p = uval q -> from_p_q p q e = Err InvalidPrime.
Proof. exact c29_pq_equal. Qed.

Theorem C29_pq_no_panic : forall p q e, wf_uint p -> wf_uint q -> wf_uint e ->
  uprec e <= uprec p + uprec q ->
  3 <= uval p -> 3 <= uval q -> Z.odd (uval p) = true -> Z.odd (uval q) = true ->
  (exists k, from_p_q p q e = Ok k) \/ (exists err, from_p_q p q e = Err err).
Proof. exact c29_pq_no_panic. Qed.

(** The prime 2 makes the library panic. *)
Theorem C29_pq_even : forall p q e, wf_uint p -> wf_uint q -> wf_uint e ->
  1 < uval p -> 1 < uval q -> uval p <> uval q -> Z.odd (uval p * uval q) = false ->
  uprec e <= uprec p + uprec q ->
  Z.gcd (uval e) (Z.lcm (uval p - 1) (uval q - 1)) = 1 ->
  from_p_q p q e = Panic.
Proof. exact c29_pq_even. Qed.

Theorem C29_primes_exact : forall ps e,
  (2 <= length ps)%nat -> Forall wf_uint ps -> wf_uint e -> uprec e <= sum_prec ps ->
  ((exists k, from_primes ps e = Ok k) <->
   NoDup (map uval ps) /\ Forall (fun p => 3 <= uval p) ps /\
   Z.gcd (uval e) (product (map (fun p => p - 1) (map uval ps))) = 1 /\
   public_usable (product (map uval ps)) (uval e) (sum_prec ps)).
Proof. exact c29_primes_exact. Qed.

Theorem C29_primes_result : forall ps e k,
  (2 <= length ps)%nat -> Forall wf_uint ps -> wf_uint e ->
  from_primes ps e = Ok k ->
  let phi := product (map (fun p => p - 1) (map uval ps)) in
  uval (pk_n (sk_pub k)) = product (map uval ps) /\ uprec (pk_n (sk_pub k)) = sum_prec ps /\
  pk_e (sk_pub k) = e /\ sk_primes k = ps /\
  0 < uval (sk_d k) < phi /\ (uval e * uval (sk_d k)) mod phi = 1 /\
  validate k = Ok tt /\ sane_priv k /\
  (Forall prime (map uval ps) -> good_priv k /\ sk_pre k <> None).
Proof. exact c29_primes_result. Qed.

Theorem C29_primes_rejects : forall ps e,
  ((length ps < 2)%nat -> from_primes ps e = Err NprimesTooSmall) /\
  ((2 <= length ps)%nat -> ~ NoDup (map uval ps) -> from_primes ps e = Err InvalidPrime).
Proof. exact c29_primes_rejects. Qed.

Theorem C29_primes_no_panic : forall ps e,
  Forall wf_uint ps -> wf_uint e -> uprec e <= sum_prec ps ->
  Forall (fun p => 3 <= uval p /\ Z.odd (uval p) = true) ps ->
  (exists k, from_primes ps e = Ok k) \/ (exists err, from_primes ps e = Err err).
Proof. exact c29_primes_no_panic. Qed.

Theorem C29_primes_even : forall ps e,
  (2 <= length ps)%nat -> Forall wf_uint ps -> wf_uint e ->
  NoDup (map uval ps) -> Exists (fun p => Z.odd (uval p) = false) ps ->
  from_primes ps e = Panic.
Proof. exact c29_primes_even. Qed.

Theorem C29_panic_refuted : exists p q e,
  wf_uint p /\ wf_uint q /\ wf_uint e /\ prime (uval p) /\
  from_p_q p q e = Panic /\ from_primes [p; q] e = Panic.
Proof.
  exists (mkU 2 64), q64, e64. split; [wfu|]. split; [wfu|]. split; [wfu|].
  split; [exact prime_2|]. split; vm_compute; reflexivity.
Qed.

Example C29_case :
  (exists k, from_p_q p64 q64 e64 = Ok k /\ uval (sk_d k) = 1322017516220049253 /\
             uval (pk_n (sk_pub k)) = uval n64) /\
  (exists k, from_primes ps91 e91 = Ok k /\ uval (pk_n (sk_pub k)) = uval n91).
Proof.
  split; eexists; (split; [vm_compute; reflexivity|]); [split|]; vm_compute; reflexivity.
Qed.

(** ** C36: equality and hashing *)

Theorem C36_public_equality : forall a b, pub_eqb a b = true <->
  uval (pk_n a) = uval (pk_n b) /\ uval (pk_e a) = uval (pk_e b).
Proof. exact pub_eqb_spec. Qed.

Theorem C36_private_equality : forall a b, priv_eqb a b = true <->
  uval (pk_n (sk_pub a)) = uval (pk_n (sk_pub b)) /\ uval (pk_e (sk_pub a)) = uval (pk_e (sk_pub b)) /\
  uval (sk_d a) = uval (sk_d b) /\ map uval (sk_primes a) = map uval (sk_primes b).
Proof. exact priv_eqb_spec. Qed.

Theorem C36_equivalence :
  ((forall a, pub_eqb a a = true) /\
   (forall a b, pub_eqb a b = true -> pub_eqb b a = true) /\
   (forall a b c, pub_eqb a b = true -> pub_eqb b c = true -> pub_eqb a c = true)) /\
  ((forall a, priv_eqb a a = true) /\
   (forall a b, priv_eqb a b = true -> priv_eqb b a = true) /\
   (forall a b c, priv_eqb a b = true -> priv_eqb b c = true -> priv_eqb a c = true)).
Proof. exact (conj c36_pub_equiv c36_priv_equiv). Qed.

Theorem C36_public_hash : forall a b, pub_eqb a b = true ->
  (pub_hash a = pub_hash b <-> uprec (pk_n a) = uprec (pk_n b) /\ uprec (pk_e a) = uprec (pk_e b)).
Proof. exact c36_pub_hash. Qed.

Theorem C36_private_hash : forall a b, priv_eqb a b = true ->
  (priv_hash a = priv_hash b <->
   uprec (pk_n (sk_pub a)) = uprec (pk_n (sk_pub b)) /\
   uprec (pk_e (sk_pub a)) = uprec (pk_e (sk_pub b))).
Proof. exact c36_priv_hash. Qed.

Theorem C36_hash_injective : forall a b, pub_hash a = pub_hash b -> pub_eqb a b = true.
Proof. exact c36_hash_inj. Qed.

(** The octets that reach a hasher, whatever octets it makes of an integer. *)
Definition hasher_octets (enc : Z -> Z -> list byte) (l : list hash_item) : list byte :=
  flat_map (fun i => match i with HBytes b => b | HLimbs p v => enc p v end) l.

(** A private key hashes the name of its type and then its public half: nothing secret goes
    in, and a private key never feeds what a public key feeds. *)
Theorem C36_hash_octets : forall enc k,
  let n := pk_n (sk_pub k) in let e := pk_e (sk_pub k) in
  hasher_octets enc (pub_hash (sk_pub k)) =
    list_byte_of_string "RsaPublicKey" ++ enc (uprec n) (uval n) ++ enc (uprec e) (uval e) /\
  hasher_octets enc (priv_hash k) =
    list_byte_of_string "RsaPrivateKey" ++ hasher_octets enc (pub_hash (sk_pub k)) /\
  (forall k', sk_pub k' = sk_pub k -> priv_hash k' = priv_hash k) /\
  (forall p, hasher_octets enc (priv_hash k) <> hasher_octets enc (pub_hash p)).
Proof.
  intros enc k n e. split; [cbn; rewrite app_nil_r; reflexivity|]. split; [reflexivity|].
  split; [intros k' H; unfold priv_hash; rewrite H; reflexivity|]. intros p. discriminate.
Qed.

(** Both keys below are built by the library and are equal, but hash differently. *)
Theorem C36_hash_refuted : exists a b n e n',
  public_new n e = Ok a /\ public_new n' e = Ok b /\
  pub_eqb a b = true /\ pub_hash a <> pub_hash b.
Proof.
  exists pub64, (mkPub (mkU (uval n64) 128) e64 (mkMP (mkU (uval n64) 128))), n64, e64, (mkU (uval n64) 128).
  split; [vm_compute; reflexivity|]. split; [vm_compute; reflexivity|].
  split; [vm_compute; reflexivity|]. vm_compute. congruence.
Qed.

Example C36_case : priv_eqb key64 key64_plain = true /\ priv_hash key64 = priv_hash key64_plain /\
  priv_eqb key64 key91 = false.
Proof. split; [|split]; vm_compute; reflexivity. Qed.

Print Assumptions C25_exact.
Print Assumptions C25_result.
Print Assumptions C25_new.
Print Assumptions C25_unchecked.
Print Assumptions C25_oversize_encrypt.
Print Assumptions C25_oversize_encrypt_digest.
Print Assumptions C25_oversize_verifies.
Print Assumptions C26_exact.
Print Assumptions C26_valid.
Print Assumptions C26_primality_refuted.
Print Assumptions C26_product_refuted.
Print Assumptions C27_exact.
Print Assumptions C27_no_panic.
Print Assumptions C27_result.
Print Assumptions C27_prime_one.
Print Assumptions C27_panic_refuted.
Print Assumptions C27_wide_prime.
Print Assumptions C27_single_prime.
Print Assumptions C27_two_primes.
Print Assumptions C27_empty.
Print Assumptions C27_empty_never_ok.
Print Assumptions C28_sound.
Print Assumptions C28_total.
Print Assumptions C28_complete.
Print Assumptions C28_complete_nist.
Print Assumptions C28_zero_d_refuted.
Print Assumptions C29_pq_exact.
Print Assumptions C29_pq_result.
Print Assumptions C29_pq_equal.
Print Assumptions C29_pq_no_panic.
Print Assumptions C29_pq_even.
Print Assumptions C29_primes_exact.
Print Assumptions C29_primes_result.
Print Assumptions C29_primes_rejects.
Print Assumptions C29_primes_no_panic.
Print Assumptions C29_primes_even.
Print Assumptions C29_panic_refuted.
Print Assumptions C36_public_equality.
Print Assumptions C36_private_equality.
Print Assumptions C36_equivalence.
Print Assumptions C36_public_hash.
Print Assumptions C36_private_hash.
Print Assumptions C36_hash_injective.
Print Assumptions C36_hash_octets.
Print Assumptions C36_hash_refuted.
