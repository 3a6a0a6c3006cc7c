(** C92: every key a program can come to hold. *)
From Coq Require Import ZArith Znumtheory List Bool Lia.
From Coq Require Import Init.Byte.
From Verif Require Import Base Bigint BytesLemmas NumTheory SpecRFC SpecRng SpecKey SpecGen SpecLife
  MHash MPad MRsa MGenerate MKey MApi MWrap MDer MEncoding MSerde KeyDefs KeyExamples.
From Verif Require Import PHist PPub PKey PLife PropEncoding PropKey.
Import ListNotations.
Local Open Scope Z_scope.

(** What holds of every private key, however it was obtained: its public half is acceptable,
    its primes multiply to the modulus (up to the stored width), its exponents match on every
    prime, [validate] accepts it, and any CRT values it holds are those of its numbers. *)
Theorem C92_private : forall k, obtained k ->
  let n := pk_n (sk_pub k) in let e := pk_e (sk_pub k) in let d := sk_d k in
  public_usable (uval n) (uval e) (uprec n) /\
  product (map uval (sk_primes k)) mod 2 ^ uprec n = uval n /\
  (2 <= length (sk_primes k))%nat /\
  Forall (fun p => 3 <= uval p /\ (uval e * uval d) mod (uval p - 1) = 1) (sk_primes k) /\
  validate k = Ok tt /\ pre_consistent k.
Proof.
  intros k O. cbv zeta. apply obtained_life in O. pose proof (life_facts k O) as (U & M & F).
  destruct O as (A & B & C & Len & V & P & _).
  split; [exact U|]. split; [exact M|]. split; [exact Len|].
  split; [eapply Forall_impl; [|exact F]; cbv beta; tauto|auto].
Qed.

Theorem C92_public : forall pk, obtained_public pk ->
  public_usable (uval (pk_n pk)) (uval (pk_e pk)) (uprec (pk_n pk)).
Proof. intros pk H. apply obtained_public_facts, H. Qed.

(** Computing CRT values for such a key gives the key back or an error. *)
Theorem C92_precompute : forall k, obtained k ->
  (exists k', precompute k = Ok k') \/ (exists err, precompute k = Err err).
Proof. intros k O. apply life_precompute_settled, obtained_life, O. Qed.

(** Numbers that really are an RSA key make the key a valid one. *)
Theorem C92_valid : forall k, obtained k ->
  let n := pk_n (sk_pub k) in let ps := map uval (sk_primes k) in
  Forall prime ps -> NoDup ps -> product ps < 2 ^ uprec n ->
  valid_rsa_key (uval n) (uval (pk_e (sk_pub k))) (uval (sk_d k)) ps.
Proof.
  intros k O n ps HP HN HB. apply obtained_life in O. destruct O as (A & B & C & D & V & _).
  apply validate_valid; auto.
Qed.

(** Decryption and signing with such a key: no panic exactly when the private exponent is
    stored at least as wide as the modulus. *)
Theorem C92_never_panics : forall {R} (g : rng_ops R) fuel rng k,
  (rng <> None -> rng_ok g) -> obtained k -> uprec (pk_n (sk_pub k)) <= uprec (sk_d k) ->
  (forall p ct, wf_padding p -> scheme_decrypt g fuel rng k p ct <> Panic) /\
  (forall s hashed, wf_scheme s -> scheme_sign g fuel rng k s hashed <> Panic).
Proof.
  intros R g fuel rng k Hg O W. apply obtained_life in O. pose proof (life_facts k O) as (U & _).
  pose proof (life_sane_iff k O W) as S.
  assert (B : uprec (pk_n (sk_pub k)) < 2 ^ 32).
  { destruct U as (U & _). clear - U. lia. }
  split; intros; [apply scheme_decrypt_np|apply scheme_sign_np]; auto.
Qed.

Theorem C92_narrow_exponent : forall {R} (g : rng_ops R) fuel rng k,
  (rng <> None -> rng_ok g) -> obtained k -> uprec (sk_d k) < uprec (pk_n (sk_pub k)) ->
  (forall p ct, length ct = key_size (sk_pub k) -> os2ip ct < uval (pk_n (sk_pub k)) ->
     blinding_succeeds g (uval (pk_n (sk_pub k))) rng fuel -> scheme_decrypt g fuel rng k p ct = Panic) /\
  (forall p ct m, scheme_decrypt g fuel rng k p ct <> Ok m) /\
  (forall s hashed sig, scheme_sign g fuel rng k s hashed <> Ok sig).
Proof.
  intros R g fuel rng k Hg O N. apply obtained_life in O. split; [|split]; intros.
  - apply (narrow_decrypt g fuel rng k p ct); auto.
  - apply (narrow_decrypt g fuel rng k p ct); auto.
  - apply narrow_sign; auto.
Qed.

(** Generated and loaded keys are never of that kind. *)
Theorem C92_wide :
  (forall R (gp : prime_gen R) b fuel st e k, prime_source gp b -> 0 <= b < 2 ^ 32 -> wf_uint e ->
     private_new_with_exp gp fuel st b e = Ok k -> uprec (pk_n (sk_pub k)) <= uprec (sk_d k)) /\
  (forall p q e k, wf_uint p -> wf_uint q -> wf_uint e -> from_p_q p q e = Ok k ->
     uprec (pk_n (sk_pub k)) <= uprec (sk_d k)) /\
  (forall ps e k, Forall wf_uint ps -> wf_uint e -> from_primes ps e = Ok k ->
     uprec (pk_n (sk_pub k)) <= uprec (sk_d k)) /\
  (forall mx tl doc k, mx < 2 ^ 29 -> from_pkcs8_der mx tl doc = Ok k ->
     uprec (pk_n (sk_pub k)) <= uprec (sk_d k)) /\
  (forall mx doc k, mx < 2 ^ 29 -> from_pkcs1_der mx doc = Ok k ->
     uprec (pk_n (sk_pub k)) <= uprec (sk_d k)).
Proof.
  split; [|split; [|split; [|split]]].
  - intros R gp b fuel st e k S B E H. destruct (life_new gp b fuel st e k S B E H) as (_ & _ & _ & _ & _ & W & _).
    exact W.
  - intros p q e k Wp Wq We H.
    destruct (PBuild.c29_pq_result p q e k Wp Wq We H) as (_ & _ & _ & _ & _ & _ & _ & (_ & _ & _ & _ & _ & W & _) & _).
    exact W.
  - intros ps e k WF We H. assert (L : (2 <= length ps)%nat).
    { unfold from_primes in H. destruct (Nat.ltb_spec (length ps) 2); [discriminate|auto]. }
    destruct (PBuild.c29_primes_result ps e k L WF We H) as (_ & _ & _ & _ & _ & _ & _ & (_ & _ & _ & _ & _ & W & _) & _).
    exact W.
  - intros mx tl doc k M H. destruct (life_pkcs8 mx tl doc k M H) as (_ & _ & _ & _ & _ & _ & W & _). exact W.
  - intros mx doc k M H. destruct (life_pkcs1 mx doc k M H) as (_ & _ & _ & _ & _ & _ & W & _). exact W.
Qed.

(** A key that is kept, however often its CRT values are computed and cleared, it is put into
    key objects, or it is saved and loaded, stays equal to itself and keeps its width. *)
Theorem C92_kept : forall k0 k, obtained k0 -> kept k0 k ->
  obtained k /\ priv_eqb k k0 = true /\ (uprec (pk_n (sk_pub k0)) <= uprec (sk_d k0) ->
                                        uprec (pk_n (sk_pub k)) <= uprec (sk_d k)).
Proof. intros k0 k O K. exact (kept_keeps k0 k K O). Qed.

(** And it goes on giving the same results. *)
Theorem C92_kept_results : forall {R} (g : rng_ops R) fuel rng k0 k,
  (rng <> None -> rng_ok g) -> obtained k0 -> kept k0 k ->
  let n := pk_n (sk_pub k0) in let ps := map uval (sk_primes k0) in
  Forall prime ps -> NoDup ps -> product ps < 2 ^ uprec n -> uprec n <= uprec (sk_d k0) ->
  (forall p ct, (length ct <= key_size (sk_pub k0))%nat ->
     scheme_decrypt g fuel rng k p ct = scheme_decrypt g fuel rng k0 p ct) /\
  (forall s hashed, wf_scheme s -> scheme_sign g fuel rng k s hashed = scheme_sign g fuel rng k0 s hashed).
Proof.
  intros R g fuel rng k0 k Hg O K n ps HP HN HB W.
  pose proof (obtained_life k0 O) as L0. pose proof (life_facts k0 L0) as (U & _).
  pose proof (life_good k0 L0 W HP HN HB) as G0. pose proof (kept_good k0 k K O G0) as G.
  destruct (kept_keeps k0 k K O) as (O' & E & _).
  pose proof (obtained_life k O') as L. pose proof (life_facts k L) as (U' & _).
  split; intros.
  - apply decrypt_alike; auto.
    + apply PApi.check_public_ok; [apply L|exact U'].
    + apply PApi.check_public_ok; [apply L0|exact U].
    + apply priv_eqb_spec in E. destruct E as (En & _). rewrite (PExport.key_size_value _ _ En). auto.
  - apply sign_alike; auto. destruct U as (U & _). fold n. clear - U. unfold n in *. lia.
Qed.

(** The boundary is reached: [from_components] takes a private exponent narrower than the
    modulus.  The numbers are a valid RSA key with real primes and [validate] accepts it. *)
Definition narrow64 : privkey :=
  match from_components (mkU (uval n64) 128) e64 d64 [p64; q64] with Ok k => k | _ => key64 end.

Lemma narrow64_built : from_components (mkU (uval n64) 128) e64 d64 [p64; q64] = Ok narrow64.
Proof. vm_compute. reflexivity. Qed.

Lemma narrow64_obtained : obtained narrow64.
Proof.
  refine (ob_components _ _ _ _ _ _ _ _ _ _ narrow64_built); try wfu; try reflexivity.
  wfl.
Qed.

Theorem C92_always_usable_refuted : exists k, obtained k /\ validate k = Ok tt /\
  valid_rsa_key (uval (pk_n (sk_pub k))) (uval (pk_e (sk_pub k))) (uval (sk_d k)) (map uval (sk_primes k)) /\
  scheme_decrypt count_rng 1 None k PadPkcs1v15 (repeat x01 8) = Panic /\
  (forall R (g : rng_ops R) fuel rng s hashed sig, (rng <> None -> rng_ok g) ->
     scheme_sign g fuel rng k s hashed <> Ok sig).
Proof.
  exists narrow64. pose proof narrow64_obtained as O. split; [exact O|].
  split; [apply (C92_private narrow64 O)|].
  split; [exact valid64|].
  assert (N : uprec (sk_d narrow64) < uprec (pk_n (sk_pub narrow64))) by (vm_compute; reflexivity).
  split.
  - apply (C92_narrow_exponent count_rng 1 None narrow64); auto; try (vm_compute; reflexivity).
    intros C. exfalso. apply C. reflexivity.
  - intros. apply (C92_narrow_exponent g fuel rng narrow64); auto.
Qed.

(** ** Cases *)

Lemma key64_obtained : obtained key64.
Proof.
  refine (ob_components n64 e64 d64 [p64; q64] _ _ _ _ _ _ _); try wfu; try reflexivity.
  wfl.
Qed.

Example C92_case_private : obtained key64 /\ obtained (clear_precomputed key64) /\ sk_pre key64 <> None /\
  uprec (pk_n (sk_pub key64)) <= uprec (sk_d key64) /\
  Forall prime (map uval (sk_primes key64)) /\ NoDup (map uval (sk_primes key64)) /\
  product (map uval (sk_primes key64)) < 2 ^ uprec (pk_n (sk_pub key64)).
Proof.
  split; [apply key64_obtained|]. split; [apply ob_clear, key64_obtained|].
  split; [vm_compute; discriminate|]. split; [vm_compute; discriminate|].
  destruct good64 as (_ & _ & _ & V & _). destruct V as (V1 & V2 & V3 & V4 & V5).
  repeat split; auto; vm_compute; reflexivity.
Qed.

Example C92_case_public : obtained_public pub64 /\ obtained_public (to_public_key narrow64).
Proof.
  split.
  - refine (obp_new n64 e64 _ _ _ _); try wfu. vm_compute. reflexivity.
  - apply obp_of_private, narrow64_obtained.
Qed.

(** CRT values cleared, computed again, the key saved and loaded. *)
Example C92_case_kept : exists k1 doc k2, precompute (clear_precomputed key64) = Ok k1 /\
  to_pkcs8_der mx28 k1 = Ok doc /\ from_pkcs8_der mx28 opt28 doc = Ok k2 /\
  kept key64 k2 /\ kept key64 (clear_precomputed k2) /\ priv_eqb k2 key64 = true.
Proof.
  destruct C33_key64 as (doc & k' & A & B & C & _).
  exists key64, doc, k'. split; [vm_compute; reflexivity|]. split; [exact A|]. split; [exact B|].
  assert (K : kept key64 k').
  { eapply (kept_pkcs8 key64 mx28 opt28); [apply kept_same|split; [vm_compute; discriminate|reflexivity]| |exact A|reflexivity|exact B].
    vm_compute. discriminate. }
  split; [exact K|]. split; [apply kept_clear, K|exact C].
Qed.

Print Assumptions C92_private.
Print Assumptions C92_public.
Print Assumptions C92_precompute.
Print Assumptions C92_valid.
Print Assumptions C92_never_panics.
Print Assumptions C92_narrow_exponent.
Print Assumptions C92_wide.
Print Assumptions C92_kept.
Print Assumptions C92_kept_results.
Print Assumptions C92_always_usable_refuted.
