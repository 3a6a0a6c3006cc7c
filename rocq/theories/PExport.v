(** Proofs for C85: export of generated keys, and what a re-imported key verifies. *)
From Coq Require Import ZArith List Bool Lia Znumtheory.
From Coq Require Import Init.Byte.
From Verif Require Import Base Bigint PFloat BytesLemmas NumTheory SpecRFC SpecKey SpecDer BigintLemmas
  MHash MPkcs1 MRsa MGenerate MKey MApi MWrap MDer MEncoding KeyDefs PRsa PApi SpecRng PKey PRecover PBuild SpecGen
  PSig PSign PPub PDer PEncoding PCodec PGenerate.
Import ListNotations.
Local Open Scope Z_scope.

(** ** The widths at which a key's primes are stored decide whether export panics *)

Lemma crt_exponent_wide d p : uprec d < uprec p -> crt_exponent d p = Panic.
Proof.
  intros H. unfold crt_exponent, widen. rewrite (proj2 (Z.leb_gt _ _) H). reflexivity.
Qed.

Lemma export_widths mx k p q :
  wf_uint (sk_d k) -> sk_primes k = [p; q] -> wf_uint p -> wf_uint q ->
  2 <= uval p -> 2 <= uval q ->
  uprec (sk_d k) < uprec p \/ uprec (sk_d k) < uprec q \/ uprec p <> uprec q ->
  to_pkcs8_der mx k = Panic.
Proof.
  intros Wd EP Wp Wq P2 Q2 H.
  unfold to_pkcs8_der, private_to_pkcs1. rewrite EP. cbn [length Nat.ltb Nat.leb].
  cbv zeta. cbn [get_idx nth_error bind].
  destruct (Z.le_gt_cases (uprec p) (uprec (sk_d k))) as [PP|PP].
  2:{ rewrite crt_exponent_wide by lia. reflexivity. }
  destruct (crt_exponent_ok (sk_d k) p Wd Wp P2 PP) as (C1 & _). rewrite C1. cbn [bind].
  destruct (Z.le_gt_cases (uprec q) (uprec (sk_d k))) as [PQ|PQ].
  2:{ rewrite crt_exponent_wide by lia. reflexivity. }
  destruct (crt_exponent_ok (sk_d k) q Wd Wq Q2 PQ) as (C2 & _). rewrite C2. cbn [bind].
  unfold crt_coefficient. rewrite EP. cbn [get_idx nth_error bind]. unfold uinv_mod.
  destruct (Z.eqb_spec (uprec q) (uprec p)); [exfalso; lia|reflexivity].
Qed.

Lemma half_widths b : 12 <= b -> (prec_for (b / 2) = prec_for (b - b / 2) <-> b mod 128 <> 1).
Proof.
  intros H. unfold prec_for, ceil64.
  pose proof (Z.div_mod b 128 ltac:(lia)) as D. pose proof (Z.mod_pos_bound b 128 ltac:(lia)) as M.
  set (r := b mod 128) in *. set (m := b / 128) in *. clearbody r m.
  pose proof (Z.div_mod b 2 ltac:(lia)) as D2. pose proof (Z.mod_pos_bound b 2 ltac:(lia)) as M2.
  set (x := b / 2) in *. set (s := b mod 2) in *. clearbody x s.
  pose proof (Z.div_mod (x + 63) 64 ltac:(lia)) as Dx. pose proof (Z.mod_pos_bound (x + 63) 64 ltac:(lia)) as Mx.
  set (u := (x + 63) / 64) in *. set (u' := (x + 63) mod 64) in *. clearbody u u'.
  pose proof (Z.div_mod (b - x + 63) 64 ltac:(lia)) as Dy. pose proof (Z.mod_pos_bound (b - x + 63) 64 ltac:(lia)) as My.
  set (v := (b - x + 63) / 64) in *. set (v' := (b - x + 63) mod 64) in *. clearbody v v'.
  lia.
Qed.

Section Gen.
  Context {R : Type} (gp : prime_gen R) (b : Z).
  Hypothesis HG : prime_source gp b.

  (** How a generated key is stored. *)
  Lemma generated_stored fuel st e k : 0 <= b < 2 ^ 32 -> wf_uint e ->
    private_new_with_exp gp fuel st b e = Ok k ->
    12 <= b /\ uprec e <= prec_for (b / 2) + key_prec b /\
    uprec (sk_d k) = prec_for (b / 2) + key_prec b /\ uprec (pk_n (sk_pub k)) = key_prec b /\
    exists p q, sk_primes k = [p; q] /\ wf_uint p /\ wf_uint q /\
      uprec p = prec_for (b / 2) /\ uprec q = prec_for (b - b / 2).
  Proof.
    intros H We HK.
    destruct (Z.lt_ge_cases b 12) as [L|L]; [rewrite c32_small in HK by lia; discriminate|].
    rewrite new_unfold in HK by auto.
    destruct (Z.le_gt_cases (uprec e) (prec_for (b / 2) + key_prec b)) as [Le|Le].
    2:{ destruct (loop_wide gp b HG e ltac:(lia) We Le fuel st) as [E|E]; rewrite E in HK; discriminate. }
    destruct (loop_exact gp b HG e ltac:(lia) We Le fuel st) as [(j & p & q & c & _ & A & (d & Z & C) & G)|(_ & G)];
      rewrite G in HK; [|discriminate].
    cbn [bind] in HK. rewrite C in HK. cbn [kc_n kc_e kc_d kc_primes] in HK.
    destruct (fit_at_inv gp b _ ltac:(lia) _ _ _ _ A) as (st' & -> & -> & (Hne & _)).
    destruct (c30_component gp b HG st' e d ltac:(lia) We Hne Z) as (Wn & Wd & F & O & D0 & D1 & _).
    destruct (pair_facts gp b HG st' ltac:(lia))
      as (W1 & W2 & P1 & P2 & T1 & T2 & O1 & O2 & Z1 & Z2 & R1 & R2 & N1 & N2).
    destruct (c27_result _ _ _ _ _ Wn We Wd F O ltac:(simpl; lia) HK) as (E1 & E2 & E3 & E4 & _).
    split; [lia|]. split; [lia|]. rewrite E1, E3. cbn [uprec]. split; [auto|]. split; [auto|].
    exists (pair_p gp st' b), (pair_q gp st' b). auto.
  Qed.
End Gen.

(** ** A key equal to a valid one is valid *)

Lemma equal_good k k' : good_priv k -> priv_eqb k' k = true -> sane_priv k' -> good_priv k'.
Proof.
  intros (_ & _ & _ & V & _) E (A & B & C & _ & _ & D & P).
  apply priv_eqb_spec in E. destruct E as (E1 & E2 & E3 & E4).
  split; [exact A|]. split; [exact B|]. split; [exact C|].
  split; [rewrite E1, E2, E3, E4; exact V|]. split; [exact D|exact P].
Qed.

Lemma below_own_octets z n : 0 <= n -> z <= n -> z < 256 ^ octet_size n.
Proof. intros H L. pose proof (own_size n H). lia. Qed.

Section Export.
  Context {R : Type} (gp : prime_gen R) (b : Z).
  Hypothesis HG : prime_source gp b.

  Lemma generated_export fuel st e k mx tl : 0 <= b < 2 ^ 32 -> wf_uint e ->
    private_new_with_exp gp fuel st b e = Ok k -> tl 0 [] = true -> 2 ^ 21 <= mx < 2 ^ 32 ->
    (b mod 128 <> 1 ->
     exists doc k', to_pkcs8_der mx k = Ok doc /\ from_pkcs8_der mx tl doc = Ok k' /\
       priv_eqb k' k = true /\ good_priv k' /\ sk_pre k' <> None /\
       stored_minimally (pk_n (sk_pub k'))) /\
    (b mod 128 = 1 -> to_pkcs8_der mx k = Panic).
  Proof.
    intros H We HK T HM.
    destruct (c30_valid gp b HG fuel st e k H We HK)
      as (p & q & EP & Pp & Pq & Ne & En & Ee & Bn & _ & _ & Un & Dd & _ & V & _ & Good).
    destruct (generated_stored gp b HG fuel st e k H We HK)
      as (L & Ue & Ud & _ & p' & q' & EP' & Wp & Wq & Up & Uq).
    assert (X : p' = p /\ q' = q) by (split; congruence). destruct X as (-> & ->).
    pose proof (half_widths b L) as HW.
    pose proof (prime_ge_2 _ Pp) as P2. pose proof (prime_ge_2 _ Pq) as Q2.
    pose proof Good as (Wpub & Wd & _). destruct (key_prec_min b) as (_ & Kp & _).
    destruct (prec_for_wf (b / 2)) as (F1 & _). destruct (prec_for_wf (b - b / 2)) as (F2 & _).
    split; intros HB.
    - assert (V0 := V). apply validate_exact in V0; auto; [|rewrite EP; auto using Forall_cons, Forall_nil].
      cbv zeta in V0. destruct V0 as ((U4096 & _) & _).
      assert (Nn : 0 <= uval (pk_n (sk_pub k))) by (rewrite En; apply Z.mul_nonneg_nonneg; lia).
      destruct (export_round_trip mx tl k p q T HM Wpub Wd) as (qi & _ & _ & A & B & _); auto.
      { rewrite Ud. unfold key_prec in *. change (2 ^ 20) with 1048576. lia. }
      { rewrite Up, Ud. lia. }
      { rewrite Up, Uq. symmetry. apply HW. exact HB. }
      { apply distinct_primes_gcd; auto. }
      cbv zeta in A, B. destruct B as (k' & B1 & B2 & _ & B4 & B5 & B6 & B7).
      { assert (Nv : 0 <= uval p * uval q) by (rewrite <- En; exact Nn).
        rewrite En. split; [|split]; (apply below_own_octets; [exact Nv|]);
          [clear - Dd P2 Q2; nia|clear - P2 Q2; nia|clear - P2 Q2; nia]. }
      eexists _, k'. split; [exact A|]. split; [exact B1|]. split; [exact B2|].
      split; [exact (equal_good k k' Good B2 B5)|]. auto.
    - apply (export_widths mx k p q); auto.
      right. right. rewrite Up, Uq. intros E. apply HW in E; auto.
  Qed.

  Lemma generated_public fuel st e k mx : 0 <= b < 2 ^ 32 -> wf_uint e ->
    private_new_with_exp gp fuel st b e = Ok k -> 2 ^ 21 <= mx < 2 ^ 32 ->
    exists doc pk, to_public_key_der mx (to_public_key k) = Ok doc /\ from_public_key_der mx doc = Ok pk /\
      pub_eqb pk (to_public_key k) = true /\ wf_pub pk /\ stored_minimally (pk_n pk).
  Proof.
    intros H We HK HM.
    destruct (c30_valid gp b HG fuel st e k H We HK)
      as (p & q & EP & Pp & Pq & Ne & En & Ee & Bn & _ & _ & Un & Dd & _ & V & _ & Good).
    destruct (generated_stored gp b HG fuel st e k H We HK)
      as (L & Ue & Ud & _ & _).
    pose proof Good as (Wpub & Wd & Wl & _). pose proof Wpub as (Wn & _).
    destruct (prec_for_wf (b / 2)) as (F1 & _). destruct (prec_for_wf (b - b / 2)) as (F2 & _).
    assert (V0 := V). apply validate_exact in V0; auto.
    cbv zeta in V0. destruct V0 as ((U4096 & U') & _).
    destruct (public_round_trip mx (sk_pub k) HM Wpub) as (A & B & _).
    { change (2 ^ 20) with 1048576. lia. }
    { rewrite Ee. unfold key_prec in *. change (2 ^ 20) with 1048576. lia. }
    cbv zeta in A, B. destruct B as (pk & B1 & B2 & B3 & B4).
    { split; [|exact U']. rewrite limb_bits_eq. destruct Wn as (N1 & N2 & N3).
      assert (octet_size (uval (pk_n (sk_pub k))) <= uprec (pk_n (sk_pub k)) / 8).
      { apply octet_size_le; [lia| |].
        - apply Z.div_le_lower_bound; lia.
        - replace 256 with (2 ^ 8) by reflexivity. rewrite <- Z.pow_mul_r by (try apply Z.div_pos; lia).
          assert (E : 8 * (uprec (pk_n (sk_pub k)) / 8) = uprec (pk_n (sk_pub k))).
          { pose proof (Z.div_mod (uprec (pk_n (sk_pub k))) 64 ltac:(lia)) as Q. rewrite N3, Z.add_0_r in Q.
            rewrite Q at 1. replace (64 * (uprec (pk_n (sk_pub k)) / 64)) with ((8 * (uprec (pk_n (sk_pub k)) / 64)) * 8) by ring.
            rewrite Z.div_mul by lia. lia. }
          rewrite E. lia. }
      pose proof (prec_for_le (8 * octet_size (uval (pk_n (sk_pub k)))) (uprec (pk_n (sk_pub k))) N2 N3).
      pose proof (Z.mul_div_le (uprec (pk_n (sk_pub k))) 8 ltac:(lia)). lia. }
    eexists _, pk. split; [exact A|]. split; [exact B1|]. split; [exact B2|]. auto.
  Qed.
End Export.

(** ** Signatures under a re-imported key *)

Lemma key_size_value a b : uval (pk_n a) = uval (pk_n b) -> key_size a = key_size b.
Proof. intros E. unfold key_size, ubits. rewrite E. reflexivity. Qed.

Lemma verify_reimported {R} (g : rng_ops R) fuel rng k pk s hashed :
  (rng <> None -> rng_ok g) -> good_priv k ->
  wf_pub pk -> pub_eqb pk (sk_pub k) = true -> stored_minimally (pk_n pk) ->
  uprec (pk_n pk) < 2 ^ 32 ->
  hash_len_ok s hashed -> (length (p1_prefix s ++ hashed) + 11 <= key_size (sk_pub k))%nat ->
  blinding_succeeds g (uval (pk_n (sk_pub k))) rng fuel ->
  exists sig, scheme_sign g fuel rng k (SigPkcs1v15 s) hashed = Ok sig /\
    public_verify pk (SigPkcs1v15 s) hashed sig = Ok tt.
Proof.
  intros Hr Hk Hp E Hm H32 Hh HT Hb. apply pub_eqb_spec in E. destruct E as (E1 & E2).
  pose proof (key_size_value _ _ E1) as EK.
  set (d2 := mkU (uval (sk_d k)) (uprec (sk_d k) + uprec (pk_n pk))).
  set (k2 := mkPriv pk d2 (sk_primes k) None).
  pose proof Hk as (_ & (D1 & D2 & D3) & Wl & HV & _). pose proof Hp as ((N1 & N2 & N3) & _).
  assert (Wd2 : wf_uint d2).
  { unfold d2, wf_uint. cbn [uval uprec]. split.
    - assert (2 ^ uprec (sk_d k) <= 2 ^ (uprec (sk_d k) + uprec (pk_n pk))) by (apply Z.pow_le_mono_r; lia). lia.
    - split; [lia|]. rewrite Zplus_mod, D3, N3. reflexivity. }
  assert (G2 : good_priv k2).
  { split; [exact Hp|]. split; [exact Wd2|]. split; [exact Wl|].
    split; [cbn [k2 sk_pub sk_d sk_primes d2 uval]; rewrite E1, E2; exact HV|].
    split; [cbn [k2 sk_pub sk_d d2 uprec]; lia|left; reflexivity]. }
  destruct (pkcs1v15_sign_exact g fuel rng k (p1_prefix s) hashed Hr Hk) as [_ B].
  destruct (B HT) as (C & _). specialize (C Hb).
  destruct (sig_value_accepts k2 (p1_prefix s ++ hashed) G2) as (Ls & _ & _ & Acc).
  { cbn [k2 sk_pub]. rewrite EK. exact HT. }
  cbn [k2 sk_pub sk_d d2 uval] in Ls, Acc. rewrite E1, EK in Ls, Acc.
  eexists. split.
  - cbn [scheme_sign]. unfold check_hash_len. unfold hash_len_ok in Hh.
    assert (match p1_hash_len s with
            | Some hl => guard (length hashed =? hl)%nat InputNotHashed | None => Ok tt end = Ok tt) as ->.
    { destruct (p1_hash_len s) as [l|]; auto. rewrite Hh, Nat.eqb_refl. reflexivity. }
    cbn [bind]. exact C.
  - destruct (public_verify_pkcs1_exact pk s hashed
      (i2osp (RSADP (uval (pk_n (sk_pub k))) (uval (sk_d k))
                 (os2ip (emsa_pkcs1 (p1_prefix s ++ hashed) (key_size (sk_pub k))))) (key_size (sk_pub k))) Hp)
      as [_ Q].
    { rewrite Ls. rewrite <- EK. apply len_32; auto. }
    destruct (Q Hh) as [Q1 _]. apply Q1. apply Acc. rewrite minimal_iff by auto. exact Hm.
Qed.

Lemma repaired {R S} (gp : prime_gen R) (g : rng_ops S) b : prime_source gp b ->
  forall fuel st e k mx tl doc k', 0 <= b < 2 ^ 32 - 64 -> wf_uint e ->
  private_new_with_exp gp fuel st b e = Ok k -> tl 0 [] = true -> 2 ^ 21 <= mx < 2 ^ 32 ->
  to_pkcs8_der mx k = Ok doc -> from_pkcs8_der mx tl doc = Ok k' ->
  forall signer fuel' rng s hashed, (signer = k \/ signer = k') ->
  (rng <> None -> rng_ok g) ->
  hash_len_ok s hashed -> (length (p1_prefix s ++ hashed) + 11 <= key_size (sk_pub k))%nat ->
  blinding_succeeds g (uval (pk_n (sk_pub k))) rng fuel' ->
  exists sig, scheme_sign g fuel' rng signer (SigPkcs1v15 s) hashed = Ok sig /\
    public_verify (sk_pub k') (SigPkcs1v15 s) hashed sig = Ok tt.
Proof.
  intros Hp fuel st e k mx tl doc k' Hb We E Htl Hmx E1 E2 signer fuel' rng s hashed Hs Hr Hh HT Hbl.
  pose proof E as E0.
  apply (generated_export gp b Hp fuel st e k mx tl ltac:(lia) We E0 Htl) in Hmx as HX.
  destruct HX as (A & B).
  destruct (Z.eq_dec (b mod 128) 1) as [X|X]; [rewrite (B X) in E1; discriminate|].
  destruct (A X) as (doc0 & k0 & A1 & A2 & A3 & A4 & A5 & A6).
  rewrite E1 in A1. injection A1 as <-. rewrite E2 in A2. injection A2 as <-.
  apply priv_eqb_spec in A3 as A3'. destruct A3' as (P1 & P2 & _).
  assert (EP : pub_eqb (sk_pub k') (sk_pub k) = true) by (apply pub_eqb_spec; auto).
  destruct (c30_valid gp b Hp fuel st e k ltac:(lia) We E)
    as (p & q & _ & _ & _ & _ & _ & _ & Zn & _ & _ & _ & _ & _ & _ & _ & G).
  pose proof A4 as (Wp & _). pose proof Wp as ((N1 & N2 & N3) & _).
  assert (U : uprec (pk_n (sk_pub k')) < 2 ^ 32).
  { unfold stored_minimally in A6. rewrite P1 in A6.
    assert (N0 : 0 < uval (pk_n (sk_pub k))).
    { assert (0 < 2 ^ (uprec (pk_n (sk_pub k')) - 64)) by (apply Z.pow_pos_nonneg; lia). lia. }
    pose proof (zbits_pow _ N0) as Q. rewrite Zn in Q.
    assert (uprec (pk_n (sk_pub k')) - 64 < b); [|clear - H Hb; lia].
    apply (Z.pow_lt_mono_r_iff 2); [lia|lia|]. eapply Z.le_lt_trans; [exact A6|apply Q]. }
  destruct Hs as [->| ->].
  - apply verify_reimported; auto.
  - pose proof (key_size_value _ _ P1) as EK.
    apply verify_reimported; auto; [apply pub_eqb_spec; auto|rewrite EK; auto|rewrite P1; auto].
Qed.
