(** Proofs about src/algorithms/rsa.rs: encryption, decryption, CRT, blinding. *)
From Coq Require Import ZArith List Bool Lia Znumtheory Zpow_facts.
From Coq Require Import Init.Byte.
From Verif Require Import Base Bigint BytesLemmas NumTheory SpecRFC BigintLemmas MHash MRsa MKey KeyDefs SpecRng.
Import ListNotations.
Local Open Scope Z_scope.

Lemma wf_uint_pow u : wf_uint u -> 0 < 2 ^ uprec u.
Proof. intros (_ & H & _). apply Z.pow_pos_nonneg; lia. Qed.

Lemma wf_mk v p : 0 <= v < 2 ^ p -> 64 <= p -> p mod 64 = 0 -> wf_uint (mkU v p).
Proof. intros; unfold wf_uint; simpl; auto. Qed.

Lemma widen_ok u p :
  wf_uint u -> uprec u <= p -> p mod 64 = 0 -> widen u p = Ok (mkU (uval u) p).
Proof.
  intros (Hv & H1 & H2) Hp Hm. unfold widen.
  destruct (Z.leb_spec (uprec u) p); [|lia]. rewrite prec_for_id by lia. reflexivity.
Qed.

Lemma widen_wf u p : wf_uint u -> uprec u <= p -> p mod 64 = 0 -> wf_uint (mkU (uval u) p).
Proof.
  intros (Hv & H1 & H2) Hp Hm. apply wf_mk; try lia.
  assert (2 ^ uprec u <= 2 ^ p) by (apply Z.pow_le_mono_r; lia). lia.
Qed.

Lemma shorten_ok u p :
  64 <= p -> p mod 64 = 0 -> p <= uprec u -> shorten u p = Ok (mkU (uval u mod 2 ^ p) p).
Proof.
  intros. unfold shorten. destruct (Z.leb_spec p (uprec u)); [|lia].
  rewrite prec_for_id by lia. reflexivity.
Qed.

Lemma odd_pos_n k : wf_pub k -> 0 < uval (pk_n k).
Proof.
  intros ((H & _) & _ & _ & Ho). destruct (Z.eq_dec (uval (pk_n k)) 0) as [E|]; [|lia].
  rewrite E in Ho. discriminate.
Qed.

(** * Exponentiation *)

Lemma reduce_vartime_ok x N :
  wf_uint x -> wf_uint N -> 0 < uval N ->
  reduce_vartime x (mkMP N) = Ok (mkMF ((uval x mod 2 ^ uprec N) mod uval N) (mkMP N)).
Proof.
  intros Hx HN Hp. unfold reduce_vartime. cbn [mp_modulus].
  assert (E : (if uprec x <? uprec N then widen x (uprec N)
               else if uprec x =? uprec N then Ok x else shorten x (uprec N))
              = Ok (mkU (uval x mod 2 ^ uprec N) (uprec N))).
  { destruct Hx as (Hv & H1 & H2). destruct HN as (HvN & H1N & H2N).
    destruct (Z.ltb_spec (uprec x) (uprec N)).
    - rewrite widen_ok; try lia; [|split; auto].
      rewrite Z.mod_small; auto.
      assert (2 ^ uprec x <= 2 ^ uprec N) by (apply Z.pow_le_mono_r; lia). lia.
    - destruct (Z.eqb_spec (uprec x) (uprec N)) as [E|].
      + rewrite <- E, Z.mod_small by lia. destruct x; reflexivity.
      + apply shorten_ok; lia. }
  rewrite E. cbn [bind]. unfold urem. destruct (Z.eqb_spec (uval N) 0); [lia|]. cbn [bind uval].
  pose proof (Z.mod_pos_bound (uval x mod 2 ^ uprec N) (uval N) Hp).
  destruct HN as (HvN & H1N & H2N).
  unfold mp_prec. cbn [mp_modulus].
  rewrite widen_ok; [|apply wf_mk; cbn; lia|cbn; lia|auto]. cbn [bind uval].
  unfold mf_new, mp_prec, mp_val. cbn [mp_modulus uprec uval]. rewrite Z.eqb_refl.
  rewrite Zmod_mod. reflexivity.
Qed.

Lemma pow_mod_params_ok x e N :
  wf_uint x -> wf_uint N -> 0 < uval N -> 0 <= uval e ->
  pow_mod_params x e (mkMP N)
  = Ok (mkU ((uval x mod 2 ^ uprec N) ^ uval e mod uval N) (uprec N)).
Proof.
  intros Hx HN Hp He. unfold pow_mod_params. rewrite reduce_vartime_ok by auto.
  cbn [bind]. unfold mf_retrieve, mf_pow, mp_prec, mp_val. cbn [mf_res mf_params mp_modulus].
  rewrite powm_spec by lia. rewrite pow_mod_base by lia. reflexivity.
Qed.

Lemma pow_mod_params_small x e N :
  wf_uint x -> wf_uint N -> 0 < uval N -> 0 <= uval e -> uval x < 2 ^ uprec N ->
  pow_mod_params x e (mkMP N) = Ok (mkU (uval x ^ uval e mod uval N) (uprec N)).
Proof.
  intros Hx HN Hp He Hs. rewrite pow_mod_params_ok by auto.
  rewrite (Z.mod_small (uval x)); auto. destruct Hx; lia.
Qed.

Lemma rsa_encrypt_ok k m :
  wf_pub k -> wf_uint m ->
  rsa_encrypt k m
  = Ok (mkU (RSAEP (uval (pk_n k)) (uval (pk_e k)) (uval m mod 2 ^ uprec (pk_n k)))
            (uprec (pk_n k))).
Proof.
  intros Hk Hm. pose proof (odd_pos_n k Hk). destruct Hk as (Hn & He & Hp & _).
  unfold rsa_encrypt. rewrite Hp. rewrite pow_mod_params_ok; auto. destruct He; lia.
Qed.

Lemma rsa_encrypt_small k m :
  wf_pub k -> wf_uint m -> uval m < 2 ^ uprec (pk_n k) ->
  rsa_encrypt k m
  = Ok (mkU (RSAEP (uval (pk_n k)) (uval (pk_e k)) (uval m)) (uprec (pk_n k))).
Proof.
  intros Hk Hm Hs. rewrite rsa_encrypt_ok by auto.
  rewrite (Z.mod_small (uval m)); auto. destruct Hm; lia.
Qed.

(** * Facts about precomputed values *)

Lemma mk_odd_nz v : Z.odd v = true -> v <> 0.
Proof. intros H ->. discriminate. Qed.

Lemma precompute_inv k k' :
  wf_uint (sk_d k) -> Forall wf_uint (sk_primes k) ->
  sk_pre k = None -> precompute k = Ok k' ->
  exists p q rest qinv,
    sk_primes k = p :: q :: rest /\
    let bits := uprec (sk_d k) in
    uprec p <= bits /\ uprec q <= bits /\ uval p <> 1 /\ uval q <> 1 /\
    Z.odd (uval p) = true /\ Z.odd (uval q) = true /\
    0 <= qinv < uval p /\ (uval q * qinv) mod uval p = 1 mod uval p /\
    k' = mkPriv (sk_pub k) (sk_d k) (sk_primes k)
       (Some (mkPre (mkU (uval (sk_d k) mod (uval p - 1)) bits)
                    (mkU (uval (sk_d k) mod (uval q - 1)) bits)
                    (mkMF qinv (mkMP (mkU (uval p) bits)))
                    (mkMP (mkU (uval p) bits)) (mkMP (mkU (uval q) bits)))).
Proof.
  intros Hd HF Hnone H. unfold precompute in H. rewrite Hnone in H.
  destruct (sk_primes k) as [|p [|q rest]] eqn:EP; cbn [get_idx nth_error bind] in H;
    try discriminate.
  { apply bind_ok in H. destruct H as (x & _ & H). discriminate. }
  inversion HF as [|? ? Hp HF2]; subst. inversion HF2 as [|? ? Hq HF3]; subst.
  set (bits := uprec (sk_d k)) in *.
  assert (Hbits : 64 <= bits /\ bits mod 64 = 0) by (destruct Hd as (_ & A & B); auto).
  apply bind_ok in H. destruct H as (pw & Hpw & H).
  unfold widen in Hpw. destruct (Z.leb_spec (uprec p) bits) as [Lp|]; [|discriminate].
  injection Hpw as <-.
  apply bind_ok in H. destruct H as (qw & Hqw & H).
  unfold widen in Hqw. destruct (Z.leb_spec (uprec q) bits) as [Lq|]; [|discriminate].
  injection Hqw as <-.
  rewrite !prec_for_id in H by tauto.
  apply bind_ok in H. destruct H as (? & Hop & H). apply guard_ok in Hop.
  apply bind_ok in H. destruct H as (? & Hoq & H). apply guard_ok in Hoq.
  unfold uis_odd in Hop, Hoq. cbn [uval] in Hop, Hoq.
  pose proof (mk_odd_nz _ Hop). pose proof (mk_odd_nz _ Hoq).
  assert (W : forall x, wf_uint x -> uprec x <= bits -> uval x <> 0 ->
              uwrapping_sub (mkU (uval x) bits) (u_of_u64 1) = mkU (uval x - 1) bits).
  { intros y (Hv & A & B) Hxb Hx0. unfold uwrapping_sub, u_of_u64. cbn [uval uprec].
    rewrite Z.max_l by lia. f_equal. apply Z.mod_small.
    assert (2 ^ uprec y <= 2 ^ bits) by (apply Z.pow_le_mono_r; lia). lia. }
  rewrite !W in H by auto.
  apply bind_ok in H. destruct H as (? & Hp1 & H). apply guard_ok in Hp1.
  unfold uis_zero in Hp1. cbn [uval] in Hp1.
  destruct (Z.eqb_spec (uval p - 1) 0) as [|Np1]; [discriminate|].
  unfold urem in H. cbn [uval uprec] in H.
  destruct (Z.eqb_spec (uval p - 1) 0); [lia|]. cbn [bind] in H.
  apply bind_ok in H. destruct H as (? & Hq1 & H). apply guard_ok in Hq1.
  unfold uis_zero in Hq1. cbn [uval] in Hq1.
  destruct (Z.eqb_spec (uval q - 1) 0) as [|Nq1]; [discriminate|]. cbn [bind] in H.
  unfold mf_new, mp_prec in H. cbn [mp_modulus uprec uval] in H. rewrite Z.eqb_refl in H.
  cbn [bind] in H. unfold mf_invert in H. cbn [mf_res mf_params] in H.
  unfold mp_val in H. cbn [mp_modulus uval] in H.
  destruct (zinv (uval q mod uval p) (uval p)) as [qi|] eqn:EZ; [|discriminate].
  apply zinv_some in EZ. destruct EZ as (Pp & Rqi & Eqi).
  rewrite Zmult_mod_idemp_l in Eqi.
  apply bind_ok in H. destruct H as (? & _ & H). injection H as <-.
  exists p, q, rest, qi. cbv zeta. fold bits. repeat split; auto; lia.
Qed.

(** The arithmetic content of a consistent CRT cache. *)
Lemma pre_consistent_inv k pc :
  wf_uint (sk_d k) -> Forall wf_uint (sk_primes k) ->
  pre_consistent k -> sk_pre k = Some pc ->
  exists p q rest qinv,
    sk_primes k = p :: q :: rest /\
    let bits := uprec (sk_d k) in
    uprec p <= bits /\ uprec q <= bits /\ uval p <> 1 /\ uval q <> 1 /\
    0 <= qinv < uval p /\ (uval q * qinv) mod uval p = 1 mod uval p /\
    pc = mkPre (mkU (uval (sk_d k) mod (uval p - 1)) bits)
               (mkU (uval (sk_d k) mod (uval q - 1)) bits)
               (mkMF qinv (mkMP (mkU (uval p) bits)))
               (mkMP (mkU (uval p) bits)) (mkMP (mkU (uval q) bits)).
Proof.
  intros Hd HF [Hn|Hc] Hs; [congruence|].
  apply precompute_inv in Hc; auto.
  destruct Hc as (p & q & rest & qinv & E & H). cbn [clear_precomputed sk_primes sk_d sk_pub] in *.
  destruct H as (A & B & C & D & _ & _ & F & G & K).
  exists p, q, rest, qinv. cbv zeta. repeat (split; auto).
  rewrite K in Hs. cbn [sk_pre] in Hs. congruence.
Qed.

(** * CRT exponentiation equals plain exponentiation *)

Lemma crt_pow_exp p c d :
  prime p -> 0 < d -> 
  (0 < p - 1) ->
  (c mod p) ^ (d mod (p - 1)) mod p = c ^ d mod p \/ (p | c) /\ d mod (p - 1) = 0.
Proof.
  intros Hp Hd Hp1. pose proof (prime_ge_2 p Hp).
  destruct (Zdivide_dec p c) as [Hc|Hc].
  - pose proof (Z.mod_pos_bound d (p - 1) Hp1).
    destruct (Z.eq_dec (d mod (p - 1)) 0) as [E|E]; [right; auto|left].
    rewrite (Zpower_mod c d) by lia.
    replace (c mod p) with 0 by (symmetry; apply Zdivide_mod; auto).
    rewrite !Z.pow_0_l by lia. reflexivity.
  - left. rewrite pow_mod_base by lia.
    rewrite (Z.div_mod d (p - 1)) at 2 by lia.
    pose proof (Z.mod_pos_bound d (p - 1) Hp1).
    assert (0 <= d / (p - 1)) by (apply Z.div_pos; lia).
    rewrite Z.pow_add_r, Z.pow_mul_r by nia.
    rewrite Zmult_mod, (Zpower_mod (c ^ (p - 1))) by lia.
    rewrite fermat_pm1 by auto. rewrite Z.pow_1_l by lia.
    rewrite <- Zmult_mod, Z.mul_1_l. reflexivity.
Qed.

Lemma ed_unit_mod p e d :
  2 < p -> (e * d) mod (p - 1) = 1 mod (p - 1) -> d mod (p - 1) <> 0.
Proof.
  intros Hp He Hd. rewrite <- Zmult_mod_idemp_r, Hd, Z.mul_0_r, Zmod_0_l in He.
  rewrite Z.mod_small in He by lia. discriminate.
Qed.

Lemma crt_pow_exp_odd p c d e :
  prime p -> 2 < p -> 0 < d -> (e * d) mod (p - 1) = 1 mod (p - 1) ->
  (c mod p) ^ (d mod (p - 1)) mod p = c ^ d mod p.
Proof.
  intros Hp H2 Hd He. destruct (crt_pow_exp p c d) as [|[_ E]]; auto; try lia.
  exfalso. eapply ed_unit_mod; eauto.
Qed.

Lemma crt_pow_ok c pc p q d bits qinv n e :
  prime (uval p) -> prime (uval q) -> uval p <> uval q -> 2 < uval p -> 2 < uval q ->
  n = uval p * uval q -> n < 2 ^ bits -> 64 <= bits ->
  wf_uint c -> uprec c = bits ->
  0 < d -> (e * d) mod (uval p - 1) = 1 mod (uval p - 1) ->
  (e * d) mod (uval q - 1) = 1 mod (uval q - 1) ->
  (uval q * qinv) mod uval p = 1 mod uval p ->
  pc = mkPre (mkU (d mod (uval p - 1)) bits) (mkU (d mod (uval q - 1)) bits)
             (mkMF qinv (mkMP (mkU (uval p) bits)))
             (mkMP (mkU (uval p) bits)) (mkMP (mkU (uval q) bits)) ->
  crt_pow c pc q = Ok (mkU (uval c ^ d mod n) bits).
Proof.
  intros Hp Hq Hne Hp2 Hq2 Hn Hnb Hb Hc Hcb Hd Hep Heq Hi ->.
  unfold crt_pow. cbn [pc_p_params pc_q_params pc_dp pc_dq pc_qinv].
  unfold mf_new, mp_prec, mp_val. cbn [mp_modulus uprec uval].
  rewrite Hcb, Z.eqb_refl. cbn [bind].
  unfold mf_pow, mf_retrieve, mf_sub, mf_mul, mp_val, mp_prec.
  cbn [mf_res mf_params mp_modulus uval uprec bind].
  rewrite Z.eqb_refl. cbn [bind mf_res mf_params mp_modulus uval uprec].
  pose proof (Z.mod_pos_bound d (uval p - 1) ltac:(lia)).
  pose proof (Z.mod_pos_bound d (uval q - 1) ltac:(lia)).
  rewrite !powm_spec by lia.
  rewrite (crt_pow_exp_odd (uval p) (uval c) d e) by auto.
  rewrite (crt_pow_exp_odd (uval q) (uval c) d e) by auto.
  assert (Hpq : uval p * uval q <> 0) by (apply Z.neq_mul_0; lia).
  set (m1 := uval c ^ d mod uval p). set (m2 := uval c ^ d mod uval q).
  set (x := uval c ^ d mod n).
  assert (Hx : 0 <= x < uval p * uval q) by (unfold x; rewrite Hn; apply Z.mod_pos_bound, Z.mul_pos_pos; lia).
  assert (E1 : m1 mod uval p = x mod uval p).
  { unfold m1, x. rewrite Zmod_mod, Hn.
    symmetry. apply divide_mod_eq; [lia|].
    pose proof (Z.mod_eq (uval c ^ d) (uval p * uval q) Hpq) as M.
    rewrite M. exists (- (uval q * (uval c ^ d / (uval p * uval q)))). ring. }
  assert (E2 : m2 = x mod uval q).
  { unfold m2, x. rewrite Hn. symmetry. apply divide_mod_eq; [lia|].
    pose proof (Z.mod_eq (uval c ^ d) (uval p * uval q) Hpq) as M.
    rewrite M. exists (- (uval p * (uval c ^ d / (uval p * uval q)))). ring. }
  assert (Hm2 : 0 <= m2 < uval q) by (apply Z.mod_pos_bound; lia).
  assert (G : ((qinv * ((m1 - m2 mod uval p) mod uval p)) mod uval p) * uval q + m2 = x).
  { rewrite Zminus_mod_idemp_r. apply crt_combine; auto. }
  set (hh := (qinv * ((m1 - m2 mod uval p) mod uval p)) mod uval p) in *.
  assert (0 <= hh < uval p) by (apply Z.mod_pos_bound; lia).
  clearbody hh. clear E1 E2. clearbody x m1 m2. clear Hep Heq Hi H H0.
  unfold uwrapping_mul, uwrapping_add. cbn [uval uprec].
  assert (0 <= hh * uval q) by (apply Z.mul_nonneg_nonneg; lia).
  rewrite (Z.mod_small (hh * uval q)) by lia.
  rewrite Z.max_id, G. rewrite Z.mod_small by lia. reflexivity.
Qed.

(** * Facts about valid keys *)

Lemma product_zprod ps : product ps = zprod ps.
Proof. reflexivity. Qed.

Lemma good_pub k : good_priv k -> wf_pub (sk_pub k).
Proof. intros (H & _); auto. Qed.

Lemma odd_factors ps : Z.odd (product ps) = true -> forall p, In p ps -> Z.odd p = true.
Proof.
  induction ps as [|q ps IH]; simpl; intros H p Hi; [tauto|].
  change (fold_right Z.mul 1 ps) with (product ps) in H.
  rewrite Z.odd_mul, andb_true_iff in H. destruct Hi as [<-|Hi]; [tauto|]. apply IH; tauto.
Qed.

Lemma odd_prime_gt2 p : prime p -> Z.odd p = true -> 2 < p.
Proof.
  intros Hp Ho. pose proof (prime_ge_2 p Hp).
  destruct (Z.eq_dec p 2) as [->|]; [discriminate|lia].
Qed.

Lemma product_big ps : (2 <= length ps)%nat -> Forall prime ps -> 4 <= product ps.
Proof.
  intros L F. destruct ps as [|p [|q ps]]; simpl in L; try lia.
  inversion F as [|? ? Hp F2]; subst. inversion F2 as [|? ? Hq F3]; subst.
  pose proof (prime_ge_2 _ Hp). pose proof (prime_ge_2 _ Hq).
  pose proof (zprod_pos ps (prime_pos_all _ F3)).
  change (product (p :: q :: ps)) with (p * (q * zprod ps)). 
  assert (2 <= q * zprod ps) by nia. nia.
Qed.

(** RSA identity for a valid key. *)
Lemma rsa_id n e d ps x :
  valid_rsa_key n e d ps -> x ^ (e * d) mod n = x mod n.
Proof.
  intros (HL & HP & HD & -> & He & Hd & Hc). rewrite product_zprod.
  apply rsa_identity; auto. nia.
Qed.

Lemma rsa_dec_enc n e d ps x :
  valid_rsa_key n e d ps -> 0 <= x < n -> RSADP n d (RSAEP n e x) = x.
Proof.
  intros HV Hx. pose proof (rsa_id n e d ps x HV) as E. pose proof HV as (_ & _ & _ & _ & He & Hd & _).
  unfold RSADP, RSAEP. rewrite pow_mod_base by lia.
  rewrite <- Z.pow_mul_r by lia. rewrite E. apply Z.mod_small; auto.
Qed.

Lemma rsa_enc_dec n e d ps x :
  valid_rsa_key n e d ps -> 0 <= x < n -> RSAEP n e (RSADP n d x) = x.
Proof.
  intros HV Hx. pose proof (rsa_id n e d ps x HV) as E. pose proof HV as (_ & _ & _ & _ & He & Hd & _).
  unfold RSADP, RSAEP. rewrite pow_mod_base by lia.
  rewrite <- Z.pow_mul_r by lia. rewrite (Z.mul_comm d e), E. apply Z.mod_small; auto.
Qed.

(** * Decryption *)

(** The private exponentiation of an already prepared (widened) input. *)
Definition private_pow (k : privkey) (c : uint) : outcome uint :=
  let n_params := pk_params (sk_pub k) in
  match sk_pre k with
  | Some pc =>
      if (2 <? length (sk_primes k))%nat then pow_mod_params c (sk_d k) n_params
      else
        let* _p := get_idx (sk_primes k) 0 in
        let* q := get_idx (sk_primes k) 1 in
        crt_pow c pc q
  | None => pow_mod_params c (sk_d k) n_params
  end.

Lemma private_pow_ok k c :
  good_priv k -> wf_uint c -> uprec c = uprec (sk_d k) -> uval c < uval (pk_n (sk_pub k)) ->
  exists p, private_pow k c
            = Ok (mkU (RSADP (uval (pk_n (sk_pub k))) (uval (sk_d k)) (uval c)) p)
            /\ uprec (pk_n (sk_pub k)) <= p.
Proof.
  intros (Hpub & Hd & HF & HV & Hprec & Hpre) Hc Hcp Hcn.
  pose proof (odd_pos_n _ Hpub) as Hn0. pose proof Hpub as (Hn & He & Hpar & Hodd).
  unfold private_pow. rewrite Hpar.
  assert (P : pow_mod_params c (sk_d k) (mkMP (pk_n (sk_pub k)))
              = Ok (mkU (RSADP (uval (pk_n (sk_pub k))) (uval (sk_d k)) (uval c))
                        (uprec (pk_n (sk_pub k))))).
  { apply pow_mod_params_small; auto; destruct Hd, Hn; try lia. }
  destruct (sk_pre k) as [pc|] eqn:Epre; [|eexists; split; [exact P|lia]].
  destruct (Nat.ltb_spec 2 (length (sk_primes k))); [eexists; split; [exact P|lia]|].
  destruct (pre_consistent_inv k pc) as (p & q & rest & qinv & EP & H1); auto.
  cbv zeta in H1. destruct H1 as (A & B & C & D & F & G & ->).
  pose proof HV as (HL & HP & HD & HNn & He0 & Hd0 & Hcong).
  rewrite EP in *. cbn [map length] in *.
  destruct rest; [|cbn [length] in *; lia].
  cbn [get_idx nth_error bind]. cbn [map] in *.
  inversion HP as [|? ? Pp HP2]; subst. inversion HP2 as [|? ? Pq HP3]; subst.
  inversion HD as [|? ? N1 _]; subst.
  assert (Ho : forall x, In x [uval p; uval q] -> Z.odd x = true)
    by (apply odd_factors; rewrite <- HNn; auto).
  assert (Hpr : uval p * uval q = uval (pk_n (sk_pub k)))
    by (rewrite HNn; unfold product; cbn [fold_right]; ring).
  exists (uprec (sk_d k)). split; auto.
  eapply crt_pow_ok with (e := uval (pk_e (sk_pub k))) (d := uval (sk_d k)) (p := p); eauto.
  - intros E; apply N1; simpl; auto.
  - apply odd_prime_gt2; auto. apply Ho; simpl; auto.
  - apply odd_prime_gt2; auto. apply Ho; simpl; auto.
  - destruct Hn as (Hv & _).
    eapply Z.lt_le_trans; [apply Hv|]. apply Z.pow_le_mono_r; [reflexivity|exact Hprec].
  - destruct Hd as (_ & ? & _); auto.
  - apply Hcong; simpl; auto.
  - apply Hcong; simpl; auto.
Qed.

Section Blind.
  Context {R : Type} (g : rng_ops R).

  Lemma rsa_decrypt_unfold fuel rng k c :
    rsa_decrypt g fuel rng k c =
    if uleb (pk_n (sk_pub k)) c then Err Decryption
    else
      let n_params := pk_params (sk_pub k) in
      let bits := uprec (sk_d k) in
      let* (c, ir) :=
        match rng with
        | Some st =>
            let* (blinded, unblinder) := blind g fuel st (sk_pub k) c n_params in
            let* c := widen blinded bits in
            Ok (c, Some unblinder)
        | None => let* c := widen c bits in Ok (c, None)
        end in
      let* m := private_pow k c in
      let* m := shorten m (mp_prec n_params) in
      match ir with
      | Some ir => unblind m ir n_params
      | None => Ok m
      end.
  Proof. reflexivity. Qed.

  (** Without blinding. *)
  Lemma rsa_decrypt_plain fuel k c :
    good_priv k -> wf_uint c -> uprec c <= uprec (sk_d k) -> uval c < uval (pk_n (sk_pub k)) ->
    rsa_decrypt g fuel None k c
    = Ok (mkU (RSADP (uval (pk_n (sk_pub k))) (uval (sk_d k)) (uval c)) (uprec (pk_n (sk_pub k)))).
  Proof.
    intros Hk Hc Hcp Hcn. pose proof Hk as (Hpub & Hd & _ & _ & Hprec & _).
    pose proof (odd_pos_n _ Hpub) as Hn0. pose proof Hpub as (Hn & He & Hpar & Hodd).
    rewrite rsa_decrypt_unfold. unfold uleb.
    destruct (Z.leb_spec (uval (pk_n (sk_pub k))) (uval c)); [lia|]. cbv zeta.
    rewrite widen_ok; [|auto|auto|destruct Hd as (_ & _ & ?); auto]. cbn [bind].
    destruct (private_pow_ok k (mkU (uval c) (uprec (sk_d k)))) as (p & E & Hp); auto.
    { apply widen_wf; auto. destruct Hd as (_ & _ & ?); auto. }
    rewrite E. cbn [bind]. rewrite Hpar. unfold mp_prec. cbn [mp_modulus].
    destruct Hn as (Hv & H1 & H2). rewrite shorten_ok by (cbn; auto).
    cbn [bind uval]. rewrite Z.mod_small; auto.
    unfold RSADP. pose proof (Z.mod_pos_bound (uval c ^ uval (sk_d k)) (uval (pk_n (sk_pub k))) Hn0).
    lia.
  Qed.

  (** The blinding loop. *)
  Lemma blind_loop_ok fuel : forall st key r ir st',
    rng_ok g -> wf_uint (pk_n key) -> 1 < uval (pk_n key) ->
    blind_loop g fuel st key = Ok (r, ir, st') ->
    uprec r = uprec (pk_n key) /\ uprec ir = uprec (pk_n key) /\
    0 <= uval r < uval (pk_n key) /\ 0 <= uval ir < uval (pk_n key) /\
    (uval r * uval ir) mod uval (pk_n key) = 1.
  Proof.
    induction fuel; intros st key r ir st' Hg Hn H1 H; [discriminate|]. cbn [blind_loop] in H.
    destruct (rng_mod g st (uval (pk_n key))) as [[v|] st1] eqn:E; [|discriminate].
    destruct Hg as [Hg1 Hg2]. apply Hg2 in E; [|lia].
    set (rr := if uis_zero (mkU v (uprec (pk_n key))) then u_one_with (n_bits_precision key)
               else mkU v (uprec (pk_n key))) in *.
    assert (Hrr : uprec rr = uprec (pk_n key) /\ 0 <= uval rr < uval (pk_n key)).
    { unfold rr, uis_zero. cbn [uval]. destruct (v =? 0).
      - unfold u_one_with, n_bits_precision. cbn [uval uprec].
        destruct Hn as (? & ? & ?). rewrite prec_for_id by auto. lia.
      - cbn [uval uprec]. lia. }
    unfold uinv_mod in H. destruct Hrr as [Hrp Hrv]. rewrite Hrp, Z.eqb_refl in H. cbn [bind] in H.
    destruct (zinv (uval rr) (uval (pk_n key))) as [x|] eqn:EZ.
    - injection H as <- <- <-. apply zinv_some in EZ. destruct EZ as (_ & Hx & Ex).
      rewrite (Z.mod_small 1) in Ex by lia. cbn [uval uprec]. auto.
    - eapply IHfuel; eauto. split; auto.
  Qed.

  Lemma blind_loop_cases fuel : forall st key,
    wf_uint (pk_n key) ->
    (exists x, blind_loop g fuel st key = Ok x) \/ blind_loop g fuel st key = Err Rng
    \/ blind_loop g fuel st key = OutOfFuel.
  Proof.
    induction fuel; intros st key Hn; cbn [blind_loop]; auto.
    destruct (rng_mod g st (uval (pk_n key))) as [[v|] st1]; auto.
    set (rr := if uis_zero (mkU v (uprec (pk_n key))) then u_one_with (n_bits_precision key)
               else mkU v (uprec (pk_n key))).
    assert (Hrp : uprec rr = uprec (pk_n key)).
    { unfold rr, uis_zero. cbn [uval]. destruct (v =? 0); auto.
      unfold u_one_with, n_bits_precision. cbn [uprec].
      destruct Hn as (? & ? & ?). apply prec_for_id; auto. }
    unfold uinv_mod. rewrite Hrp, Z.eqb_refl. cbn [bind].
    destruct (zinv (uval rr) (uval (pk_n key))); eauto.
  Qed.

  Lemma mul_mod_params_ok a b N :
    uprec a = uprec N -> uprec b = uprec N ->
    mul_mod_params a b (mkMP N) = Ok (mkU ((uval a * uval b) mod uval N) (uprec N)).
  Proof.
    intros Ha Hb. unfold mul_mod_params, mf_new, mp_prec, mp_val. cbn [mp_modulus].
    rewrite Ha, Hb, Z.eqb_refl. cbn [bind]. unfold mf_retrieve, mf_mul, mp_prec, mp_val.
    cbn [mf_res mf_params mp_modulus]. rewrite <- Zmult_mod. reflexivity.
  Qed.

  Lemma blind_ok fuel st k c :
    rng_ok g -> wf_pub k -> 1 < uval (pk_n k) -> uprec c = uprec (pk_n k) ->
    blind g fuel st k c (pk_params k) =
    match blind_loop g fuel st k with
    | Ok (r, ir, _) =>
        Ok (mkU ((uval c * (uval r ^ uval (pk_e k) mod uval (pk_n k))) mod uval (pk_n k))
                (uprec (pk_n k)), ir)
    | Err e => Err e
    | Panic => Panic
    | OutOfFuel => OutOfFuel
    end.
  Proof.
    intros Hg (Hn & He & Hpar & Ho) H1 Hc. unfold blind. rewrite Hpar.
    cbn [mp_modulus]. unfold ueqb. rewrite Z.eqb_refl. unfold assert_. cbn [bind].
    destruct (blind_loop g fuel st k) as [[[r ir] st']| | |] eqn:E; cbn [bind]; auto.
    apply blind_loop_ok in E; auto. destruct E as (Hr & Hir & Vr & Vir & Hinv).
    assert (wf_uint r).
    { destruct Hn as (? & ? & ?). unfold wf_uint. rewrite Hr. repeat split; auto; lia. }
    rewrite pow_mod_params_small; auto; try lia.
    2:{ destruct He; lia. }
    2:{ destruct Hn as (? & _); lia. }
    cbn [bind]. rewrite mul_mod_params_ok by auto. cbn [bind uval uprec].
    unfold n_bits_precision. rewrite Hir, Z.eqb_refl. reflexivity.
  Qed.

  (** With blinding: the same value, or the generator failed, or fuel ran out. *)
  Lemma rsa_decrypt_blind fuel st k c :
    rng_ok g ->
    good_priv k -> wf_uint c -> uprec c = uprec (pk_n (sk_pub k)) ->
    uval c < uval (pk_n (sk_pub k)) ->
    rsa_decrypt g fuel (Some st) k c =
    match blind_loop g fuel st (sk_pub k) with
    | Ok _ =>
        Ok (mkU (RSADP (uval (pk_n (sk_pub k))) (uval (sk_d k)) (uval c)) (uprec (pk_n (sk_pub k))))
    | Err e => Err e
    | Panic => Panic
    | OutOfFuel => OutOfFuel
    end.
  Proof.
    intros Hg Hk Hc Hcp Hcn. pose proof Hk as (Hpub & Hd & _ & HV & Hprec & _).
    pose proof (odd_pos_n _ Hpub) as Hn0. pose proof Hpub as (Hn & He & Hpar & Hodd).
    assert (H1 : 1 < uval (pk_n (sk_pub k))).
    { pose proof HV as (HL & HP & _ & -> & _). pose proof (product_big _ HL HP). lia. }
    rewrite rsa_decrypt_unfold. unfold uleb.
    destruct (Z.leb_spec (uval (pk_n (sk_pub k))) (uval c)); [lia|]. cbv zeta.
    rewrite blind_ok by auto.
    destruct (blind_loop g fuel st (sk_pub k)) as [[[r ir] st']| | |] eqn:E; cbn [bind]; auto.
    apply blind_loop_ok in E; auto. destruct E as (Hr & Hir & Vr & Vir & Hinv).
    set (n := uval (pk_n (sk_pub k))) in *. set (e := uval (pk_e (sk_pub k))) in *.
    set (d := uval (sk_d k)) in *.
    set (b := (uval c * (uval r ^ e mod n)) mod n).
    assert (Hb : 0 <= b < n) by (apply Z.mod_pos_bound; lia).
    assert (Wb : wf_uint (mkU b (uprec (pk_n (sk_pub k))))).
    { destruct Hn as (? & ? & ?). apply wf_mk; auto. unfold n in *. lia. }
    assert (Hd64 : uprec (sk_d k) mod 64 = 0) by (destruct Hd as (_ & _ & ?); auto).
    rewrite widen_ok; auto. cbn [bind uval].
    destruct (private_pow_ok k (mkU b (uprec (sk_d k)))) as (p & EP & Hp); auto.
    { apply (widen_wf (mkU b (uprec (pk_n (sk_pub k))))); auto. }
    { cbn [uval]. fold n. lia. }
    rewrite EP. cbn [bind uval]. fold n d. rewrite Hpar. unfold mp_prec. cbn [mp_modulus].
    pose proof Hn as (Hv & P1 & P2). rewrite shorten_ok by (cbn; auto).
    cbn [bind uval].
    assert (Hm : 0 <= RSADP n d b < n) by (unfold RSADP; apply Z.mod_pos_bound; lia).
    rewrite (Z.mod_small (RSADP n d b)) by (unfold n in *; lia).
    unfold unblind, assert_, mp_prec. cbn [mp_modulus uprec]. rewrite Hir, Z.eqb_refl. cbn [bind].
    rewrite mul_mod_params_ok by auto. cbn [uval]. fold n. do 2 f_equal.
    (* c^d r^(ed) r^-1 = c^d *)
    assert (Hd0 : 0 < d) by (destruct HV as (_ & _ & _ & _ & _ & ? & _); auto).
    assert (He0 : 0 < e) by (destruct HV as (_ & _ & _ & _ & ? & _ & _); auto).
    unfold RSADP, b. rewrite pow_mod_base by lia.
    rewrite Z.mul_mod_idemp_l by lia.
    rewrite Z.pow_mul_l.
    rewrite <- Z.mul_assoc.
    rewrite Z.mul_mod by lia.
    replace (((uval r ^ e mod n) ^ d * uval ir) mod n) with 1.
    - rewrite Z.mul_1_r. apply Zmod_mod.
    - rewrite Z.mul_mod by lia. rewrite pow_mod_base by lia. rewrite <- Z.pow_mul_r by lia.
      rewrite (rsa_id n e d _ (uval r) HV).
      rewrite <- Z.mul_mod by lia. auto.
  Qed.

  (** Out-of-range inputs. *)
  Lemma rsa_decrypt_range fuel rng k c :
    uval (pk_n (sk_pub k)) <= uval c -> rsa_decrypt g fuel rng k c = Err Decryption.
  Proof.
    intros H. rewrite rsa_decrypt_unfold. unfold uleb.
    destruct (Z.leb_spec (uval (pk_n (sk_pub k))) (uval c)); [auto|lia].
  Qed.
End Blind.

(** * Blinding and the generator *)
Section Draws.
  Context {R : Type} (g : rng_ops R).

  Lemma blind_loop_step fuel st key :
    wf_uint (pk_n key) -> 1 < uval (pk_n key) ->
    blind_loop g (S fuel) st key =
    match rng_mod g st (uval (pk_n key)) with
    | (None, _) => Err Rng
    | (Some v, st') =>
        let v' := if v =? 0 then 1 else v in
        match zinv v' (uval (pk_n key)) with
        | Some x => Ok (mkU v' (uprec (pk_n key)), mkU x (uprec (pk_n key)), st')
        | None => blind_loop g fuel st' key
        end
    end.
  Proof.
    intros Hn H1. cbn [blind_loop].
    destruct (rng_mod g st (uval (pk_n key))) as [[v|] st1]; auto.
    unfold uis_zero. cbn [uval]. cbv zeta.
    pose proof Hn as (? & ? & ?).
    assert (E : (if v =? 0 then u_one_with (n_bits_precision key) else mkU v (uprec (pk_n key)))
                = mkU (if v =? 0 then 1 else v) (uprec (pk_n key))).
    { destruct (v =? 0); auto. unfold u_one_with, n_bits_precision. rewrite prec_for_id; auto. }
    rewrite E. unfold uinv_mod. cbn [uval uprec]. rewrite Z.eqb_refl. cbn [bind].
    destruct (zinv (if v =? 0 then 1 else v) (uval (pk_n key))); reflexivity.
  Qed.

  Lemma zinv_unit v n : 1 < n -> Z.gcd v n = 1 -> exists x, zinv v n = Some x.
  Proof.
    intros Hn Hg. destruct (zinv v n) eqn:E; eauto.
    apply zinv_none in E; [|lia]. contradiction.
  Qed.

  Lemma zinv_gcd_none v n : 0 < n -> Z.gcd v n <> 1 -> zinv v n = None.
  Proof. intros Hn H. apply zinv_none; auto. Qed.

  Lemma blind_loop_usable key : wf_uint (pk_n key) -> 1 < uval (pk_n key) ->
    forall j st, usable_at g (uval (pk_n key)) st j ->
    forall fuel, (j < fuel)%nat -> exists x, blind_loop g fuel st key = Ok x.
  Proof.
    intros Hn H1 j st H. induction H as [st st' v E Hv|st st' v j E Hv Hg H IH];
      intros fuel Hf; (destruct fuel; [lia|]); rewrite blind_loop_step, E by auto; cbv zeta.
    - destruct (zinv_unit (if v =? 0 then 1 else v) (uval (pk_n key))) as (x & ->); eauto.
      destruct (Z.eqb_spec v 0); [apply Z.gcd_1_l|]. tauto.
    - destruct (Z.eqb_spec v 0); [tauto|]. rewrite zinv_gcd_none by (auto; lia).
      apply IH. lia.
  Qed.

  Lemma blind_loop_fails key : wf_uint (pk_n key) -> 1 < uval (pk_n key) ->
    forall j st, fails_at g (uval (pk_n key)) st j ->
    forall fuel, (j < fuel)%nat -> blind_loop g fuel st key = Err Rng.
  Proof.
    intros Hn H1 j st H. induction H as [st st' E|st st' v j E Hv Hg H IH];
      intros fuel Hf; (destruct fuel; [lia|]); rewrite blind_loop_step, E by auto; auto; cbv zeta.
    destruct (Z.eqb_spec v 0); [tauto|]. rewrite zinv_gcd_none by (auto; lia).
    apply IH. lia.
  Qed.

  Lemma blind_loop_unusable key : wf_uint (pk_n key) -> 1 < uval (pk_n key) ->
    forall f st, unusable_for g (uval (pk_n key)) st f -> blind_loop g f st key = OutOfFuel.
  Proof.
    intros Hn H1 f st H. induction H as [st|st st' v j E Hv Hg H IH]; auto.
    rewrite blind_loop_step, E by auto; auto; cbv zeta.
    destruct (Z.eqb_spec v 0); [tauto|]. rewrite zinv_gcd_none by (auto; lia). auto.
  Qed.

  Lemma good_gt1 k : good_priv k -> 1 < uval (pk_n (sk_pub k)).
  Proof.
    intros (_ & _ & _ & (HL & HP & _ & -> & _) & _). pose proof (product_big _ HL HP). lia.
  Qed.

  (** The private operation of a good key, for every generator behaviour. *)
  Lemma rsa_decrypt_good fuel rng k c :
    (rng <> None -> rng_ok g) ->
    good_priv k -> wf_uint c -> uprec c = uprec (pk_n (sk_pub k)) ->
    uval c < uval (pk_n (sk_pub k)) ->
    (blinding_succeeds g (uval (pk_n (sk_pub k))) rng fuel ->
     rsa_decrypt g fuel rng k c
     = Ok (mkU (RSADP (uval (pk_n (sk_pub k))) (uval (sk_d k)) (uval c)) (uprec (pk_n (sk_pub k)))))
    /\ (blinding_fails g (uval (pk_n (sk_pub k))) rng fuel -> rsa_decrypt g fuel rng k c = Err Rng)
    /\ (blinding_undecided g (uval (pk_n (sk_pub k))) rng fuel ->
        rsa_decrypt g fuel rng k c = OutOfFuel).
  Proof.
    intros Hg Hk Hc Hcp Hcn. pose proof (good_gt1 k Hk) as H1.
    pose proof Hk as ((Hn & _) & _ & _ & _ & Hprec & _).
    destruct rng as [st|]; cbn [blinding_succeeds blinding_fails blinding_undecided].
    - rewrite rsa_decrypt_blind by (auto; apply Hg; discriminate).
      split; [|split]; intros H.
      + destruct H as (j & Hj & H). destruct (blind_loop_usable _ Hn H1 _ _ H fuel Hj) as (x & ->).
        auto.
      + destruct H as (j & Hj & H). rewrite (blind_loop_fails _ Hn H1 _ _ H fuel Hj). auto.
      + rewrite (blind_loop_unusable _ Hn H1 _ _ H). auto.
    - split; [|tauto]. intros _. apply rsa_decrypt_plain; auto. lia.
  Qed.

  Lemma rsa_encrypt_of_dec k c p :
    good_priv k -> 0 <= c < uval (pk_n (sk_pub k)) -> p = uprec (pk_n (sk_pub k)) ->
    rsa_encrypt (sk_pub k) (mkU (RSADP (uval (pk_n (sk_pub k))) (uval (sk_d k)) c) p)
    = Ok (mkU c (uprec (pk_n (sk_pub k)))).
  Proof.
    intros Hk Hc ->. pose proof Hk as (Hpub & _ & _ & HV & _). pose proof (good_gt1 k Hk).
    pose proof Hpub as ((Hv & P1 & P2) & _).
    assert (Hm : 0 <= RSADP (uval (pk_n (sk_pub k))) (uval (sk_d k)) c < uval (pk_n (sk_pub k)))
      by (apply Z.mod_pos_bound; lia).
    rewrite rsa_encrypt_small; cbn [uval]; auto; try lia.
    - erewrite rsa_enc_dec; eauto.
    - apply wf_mk; auto. lia.
  Qed.

  Lemma rsa_decrypt_and_check_good fuel rng k c :
    (rng <> None -> rng_ok g) ->
    good_priv k -> wf_uint c -> uprec c = uprec (pk_n (sk_pub k)) ->
    uval c < uval (pk_n (sk_pub k)) ->
    (blinding_succeeds g (uval (pk_n (sk_pub k))) rng fuel ->
     rsa_decrypt_and_check g fuel k rng c
     = Ok (mkU (RSADP (uval (pk_n (sk_pub k))) (uval (sk_d k)) (uval c)) (uprec (pk_n (sk_pub k)))))
    /\ (blinding_fails g (uval (pk_n (sk_pub k))) rng fuel ->
        rsa_decrypt_and_check g fuel k rng c = Err Rng)
    /\ (blinding_undecided g (uval (pk_n (sk_pub k))) rng fuel ->
        rsa_decrypt_and_check g fuel k rng c = OutOfFuel).
  Proof.
    intros Hg Hk Hc Hcp Hcn. destruct (rsa_decrypt_good fuel rng k c) as (A & B & C); auto.
    unfold rsa_decrypt_and_check. split; [|split]; intros H.
    - rewrite A by auto. cbn [bind]. rewrite rsa_encrypt_of_dec; auto; [|destruct Hc as (? & _); lia].
      cbn [bind]. unfold ueqb. cbn [uval]. rewrite Z.eqb_refl. reflexivity.
    - rewrite B by auto. reflexivity.
    - rewrite C by auto. reflexivity.
  Qed.

  Lemma rsa_decrypt_and_check_range fuel rng k c :
    uval (pk_n (sk_pub k)) <= uval c -> rsa_decrypt_and_check g fuel k rng c = Err Decryption.
  Proof. intros H. unfold rsa_decrypt_and_check. rewrite rsa_decrypt_range; auto. Qed.

  (** Whatever the key contains, [rsa_decrypt] either rejects or returns a number
      within the precision of the modulus. *)
  Lemma rsa_decrypt_prec fuel rng k c m :
    wf_pub (sk_pub k) -> rsa_decrypt g fuel rng k c = Ok m ->
    wf_uint m /\ uprec m = uprec (pk_n (sk_pub k)).
  Proof.
    intros Hpub H.
    pose proof (odd_pos_n _ Hpub) as Hn0. pose proof Hpub as (Hn & _ & Hpar & _).
    pose proof Hn as (Hv & P1 & P2).
    rewrite rsa_decrypt_unfold in H. destruct (uleb _ _); [discriminate|]. cbv zeta in H.
    apply bind_ok in H. destruct H as ((c' & ir) & _ & H).
    apply bind_ok in H. destruct H as (m' & _ & H).
    apply bind_ok in H. destruct H as (m'' & Hs & H).
    rewrite Hpar in *. unfold mp_prec in *. cbn [mp_modulus] in *.
    unfold shorten in Hs. destruct (_ <=? _); [|discriminate]. injection Hs as <-.
    rewrite prec_for_id in H by auto.
    assert (0 < 2 ^ uprec (pk_n (sk_pub k))) by (apply Z.pow_pos_nonneg; lia).
    destruct ir as [ir|].
    - unfold unblind in H. apply bind_ok in H. destruct H as (_ & _ & H).
      apply bind_ok in H. destruct H as (_ & _ & H).
      unfold mul_mod_params in H. apply bind_ok in H. destruct H as (l1 & El & H).
      apply bind_ok in H. destruct H as (r1 & Er & H). injection H as <-.
      unfold mf_new in El. destruct (_ =? _); [|discriminate]. injection El as <-.
      unfold mf_retrieve, mf_mul, mp_prec, mp_val. cbn [mf_params mf_res mp_modulus uval uprec].
      split; auto. apply wf_mk; auto.
      pose proof (Z.mod_pos_bound ((uval m' mod 2 ^ uprec (pk_n (sk_pub k)))
                                     mod uval (pk_n (sk_pub k)) * mf_res r1)
                                  (uval (pk_n (sk_pub k))) Hn0). lia.
    - injection H as <-. cbn [uval uprec]. split; auto.
      apply wf_mk; auto. apply Z.mod_pos_bound; auto.
  Qed.

  (** C10: for arbitrary key contents. *)
  Lemma rsa_decrypt_and_check_sound fuel rng k c m :
    wf_pub (sk_pub k) -> 0 <= uval c -> rsa_decrypt_and_check g fuel k rng c = Ok m ->
    RSAEP (uval (pk_n (sk_pub k))) (uval (pk_e (sk_pub k))) (uval m) = uval c
    /\ uval c < uval (pk_n (sk_pub k)) /\ wf_uint m /\ uprec m = uprec (pk_n (sk_pub k)).
  Proof.
    intros Hpub Hc H. unfold rsa_decrypt_and_check in H.
    apply bind_ok in H. destruct H as (m' & Hd & H).
    apply bind_ok in H. destruct H as (chk & He & H).
    destruct (ueqb c chk) eqn:Eq; [|discriminate]. injection H as <-.
    pose proof (rsa_decrypt_prec _ _ _ _ _ Hpub Hd) as (Hm & Hp).
    assert (Hr : uval c < uval (pk_n (sk_pub k))).
    { rewrite rsa_decrypt_unfold in Hd. unfold uleb in Hd.
      destruct (Z.leb_spec (uval (pk_n (sk_pub k))) (uval c)); [discriminate|lia]. }
    rewrite rsa_encrypt_small in He; auto.
    2:{ destruct Hm as (? & _). rewrite <- Hp; lia. }
    injection He as <-. unfold ueqb in Eq. cbn [uval] in Eq. apply Z.eqb_eq in Eq. auto.
  Qed.
End Draws.

(** * precompute and clear_precomputed *)

(** The first two primes are stored no wider than d (otherwise [precompute]
    panics). *)
Definition primes_fit (k : privkey) : Prop :=
  forall p, In p (firstn 2 (sk_primes k)) -> uprec p <= uprec (sk_d k).

Lemma distinct_primes_gcd p q : prime p -> prime q -> p <> q -> Z.gcd p q = 1.
Proof.
  intros Hp Hq Hne. apply Zgcd_1_rel_prime. apply prime_rel_prime; auto.
  intros H. apply prime_div_prime in H; auto.
Qed.

Lemma wrapping_pred x bits :
  wf_uint x -> uprec x <= bits -> uval x <> 0 ->
  uwrapping_sub (mkU (uval x) bits) (u_of_u64 1) = mkU (uval x - 1) bits.
Proof.
  intros (Hv & A & B) Hxb Hx0. unfold uwrapping_sub, u_of_u64. cbn [uval uprec].
  rewrite Z.max_l by lia. f_equal. apply Z.mod_small.
  assert (2 ^ uprec x <= 2 ^ bits) by (apply Z.pow_le_mono_r; lia). lia.
Qed.

Lemma precompute_total k :
  good_priv k -> primes_fit k -> exists k', precompute k = Ok k'.
Proof.
  intros (Hpub & Hd & HF & HV & Hprec & Hpre) Hfit. unfold precompute.
  destruct (sk_pre k) eqn:Ep; [eauto|].
  destruct HV as (HL & HP & HD & HN & _). pose proof Hpub as (_ & _ & _ & Hodd).
  unfold primes_fit in Hfit.
  destruct (sk_primes k) as [|p [|q rest]] eqn:EP; cbn [map length] in *; try lia.
  cbn [firstn] in Hfit. cbn [get_idx nth_error bind].
  inversion HF as [|? ? Wp HF2]; subst. inversion HF2 as [|? ? Wq HF3]; subst.
  inversion HP as [|? ? Pp HP2]; subst. inversion HP2 as [|? ? Pq HP3]; subst.
  inversion HD as [|? ? N1 _]; subst.
  pose proof Hd as (_ & Hd1 & Hd2).
  assert (Fp : uprec p <= uprec (sk_d k)) by (apply Hfit; simpl; auto).
  assert (Fq : uprec q <= uprec (sk_d k)) by (apply Hfit; simpl; auto).
  assert (Hne : uval p <> uval q) by (intros E; apply N1; simpl; auto).
  assert (Ho : forall x, In x (uval p :: uval q :: map uval rest) -> Z.odd x = true)
    by (apply odd_factors; rewrite <- HN; auto).
  assert (Op : Z.odd (uval p) = true) by (apply Ho; simpl; auto).
  assert (Oq : Z.odd (uval q) = true) by (apply Ho; simpl; auto).
  clear Ho HN.
  pose proof (odd_prime_gt2 _ Pp Op). pose proof (odd_prime_gt2 _ Pq Oq).
  rewrite !widen_ok by auto. cbn [bind]. unfold uis_odd. cbn [uval].
  rewrite Op, Oq. cbn [guard bind]. 
  rewrite !wrapping_pred by (auto; lia).
  unfold uis_zero. cbn [uval uprec].
  destruct (Z.eqb_spec (uval p - 1) 0); [lia|]. cbn [negb guard bind].
  unfold urem. cbn [uval uprec]. destruct (Z.eqb_spec (uval p - 1) 0); [lia|]. cbn [bind].
  destruct (Z.eqb_spec (uval q - 1) 0); [lia|]. cbn [negb guard bind].
  unfold mf_new, mp_prec. cbn [mp_modulus uprec uval]. rewrite Z.eqb_refl.
  cbn [bind]. unfold mf_invert, mp_val. cbn [mf_res mf_params mp_modulus uval uprec].
  destruct (zinv_exists (uval q mod uval p) (uval p)) as (x & ->).
  - lia.
  - rewrite <- (distinct_primes_gcd (uval p) (uval q)) by auto.
    apply Z.gcd_mod. lia.
  - cbn [mf_params mp_modulus uprec]. rewrite Z.eqb_refl. cbn [andb assert_ bind]. eauto.
Qed.

Lemma precompute_keeps k k' :
  precompute k = Ok k' ->
  sk_pub k' = sk_pub k /\ sk_d k' = sk_d k /\ sk_primes k' = sk_primes k.
Proof.
  unfold precompute. destruct (sk_pre k); [intros [= <-]; auto|]. intros H.
  repeat (apply bind_ok in H; destruct H as (? & _ & H)).
  destruct (mf_invert _); [|discriminate].
  apply bind_ok in H; destruct H as (? & _ & H). injection H as <-. auto.
Qed.

Lemma good_clear k : good_priv k -> good_priv (clear_precomputed k).
Proof. intros (A & B & C & D & E & _). repeat (split; auto). left. reflexivity. Qed.

Lemma good_precompute k k' : good_priv k -> precompute k = Ok k' -> good_priv k'.
Proof.
  intros Hk H. pose proof (precompute_keeps _ _ H) as (E1 & E2 & E3).
  destruct Hk as (A & B & C & D & E & F).
  unfold good_priv. rewrite E1, E2, E3. repeat (split; auto).
  destruct (sk_pre k) eqn:Ep.
  - unfold precompute in H. rewrite Ep in H. injection H as <-. auto.
  - right. replace (clear_precomputed k') with k; auto.
    destruct k as [a b c d]. cbn [sk_pre sk_pub sk_d sk_primes] in *. subst. unfold clear_precomputed.
    congruence.
Qed.
