(** Proofs about [recover_primes], src/algorithms/rsa.rs:236-300 (C28), and about
    [from_components] with no primes (C27). *)
From Coq Require Import ZArith List Bool Lia Znumtheory.
From Coq Require Import Init.Byte.
From Verif Require Import Base Bigint BytesLemmas NumTheory SpecRFC SpecKey BigintLemmas
  MHash MRsa MGenerate MKey KeyDefs PRsa PApi PKey.
Import ListNotations.
Local Open Scope Z_scope.

(** The integer computation (NIST SP 800-56B rev. 2, appendix C.2), None = error. *)
Definition recoverZ (n e d : Z) : option (Z * Z) :=
  let a := (d * e - 1) * Z.gcd (n - 1) (d * e - 1) in
  let m := a / n in let r := a mod n in
  if negb ((n - r) mod (m + 1) =? 0) then None
  else
    let b := (n - r) / (m + 1) + 1 in
    if b * b <=? 4 * n then None
    else let y := Z.sqrt (b * b - 4 * n) in
         if negb (y * y =? b * b - 4 * n) then None
         else Some ((b + y) / 2, (b - y) / 2).

Lemma recoverZ_sound n e d p q : 1 <= n -> 2 <= d * e ->
  recoverZ n e d = Some (p, q) -> p * q = n /\ 1 < q < p.
Proof.
  intros Hn Hde. unfold recoverZ. cbv zeta.
  set (G := Z.gcd (n - 1) (d * e - 1)). set (a := (d * e - 1) * G).
  set (m := a / n). set (r := a mod n).
  assert (HG : 1 <= G).
  { pose proof (Z.gcd_nonneg (n - 1) (d * e - 1)). fold G in H.
    destruct (Z.eq_dec G 0) as [E|]; [|lia]. apply Z.gcd_eq_0_r in E. lia. }
  assert (Ha : 1 <= a) by (unfold a; nia).
  assert (Hm : 0 <= m) by (apply Z.div_pos; lia).
  assert (Hr : 0 <= r < n) by (apply Z.mod_pos_bound; lia).
  assert (Hmr : a = n * m + r) by (apply Z_div_mod_eq_full).
  destruct (Z.eqb_spec ((n - r) mod (m + 1)) 0) as [Ed|]; cbn [negb]; [|discriminate].
  set (b := (n - r) / (m + 1) + 1).
  assert (Hb : n - r = (m + 1) * (b - 1)).
  { unfold b. replace ((n - r) / (m + 1) + 1 - 1) with ((n - r) / (m + 1)) by ring.
    rewrite (Z_div_mod_eq_full (n - r) (m + 1)) at 1. rewrite Ed. ring. }
  destruct (Z.leb_spec (b * b) (4 * n)) as [|Hd]; [discriminate|].
  set (y := Z.sqrt (b * b - 4 * n)).
  destruct (Z.eqb_spec (y * y) (b * b - 4 * n)) as [Ey|]; cbn [negb]; [|discriminate].
  intros [= <- <-].
  assert (Hy : 0 < y) 
    by (pose proof (Z.sqrt_nonneg (b * b - 4 * n)) as Hq; fold y in Hq;
        destruct (Z.eq_dec y 0) as [E|]; [rewrite E in Ey|]; lia).
  clearbody y b m r a G. clear Ed.
  assert (Hb1 : 1 <= b - 1) by (apply Z.nlt_ge; intros Q; nia).
  assert (Hyb : y < b) by (apply Z.square_lt_simpl_nonneg; lia).
  assert (Par : exists c, b = y + 2 * c).
  { exists ((b - y) / 2).
    assert (O : Z.odd (b - y) = false).
    { assert (Z.odd (b * b) = Z.odd (y * y)).
      { rewrite Ey. replace (b * b - 4 * n) with (b * b + 2 * (- (2 * n))) by ring.
        rewrite Z.odd_add, (Z.odd_mul 2). symmetry. apply xorb_false_r. }
      rewrite !Z.odd_mul in H. rewrite Z.odd_sub. destruct (Z.odd b), (Z.odd y); simpl in *; congruence. }
    assert (Ev : Z.even (b - y) = true) by (rewrite <- Z.negb_odd, O; reflexivity).
    apply Z.even_spec in Ev. destruct Ev as (c & Ec). rewrite Ec, (Z.mul_comm 2 c), Z.div_mul; lia. }
  destruct Par as (c & Hc).
  assert (E1 : (b + y) / 2 = y + c) by (rewrite Hc; symmetry; apply (Z.div_unique _ _ _ 0); lia).
  assert (E2 : (b - y) / 2 = c) by (rewrite Hc; symmetry; apply (Z.div_unique _ _ _ 0); lia).
  rewrite E1, E2. assert (Hpq : (y + c) * c = n) by (rewrite Hc in Ey; nia).
  split; [auto|].
  assert (c <> 1).
  { intros E. subst c. assert (b - 1 = n) by lia. rewrite H in Hb.
    assert (m = 0 /\ r = 0) by nia. nia. }
  split; nia.
Qed.

Lemma usub_big_ok a b : uval b <= uval a ->
  usub_big a b = Ok (mkU (uval a - uval b) (Z.max (uprec a) (uprec b))).
Proof. intros H. unfold usub_big. destruct (Z.leb_spec (uval b) (uval a)); [reflexivity|lia]. Qed.

Lemma uadd_big_ok a b : uval a + uval b < 2 ^ Z.max (uprec a) (uprec b) ->
  uadd_big a b = Ok (mkU (uval a + uval b) (Z.max (uprec a) (uprec b))).
Proof.
  intros H. unfold uadd_big. cbv zeta.
  destruct (Z.ltb_spec (uval a + uval b) (2 ^ Z.max (uprec a) (uprec b))); [reflexivity|lia].
Qed.

Lemma udiv_ok a b : uval b <> 0 -> udiv a b = Ok (mkU (uval a / uval b) (uprec a)).
Proof. intros H. unfold udiv. destruct (Z.eqb_spec (uval b) 0); [lia|reflexivity]. Qed.

Lemma urem_ok a b : uval b <> 0 -> urem a b = Ok (mkU (uval a mod uval b) (uprec b)).
Proof. intros H. unfold urem. destruct (Z.eqb_spec (uval b) 0); [lia|reflexivity]. Qed.

Ltac norm := cbn [bind]; unfold usquare, umul, ugcd, usqrt, u_of_u64; cbn [bind uval uprec].

(** The model computes [recoverZ], with no panic, given room for e and n. *)
Lemma recover_exact n e d :
  wf_uint n -> wf_uint e -> wf_uint d -> 1 <= uval n -> 1 <= uval d -> 2 ^ 16 < uval e ->
  uprec n <= 2 * uprec d -> uprec e <= 2 * uprec d ->
  recover_primes n e d
  = match recoverZ (uval n) (uval e) (uval d) with
    | None => Err InvalidArguments
    | Some (p, q) => Ok (mkU p (32 * uprec d), mkU q (32 * uprec d))
    end.
Proof.
  intros Wn We Wd Hn Hd He Pn Pe. unfold recover_primes.
  unfold uleb at 1. cbn [uval u_of_u64]. destruct (Z.leb_spec (uval e) (2 ^ 16)); [lia|].
  cbv zeta. set (P := uprec d) in *.
  pose proof Wd as (Hdv & HP1 & HP2). fold P in Hdv, HP1, HP2.
  pose proof Wn as (Hnv & _). pose proof We as (Hev & _).
  assert (M64 : forall c, (c * P) mod 64 = 0).
  { intros c. rewrite Zmult_mod, HP2, Z.mul_0_r. reflexivity. }
  assert (M2 : (P * 2) mod 64 = 0) by (rewrite Z.mul_comm; apply M64).
  rewrite (widen_ok (u_of_u64 1)); [|apply wf_mk; [vm_compute; split; [discriminate|reflexivity]|lia|reflexivity]|cbn; lia|auto].
  cbn [bind]. rewrite !widen_ok; auto; try (fold P; lia). cbn [bind].
  set (v := uval n) in *. set (ve := uval e) in *. set (vd := uval d) in *.
  assert (Hde : 2 ^ 16 < vd * ve) by nia.
  assert (B16 : 2 <= 2 ^ 16) by (vm_compute; discriminate).
  (* bounds *)
  assert (Q0 : 0 < 2 ^ P) by (apply Z.pow_pos_nonneg; lia).
  assert (Q2 : 2 ^ (2 * P) = 2 ^ P * 2 ^ P) by (rewrite <- Z.pow_add_r by lia; f_equal; lia).
  assert (Bn : v < 2 ^ P * 2 ^ P).
  { rewrite <- Q2. assert (2 ^ uprec n <= 2 ^ (2 * P)) by (apply Z.pow_le_mono_r; lia). lia. }
  assert (Be : ve < 2 ^ P * 2 ^ P).
  { rewrite <- Q2. assert (2 ^ uprec e <= 2 ^ (2 * P)) by (apply Z.pow_le_mono_r; lia). lia. }
  assert (G64 : 2 ^ 64 <= 2 ^ P) by (apply Z.pow_le_mono_r; lia).
  assert (C64 : 16 <= 2 ^ 64) by (vm_compute; discriminate).
  unfold recoverZ. cbv zeta. norm.
  rewrite usub_big_ok by (norm; lia). norm.
  rewrite usub_big_ok by (norm; lia). norm.
  set (G := Z.gcd (v - 1) (vd * ve - 1)) in *. set (a := (vd * ve - 1) * G) in *.
  assert (HG : 1 <= G <= vd * ve - 1).
  { pose proof (Z.gcd_nonneg (v - 1) (vd * ve - 1)) as HG0. fold G in HG0.
    split.
    - destruct (Z.eq_dec G 0) as [E|]; [|lia]. apply Z.gcd_eq_0_r in E. lia.
    - apply Z.divide_pos_le; [lia|]. apply Z.gcd_divide_r. }
  assert (Ha : 1 <= a) by (unfold a; nia).
  replace (Z.max (P * 2) (P * 2)) with (2 * P) by lia.
  replace (Z.max (P * 2 + P * 2) (P * 2)) with (4 * P) by lia.
  replace (Z.max (2 * P) (4 * P)) with (4 * P) by lia.
  replace (4 * P + 4 * P) with (8 * P) by ring.
  set (A := 8 * P) in *.
  assert (EA : A = 8 * P) by reflexivity.
  assert (Wn2 : wf_uint (mkU v (P * 2))).
  { apply wf_mk; [|lia|auto]. replace (P * 2) with (2 * P) by ring. lia. }
  rewrite (widen_ok (mkU v (P * 2))); [|auto|cbn [uprec]; lia|rewrite EA; apply M64].
  norm. rewrite udiv_ok by (norm; lia). norm.
  set (m := a / v) in *.
  assert (Hm : 0 <= m) by (apply Z.div_pos; lia).
  set (r := a mod v) in *.
  assert (Hr : 0 <= r < v) by (apply Z.mod_pos_bound; lia).
  assert (Er : a - m * v = r) by (unfold r; rewrite Z.mod_eq by lia; fold m; ring).
  rewrite usub_big_ok by (norm; lia). norm. rewrite Er.
  rewrite usub_big_ok by (norm; lia). norm.
  replace (Z.max A (Z.max A (A + A))) with (2 * A) by lia.
  assert (Bde : vd * ve <= 2 ^ P * 2 ^ P * 2 ^ P) by (clear - Hdv Be Hev Q0; nia).
  assert (Ba : a < 2 ^ P * 2 ^ P * 2 ^ P * (2 ^ P * 2 ^ P * 2 ^ P)).
  { unfold a. set (X := 2 ^ P * 2 ^ P * 2 ^ P) in *. clearbody X. clear - Bde HG Hde B16. nia. }
  assert (Bm : m <= a) by (apply Z.div_le_upper_bound; [lia|]; clear - Ha Hn; nia).
  assert (P6 : 2 ^ P * 2 ^ P * 2 ^ P * (2 ^ P * 2 ^ P * 2 ^ P) = 2 ^ (6 * P)).
  { rewrite <- !Z.pow_add_r by lia. f_equal. lia. }
  assert (P6p : 1 <= 2 ^ (6 * P)) by (pose proof (Z.pow_pos_nonneg 2 (6 * P)); lia).
  assert (P8 : 2 ^ (6 * P) + 1 < 2 ^ A).
  { rewrite EA. replace (8 * P) with (6 * P + 2 * P) by ring. rewrite Z.pow_add_r, Q2 by lia.
    set (X := 2 ^ P) in *. set (Y := 2 ^ (6 * P)) in *. assert (HX4 : 4 <= X) by lia. clearbody X Y.
    clear - P6p HX4. assert (16 <= X * X) by nia. nia. }
  assert (Am1 : m + 1 < 2 ^ A) by (rewrite P6 in Ba; clear - Ba Bm P8; lia).
  assert (V6 : v < 2 ^ (6 * P)).
  { rewrite <- P6. set (X := 2 ^ P) in *. clearbody X. clear - Bn Q0. 
    assert (1 <= X * X) by nia. assert (X * X * 1 <= X * X * (X * X)) by nia. nia. }
  assert (P2A : 2 ^ A <= 2 ^ (2 * A)) by (apply Z.pow_le_mono_r; clear - HP1 EA; lia).
  assert (P4A : 2 ^ A <= 2 ^ (4 * A)) by (apply Z.pow_le_mono_r; clear - HP1 EA; lia).
  assert (F4 : 2 * v + 2 < 2 ^ (4 * A)).
  { replace (4 * A) with (2 * A + 2 * A) by ring. rewrite Z.pow_add_r by (clear - HP1 EA; lia).
    set (X := 2 ^ (2 * A)) in *. clearbody X. clear - P2A P8 V6 Hn P6p. nia. }
  assert (Mx1 : Z.max A (P * 2) = A) by (clear - HP1 EA; lia).
  assert (Mx2 : Z.max (2 * A) (P * 2) = 2 * A) by (clear - HP1 EA; lia).
  assert (Mx3 : Z.max (2 * A + 2 * A) (A + 64) = 4 * A) by (clear - HP1 EA; lia).
  assert (Mx4 : Z.max (2 * A) (4 * A) = 4 * A) by (clear - HP1 EA; lia).
  assert (A64 : 64 <= 4 * A) by (clear - HP1 EA; lia).
  clear Wn2 Hdv Hev Hnv Hde B16 Q0 Q2 Bn Be G64 C64 HG Bde Ba Bm P6 P6p Ha He Wn We.
  rewrite uadd_big_ok; norm; rewrite Mx1; [|lia].
  rewrite urem_ok by (norm; lia). norm.
  unfold uis_zero at 1. norm.
  destruct (Z.eqb_spec ((v - r) mod (m + 1)) 0) as [Ed|]; cbn [negb]; [|reflexivity].
  rewrite udiv_ok by (norm; lia). norm.
  set (b1 := (v - r) / (m + 1)) in *.
  assert (Hb1 : 0 <= b1 <= v).
  { split; [apply Z.div_pos; lia|]. apply Z.div_le_upper_bound; [lia|]. clear - Hm Hr. nia. }
  assert (F6 : b1 + 1 < 2 ^ (2 * A)) by (clear - Hb1 V6 P8 P2A; lia).
  rewrite uadd_big_ok; norm; rewrite Mx2; [|auto].
  unfold uleb. norm. replace (v * 4) with (4 * v) by ring.
  set (b := b1 + 1) in *.
  assert (Hbr : 1 <= b <= v + 1) by (unfold b; lia).
  destruct (Z.leb_spec (b * b) (4 * v)) as [|Hb]; [reflexivity|].
  rewrite usub_big_ok by (norm; lia). norm. replace (v * 4) with (4 * v) by ring.
  unfold ueqb. norm.
  set (y := Z.sqrt (b * b - 4 * v)) in *.
  destruct (Z.eqb_spec (y * y) (b * b - 4 * v)) as [Ey|]; cbn [negb]; [|reflexivity].
  rewrite Mx3, Mx4.
  assert (Hy0 : 0 <= y) by apply Z.sqrt_nonneg.
  assert (Hyb : y < b).
  { apply Z.square_lt_simpl_nonneg; [clear - Hbr; lia|]. rewrite Ey. clear - Hn; lia. }
  assert (F5 : b + y < 2 ^ (4 * A)) by (clear - F4 Hyb Hbr; lia).
  rewrite (widen_ok (mkU 2 64)); [|apply wf_mk; [vm_compute; split; [discriminate|reflexivity]|lia|reflexivity]
    |norm; auto|rewrite EA; replace (4 * (8 * P)) with (32 * P) by ring; apply M64].
  norm. rewrite uadd_big_ok; norm; rewrite Mx4; [|auto].
  rewrite udiv_ok by (norm; discriminate). norm.
  rewrite usub_big_ok by (norm; lia). norm.
  rewrite Mx4. rewrite udiv_ok by (norm; discriminate). norm.
  replace (4 * A) with (32 * P) by (rewrite EA; ring). reflexivity.
Qed.

(** ** C28 *)

Lemma recover_args n e d r : recover_primes n e d = Ok r ->
  2 ^ 16 < uval e /\ uprec e <= 2 * uprec d /\ uprec n <= 2 * uprec d /\ 1 <= uval d * uval e.
Proof.
  unfold recover_primes. unfold uleb at 1. cbn [uval u_of_u64].
  destruct (Z.leb_spec (uval e) (2 ^ 16)) as [|He]; [discriminate|]. cbv zeta.
  unfold widen. destruct (Z.leb_spec (uprec (u_of_u64 1)) (uprec d * 2)); [|discriminate]. cbn [bind].
  destruct (Z.leb_spec (uprec e) (uprec d * 2)); [|discriminate]. cbn [bind].
  destruct (Z.leb_spec (uprec d) (uprec d * 2)); [|discriminate]. cbn [bind].
  destruct (Z.leb_spec (uprec n) (uprec d * 2)); [|discriminate]. cbn [bind].
  unfold usub_big at 1. cbn [umul uval u_of_u64].
  destruct (Z.leb_spec 1 (uval d * uval e)); [|discriminate]. intros _. lia.
Qed.

Lemma c28_sound n e d p q :
  wf_uint n -> wf_uint e -> wf_uint d -> 1 <= uval n ->
  recover_primes n e d = Ok (p, q) -> uval p * uval q = uval n /\ 1 < uval q < uval p.
Proof.
  intros Wn We Wd Hn H. destruct (recover_args _ _ _ _ H) as (A & B & C & D).
  assert (1 <= uval d) by (destruct Wd as ((? & _) & _); destruct (Z.eq_dec (uval d) 0) as [E|]; [rewrite E in D|]; lia).
  rewrite recover_exact in H by auto.
  destruct (recoverZ (uval n) (uval e) (uval d)) as [[p' q']|] eqn:E; [|discriminate].
  injection H as <- <-. cbn [uval]. eapply recoverZ_sound; eauto.
  assert (2 <= 2 ^ 16) by (vm_compute; discriminate). nia.
Qed.

Lemma c28_total n e d :
  wf_uint n -> wf_uint e -> wf_uint d -> 1 <= uval n -> 1 <= uval d ->
  uprec n <= 2 * uprec d -> uprec e <= 2 * uprec d ->
  (exists r, recover_primes n e d = Ok r) \/ recover_primes n e d = Err InvalidArguments.
Proof.
  intros Wn We Wd Hn Hd Pn Pe. destruct (Z_lt_le_dec (2 ^ 16) (uval e)) as [L|L].
  - rewrite recover_exact by auto. destruct (recoverZ _ _ _) as [[p q]|]; eauto.
  - right. unfold recover_primes. unfold uleb at 1. cbn [uval u_of_u64].
    destruct (Z.leb_spec (uval e) (2 ^ 16)); [reflexivity|lia].
Qed.

Lemma gcd_key g a b k : 1 <= g -> 1 <= a -> 1 <= b -> 1 <= k -> Z.gcd a b = 1 ->
  exists h, Z.gcd (g * (g * a * b + a + b)) (k * (g * a * b)) = g * h /\ 1 <= h <= k.
Proof.
  intros Hg Ha Hb Hk Hab.
  set (G := Z.gcd (g * (g * a * b + a + b)) (k * (g * a * b))).
  assert (D1 : (g | G)).
  { apply Z.gcd_greatest; [apply Z.divide_factor_l|]. exists (k * a * b). ring. }
  assert (D2 : (G | k * g)).
  { assert (C : Z.gcd (a * b) (g * a * b + a + b) = 1).
    { replace (g * a * b + a + b) with (a + b + g * (a * b)) by ring.
      rewrite Z.gcd_add_mult_diag_r. apply Zgcd_1_rel_prime. apply rel_prime_sym, rel_prime_mult.
      - apply Zgcd_1_rel_prime. rewrite Z.gcd_comm, Z.add_comm.
        replace (b + a) with (b + 1 * a) by ring. rewrite Z.gcd_add_mult_diag_r. auto.
      - apply Zgcd_1_rel_prime. rewrite Z.gcd_comm.
        replace (a + b) with (a + 1 * b) by ring. rewrite Z.gcd_add_mult_diag_r.
        rewrite Z.gcd_comm. auto. }
    replace (k * g) with (k * g * Z.gcd (a * b) (g * a * b + a + b)) by (rewrite C; ring).
    rewrite <- (Z.gcd_mul_mono_l_nonneg _ _ (k * g)) by nia.
    apply Z.gcd_greatest.
    - replace (k * g * (a * b)) with (k * (g * a * b)) by ring. apply Z.gcd_divide_r.
    - replace (k * g * (g * a * b + a + b)) with (k * (g * (g * a * b + a + b))) by ring.
      apply Z.divide_mul_r, Z.gcd_divide_l. }
  destruct D1 as (h & Eh). exists h. split; [lia|].
  assert (0 < G).
  { pose proof (Z.gcd_nonneg (g * (g * a * b + a + b)) (k * (g * a * b))) as N. fold G in N.
    destruct (Z.eq_dec G 0) as [E|]; [|lia]. apply Z.gcd_eq_0_r in E. nia. }
  assert (G <= k * g) by (apply Z.divide_pos_le; [nia|auto]). nia.
Qed.

Lemma recoverZ_complete p q e d k :
  1 < q < p -> 1 <= k -> e * d = 1 + k * Z.lcm (p - 1) (q - 1) ->
  k * k * (p + q - 1) <= p * q ->
  recoverZ (p * q) e d = Some (p, q).
Proof.
  intros Hpq Hk Hed HB.
  set (g := Z.gcd (p - 1) (q - 1)).
  assert (Hg : 1 <= g).
  { pose proof (Z.gcd_nonneg (p - 1) (q - 1)) as N. fold g in N.
    destruct (Z.eq_dec g 0) as [E|]; [|lia]. apply Z.gcd_eq_0_l in E. lia. }
  destruct (Z.gcd_divide_l (p - 1) (q - 1)) as (a & Ea).
  destruct (Z.gcd_divide_r (p - 1) (q - 1)) as (b & Eb). fold g in Ea, Eb.
  assert (Ha : 1 <= a) by nia. assert (Hb : 1 <= b) by nia.
  assert (Hab : Z.gcd a b = 1).
  { assert (E : Z.gcd (a * g) (b * g) = g) by (rewrite <- Ea, <- Eb; reflexivity).
    rewrite Z.gcd_mul_mono_r_nonneg in E by lia. nia. }
  assert (El : Z.lcm (p - 1) (q - 1) = g * a * b).
  { unfold Z.lcm. fold g. rewrite Eb at 1. rewrite Z.div_mul by lia. rewrite Ea at 1.
    rewrite Z.abs_eq by nia. ring. }
  destruct (gcd_key g a b k Hg Ha Hb Hk Hab) as (h & EG & Hh).
  unfold recoverZ. cbv zeta.
  assert (Ede : d * e - 1 = k * (g * a * b)) by (rewrite <- El; lia).
  rewrite Ede.
  assert (En : p * q - 1 = g * (g * a * b + a + b)).
  { replace p with (a * g + 1) by lia. replace q with (b * g + 1) by lia. ring. }
  rewrite En, EG.
  set (K := k * h). assert (HK : 1 <= K <= k * k) by (unfold K; nia).
  set (s := p + q - 1).
  assert (Ea2 : k * (g * a * b) * (g * h) = (p * q) * (K - 1) + (p * q - K * s)).
  { unfold K, s. replace p with (a * g + 1) by lia. replace q with (b * g + 1) by lia. ring. }
  assert (HKs : 1 <= K * s <= p * q) 
    by (fold s in HB; assert (Hs : 1 <= s) by (unfold s; lia); clearbody K s; clear - HK Hs HB; nia).
  assert (Hn0 : 1 <= p * q) by lia.
  assert (Em : k * (g * a * b) * (g * h) / (p * q) = K - 1)
    by (symmetry; apply (Z.div_unique _ _ _ (p * q - K * s)); [left; lia|auto]).
  assert (Er : (k * (g * a * b) * (g * h)) mod (p * q) = p * q - K * s)
    by (symmetry; apply (Z.mod_unique _ _ (K - 1)); [left; lia|auto]).
  rewrite Em, Er. replace (p * q - (p * q - K * s)) with (s * K) by ring.
  replace (K - 1 + 1) with K by ring. rewrite Z.mod_mul, Z.div_mul by lia.
  rewrite Z.eqb_refl. cbn [negb].
  replace (s + 1) with (p + q) by (unfold s; ring).
  destruct (Z.leb_spec ((p + q) * (p + q)) (4 * (p * q))) as [Hc|_]; [clear - Hpq Hc; nia|].
  replace ((p + q) * (p + q) - 4 * (p * q)) with ((p - q) * (p - q)) by ring.
  rewrite Z.sqrt_square by lia. rewrite Z.eqb_refl. cbn [negb].
  f_equal. f_equal.
  - replace (p + q + (p - q)) with (p * 2) by ring. apply Z.div_mul. lia.
  - replace (p + q - (p - q)) with (q * 2) by ring. apply Z.div_mul. lia.
Qed.

Lemma c28_complete n e d p q k :
  wf_uint n -> wf_uint e -> wf_uint d -> 2 ^ 16 < uval e ->
  uprec n <= 2 * uprec d -> uprec e <= 2 * uprec d ->
  uval n = p * q -> 1 < q < p -> 1 <= k ->
  uval e * uval d = 1 + k * Z.lcm (p - 1) (q - 1) -> k * k * (p + q - 1) <= p * q ->
  exists u v, recover_primes n e d = Ok (u, v) /\ uval u = p /\ uval v = q.
Proof.
  intros Wn We Wd He Pn Pe En Hpq Hk Hed HB.
  assert (1 <= uval n) by nia.
  assert (1 <= uval d).
  { destruct Wd as ((? & _) & _). destruct (Z.eq_dec (uval d) 0) as [E|]; [|lia].
    rewrite E, Z.mul_0_r in Hed. pose proof (Z.lcm_nonneg (p - 1) (q - 1)). nia. }
  rewrite recover_exact by auto. rewrite En, (recoverZ_complete p q _ _ k) by auto.
  eexists _, _. split; [reflexivity|]. auto.
Qed.

Lemma lcm_pos a b : 1 <= a -> 1 <= b -> 1 <= Z.lcm a b.
Proof.
  intros. pose proof (Z.lcm_nonneg a b). destruct (Z.eq_dec (Z.lcm a b) 0) as [E|]; [|lia].
  apply Z.lcm_eq_0 in E. lia.
Qed.

(** With d reduced modulo lcm(p-1,q-1), as NIST requires. *)
Lemma c28_complete_nist n e d p q :
  wf_uint n -> wf_uint e -> wf_uint d -> 2 ^ 16 < uval e ->
  uprec n <= 2 * uprec d -> uprec e <= 2 * uprec d ->
  uval n = p * q -> 1 < q < p ->
  (uval e * uval d) mod Z.lcm (p - 1) (q - 1) = 1 -> 0 < uval d < Z.lcm (p - 1) (q - 1) ->
  uval e * uval e * (p + q - 1) <= p * q ->
  exists u v, recover_primes n e d = Ok (u, v) /\ uval u = p /\ uval v = q.
Proof.
  intros Wn We Wd He Pn Pe En Hpq Hm Hd HB.
  assert (E0 : 2 <= 2 ^ 16) by (vm_compute; discriminate).
  assert (HL : 1 <= Z.lcm (p - 1) (q - 1)) by (apply lcm_pos; lia).
  pose proof (Z_div_mod_eq_full (uval e * uval d) (Z.lcm (p - 1) (q - 1))) as Q. rewrite Hm in Q.
  set (L := Z.lcm (p - 1) (q - 1)) in *. set (k := uval e * uval d / L) in *.
  assert (0 <= k) by (apply Z.div_pos; nia).
  assert (k < uval e) by (apply Z.div_lt_upper_bound; nia).
  assert (k <> 0) by (intros Z0; rewrite Z0 in Q; nia).
  apply (c28_complete n e d p q k); auto; try lia.
  assert (k * k <= uval e * uval e) by (apply Z.mul_le_mono_nonneg; lia).
  assert (k * k * (p + q - 1) <= uval e * uval e * (p + q - 1)) by (apply Z.mul_le_mono_nonneg_r; lia). lia.
Qed.

(** ** C27: no primes given *)

Lemma c27_empty n e d p q :
  wf_uint n -> wf_uint e -> wf_uint d ->
  public_usable (uval n) (uval e) (uprec n) ->
  recover_primes n e d = Ok (p, q) -> from_components n e d [] = Panic.
Proof.
  intros Wn We Wd U H. pose proof U as (_ & Ho & _ & A & B & _).
  assert (Hn : 1 <= uval n) by lia.
  destruct (c28_sound _ _ _ _ _ Wn We Wd Hn H) as (EN & R).
  assert (HP : uprec p = 32 * uprec d /\ uprec q = 32 * uprec d).
  { destruct (recover_args _ _ _ _ H) as (A1 & B1 & C1 & D1).
    assert (1 <= uval d) by (destruct Wd as ((? & _) & _); destruct (Z.eq_dec (uval d) 0) as [E|]; [rewrite E in D1|]; lia).
    rewrite recover_exact in H by auto.
    destruct (recoverZ _ _ _) as [[? ?]|]; [|discriminate]. injection H as <- <-. auto. }
  destruct HP as (P1 & P2). pose proof Wd as (_ & D1 & D2).
  assert (M64 : (32 * uprec d) mod 64 = 0).
  { rewrite Zmult_mod, D2, Z.mul_0_r. reflexivity. }
  assert (Big : 2 ^ uprec n <= 2 ^ (32 * uprec d)).
  { apply Z.pow_le_mono_r; [lia|]. destruct (recover_args _ _ _ _ H) as (_ & _ & ? & _). lia. }
  pose proof Wn as (Hnv & _).
  assert (WF : Forall wf_uint [p; q]).
  { assert (uval p <= uval n /\ uval q <= uval n) by (clear - EN R; nia).
    constructor; [|constructor; [|constructor]]; (split; [|split]); rewrite ?P1, ?P2; auto; lia. }
  unfold from_components, uis_zero. destruct (Z.eqb_spec (uval n) 0); [lia|].
  cbn [negb guard bind]. rewrite H. cbn [bind].
  set (k := mkPriv (mkPub n e (mkMP n)) d [p; q] None).
  destruct (validate_total k (mk_wf_pub _ _ Wn We Ho) Wd WF)
    as [(err & E & _ & T)|[(E & _ & T)|[(E & _ & _ & T)|(_ & _ & _ & T)]]].
  - contradiction.
  - exfalso. inversion T as [? ? X|? ? T2]; subst; [lia|].
    inversion T2 as [? ? X|? ? T3]; subst; [lia|inversion T3].
  - exfalso. apply T. cbn [sk_primes k map]. rewrite !product_cons. cbn [product fold_right].
    rewrite Z.mul_1_r, EN. apply Z.mod_small. apply Wn.
  - destruct T as [[_ T]|(l1 & x & l2 & El & G & T)].
    + exfalso. inversion T as [|? ? (X & _ & _) _]. cbn [sk_d k] in X. lia.
    + destruct l1 as [|w l1].
      * cbn [sk_primes k app] in El. injection El as <- El.
        destruct T as [(E & _)|(E & X & _)]; [rewrite E; reflexivity|].
        exfalso. apply X. left. cbn [sk_d k]. lia.
      * cbn [sk_primes k app] in El. injection El as <- El.
        exfalso. inversion G as [|? ? (X & _ & _) _]. cbn [sk_d k] in X. lia.
Qed.

Lemma c27_empty_never_ok n e d k :
  wf_uint n -> wf_uint e -> wf_uint d -> Z.odd (uval n) = true ->
  from_components n e d [] <> Ok k.
Proof.
  intros Wn We Wd Ho H.
  destruct (check_public_spec _ (mk_wf_pub _ _ Wn We Ho)) as [[E U]|(err & E & U)].
  - cbn [pk_n pk_e] in U. destruct (recover_primes n e d) as [[p q]| | |] eqn:R.
    + rewrite (c27_empty n e d p q) in H by auto. discriminate.
    + unfold from_components, uis_zero in H. destruct (Z.eqb_spec (uval n) 0); cbn [negb guard bind] in H;
        [discriminate|]. rewrite R in H. discriminate.
    + unfold from_components, uis_zero in H. destruct (Z.eqb_spec (uval n) 0); cbn [negb guard bind] in H;
        [discriminate|]. rewrite R in H. discriminate.
    + unfold from_components, uis_zero in H. destruct (Z.eqb_spec (uval n) 0); cbn [negb guard bind] in H;
        [discriminate|]. rewrite R in H. discriminate.
  - unfold from_components in H. apply bind_ok in H. destruct H as (? & _ & H).
    apply bind_ok in H. destruct H as (l & _ & H). cbv zeta in H.
    unfold validate in H. cbn [sk_pub] in H. rewrite E in H. discriminate.
Qed.
