(** Exact boundaries of properties proved elsewhere: representatives stored at another
    precision, blinded PSS signing, over-long signatures. *)
From Coq Require Import ZArith Znumtheory List Bool Lia.
From Coq Require Import Init.Byte.
From Verif Require Import Base Bigint SpecRFC SpecKey SpecRng SpecRequests SpecWork BytesLemmas BigintLemmas MHash MPkcs1
  MPss MRsa MKey MApi MWrap MLeak KeyDefs.
From Verif Require Import PRsa PApi PSig PSign PRequests PWork.
Import ListNotations.
Local Open Scope Z_scope.

Section B.
  Context {R : Type} (g : rng_ops R).

  Lemma decrypt_wide fuel k c :
    uval c < uval (pk_n (sk_pub k)) -> uprec (sk_d k) < uprec c -> rsa_decrypt g fuel None k c = Panic.
  Proof.
    intros V P. rewrite rsa_decrypt_unfold. unfold uleb, widen. rewrite (proj2 (Z.leb_gt _ _) V).
    cbv zeta. rewrite (proj2 (Z.leb_gt _ _) P). reflexivity.
  Qed.

  Lemma blind_other fuel st k c :
    rng_ok g -> wf_pub k -> 1 < uval (pk_n k) -> uprec c <> uprec (pk_n k) ->
    blind g fuel st k c (pk_params k) =
    match blind_loop g fuel st k with
    | Ok _ => Panic
    | Err e => Err e
    | Panic => Panic
    | OutOfFuel => OutOfFuel
    end.
  Proof.
    intros Hg (Hn & He & Hpar & Ho) H1 Hc. unfold blind. rewrite Hpar.
    cbn [mp_modulus]. unfold ueqb. rewrite Z.eqb_refl. unfold assert_. cbn [bind].
    destruct (blind_loop g fuel st k) as [[[r ir] st']| | |] eqn:E; cbn [bind]; auto.
    apply blind_loop_ok in E; auto. destruct E as (Hr & Hir & Vr & Vir & Hinv).
    assert (W : wf_uint r).
    { destruct Hn as (Q1 & Q2 & Q3). split; [rewrite Hr; lia|rewrite Hr; auto]. }
    rewrite pow_mod_params_ok; auto; try lia.
    2:{ destruct He as (? & _). lia. }
    cbn [bind]. unfold mul_mod_params, mf_new, mp_prec. cbn [mp_modulus].
    rewrite (proj2 (Z.eqb_neq _ _) Hc). reflexivity.
  Qed.

  Lemma decrypt_blind_other fuel st k c :
    rng_ok g -> good_priv k -> uprec c <> uprec (pk_n (sk_pub k)) ->
    uval c < uval (pk_n (sk_pub k)) ->
    (blinding_succeeds g (uval (pk_n (sk_pub k))) (Some st) fuel -> rsa_decrypt g fuel (Some st) k c = Panic) /\
    (blinding_fails g (uval (pk_n (sk_pub k))) (Some st) fuel -> rsa_decrypt g fuel (Some st) k c = Err Rng).
  Proof.
    intros Hg Hk Hc Hcn. pose proof (good_gt1 k Hk) as H1. pose proof (good_pub k Hk) as Hp.
    pose proof Hp as (Hn & _).
    rewrite rsa_decrypt_unfold. unfold uleb. rewrite (proj2 (Z.leb_gt _ _) Hcn). cbv zeta.
    rewrite blind_other by auto. split.
    - intros (j & Hj & U). destruct (blind_loop_usable g (sk_pub k) Hn H1 j st U fuel Hj) as (x & ->).
      reflexivity.
    - intros (j & Hj & U). rewrite (blind_loop_fails g (sk_pub k) Hn H1 j st U fuel Hj). reflexivity.
  Qed.

  Lemma decrypt_precisions fuel k c :
    good_priv k -> wf_uint c -> uval c < uval (pk_n (sk_pub k)) ->
    (uprec c <= uprec (sk_d k) ->
     exists m, rsa_decrypt g fuel None k c = Ok m /\ rsa_decrypt_and_check g fuel k None c = Ok m /\
       uval m = RSADP (uval (pk_n (sk_pub k))) (uval (sk_d k)) (uval c) /\
       uprec m = uprec (pk_n (sk_pub k))) /\
    (uprec (sk_d k) < uprec c ->
     rsa_decrypt g fuel None k c = Panic /\ rsa_decrypt_and_check g fuel k None c = Panic).
  Proof.
    intros Hk Hc V. split; intros P.
    - pose proof (rsa_decrypt_plain g fuel k c Hk Hc P V) as E. eexists. split; [exact E|].
      split; [|cbn; auto]. unfold rsa_decrypt_and_check. rewrite E. cbn [bind].
      rewrite rsa_encrypt_of_dec; auto; [|destruct Hc as (? & _); lia].
      cbn [bind]. unfold ueqb. cbn [uval]. rewrite Z.eqb_refl. reflexivity.
    - pose proof (decrypt_wide fuel k c V P) as E. split; auto. unfold rsa_decrypt_and_check.
      rewrite E. reflexivity.
  Qed.

  (** ** PSS signing with and without blinding *)
  Lemma pss_blinding fuel st hd k hashed sl :
    rng_ok g -> (0 < h_size hd)%nat -> good_priv k -> uprec (pk_n (sk_pub k)) < 2 ^ 32 ->
    let sign bl := private_sign_with_rng g fuel st k (SigPss (mkPss bl (digest_new hd) sl)) hashed in
    match rng_fill g st sl with
    | (None, _) => sign true = Err Rng /\ sign false = Err Rng
    | (Some _, st') =>
        (blinding_succeeds g (uval (pk_n (sk_pub k))) (Some st') fuel -> sign true = sign false) /\
        (blinding_fails g (uval (pk_n (sk_pub k))) (Some st') fuel ->
           (exists sig, sign true = Err Rng /\ sign false = Ok sig) \/
           (exists e, sign true = Err e /\ sign false = Err e))
    end.
  Proof.
    intros Hg Hh Hk H32 sign. destruct (rng_fill g st sl) as [[salt|] st'] eqn:Ef.
    - split.
      + intros X. apply (c42_blinding_flag g hd fuel st st' k hashed sl salt); auto.
      + intros X. unfold sign, private_sign_with_rng.
        cbn [scheme_sign ps_blinded ps_salt_len ps_digest]. rewrite !pss_sign_agree.
        rewrite !(pss_sign_digest_eq g hd fuel st _ k hashed sl salt st' Ef). cbn [opt_blind].
        destruct (sign_pss_exact g hd fuel (Some st') k hashed salt (fun _ => Hg) Hh Hk H32) as [A0 A].
        destruct (sign_pss_exact g hd fuel None k hashed salt (fun _ => Hg) Hh Hk H32) as [B0 B].
        destruct (Nat.eq_dec (length hashed) (h_size hd)) as [L|L].
        2:{ rewrite A0, B0 by auto. right. eauto. }
        destruct (A L) as [A1 A2]. destruct (B L) as [B1 B2].
        destruct (Nat.le_gt_cases (h_size hd + length salt + 2)
                   (pss_em_len (Z.to_nat (ubits (pk_n (sk_pub k))) - 1))) as [M|M].
        * destruct (A2 M) as (_ & A3 & _). destruct (B2 M) as (B3 & _). left.
          rewrite A3, B3 by (auto; exact I). eauto.
        * rewrite A1, B1 by auto. right. eauto.
    - unfold sign, private_sign_with_rng. cbn [scheme_sign ps_blinded ps_salt_len ps_digest].
      rewrite !pss_sign_agree. unfold pss_sign_digest. rewrite Ef. auto.
  Qed.

  (** ** Representatives outside the range *)
  Lemma quiet_range fuel rng k c : uval (pk_n (sk_pub k)) <= uval c ->
    reqs (l_rsa_decrypt g fuel rng k c) = [] /\ reqs (l_rsa_decrypt_and_check g fuel k rng c) = [] /\
    exponentiations (trace (l_rsa_decrypt g fuel rng k c)) = [] /\
    exponentiations (trace (l_rsa_decrypt_and_check g fuel k rng c)) = [].
  Proof.
    intros H.
    assert (E : l_rsa_decrypt g fuel rng k c
                = (let! ge := l_cmp c (pk_n (sk_pub k)) true in
                   let! ge := l_if ge in if ge then lerr Decryption else lerr Decryption)).
    { unfold l_rsa_decrypt. cbv zeta. unfold uleb. rewrite (proj2 (Z.leb_le _ _) H). reflexivity. }
    assert (F : l_rsa_decrypt_and_check g fuel k rng c
                = (fst (l_rsa_decrypt g fuel rng k c), Err Decryption)).
    { unfold l_rsa_decrypt_and_check. rewrite E. reflexivity. }
    rewrite F, E. repeat split; reflexivity.
  Qed.
End B.

(** ** Signature objects from byte strings of any length *)
Lemma try_from_long bs :
  let m := Z.of_nat (length bs) mod 2 ^ 32 in
  (2 ^ 29 <= m -> signature_try_from bs = Panic) /\
  (m < 2 ^ 29 -> 2 ^ 32 <= Z.of_nat (length bs) ->
   signature_try_from bs = Err (Decode DecodeInputSize)).
Proof.
  cbv zeta. unfold signature_try_from, sig_from_bytes, len_bits_u32. cbv zeta.
  pose proof (Z.mod_pos_bound (Z.of_nat (length bs)) (2 ^ 32) ltac:(lia)) as B.
  set (m := Z.of_nat (length bs) mod 2 ^ 32) in *. split; intros H.
  - rewrite (proj2 (Z.ltb_ge _ _)) by lia. reflexivity.
  - intros L. rewrite (proj2 (Z.ltb_lt _ _)) by lia. cbn [bind]. rewrite from_be_slice_spec by lia.
    rewrite (proj2 (Z.eqb_neq (Z.of_nat (length bs)) 0)) by lia. cbn [andb].
    rewrite (proj2 (Z.ltb_lt _ _)); [reflexivity|].
    apply Z.div_lt_upper_bound; lia.
Qed.

(** ** Signature object bytes in the scheme API *)
Lemma pkcs1_bytes_iff {R} (g : rng_ops R) fuel rng k prefix hl hashed s :
  (rng <> None -> rng_ok g) -> good_priv k -> uprec (pk_n (sk_pub k)) < 2 ^ 32 ->
  hash_len_ok (mkP1S hl prefix) hashed ->
  p1sk_sign_prehash g fuel rng (mkP1SK k prefix) hashed = Ok s ->
  (public_verify (sk_pub k) (SigPkcs1v15 (mkP1S hl prefix)) hashed (signature_to_bytes s) = Ok tt
   <-> stored_minimally (pk_n (sk_pub k))).
Proof.
  intros Hr Hk H32 Hh E. split; [|intros Hm; eapply c48_pkcs1; eauto]. intros A.
  pose proof (good_pub k Hk) as Hp. unfold p1sk_sign_prehash in E. cbn [p1sk_inner p1sk_prefix] in E.
  destruct (pkcs1v15_sign g fuel rng k prefix hashed) as [sig| | |] eqn:S; try discriminate.
  assert (Ls : length sig = key_size (sk_pub k)).
  { destruct (pkcs1v15_sign_exact g fuel rng k prefix hashed Hr Hk) as [P Q].
    destruct (Nat.le_gt_cases (length (prefix ++ hashed) + 11) (key_size (sk_pub k))) as [L|L].
    2:{ rewrite P in S by auto. discriminate. }
    destruct (Q L) as (C1 & C2 & C3).
    destruct (blinding_trichotomy g (uval (pk_n (sk_pub k))) rng fuel) as [X|[X|X]];
      [rewrite (C1 X) in S|rewrite (C2 X) in S; discriminate|rewrite (C3 X) in S; discriminate].
    injection S as <-. apply i2osp_length. }
  cbn [bind] in E. rewrite (sig_object (sk_pub k) Hp H32 sig Ls) in E.
  assert (Es' : s = mkSig (mkU (os2ip sig) (prec_for (8 * Z.of_nat (length sig))))) by congruence.
  subst s.
  destruct (to_bytes_value (mkSig (mkU (os2ip sig) (prec_for (8 * Z.of_nat (length sig))))) (sig_uint_wf sig)) as [T1 T2]. cbn [uval uprec sg_inner] in T1, T2.
  set (bs := signature_to_bytes _) in *. rewrite Ls in T2.
  destruct (key_size_facts _ Hp) as (K1 & K2 & K3 & K4 & K5 & K6).
  pose proof Hp as ((_ & P1 & P2) & _).
  assert (U : prec_for (8 * Z.of_nat (key_size (sk_pub k))) <= uprec (pk_n (sk_pub k))).
  { unfold prec_for, ceil64. pose proof (Z.div_mod (uprec (pk_n (sk_pub k))) 64 ltac:(lia)) as D.
    assert ((8 * Z.of_nat (key_size (sk_pub k)) + 63) / 64 <= uprec (pk_n (sk_pub k)) / 64).
    { apply Z.lt_succ_r. apply Z.div_lt_upper_bound; lia. }
    lia. }
  assert (Q : 64 <= prec_for (8 * Z.of_nat (key_size (sk_pub k)))) by (unfold prec_for, ceil64; lia).
  pose proof (c18_limbs (sk_pub k) (mkP1S hl prefix) hashed bs Hp ltac:(lia) ltac:(lia) A) as X.
  rewrite T2 in X. rewrite <- minimal_iff by auto. unfold minimal_precision. rewrite <- X.
  unfold prec_for, ceil64. clear.
  set (y := Z.max 1 ((8 * Z.of_nat (key_size (sk_pub k)) + 63) / 64)).
  replace (y * 64 + 63) with (63 + y * 64) by lia. 
  rewrite ?(Z.mul_comm 64 y). rewrite ?(Z.add_comm (y * 64) 63), ?Z.div_add by lia. change (63 / 64) with 0. lia.
Qed.
