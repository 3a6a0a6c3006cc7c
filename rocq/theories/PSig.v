(** Proofs about signing and verification at the API level. *)
From Coq Require Import ZArith List Bool Lia Znumtheory.
From Coq Require Import Init.Byte.
From Verif Require Import Base Bigint BytesLemmas NumTheory SpecRFC BigintLemmas MHash MPad MMgf
  MPkcs1 MOaep MPss MRsa MKey MApi KeyDefs SpecRng SpecKey PPad PMgf PPkcs1 PRsa POaep PPss PApi.
Import ListNotations.
Local Open Scope Z_scope.

(** * From bytes to a signature integer *)

Lemma sig_from_bytes_ok sig : 8 * Z.of_nat (length sig) < 2 ^ 32 ->
  sig_from_bytes sig = Ok (mkU (os2ip sig) (prec_for (8 * Z.of_nat (length sig)))).
Proof.
  intros H. unfold sig_from_bytes, len_bits_u32.
  rewrite Z.mod_small by lia. destruct (Z.ltb_spec (Z.of_nat (length sig) * 8) (2 ^ 32)); [|lia].
  cbn [bind]. rewrite Z.mul_comm. rewrite from_be_slice_spec by lia.
  destruct (Z.eqb_spec (Z.of_nat (length sig)) 0) as [E|E]; cbn [andb].
  - destruct sig; [|cbn [length] in E; lia]. reflexivity.
  - replace ((8 * Z.of_nat (length sig) + 7) / 8) with (Z.of_nat (length sig))
      by (apply Z.div_unique with 7; lia).
    rewrite Z.ltb_irrefl. pose proof (os2ip_range sig) as R. rewrite pow256_2 in R by lia.
    destruct (Z.leb_spec (2 ^ (8 * Z.of_nat (length sig))) (os2ip sig)); [lia|reflexivity].
Qed.

Lemma sig_uint_wf sig : wf_uint (mkU (os2ip sig) (prec_for (8 * Z.of_nat (length sig)))).
Proof.
  destruct (prec_for_wf (8 * Z.of_nat (length sig))). apply os2ip_wf; auto. apply prec_for_ge.
Qed.

Lemma prec_for_le b p : 64 <= p -> p mod 64 = 0 -> b <= p -> prec_for b <= p.
Proof.
  intros H1 H2 H3. unfold prec_for, ceil64. apply Z.max_lub; auto.
  pose proof (Z.div_mod p 64 ltac:(lia)). rewrite H2 in H.
  assert ((b + 63) / 64 < p / 64 + 1) by (apply Z.div_lt_upper_bound; lia). lia.
Qed.

(** The stored precision of n is the smallest that holds size() bytes. *)
Definition minimal_precision (k : pubkey) : Prop :=
  uprec (pk_n k) = prec_for (8 * Z.of_nat (key_size k)).

(** * The public operation on a signature *)

Definition verify_core (pk : pubkey) (sig : uint) : outcome (list byte) :=
  let* m := rsa_encrypt pk sig in uint_to_be_pad m (key_size pk).

Lemma verify_core_ok pk sig : wf_pub pk -> wf_uint sig -> uval sig < 2 ^ uprec (pk_n pk) ->
  verify_core pk sig
  = Ok (i2osp (RSAEP (uval (pk_n pk)) (uval (pk_e pk)) (uval sig)) (key_size pk)).
Proof.
  intros Hk Hw Hs. unfold verify_core. pose proof (odd_pos_n pk Hk) as Hn.
  rewrite rsa_encrypt_small by auto. cbn [bind].
  pose proof (RSAEP_range (uval (pk_n pk)) (uval (pk_e pk)) (uval sig) Hn).
  pose proof (key_n_lt pk Hk). pose proof Hk as ((Hv & Hp & Hm) & _).
  rewrite uint_to_be_pad_ok.
  - rewrite i2osp_be_bytes. reflexivity.
  - apply wf_mk; auto. lia.
  - cbn [uval]. lia.
Qed.

Lemma i2osp_pad l n : (length l <= n)%nat -> i2osp (os2ip l) n = vec x00 (n - length l) ++ l.
Proof.
  intros H. pose proof (os2ip_range l) as Rg.
  assert (256 ^ Z.of_nat (length l) <= 256 ^ Z.of_nat n) by (apply Z.pow_le_mono_r; lia).
  apply os2ip_inj.
  - rewrite i2osp_length, app_length, vec_length. lia.
  - rewrite os2ip_zeros. apply os2ip_i2osp. lia.
Qed.

Lemma i2osp_inj a b n : 0 <= a < 256 ^ Z.of_nat n -> 0 <= b < 256 ^ Z.of_nat n ->
  i2osp a n = i2osp b n -> a = b.
Proof. intros Ha Hb E. rewrite <- (os2ip_i2osp a n), <- (os2ip_i2osp b n) by auto. congruence. Qed.

(** * PKCS#1 v1.5 signatures *)

Lemma emsa_pkcs1_lt pk T : wf_pub pk -> (length T + 11 <= key_size pk)%nat ->
  os2ip (emsa_pkcs1 T (key_size pk)) < uval (pk_n pk).
Proof.
  intros Hk Hl. pose proof (emsa_pkcs1_length T (key_size pk) Hl) as L.
  unfold emsa_pkcs1 in *. apply block00_lt; auto.
Qed.

Section Sign1.
  Context {R : Type} (g : rng_ops R).

  Lemma pkcs1v15_sign_core fuel rng k prefix hashed :
    pkcs1v15_sign g fuel rng k prefix hashed
    = let* em := pkcs1v15_sign_pad prefix hashed (key_size (sk_pub k)) in
      decrypt_core g fuel rng k em.
  Proof. reflexivity. Qed.

  Lemma pkcs1v15_sign_exact fuel rng k prefix hashed :
    (rng <> None -> rng_ok g) -> good_priv k ->
    let K := key_size (sk_pub k) in let n := uval (pk_n (sk_pub k)) in
    let T := prefix ++ hashed in
    ((K < length T + 11)%nat -> pkcs1v15_sign g fuel rng k prefix hashed = Err MessageTooLong) /\
    ((length T + 11 <= K)%nat ->
      (blinding_succeeds g n rng fuel ->
         pkcs1v15_sign g fuel rng k prefix hashed
         = Ok (i2osp (RSADP n (uval (sk_d k)) (os2ip (emsa_pkcs1 T K))) K)) /\
      (blinding_fails g n rng fuel -> pkcs1v15_sign g fuel rng k prefix hashed = Err Rng) /\
      (blinding_undecided g n rng fuel -> pkcs1v15_sign g fuel rng k prefix hashed = OutOfFuel)).
  Proof.
    intros Hr Hk K n T. pose proof (good_pub k Hk) as Hp. rewrite pkcs1v15_sign_core. fold K.
    split; intros HT.
    - rewrite sign_pad_err by auto. reflexivity.
    - rewrite sign_pad_ok by auto. cbn [bind]. fold T.
      pose proof (emsa_pkcs1_lt _ T Hp HT) as Hlt. fold K in Hlt.
      destruct (key_size_facts _ Hp) as (_ & H2 & _). fold K in H2.
      apply decrypt_core_good; auto. rewrite emsa_pkcs1_length by auto. auto.
  Qed.
End Sign1.

Lemma uleb_false a b : uval b < uval a -> uleb a b = false.
Proof. intros. unfold uleb. apply Z.leb_gt. auto. Qed.
Lemma uleb_true a b : uval a <= uval b -> uleb a b = true.
Proof. intros. unfold uleb. apply Z.leb_le. auto. Qed.

Lemma pkcs1v15_verify_exact pk prefix hashed sig :
  wf_pub pk -> wf_uint sig ->
  let K := key_size pk in
  let accepts := uval sig < uval (pk_n pk) /\ uprec sig = uprec (pk_n pk) /\
     is_emsa_pkcs1 K (i2osp (RSAEP (uval (pk_n pk)) (uval (pk_e pk)) (uval sig)) K) (prefix ++ hashed) in
  (pkcs1v15_verify pk prefix hashed sig = Ok tt /\ accepts) \/
  (pkcs1v15_verify pk prefix hashed sig = Err Verification /\ ~ accepts).
Proof.
  intros Hk Hw K accepts. unfold pkcs1v15_verify, n_bits_precision.
  destruct (Z.le_gt_cases (uval (pk_n pk)) (uval sig)) as [Hs|Hs].
  { rewrite uleb_true by auto. right. split; auto. unfold accepts. lia. }
  rewrite uleb_false by auto. cbn [orb].
  destruct (Z.eqb_spec (uprec sig) (uprec (pk_n pk))) as [Hp|Hp]; cbn [negb].
  2:{ right. split; auto. unfold accepts. tauto. }
  assert (Hs2 : uval sig < 2 ^ uprec (pk_n pk)) by (destruct Hk as ((Hv & _) & _); lia).
  pose proof (verify_core_ok pk sig Hk Hw Hs2) as V. unfold verify_core in V.
  destruct (rsa_encrypt pk sig) as [m| | |]; try discriminate. cbn [bind] in V |- *. rewrite V.
  cbn [bind]. fold K.
  destruct (sign_unpad_total prefix hashed K (i2osp (RSAEP (uval (pk_n pk)) (uval (pk_e pk)) (uval sig)) K)
              (i2osp_length _ _)) as [[E H]|[E H]].
  - left. split; auto. unfold accepts. auto.
  - right. split; auto. unfold accepts. tauto.
Qed.

(** Acceptance of a byte string by PKCS#1 v1.5 verification. *)
Definition pkcs1v15_accepts (pk : pubkey) (T sig : list byte) : Prop :=
  os2ip sig < uval (pk_n pk) /\ prec_for (8 * Z.of_nat (length sig)) = uprec (pk_n pk) /\
  is_emsa_pkcs1 (key_size pk)
    (i2osp (RSAEP (uval (pk_n pk)) (uval (pk_e pk)) (os2ip sig)) (key_size pk)) T.

Lemma public_verify_pkcs1_exact pk s hashed sig :
  wf_pub pk -> 8 * Z.of_nat (length sig) < 2 ^ 32 ->
  let len_ok := match p1_hash_len s with Some l => length hashed = l | None => True end in
  (~ len_ok -> public_verify pk (SigPkcs1v15 s) hashed sig = Err InputNotHashed) /\
  (len_ok ->
    (public_verify pk (SigPkcs1v15 s) hashed sig = Ok tt <->
       pkcs1v15_accepts pk (p1_prefix s ++ hashed) sig) /\
    (~ pkcs1v15_accepts pk (p1_prefix s ++ hashed) sig ->
       public_verify pk (SigPkcs1v15 s) hashed sig = Err Verification)).
Proof.
  intros Hk Hl len_ok. unfold public_verify, check_hash_len.
  assert (V : forall h, (let* su := sig_from_bytes sig in pkcs1v15_verify pk (p1_prefix s) h su)
            = pkcs1v15_verify pk (p1_prefix s) h (mkU (os2ip sig) (prec_for (8 * Z.of_nat (length sig))))).
  { intros h. rewrite sig_from_bytes_ok by auto. reflexivity. }
  split.
  - unfold len_ok. destruct (p1_hash_len s) as [l|]; [|tauto]. intros H.
    unfold guard. destruct (Nat.eqb_spec (length hashed) l); [contradiction|reflexivity].
  - intros H.
    assert (match p1_hash_len s with
            | Some hl => guard (length hashed =? hl)%nat InputNotHashed | None => Ok tt end = Ok tt) as ->.
    { unfold len_ok in H. destruct (p1_hash_len s) as [l|]; auto. rewrite H, Nat.eqb_refl. reflexivity. }
    cbn [bind]. rewrite V.
    destruct (pkcs1v15_verify_exact pk (p1_prefix s) hashed _ Hk (sig_uint_wf sig)) as [[E A]|[E A]];
      rewrite E; cbn [uval uprec] in A; fold (pkcs1v15_accepts pk (p1_prefix s ++ hashed) sig) in A.
    + tauto.
    + split; auto. split; [discriminate|contradiction].
Qed.

(** A signature made by the private key is accepted iff n is stored minimally. *)
Lemma sig_value_accepts k T :
  good_priv k -> (length T + 11 <= key_size (sk_pub k))%nat ->
  let K := key_size (sk_pub k) in let n := uval (pk_n (sk_pub k)) in
  let sig := i2osp (RSADP n (uval (sk_d k)) (os2ip (emsa_pkcs1 T K))) K in
  length sig = K /\ os2ip sig < n /\
  RSAEP n (uval (pk_e (sk_pub k))) (os2ip sig) = os2ip (emsa_pkcs1 T K) /\
  (minimal_precision (sk_pub k) -> pkcs1v15_accepts (sk_pub k) T sig).
Proof.
  intros Hk HT K n sig. pose proof (good_pub k Hk) as Hp. pose proof (odd_pos_n _ Hp) as Hn.
  pose proof (key_n_lt _ Hp) as Kn. fold n in Hn, Kn. fold K in Kn.
  pose proof (RSADP_range n (uval (sk_d k)) (os2ip (emsa_pkcs1 T K)) Hn) as Rg.
  pose proof (emsa_pkcs1_lt _ T Hp HT) as Hlt. fold K n in Hlt.
  assert (Es : os2ip sig = RSADP n (uval (sk_d k)) (os2ip (emsa_pkcs1 T K)))
    by (apply os2ip_i2osp; lia).
  assert (Ev : RSAEP n (uval (pk_e (sk_pub k))) (os2ip sig) = os2ip (emsa_pkcs1 T K)).
  { rewrite Es. destruct Hk as (_ & _ & _ & Hval & _). pose proof (os2ip_range (emsa_pkcs1 T K)).
    apply (rsa_enc_dec _ _ _ _ _ Hval). fold n. lia. }
  repeat split; auto.
  - apply i2osp_length.
  - rewrite Es. lia.
  - fold n. rewrite Es; lia.
  - unfold sig. rewrite i2osp_length. symmetry. apply H.
  - fold n K. rewrite Ev. apply i2osp_os2ip. apply emsa_pkcs1_length; auto.
Qed.

Lemma pkcs1v15_accepts_unique pk T s1 s2 k :
  good_priv k -> sk_pub k = pk ->
  pkcs1v15_accepts pk T s1 -> pkcs1v15_accepts pk T s2 -> os2ip s1 = os2ip s2.
Proof.
  intros Hk <- (A1 & _ & _ & A3) (B1 & _ & _ & B3). rewrite <- B3 in A3.
  pose proof (good_pub k Hk) as Hp. pose proof (odd_pos_n _ Hp) as Hn.
  pose proof (key_n_lt _ Hp) as Kn. pose proof (os2ip_range s1). pose proof (os2ip_range s2).
  pose proof (RSAEP_range _ (uval (pk_e (sk_pub k))) (os2ip s1) Hn).
  pose proof (RSAEP_range _ (uval (pk_e (sk_pub k))) (os2ip s2) Hn).
  apply i2osp_inj in A3; try lia.
  destruct Hk as (_ & _ & _ & Hval & _).
  rewrite <- (rsa_dec_enc _ _ _ _ (os2ip s1) Hval) by lia.
  rewrite <- (rsa_dec_enc _ _ _ _ (os2ip s2) Hval) by lia. congruence.
Qed.

(** * PSS *)

Lemma nbits_facts pk : wf_pub pk ->
  let b := Z.to_nat (ubits (pk_n pk)) in
  (1 <= b)%nat /\ div_ceil8 b = key_size pk /\ is_bit_len (uval (pk_n pk)) b /\
  (pss_em_len (b - 1) <= key_size pk)%nat /\
  2 ^ Z.of_nat (b - 1) <= uval (pk_n pk).
Proof.
  intros Hk b. destruct (key_size_facts pk Hk) as (H1 & H2 & H3 & H4 & H5).
  pose proof (div_ceil8_spec (b - 1)) as S1. change (div_ceil8 (b - 1)) with (pss_em_len (b - 1)) in S1.
  assert (Z.of_nat b = ubits (pk_n pk)) as Eb by (unfold b; lia).
  repeat split; try (fold b; lia).
  - rewrite Eb. apply H5.
  - rewrite Eb. apply H5.
  - replace (Z.of_nat (b - 1)) with (ubits (pk_n pk) - 1) by lia. apply H5.
Qed.

(** What the code checks: the emLen low-order octets of s^e mod n. *)
Definition pss_tail (pk : pubkey) (s : Z) : list byte :=
  let b := Z.to_nat (ubits (pk_n pk)) in
  skipn (key_size pk - pss_em_len (b - 1))
        (i2osp (RSAEP (uval (pk_n pk)) (uval (pk_e pk)) s) (key_size pk)).
Definition pss_accepts (hd : hashfn) (pk : pubkey) (salt_len : nat) (hashed : list byte) (s : Z) : Prop :=
  pss_consistent (h_fun hd) (h_size hd) salt_len (Z.to_nat (ubits (pk_n pk)) - 1) hashed
                 (pss_tail pk s).

Lemma pss_check_total hd pk hashed salt_len s :
  (0 < h_size hd)%nat -> Z.of_nat (h_size hd + salt_len + 2) < 2 ^ 64 ->
  wf_pub pk -> uprec (pk_n pk) < 2 ^ 32 ->
  let em := i2osp (RSAEP (uval (pk_n pk)) (uval (pk_e pk)) s) (key_size pk) in
  (emsa_pss_verify_digest hd hashed em salt_len (Z.to_nat (ubits (pk_n pk))) = Ok tt /\
   pss_accepts hd pk salt_len hashed s) \/
  (emsa_pss_verify_digest hd hashed em salt_len (Z.to_nat (ubits (pk_n pk))) = Err Verification /\
   ~ pss_accepts hd pk salt_len hashed s).
Proof.
  intros Hh Hov Hk H32 em. destruct (nbits_facts pk Hk) as (B1 & B2 & B3 & B4 & B5).
  pose proof (prec32_size pk Hk H32) as Hs.
  pose proof (pss_verify_total hd hashed em salt_len (Z.to_nat (ubits (pk_n pk))) Hh B1) as V.
  rewrite B2 in V. unfold pss_accepts, pss_tail. apply V; auto.
  - lia.
  - apply i2osp_length.
Qed.

Lemma pss_verify_digest_total hd pk hashed salt_len sig :
  (0 < h_size hd)%nat -> Z.of_nat (h_size hd + salt_len + 2) < 2 ^ 64 ->
  wf_pub pk -> uprec (pk_n pk) < 2 ^ 32 -> wf_uint sig ->
  let accepts := uval sig < uval (pk_n pk) /\ uprec sig = uprec (pk_n pk) /\
                 pss_accepts hd pk salt_len hashed (uval sig) in
  (pss_verify_digest hd pk hashed sig salt_len = Ok tt /\ accepts) \/
  (pss_verify_digest hd pk hashed sig salt_len = Err Verification /\ ~ accepts).
Proof.
  intros Hh Hov Hk H32 Hw accepts. unfold pss_verify_digest, n_bits_precision.
  destruct (Z.le_gt_cases (uval (pk_n pk)) (uval sig)) as [Hs|Hs].
  { rewrite uleb_true by auto. right. split; auto. unfold accepts. lia. }
  rewrite uleb_false by auto. cbn [orb].
  destruct (Z.eqb_spec (uprec sig) (uprec (pk_n pk))) as [Hp|Hp]; cbn [negb].
  2:{ right. split; auto. unfold accepts. tauto. }
  assert (Hs2 : uval sig < 2 ^ uprec (pk_n pk)) by (destruct Hk as ((Hv & _) & _); lia).
  pose proof (verify_core_ok pk sig Hk Hw Hs2) as V. unfold verify_core in V.
  destruct (rsa_encrypt pk sig) as [m| | |]; try discriminate. cbn [bind] in V |- *. rewrite V.
  cbn [bind].
  destruct (pss_check_total hd pk hashed salt_len (uval sig) Hh Hov Hk H32) as [[E A]|[E A]].
  - left. split; auto. unfold accepts; auto.
  - right. split; auto. unfold accepts; tauto.
Qed.

Lemma public_verify_pss_total hd bl pk hashed salt_len sig :
  (0 < h_size hd)%nat -> Z.of_nat (h_size hd + salt_len + 2) < 2 ^ 64 ->
  wf_pub pk -> uprec (pk_n pk) < 2 ^ 32 -> 8 * Z.of_nat (length sig) < 2 ^ 32 ->
  let accepts := length sig = key_size pk /\ pss_accepts hd pk salt_len hashed (os2ip sig) in
  (public_verify pk (SigPss (mkPss bl (digest_new hd) salt_len)) hashed sig = Ok tt /\ accepts) \/
  (public_verify pk (SigPss (mkPss bl (digest_new hd) salt_len)) hashed sig = Err Verification
   /\ ~ accepts).
Proof.
  intros Hh Hov Hk H32 Hl accepts. unfold public_verify. rewrite sig_from_bytes_ok by auto.
  cbn [bind ps_digest ps_salt_len]. unfold pss_verify.
  destruct (Nat.eqb_spec (length sig) (key_size pk)) as [L|L]; cbn [negb].
  2:{ right. split; auto. unfold accepts. tauto. }
  destruct (key_size_facts pk Hk) as (_ & H2 & _).
  assert (Hs2 : os2ip sig < 2 ^ uprec (pk_n pk)).
  { pose proof (os2ip_range sig) as Rg. rewrite pow256_2 in Rg by lia.
    assert (2 ^ (8 * Z.of_nat (length sig)) <= 2 ^ uprec (pk_n pk)) by (apply Z.pow_le_mono_r; lia).
    lia. }
  pose proof (verify_core_ok pk _ Hk (sig_uint_wf sig) Hs2) as V. unfold verify_core in V.
  destruct (rsa_encrypt pk _) as [m| | |]; try discriminate. cbn [bind uval] in V |- *. rewrite V.
  cbn [bind]. rewrite emsa_pss_verify_agree.
  destruct (pss_check_total hd pk hashed salt_len (os2ip sig) Hh Hov Hk H32) as [[E A]|[E A]].
  - left. split; auto. unfold accepts; auto.
  - right. split; auto. unfold accepts; tauto.
Qed.

Section SignPss.
  Context {R : Type} (g : rng_ops R).

  Lemma sign_pss_core hd fuel rng k hashed salt :
    sign_pss_with_salt_digest g hd fuel rng k hashed salt
    = let* em_bits := usub (Z.to_nat (ubits (pk_n (sk_pub k)))) 1 in
      let* em := emsa_pss_encode_digest hd hashed em_bits salt in decrypt_core g fuel rng k em.
  Proof. reflexivity. Qed.

  Lemma sign_pss_agree hd fuel rng k hashed salt :
    sign_pss_with_salt g fuel rng k hashed salt (digest_new hd)
    = sign_pss_with_salt_digest g hd fuel rng k hashed salt.
  Proof.
    unfold sign_pss_with_salt, sign_pss_with_salt_digest.
    destruct (usub _ _); cbn [bind]; auto. rewrite emsa_pss_encode_agree.
    destruct (emsa_pss_encode_digest _ _ _ _); reflexivity.
  Qed.

  Lemma pss_sign_agree hd fuel st bl k hashed salt_len :
    pss_sign g fuel st bl k hashed salt_len (digest_new hd)
    = pss_sign_digest g hd fuel st bl k hashed salt_len.
  Proof.
    unfold pss_sign, pss_sign_digest. destruct (rng_fill g st salt_len) as [[salt|] st']; auto.
    apply sign_pss_agree.
  Qed.

  Lemma sign_pss_exact hd fuel rng k hashed salt :
    (rng <> None -> rng_ok g) -> (0 < h_size hd)%nat -> good_priv k ->
    uprec (pk_n (sk_pub k)) < 2 ^ 32 ->
    let K := key_size (sk_pub k) in let n := uval (pk_n (sk_pub k)) in
    let emBits := (Z.to_nat (ubits (pk_n (sk_pub k))) - 1)%nat in
    let sign := sign_pss_with_salt_digest g hd fuel rng k hashed salt in
    (length hashed <> h_size hd -> sign = Err InputNotHashed) /\
    (length hashed = h_size hd ->
      ((pss_em_len emBits < h_size hd + length salt + 2)%nat -> sign = Err Internal) /\
      ((h_size hd + length salt + 2 <= pss_em_len emBits)%nat ->
        (blinding_succeeds g n rng fuel ->
           sign = Ok (i2osp (RSADP n (uval (sk_d k))
                        (os2ip (pss_encode (h_fun hd) (h_size hd) hashed salt emBits))) K)) /\
        (blinding_fails g n rng fuel -> sign = Err Rng) /\
        (blinding_undecided g n rng fuel -> sign = OutOfFuel))).
  Proof.
    intros Hr Hh Hk H32 K n emBits sign. pose proof (good_pub k Hk) as Hp.
    destruct (nbits_facts _ Hp) as (B1 & B2 & B3 & B4 & B5). fold emBits K in B4.
    pose proof (prec32_size _ Hp H32) as Hs. fold K in Hs.
    destruct (key_size_facts _ Hp) as (_ & H2 & _). fold K in H2.
    unfold sign. rewrite sign_pss_core. rewrite usub_ok by auto. cbn [bind]. fold emBits.
    rewrite emsa_pss_encode_digest_spec by (auto; lia).
    split; [|split].
    - intros H. destruct (Nat.eqb_spec (length hashed) (h_size hd)); [contradiction|reflexivity].
    - intros H3. destruct (Nat.eqb_spec (length hashed) (h_size hd)); [|contradiction]. cbn [negb].
      destruct (Nat.ltb_spec (pss_em_len emBits) (h_size hd + length salt + 2)); [reflexivity|lia].
    - intros H3. destruct (Nat.eqb_spec (length hashed) (h_size hd)); [|contradiction]. cbn [negb].
      destruct (Nat.ltb_spec (pss_em_len emBits) (h_size hd + length salt + 2)); [lia|]. cbn [bind].
      apply decrypt_core_good; auto.
      + rewrite pss_encode_length by auto. lia.
      + pose proof (pss_encode_value hd hashed salt emBits Hh H3). fold emBits in B5. lia.
  Qed.
End SignPss.

Lemma pss_sig_accepts hd k hashed salt :
  (0 < h_size hd)%nat -> good_priv k ->
  let K := key_size (sk_pub k) in let n := uval (pk_n (sk_pub k)) in
  let emBits := (Z.to_nat (ubits (pk_n (sk_pub k))) - 1)%nat in
  let em := pss_encode (h_fun hd) (h_size hd) hashed salt emBits in
  let sig := i2osp (RSADP n (uval (sk_d k)) (os2ip em)) K in
  length hashed = h_size hd -> (h_size hd + length salt + 2 <= pss_em_len emBits)%nat ->
  length sig = K /\ 0 <= os2ip sig < n /\ RSAEP n (uval (pk_e (sk_pub k))) (os2ip sig) = os2ip em /\
  pss_accepts hd (sk_pub k) (length salt) hashed (os2ip sig).
Proof.
  intros Hh Hk K n emBits em sig Hl Hs.
  pose proof (good_pub k Hk) as Hp. pose proof (odd_pos_n _ Hp) as Hn.
  destruct (nbits_facts _ Hp) as (B1 & B2 & B3 & B4 & B5). fold emBits K in B4. fold emBits n in B5.
  pose proof (key_n_lt _ Hp) as Kn. fold n in Hn, Kn. fold K in Kn.
  pose proof (RSADP_range n (uval (sk_d k)) (os2ip em) Hn) as Rg.
  pose proof (pss_encode_value hd hashed salt emBits Hh Hs) as Hv. fold em in Hv.
  assert (Es : os2ip sig = RSADP n (uval (sk_d k)) (os2ip em)) by (apply os2ip_i2osp; lia).
  assert (Ev : RSAEP n (uval (pk_e (sk_pub k))) (os2ip sig) = os2ip em).
  { rewrite Es. destruct Hk as (_ & _ & _ & Hval & _).
    apply (rsa_enc_dec _ _ _ _ _ Hval). fold n. lia. }
  split; [apply i2osp_length|]. split; [lia|]. split; [auto|].
  pose proof (pss_encode_length hd hashed salt emBits Hh Hs) as Lem. fold em in Lem.
  unfold pss_accepts, pss_tail. fold emBits. fold n K. rewrite Ev. 
  rewrite i2osp_pad by lia. rewrite skipn_app_exact by (rewrite vec_length; lia).
  split; auto. split; auto. exists salt. split; auto.
Qed.
