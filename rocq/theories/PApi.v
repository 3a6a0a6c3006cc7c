(** Proofs about the public operations (src/pkcs1v15.rs, src/oaep.rs, src/pss.rs,
    src/key.rs): from the block-level and raw-RSA lemmas to the API functions. *)
From Coq Require Import ZArith List Bool Lia Znumtheory.
From Coq Require Import Init.Byte.
From Verif Require Import Base Bigint BytesLemmas NumTheory SpecRFC BigintLemmas MHash MPad MMgf
  MPkcs1 MOaep MPss MRsa MKey MApi KeyDefs SpecRng SpecKey PPad PMgf PPkcs1 PRsa POaep PPss.
Import ListNotations.
Local Open Scope Z_scope.

(** * Key sizes *)

Lemma key_size_facts k : wf_pub k ->
  let K := key_size k in let b := ubits (pk_n k) in
  (1 <= K)%nat /\ 8 * Z.of_nat K <= uprec (pk_n k) /\
  b <= 8 * Z.of_nat K < b + 8 /\ 0 < b /\ 2 ^ (b - 1) <= uval (pk_n k) < 2 ^ b.
Proof.
  intros Hk K b. pose proof (odd_pos_n k Hk) as Hn. destruct Hk as (Hw & _).
  pose proof (ubits_le_prec _ Hw) as Hb. fold b in Hb.
  pose proof (zbits_pos _ Hn) as Hp. pose proof (zbits_pow _ Hn) as Hpw.
  change (zbits (uval (pk_n k))) with b in Hp, Hpw.
  pose proof (div_ceil8_spec (Z.to_nat b)) as S1. fold (key_size k) in S1.
  unfold key_size in K. fold b in K. fold K in S1. 
  destruct (wf_prec _ Hw) as (j & Hj & Hj1).
  repeat split; try lia.
Qed.

Lemma key_size_octets k : wf_pub k ->
  is_octet_len (uval (pk_n k)) (key_size k).
Proof.
  intros Hk. destruct (key_size_facts k Hk) as (H1 & H2 & H3 & H4 & H5).
  unfold is_octet_len. rewrite !pow256_2 by lia. split.
  - eapply Z.le_trans; [|apply H5]. apply Z.pow_le_mono_r; lia.
  - eapply Z.lt_le_trans; [apply H5|]. apply Z.pow_le_mono_r; lia.
Qed.

Lemma key_n_lt k : wf_pub k -> uval (pk_n k) < 256 ^ Z.of_nat (key_size k).
Proof. intros Hk. apply (key_size_octets k Hk). Qed.

Lemma from_be_slice_key k l : wf_pub k -> length l = key_size k ->
  from_be_slice l (n_bits_precision k) = Ok (mkU (os2ip l) (uprec (pk_n k))).
Proof.
  intros Hk Hl. destruct (key_size_facts k Hk) as (_ & H2 & _).
  destruct Hk as ((_ & Hp & Hm) & _). unfold n_bits_precision.
  apply from_be_slice_fits; auto. rewrite Hl. auto.
Qed.

Lemma os2ip_wf l p : 64 <= p -> p mod 64 = 0 -> 8 * Z.of_nat (length l) <= p ->
  wf_uint (mkU (os2ip l) p).
Proof.
  intros H1 H2 H3. apply wf_mk; auto. pose proof (os2ip_range l) as R.
  rewrite pow256_2 in R by lia.
  assert (2 ^ (8 * Z.of_nat (length l)) <= 2 ^ p) by (apply Z.pow_le_mono_r; lia). lia.
Qed.

Lemma from_be_slice_wf l p u : 64 <= p -> p mod 64 = 0 ->
  from_be_slice l p = Ok u -> wf_uint u /\ uprec u = p.
Proof.
  intros H1 H2 H. apply from_be_slice_ok_inv in H; auto. destruct H as [-> H].
  split; auto. apply os2ip_wf; auto.
Qed.

(** * The public operation on a block *)

Definition encrypt_core (pk : pubkey) (em : list byte) : outcome (list byte) :=
  let* int := from_be_slice em (n_bits_precision pk) in
  let* c := rsa_encrypt pk int in
  uint_to_be_pad c (key_size pk).

Lemma encrypt_core_ok pk em : wf_pub pk -> length em = key_size pk ->
  encrypt_core pk em
  = Ok (i2osp (RSAEP (uval (pk_n pk)) (uval (pk_e pk)) (os2ip em)) (key_size pk)).
Proof.
  intros Hk Hl. unfold encrypt_core. rewrite from_be_slice_key by auto. cbn [bind].
  destruct (key_size_facts pk Hk) as (_ & H2 & _). pose proof (odd_pos_n pk Hk) as Hn.
  pose proof Hk as ((Hv & Hp & Hm) & _).
  assert (W : wf_uint (mkU (os2ip em) (uprec (pk_n pk)))).
  { apply os2ip_wf; auto. rewrite Hl; auto. }
  rewrite rsa_encrypt_small; auto; [|apply W]. cbn [bind].
  rewrite uint_to_be_pad_ok.
  - rewrite i2osp_be_bytes. reflexivity.
  - apply wf_mk; auto. unfold RSAEP. pose proof (Z.mod_pos_bound (os2ip em ^ uval (pk_e pk)) (uval (pk_n pk)) Hn).
    cbn [uval]. lia.
  - cbn [uval]. unfold RSAEP.
    pose proof (Z.mod_pos_bound (os2ip em ^ uval (pk_e pk)) (uval (pk_n pk)) Hn).
    pose proof (key_n_lt pk Hk). lia.
Qed.

Lemma RSAEP_range n e m : 0 < n -> 0 <= RSAEP n e m < n.
Proof. intros; apply Z.mod_pos_bound; auto. Qed.
Lemma RSADP_range n d c : 0 < n -> 0 <= RSADP n d c < n.
Proof. intros; apply Z.mod_pos_bound; auto. Qed.

Lemma i2osp_length v n : length (i2osp v n) = n.
Proof. rewrite i2osp_be_bytes. apply be_bytes_length. Qed.

Lemma os2ip_i2osp v n : 0 <= v < 256 ^ Z.of_nat n -> os2ip (i2osp v n) = v.
Proof. intros H. rewrite i2osp_be_bytes, os2ip_be_bytes. apply Z.mod_small; auto. Qed.

Lemma i2osp_os2ip l n : length l = n -> i2osp (os2ip l) n = l.
Proof. intros <-. rewrite i2osp_be_bytes. apply be_bytes_os2ip. Qed.

(** * The private operation on a block *)

Section Core.
  Context {R : Type} (g : rng_ops R).

  Definition decrypt_core (fuel : nat) (rng : option R) (k : privkey) (ct : list byte)
    : outcome (list byte) :=
    let* c := from_be_slice ct (n_bits_precision (sk_pub k)) in
    let* em := rsa_decrypt_and_check g fuel k rng c in
    uint_to_zeroizing_be_pad em (key_size (sk_pub k)).

  Lemma decrypt_core_range fuel rng k ct : wf_pub (sk_pub k) ->
    8 * Z.of_nat (length ct) <= uprec (pk_n (sk_pub k)) ->
    uval (pk_n (sk_pub k)) <= os2ip ct -> decrypt_core fuel rng k ct = Err Decryption.
  Proof.
    intros ((_ & Hp & Hm) & _) Hl Hr. unfold decrypt_core, n_bits_precision.
    rewrite from_be_slice_fits by auto. cbn [bind].
    rewrite rsa_decrypt_and_check_range by auto. reflexivity.
  Qed.

  Lemma decrypt_core_long fuel rng k ct : wf_pub (sk_pub k) ->
    uprec (pk_n (sk_pub k)) < 8 * Z.of_nat (length ct) ->
    decrypt_core fuel rng k ct = Err (Decode DecodeInputSize).
  Proof.
    intros (Hw & _) Hl. unfold decrypt_core, n_bits_precision.
    destruct (wf_prec _ Hw) as (j & Hj & Hj1).
    rewrite from_be_slice_spec by lia.
    destruct (Z.eqb_spec (Z.of_nat (length ct)) 0); [lia|]. cbn [andb].
    replace ((uprec (pk_n (sk_pub k)) + 7) / 8) with (8 * j)
      by (rewrite Hj; apply Z.div_unique with 7; lia).
    destruct (Z.ltb_spec (8 * j) (Z.of_nat (length ct))); [reflexivity|lia].
  Qed.

  Lemma decrypt_core_good fuel rng k ct :
    (rng <> None -> rng_ok g) -> good_priv k ->
    8 * Z.of_nat (length ct) <= uprec (pk_n (sk_pub k)) ->
    os2ip ct < uval (pk_n (sk_pub k)) ->
    (blinding_succeeds g (uval (pk_n (sk_pub k))) rng fuel ->
     decrypt_core fuel rng k ct
     = Ok (i2osp (RSADP (uval (pk_n (sk_pub k))) (uval (sk_d k)) (os2ip ct)) (key_size (sk_pub k))))
    /\ (blinding_fails g (uval (pk_n (sk_pub k))) rng fuel ->
        decrypt_core fuel rng k ct = Err Rng)
    /\ (blinding_undecided g (uval (pk_n (sk_pub k))) rng fuel ->
        decrypt_core fuel rng k ct = OutOfFuel).
  Proof.
    intros Hr Hk Hl Hc. pose proof (good_pub k Hk) as Hp. pose proof (odd_pos_n _ Hp) as Hn.
    pose proof Hp as ((Hv & Hp1 & Hm) & _).
    unfold decrypt_core, n_bits_precision. rewrite from_be_slice_fits by auto. cbn [bind].
    assert (W : wf_uint (mkU (os2ip ct) (uprec (pk_n (sk_pub k))))) by (apply os2ip_wf; auto).
    destruct (rsa_decrypt_and_check_good g fuel rng k _ Hr Hk W eq_refl Hc) as (A & B & C).
    split; [|split]; intros H.
    - rewrite (A H). cbn [bind uval]. rewrite uint_to_zeroizing_be_pad_eq.
      pose proof (RSADP_range (uval (pk_n (sk_pub k))) (uval (sk_d k)) (os2ip ct) Hn).
      rewrite uint_to_be_pad_ok.
      + rewrite i2osp_be_bytes. reflexivity.
      + apply wf_mk; auto. lia.
      + cbn [uval]. pose proof (key_n_lt _ Hp). lia.
    - rewrite (B H). reflexivity.
    - rewrite (C H). reflexivity.
  Qed.

  (** Private then public gives back the block, and conversely. *)
  Lemma decrypt_of_encrypt fuel rng k em :
    (rng <> None -> rng_ok g) -> good_priv k -> length em = key_size (sk_pub k) ->
    os2ip em < uval (pk_n (sk_pub k)) ->
    blinding_succeeds g (uval (pk_n (sk_pub k))) rng fuel ->
    decrypt_core fuel rng k
      (i2osp (RSAEP (uval (pk_n (sk_pub k))) (uval (pk_e (sk_pub k))) (os2ip em)) (key_size (sk_pub k)))
    = Ok em.
  Proof.
    intros Hr Hk Hl He Hb. pose proof (good_pub k Hk) as Hp. pose proof (odd_pos_n _ Hp) as Hn.
    destruct (key_size_facts _ Hp) as (_ & H2 & _).
    pose proof (RSAEP_range (uval (pk_n (sk_pub k))) (uval (pk_e (sk_pub k))) (os2ip em) Hn) as Rg.
    pose proof (key_n_lt _ Hp) as Kn.
    set (c := RSAEP _ _ _) in *.
    assert (Ec : os2ip (i2osp c (key_size (sk_pub k))) = c) by (apply os2ip_i2osp; lia).
    destruct (decrypt_core_good fuel rng k (i2osp c (key_size (sk_pub k))) Hr Hk) as (A & _).
    { rewrite i2osp_length. auto. }
    { rewrite Ec. lia. }
    rewrite (A Hb). rewrite Ec. unfold c.
    destruct Hk as (_ & _ & _ & Hval & _). pose proof (os2ip_range em).
    rewrite (rsa_dec_enc _ _ _ _ _ Hval) by lia. rewrite i2osp_os2ip by auto. reflexivity.
  Qed.
End Core.

(** * Public key check *)

Lemma check_public_max_spec n e max : 0 <= uval n -> 0 <= uval e ->
  (check_public_with_max_size n e max = Ok tt /\
   public_acceptable (uval n) (uval e) (uprec n) max) \/
  (exists err, check_public_with_max_size n e max = Err err /\
   ~ public_acceptable (uval n) (uval e) (uprec n) max).
Proof.
  intros Hn He. unfold check_public_with_max_size, public_acceptable.
  destruct (Z.ltb_spec max (uprec n)); [right; eexists; split; [reflexivity|lia]|].
  unfold uleb, uis_even, uis_zero, ultb, u_of_u64, MIN_PUB_EXPONENT, MAX_PUB_EXPONENT. cbn [uval].
  destruct (Z.leb_spec (uval n) (uval e)); [right; eexists; split; [reflexivity|lia]|].
  cbn [orb]. rewrite <- Z.negb_odd. destruct (Z.odd (uval n)) eqn:On; cbn [orb negb].
  2:{ right; eexists; split; [reflexivity|]. intros (_ & ? & _); discriminate. }
  destruct (Z.eqb_spec (uval n) 0); [right; eexists; split; [reflexivity|lia]|].
  rewrite <- Z.negb_odd. destruct (Z.odd (uval e)) eqn:Oe; cbn [negb].
  2:{ right; eexists; split; [reflexivity|]. intros (_ & _ & ? & _); discriminate. }
  destruct (Z.ltb_spec (uval e) 2); [right; eexists; split; [reflexivity|lia]|].
  destruct (Z.ltb_spec (2 ^ 33 - 1) (uval e)); [right; eexists; split; [reflexivity|lia]|].
  left. split; [reflexivity|]. repeat split; auto; lia.
Qed.

Lemma check_public_spec k : wf_pub k ->
  (check_public k = Ok tt /\ public_usable (uval (pk_n k)) (uval (pk_e k)) (uprec (pk_n k))) \/
  (exists err, check_public k = Err err /\
     ~ public_usable (uval (pk_n k)) (uval (pk_e k)) (uprec (pk_n k))).
Proof.
  intros (Hn & He & _). apply (check_public_max_spec (pk_n k) (pk_e k) MAX_SIZE).
  apply Hn. apply He.
Qed.

Lemma check_public_ok k : wf_pub k ->
  (check_public k = Ok tt <-> public_usable (uval (pk_n k)) (uval (pk_e k)) (uprec (pk_n k))).
Proof.
  intros Hk. destruct (check_public_spec k Hk) as [[E H]|(err & E & H)]; rewrite E; split; auto.
  discriminate. contradiction.
Qed.

Lemma usable_size k : wf_pub k ->
  public_usable (uval (pk_n k)) (uval (pk_e k)) (uprec (pk_n k)) ->
  Z.of_nat (key_size k) <= 512.
Proof.
  intros Hk (H & _). destruct (key_size_facts k Hk) as (_ & H2 & _). lia.
Qed.

Lemma prec32_size k : wf_pub k -> uprec (pk_n k) < 2 ^ 32 -> Z.of_nat (key_size k) < 2 ^ 29.
Proof. intros Hk H. destruct (key_size_facts k Hk) as (_ & H2 & _). lia. Qed.

(** A block starting with 00 is below the modulus. *)
Lemma block00_lt pk em : wf_pub pk -> length (x00 :: em) = key_size pk ->
  os2ip (x00 :: em) < uval (pk_n pk).
Proof.
  intros Hk Hl. rewrite os2ip_cons. change (b2z x00) with 0. 
  pose proof (os2ip_range em) as Rg. destruct (key_size_octets pk Hk) as [Ho _].
  replace (Z.of_nat (key_size pk) - 1) with (Z.of_nat (length em)) in Ho by (cbn [length] in Hl; lia).
  lia.
Qed.

(** * PKCS#1 v1.5 encryption *)

Lemma eme_pkcs1_length PS M : length (eme_pkcs1 PS M) = (length PS + length M + 3)%nat.
Proof. unfold eme_pkcs1. cbn [length]. rewrite app_length. cbn [length]. lia. Qed.

Lemma patched_props {R} (g : rng_ops R) f st data out st' :
  patched g f st data out st' -> length out = length data /\ Forall (fun b => b <> x00) out.
Proof.
  induction 1 as [|? ? ? ? ? Hb _ [IL IF]|? ? ? ? ? ? ? _ Hr _ [IL IF]]; cbn [length]; auto.
  split; [lia|]. constructor; auto. eapply redraw_gives_nz; eauto.
Qed.

Lemma padding_gives_props {R} (g : rng_ops R) f st n PS :
  rng_ok g -> padding_gives g f st n PS -> length PS = n /\ Forall (fun b => b <> x00) PS.
Proof.
  intros Hg (drawn & st1 & st2 & E & H). apply patched_props in H. destruct H as [L F].
  split; auto. rewrite L. eapply (proj1 Hg); eauto.
Qed.

Section Pkcs1Enc.
  Context {R : Type} (g : rng_ops R).

  Lemma pkcs1v15_encrypt_core fuel st pk msg :
    pkcs1v15_encrypt g fuel st pk msg
    = let* _ := check_public pk in
      let* em := pkcs1v15_encrypt_pad g fuel st msg (key_size pk) in encrypt_core pk em.
  Proof. reflexivity. Qed.

  Lemma pkcs1v15_encrypt_exact fuel st pk msg :
    rng_ok g -> wf_pub pk ->
    public_usable (uval (pk_n pk)) (uval (pk_e pk)) (uprec (pk_n pk)) ->
    let k := key_size pk in
    ((k < length msg + 11)%nat -> pkcs1v15_encrypt g fuel st pk msg = Err MessageTooLong) /\
    ((length msg + 11 <= k)%nat ->
      (forall PS, padding_gives g fuel st (k - length msg - 3) PS ->
         pkcs1v15_encrypt g fuel st pk msg
         = Ok (i2osp (RSAEP (uval (pk_n pk)) (uval (pk_e pk)) (os2ip (eme_pkcs1 PS msg))) k)) /\
      (padding_fails g fuel st (k - length msg - 3) ->
         pkcs1v15_encrypt g fuel st pk msg = Err Rng) /\
      (padding_stuck g fuel st (k - length msg - 3) ->
         pkcs1v15_encrypt g fuel st pk msg = OutOfFuel)).
  Proof.
    intros Hg Hk Hu k. rewrite pkcs1v15_encrypt_core.
    apply check_public_ok in Hu; auto. rewrite Hu. cbn [bind]. fold k.
    destruct (encrypt_pad_exact g fuel st msg k Hg) as [A B]. split.
    { intros H. rewrite (A H). reflexivity. }
    intros H. destruct (B H) as (B1 & B2 & B3). split; [|split].
    - intros PS HP. rewrite (B1 PS HP). cbn [bind]. apply encrypt_core_ok; auto.
      rewrite eme_pkcs1_length. destruct (padding_gives_props g _ _ _ _ Hg HP) as [L _].
      fold k. lia.
    - intros HP. rewrite (B2 HP). reflexivity.
    - intros HP. rewrite (B3 HP). reflexivity.
  Qed.

  Lemma pkcs1v15_encrypt_inv fuel st pk msg ct :
    rng_ok g -> wf_pub pk -> pkcs1v15_encrypt g fuel st pk msg = Ok ct ->
    public_usable (uval (pk_n pk)) (uval (pk_e pk)) (uprec (pk_n pk)) /\
    exists em, is_eme_pkcs1 (key_size pk) em msg /\
      ct = i2osp (RSAEP (uval (pk_n pk)) (uval (pk_e pk)) (os2ip em)) (key_size pk).
  Proof.
    intros Hg Hk H. rewrite pkcs1v15_encrypt_core in H.
    destruct (check_public_spec pk Hk) as [[E Hu]|(err & E & _)]; rewrite E in H; [|discriminate].
    cbn [bind] in H. split; auto. apply bind_ok in H. destruct H as (em & Hp & H).
    apply encrypt_pad_ok in Hp; auto. exists em. split; auto.
    rewrite encrypt_core_ok in H by (auto; apply Hp). congruence.
  Qed.

  Lemma pkcs1v15_decrypt_core fuel rng k ct :
    pkcs1v15_decrypt g fuel rng k ct
    = let* _ := check_public (sk_pub k) in
      let* em := decrypt_core g fuel rng k ct in
      pkcs1v15_encrypt_unpad em (key_size (sk_pub k)).
  Proof.
    unfold pkcs1v15_decrypt, decrypt_core. destruct (check_public (sk_pub k)); cbn [bind]; auto.
    destruct (from_be_slice _ _); cbn [bind]; auto.
    destruct (rsa_decrypt_and_check _ _ _ _ _); cbn [bind]; auto.
  Qed.

  Lemma pkcs1v15_decrypt_exact fuel rng k ct :
    (rng <> None -> rng_ok g) -> good_priv k ->
    public_usable (uval (pk_n (sk_pub k))) (uval (pk_e (sk_pub k))) (uprec (pk_n (sk_pub k))) ->
    let K := key_size (sk_pub k) in let n := uval (pk_n (sk_pub k)) in
    (uprec (pk_n (sk_pub k)) < 8 * Z.of_nat (length ct) ->
       pkcs1v15_decrypt g fuel rng k ct = Err (Decode DecodeInputSize)) /\
    (8 * Z.of_nat (length ct) <= uprec (pk_n (sk_pub k)) -> n <= os2ip ct ->
       pkcs1v15_decrypt g fuel rng k ct = Err Decryption) /\
    (8 * Z.of_nat (length ct) <= uprec (pk_n (sk_pub k)) -> os2ip ct < n ->
      (blinding_succeeds g n rng fuel ->
         (forall M, pkcs1v15_decrypt g fuel rng k ct = Ok M <->
            is_eme_pkcs1 K (i2osp (RSADP n (uval (sk_d k)) (os2ip ct)) K) M) /\
         ((forall M, ~ is_eme_pkcs1 K (i2osp (RSADP n (uval (sk_d k)) (os2ip ct)) K) M) ->
            pkcs1v15_decrypt g fuel rng k ct = Err Decryption)) /\
      (blinding_fails g n rng fuel -> pkcs1v15_decrypt g fuel rng k ct = Err Rng) /\
      (blinding_undecided g n rng fuel -> pkcs1v15_decrypt g fuel rng k ct = OutOfFuel)).
  Proof.
    intros Hr Hk Hu K n. pose proof (good_pub k Hk) as Hp.
    pose proof (usable_size _ Hp Hu) as Hs. fold K in Hs.
    rewrite pkcs1v15_decrypt_core. apply check_public_ok in Hu; auto. rewrite Hu. cbn [bind].
    split; [|split].
    - intros H. rewrite decrypt_core_long by auto. reflexivity.
    - intros H1 H2. rewrite decrypt_core_range by auto. reflexivity.
    - intros H1 H2. destruct (decrypt_core_good g fuel rng k ct Hr Hk H1 H2) as (A & B & C).
      split; [|split]; intros H.
      + rewrite (A H). cbn [bind]. apply C05_lemma; [lia|apply i2osp_length].
      + rewrite (B H). reflexivity.
      + rewrite (C H). reflexivity.
  Qed.
End Pkcs1Enc.

Lemma pkcs1v15_round_trip {R1 R2} (g1 : rng_ops R1) (g2 : rng_ops R2) f1 f2 st rng k msg ct :
  rng_ok g1 -> (rng <> None -> rng_ok g2) -> good_priv k ->
  pkcs1v15_encrypt g1 f1 st (sk_pub k) msg = Ok ct ->
  blinding_succeeds g2 (uval (pk_n (sk_pub k))) rng f2 ->
  pkcs1v15_decrypt g2 f2 rng k ct = Ok msg.
Proof.
  intros Hg1 Hg2 Hk He Hb. pose proof (good_pub k Hk) as Hp.
  apply pkcs1v15_encrypt_inv in He; auto. destruct He as (Hu & em & Hem & ->).
  rewrite pkcs1v15_decrypt_core. pose proof (usable_size _ Hp Hu) as Hs.
  apply check_public_ok in Hu; auto. rewrite Hu. cbn [bind].
  rewrite decrypt_of_encrypt; auto; try apply Hem.
  - cbn [bind]. apply unpad_complete; auto. lia.
  - destruct Hem as (L & PS & -> & _). apply block00_lt; auto.
Qed.

(** * OAEP *)

Section Oaep.
  Context {R : Type} (g : rng_ops R).

  Lemma oaep_api_encrypt_agree st pk msg hd hm label :
    oaep_api_encrypt g st pk msg (digest_new hd) (digest_new hm) label
    = oaep_api_encrypt_digest g hd hm st pk msg label.
  Proof. unfold oaep_api_encrypt, oaep_api_encrypt_digest. rewrite oaep_encrypt_agree. reflexivity. Qed.

  Lemma oaep_api_encrypt_core st pk msg hd hm label :
    oaep_api_encrypt_digest g hd hm st pk msg label
    = let* _ := check_public pk in
      let* em := oaep_encrypt_digest g hd hm st msg label (key_size pk) in encrypt_core pk em.
  Proof. reflexivity. Qed.

  Lemma oaep_api_encrypt_exact st pk msg hd hm label :
    rng_ok g -> (0 < h_size hm)%nat -> wf_pub pk ->
    public_usable (uval (pk_n pk)) (uval (pk_e pk)) (uprec (pk_n pk)) ->
    oaep_api_encrypt_digest g hd hm st pk msg label =
    if 2 ^ 61 <=? Z.of_nat (length (label_bytes label)) then Err LabelTooLong
    else if (key_size pk <? length msg + 2 * h_size hd + 2)%nat then Err MessageTooLong
    else match rng_fill g st (h_size hd) with
         | (None, _) => Err Rng
         | (Some seed, _) =>
             Ok (i2osp (RSAEP (uval (pk_n pk)) (uval (pk_e pk))
                   (os2ip (oaep_encode (h_fun hd) (h_size hd) (h_fun hm) (h_size hm)
                             (label_bytes label) seed msg (key_size pk)))) (key_size pk))
         end.
  Proof.
    intros Hg Hh Hk Hu. rewrite oaep_api_encrypt_core. pose proof (usable_size _ Hk Hu) as Hs.
    apply check_public_ok in Hu; auto. rewrite Hu. cbn [bind].
    rewrite oaep_encrypt_digest_spec by (auto; lia).
    destruct (2 ^ 61 <=? _); auto.
    destruct (Nat.ltb_spec (key_size pk) (length msg + 2 * h_size hd + 2)); auto.
    destruct (rng_fill g st (h_size hd)) as [[seed|] st'] eqn:E; auto.
    cbn [bind]. apply encrypt_core_ok; auto. apply oaep_encode_length; auto.
    eapply (proj1 Hg); eauto.
  Qed.

  Lemma oaep_api_encrypt_inv st pk msg hd hm label ct :
    rng_ok g -> (0 < h_size hm)%nat -> wf_pub pk ->
    oaep_api_encrypt_digest g hd hm st pk msg label = Ok ct ->
    public_usable (uval (pk_n pk)) (uval (pk_e pk)) (uprec (pk_n pk)) /\
    Z.of_nat (length (label_bytes label)) < 2 ^ 61 /\
    exists em, is_eme_oaep (h_fun hd) (h_size hd) (h_fun hm) (h_size hm) (label_bytes label)
                 (key_size pk) em msg /\
      ct = i2osp (RSAEP (uval (pk_n pk)) (uval (pk_e pk)) (os2ip em)) (key_size pk).
  Proof.
    intros Hg Hh Hk H.
    destruct (check_public_spec pk Hk) as [[E Hu]|(err & E & _)].
    2:{ rewrite oaep_api_encrypt_core, E in H. discriminate. }
    split; auto. rewrite oaep_api_encrypt_exact in H by auto.
    destruct (Z.leb_spec (2 ^ 61) (Z.of_nat (length (label_bytes label)))); [discriminate|].
    split; auto.
    destruct (Nat.ltb_spec (key_size pk) (length msg + 2 * h_size hd + 2)); [discriminate|].
    destruct (rng_fill g st (h_size hd)) as [[seed|] st'] eqn:Er; [|discriminate].
    exists (oaep_encode (h_fun hd) (h_size hd) (h_fun hm) (h_size hm) (label_bytes label) seed msg
              (key_size pk)).
    split; [|congruence].
    exists seed. split; [eapply (proj1 Hg); eauto|]. split; [lia|reflexivity].
  Qed.

  Lemma oaep_api_decrypt_core fuel rng k ct hd hm label :
    oaep_api_decrypt_digest g hd hm fuel rng k ct label
    = let* _ := check_public (sk_pub k) in
      if negb (length ct =? key_size (sk_pub k))%nat then Err Decryption
      else let* em := decrypt_core g fuel rng k ct in
           oaep_decrypt_digest hd hm em label (key_size (sk_pub k)).
  Proof.
    unfold oaep_api_decrypt_digest, decrypt_core. destruct (check_public (sk_pub k)); cbn [bind]; auto.
    destruct (negb _); auto.
    destruct (from_be_slice _ _); cbn [bind]; auto.
    destruct (rsa_decrypt_and_check _ _ _ _ _); cbn [bind]; auto.
  Qed.

  Lemma oaep_api_decrypt_dyn_core fuel rng k ct hd hm label :
    oaep_api_decrypt g fuel rng k ct (digest_new hd) (digest_new hm) label
    = if negb (length ct =? key_size (sk_pub k))%nat then Err Decryption
      else let* em := decrypt_core g fuel rng k ct in
           if 2 ^ 61 <=? Z.of_nat (length (label_bytes label)) then Err Decryption
           else oaep_decrypt_digest hd hm em label (key_size (sk_pub k)).
  Proof.
    unfold oaep_api_decrypt, decrypt_core.
    destruct (negb _); auto.
    destruct (from_be_slice _ _); cbn [bind]; auto.
    destruct (rsa_decrypt_and_check _ _ _ _ _); cbn [bind]; auto.
    destruct (uint_to_zeroizing_be_pad _ _); cbn [bind]; auto.
    apply oaep_decrypt_agree.
  Qed.

  Lemma oaep_api_decrypt_exact fuel rng k ct hd hm label :
    (rng <> None -> rng_ok g) -> (0 < h_size hm)%nat -> good_priv k ->
    uprec (pk_n (sk_pub k)) < 2 ^ 32 -> (11 <= key_size (sk_pub k))%nat ->
    Z.of_nat (length (label_bytes label)) < 2 ^ 61 ->
    let K := key_size (sk_pub k) in let n := uval (pk_n (sk_pub k)) in
    let dec := oaep_api_decrypt g fuel rng k ct (digest_new hd) (digest_new hm) label in
    let EM := i2osp (RSADP n (uval (sk_d k)) (os2ip ct)) K in
    let valid M := is_eme_oaep (h_fun hd) (h_size hd) (h_fun hm) (h_size hm) (label_bytes label) K EM M in
    (length ct <> K -> dec = Err Decryption) /\
    (length ct = K -> n <= os2ip ct -> dec = Err Decryption) /\
    (length ct = K -> os2ip ct < n ->
      (blinding_succeeds g n rng fuel ->
         (forall M, dec = Ok M <-> valid M) /\ ((forall M, ~ valid M) -> dec = Err Decryption)) /\
      (blinding_fails g n rng fuel -> dec = Err Rng) /\
      (blinding_undecided g n rng fuel -> dec = OutOfFuel)).
  Proof.
    intros Hr Hh Hk H32 H11 Hlab K n dec EM valid. pose proof (good_pub k Hk) as Hp.
    pose proof (prec32_size _ Hp H32) as Hs. fold K in Hs, H11.
    destruct (key_size_facts _ Hp) as (_ & H2 & _). fold K in H2.
    unfold dec. rewrite oaep_api_decrypt_dyn_core. fold K.
    destruct (Z.leb_spec (2 ^ 61) (Z.of_nat (length (label_bytes label)))); [lia|].
    split; [|split].
    - intros Hl. destruct (Nat.eqb_spec (length ct) K); [contradiction|reflexivity].
    - intros Hl Hc. destruct (Nat.eqb_spec (length ct) K); [|contradiction]. cbn [negb].
      rewrite decrypt_core_range by (auto; rewrite Hl; auto). reflexivity.
    - intros Hl Hc. destruct (Nat.eqb_spec (length ct) K); [|contradiction]. cbn [negb].
      destruct (decrypt_core_good g fuel rng k ct Hr Hk) as (A & B & C); auto.
      { rewrite Hl; auto. }
      split; [|split]; intros Hb.
      + rewrite (A Hb). cbn [bind]. apply oaep_exact; auto; [lia|apply i2osp_length].
      + rewrite (B Hb). reflexivity.
      + rewrite (C Hb). reflexivity.
  Qed.

  (** The type-level API differs only in re-checking the public key and in the error
      for over-long labels. *)
  Lemma oaep_api_decrypt_agree fuel rng k ct hd hm label :
    check_public (sk_pub k) = Ok tt -> Z.of_nat (length (label_bytes label)) < 2 ^ 61 ->
    oaep_api_decrypt_digest g hd hm fuel rng k ct label
    = oaep_api_decrypt g fuel rng k ct (digest_new hd) (digest_new hm) label.
  Proof.
    intros Hc Hl. rewrite oaep_api_decrypt_core, oaep_api_decrypt_dyn_core, Hc. cbn [bind].
    destruct (Z.leb_spec (2 ^ 61) (Z.of_nat (length (label_bytes label)))); [lia|]. reflexivity.
  Qed.
End Oaep.

Lemma oaep_round_trip {R1 R2} (g1 : rng_ops R1) (g2 : rng_ops R2) f2 st rng k hd hm label msg ct :
  rng_ok g1 -> (rng <> None -> rng_ok g2) -> (0 < h_size hm)%nat -> good_priv k ->
  (11 <= key_size (sk_pub k))%nat ->
  oaep_api_encrypt_digest g1 hd hm st (sk_pub k) msg label = Ok ct ->
  blinding_succeeds g2 (uval (pk_n (sk_pub k))) rng f2 ->
  oaep_api_decrypt_digest g2 hd hm f2 rng k ct label = Ok msg /\
  oaep_api_decrypt g2 f2 rng k ct (digest_new hd) (digest_new hm) label = Ok msg.
Proof.
  intros Hg1 Hg2 Hh Hk H11 He Hb. pose proof (good_pub k Hk) as Hp.
  apply oaep_api_encrypt_inv in He; auto. destruct He as (Hu & Hl & em & Hem & ->).
  pose proof (usable_size _ Hp Hu) as Hs. apply check_public_ok in Hu; auto.
  rewrite oaep_api_decrypt_agree by auto.
  assert (oaep_api_decrypt g2 f2 rng k
           (i2osp (RSAEP (uval (pk_n (sk_pub k))) (uval (pk_e (sk_pub k))) (os2ip em))
              (key_size (sk_pub k))) (digest_new hd) (digest_new hm) label = Ok msg) as E.
  2:{ auto. }
  rewrite oaep_api_decrypt_dyn_core, i2osp_length, Nat.eqb_refl. cbn [negb].
  destruct (Z.leb_spec (2 ^ 61) (Z.of_nat (length (label_bytes label)))); [lia|].
  pose proof Hem as (seed & Ls & Lm & Eem).
  assert (Lem : length em = key_size (sk_pub k)) by (subst em; apply oaep_encode_length; auto).
  rewrite decrypt_of_encrypt; auto.
  - cbn [bind]. apply oaep_complete; auto. lia.
  - rewrite Eem in *. unfold oaep_encode in *. apply block00_lt; auto.
Qed.

(** Another label decrypts only if it has the same digest. *)
Lemma oaep_label_binding_api {R1 R2} (g1 : rng_ops R1) (g2 : rng_ops R2) f2 st rng k hd hm
      label label' msg ct :
  rng_ok g1 -> (rng <> None -> rng_ok g2) -> (0 < h_size hm)%nat -> good_priv k ->
  (11 <= key_size (sk_pub k))%nat ->
  oaep_api_encrypt_digest g1 hd hm st (sk_pub k) msg label = Ok ct ->
  blinding_succeeds g2 (uval (pk_n (sk_pub k))) rng f2 ->
  Z.of_nat (length (label_bytes label')) < 2 ^ 61 ->
  h_fun hd (label_bytes label) <> h_fun hd (label_bytes label') ->
  oaep_api_decrypt_digest g2 hd hm f2 rng k ct label' = Err Decryption /\
  oaep_api_decrypt g2 f2 rng k ct (digest_new hd) (digest_new hm) label' = Err Decryption.
Proof.
  intros Hg1 Hg2 Hh Hk H11 He Hb Hl' Hne. pose proof (good_pub k Hk) as Hp.
  apply oaep_api_encrypt_inv in He; auto. destruct He as (Hu & Hl & em & Hem & ->).
  pose proof (usable_size _ Hp Hu) as Hs. apply check_public_ok in Hu; auto.
  rewrite oaep_api_decrypt_agree by auto.
  assert (oaep_api_decrypt g2 f2 rng k
           (i2osp (RSAEP (uval (pk_n (sk_pub k))) (uval (pk_e (sk_pub k))) (os2ip em))
              (key_size (sk_pub k))) (digest_new hd) (digest_new hm) label' = Err Decryption) as E.
  2:{ auto. }
  rewrite oaep_api_decrypt_dyn_core, i2osp_length, Nat.eqb_refl. cbn [negb].
  destruct (Z.leb_spec (2 ^ 61) (Z.of_nat (length (label_bytes label')))); [lia|].
  pose proof Hem as (seed & Ls & Lm & Eem).
  assert (Lem : length em = key_size (sk_pub k)) by (subst em; apply oaep_encode_length; auto).
  rewrite decrypt_of_encrypt; auto.
  - cbn [bind]. apply oaep_exact; auto; [lia|]. intros M' HM'.
    destruct (oaep_label_binding _ _ _ _ _ _ _ _ Hh Hem HM') as [E _]. contradiction.
  - rewrite Eem in *. unfold oaep_encode in *. apply block00_lt; auto.
Qed.
