(** Statements about encryption assembled for PropEnc.v. *)
From Coq Require Import ZArith List Bool Lia.
From Coq Require Import Init.Byte.
From Verif Require Import Base Bigint BytesLemmas BigintLemmas NumTheory SpecRFC SpecRng SpecKey MHash
  MPad MPkcs1 MOaep MPss MRsa MKey MApi KeyDefs PPad PPkcs1 PRsa POaep PPss PApi PSig PHist PRaw.
Import ListNotations.
Local Open Scope Z_scope.

Definition usable_key (pk : pubkey) : Prop :=
  public_usable (uval (pk_n pk)) (uval (pk_e pk)) (uprec (pk_n pk)).

Lemma c01_round_trip {R1 R2} (g1 : rng_ops R1) (g2 : rng_ops R2) f1 f2 st rng k msg PS :
  rng_ok g1 -> (rng <> None -> rng_ok g2) -> good_priv k -> usable_key (sk_pub k) ->
  (length msg + 11 <= key_size (sk_pub k))%nat ->
  padding_gives g1 f1 st (key_size (sk_pub k) - length msg - 3) PS ->
  blinding_succeeds g2 (uval (pk_n (sk_pub k))) rng f2 ->
  exists ct, public_encrypt g1 f1 st (sk_pub k) PadPkcs1v15 msg = Ok ct /\
             scheme_decrypt g2 f2 rng k PadPkcs1v15 ct = Ok msg.
Proof.
  intros H1 H2 Hk Hu Hl HP Hb. pose proof (good_pub k Hk) as Hp.
  destruct (pkcs1v15_encrypt_exact g1 f1 st (sk_pub k) msg H1 Hp Hu) as [_ B].
  destruct (B Hl) as (B1 & _). pose proof (B1 PS HP) as E.
  eexists. split; [exact E|]. cbn [scheme_decrypt].
  eapply pkcs1v15_round_trip; eauto.
Qed.

Lemma c01_no_wrong_plaintext {R1 R2} (g1 : rng_ops R1) (g2 : rng_ops R2) f1 f2 st rng k msg ct :
  rng_ok g1 -> (rng <> None -> rng_ok g2) -> good_priv k ->
  public_encrypt g1 f1 st (sk_pub k) PadPkcs1v15 msg = Ok ct ->
  (blinding_succeeds g2 (uval (pk_n (sk_pub k))) rng f2 ->
     scheme_decrypt g2 f2 rng k PadPkcs1v15 ct = Ok msg) /\
  (forall m', scheme_decrypt g2 f2 rng k PadPkcs1v15 ct = Ok m' -> m' = msg).
Proof.
  intros H1 H2 Hk He. cbn [public_encrypt] in He.
  assert (A : blinding_succeeds g2 (uval (pk_n (sk_pub k))) rng f2 ->
     scheme_decrypt g2 f2 rng k PadPkcs1v15 ct = Ok msg)
    by (intros Hb; cbn [scheme_decrypt]; eapply pkcs1v15_round_trip; eauto).
  split; auto. intros m' Hd.
  destruct (blinding_trichotomy g2 (uval (pk_n (sk_pub k))) rng f2) as [X|[X|X]].
  - rewrite (A X) in Hd. congruence.
  - destruct rng as [st2|]; [|contradiction]. 
    assert (B : blinding_succeeds g2 (uval (pk_n (sk_pub k))) None f2) by exact I.
    pose proof (pkcs1v15_round_trip g1 g2 f1 f2 st None k msg ct H1 ltac:(congruence) Hk He B) as E0.
    destruct (scheme_decrypt_blinded g2 f2 st2 k PadPkcs1v15 ct) as (_ & C); auto.
    { apply H2; discriminate. }
    destruct (C X) as [C1|(e & C1 & _)]; congruence.
  - destruct rng as [st2|]; [|contradiction]. exfalso.
    cbn [scheme_decrypt] in Hd. rewrite pkcs1v15_decrypt_core in Hd.
    destruct (check_public (sk_pub k)); try discriminate. cbn [bind] in Hd.
    destruct (decrypt_core_blinded g2 f2 st2 k ct) as (_ & _ & C); auto.
    { apply H2; discriminate. }
    rewrite (C X) in Hd. destruct (decrypt_core g2 f2 None k ct); discriminate.
Qed.

Lemma c02_round_trip {R1 R2} (g1 : rng_ops R1) (g2 : rng_ops R2) f1 f2 st st' rng k hd hm label msg seed :
  rng_ok g1 -> (rng <> None -> rng_ok g2) -> (0 < h_size hm)%nat ->
  good_priv k -> usable_key (sk_pub k) -> (11 <= key_size (sk_pub k))%nat ->
  Z.of_nat (length (label_bytes label)) < 2 ^ 61 ->
  (length msg + 2 * h_size hd + 2 <= key_size (sk_pub k))%nat ->
  rng_fill g1 st (h_size hd) = (Some seed, st') ->
  blinding_succeeds g2 (uval (pk_n (sk_pub k))) rng f2 ->
  let o := mkOaep (digest_new hd) (digest_new hm) label in
  exists ct, public_encrypt g1 f1 st (sk_pub k) (PadOaep o) msg = Ok ct /\
             oaep_api_encrypt_digest g1 hd hm st (sk_pub k) msg label = Ok ct /\
             scheme_decrypt g2 f2 rng k (PadOaep o) ct = Ok msg /\
             oaep_api_decrypt_digest g2 hd hm f2 rng k ct label = Ok msg.
Proof.
  intros H1 H2 Hm Hk Hu H11 Hlab Hl Hs Hb o. pose proof (good_pub k Hk) as Hp.
  cbn [public_encrypt scheme_decrypt o oa_digest oa_mgf oa_label]. rewrite oaep_api_encrypt_agree.
  pose proof (oaep_api_encrypt_exact g1 st (sk_pub k) msg hd hm label H1 Hm Hp Hu) as E.
  destruct (Z.leb_spec (2 ^ 61) (Z.of_nat (length (label_bytes label)))); [lia|].
  destruct (Nat.ltb_spec (key_size (sk_pub k)) (length msg + 2 * h_size hd + 2)); [lia|].
  rewrite Hs in E. eexists. split; [exact E|]. split; [exact E|].
  destruct (oaep_round_trip g1 g2 f2 st rng k hd hm label msg _ H1 H2 Hm Hk H11 E Hb) as [A B].
  auto.
Qed.

Lemma c04_binding {R1 R2} (g1 : rng_ops R1) (g2 : rng_ops R2) f1 f2 st rng k hd hm label label' msg ct :
  rng_ok g1 -> (rng <> None -> rng_ok g2) -> (0 < h_size hm)%nat -> good_priv k ->
  (11 <= key_size (sk_pub k))%nat ->
  public_encrypt g1 f1 st (sk_pub k) (PadOaep (mkOaep (digest_new hd) (digest_new hm) label)) msg = Ok ct ->
  blinding_succeeds g2 (uval (pk_n (sk_pub k))) rng f2 ->
  Z.of_nat (length (label_bytes label')) < 2 ^ 61 ->
  h_fun hd (label_bytes label) <> h_fun hd (label_bytes label') ->
  scheme_decrypt g2 f2 rng k (PadOaep (mkOaep (digest_new hd) (digest_new hm) label')) ct = Err Decryption /\
  oaep_api_decrypt_digest g2 hd hm f2 rng k ct label' = Err Decryption.
Proof.
  intros H1 H2 Hm Hk H11 He Hb Hl Hne. cbn [public_encrypt oa_digest oa_mgf oa_label] in He.
  rewrite oaep_api_encrypt_agree in He. cbn [scheme_decrypt oa_digest oa_mgf oa_label].
  destruct (oaep_label_binding_api g1 g2 f2 st rng k hd hm label label' msg ct) as [A B]; auto.
Qed.

Lemma c19_pkcs1 {R} (g : rng_ops R) fuel rng k ct1 ct2 :
  wf_pub (sk_pub k) -> os2ip ct1 = os2ip ct2 ->
  8 * Z.of_nat (length ct1) <= uprec (pk_n (sk_pub k)) ->
  8 * Z.of_nat (length ct2) <= uprec (pk_n (sk_pub k)) ->
  scheme_decrypt g fuel rng k PadPkcs1v15 ct1 = scheme_decrypt g fuel rng k PadPkcs1v15 ct2.
Proof.
  intros ((_ & P1 & P2) & _) E L1 L2. cbn [scheme_decrypt]. unfold pkcs1v15_decrypt, n_bits_precision.
  rewrite !from_be_slice_fits by auto. rewrite E. reflexivity.
Qed.

Lemma c19_oaep {R} (g : rng_ops R) fuel rng k ct o :
  length ct <> key_size (sk_pub k) -> scheme_decrypt g fuel rng k (PadOaep o) ct = Err Decryption.
Proof.
  intros H. cbn [scheme_decrypt]. rewrite oaep_api_decrypt_gen.
  destruct (Nat.eqb_spec (length ct) (key_size (sk_pub k))); [contradiction|reflexivity].
Qed.

Lemma c19_oaep_digest {R} (g : rng_ops R) fuel rng k ct hd hm label :
  wf_pub (sk_pub k) -> usable_key (sk_pub k) -> length ct <> key_size (sk_pub k) ->
  oaep_api_decrypt_digest g hd hm fuel rng k ct label = Err Decryption.
Proof.
  intros Hp Hu H. rewrite oaep_api_decrypt_core. apply check_public_ok in Hu; auto. rewrite Hu. cbn [bind].
  destruct (Nat.eqb_spec (length ct) (key_size (sk_pub k))); [contradiction|reflexivity].
Qed.

Lemma c40_pkcs1 {R} (g : rng_ops R) fuel st pk msg :
  rng_ok g -> wf_pub pk -> usable_key pk ->
  (public_encrypt g fuel st pk PadPkcs1v15 msg = Err MessageTooLong <->
   Z.of_nat (length msg) > Z.of_nat (key_size pk) - 11).
Proof.
  intros Hg Hp Hu. cbn [public_encrypt].
  destruct (pkcs1v15_encrypt_exact g fuel st pk msg Hg Hp Hu) as [A B]. split.
  - intros H. destruct (Nat.le_gt_cases (length msg + 11) (key_size pk)) as [L|L]; [|lia].
    destruct (B L) as (B1 & B2 & B3). exfalso.
    destruct (padding_trichotomy g Hg fuel st (key_size pk - length msg - 3)) as [(PS & X)|[X|X]].
    + rewrite (B1 PS X) in H. discriminate.
    + rewrite (B2 X) in H. discriminate.
    + rewrite (B3 X) in H. discriminate.
  - intros H. apply A. lia.
Qed.

Lemma c40_oaep {R} (g : rng_ops R) fuel st pk hd hm label msg :
  rng_ok g -> wf_pub pk -> usable_key pk -> (0 < h_size hm)%nat ->
  Z.of_nat (length (label_bytes label)) < 2 ^ 61 ->
  (public_encrypt g fuel st pk (PadOaep (mkOaep (digest_new hd) (digest_new hm) label)) msg
   = Err MessageTooLong <->
   Z.of_nat (length msg) > Z.of_nat (key_size pk) - 2 * Z.of_nat (h_size hd) - 2).
Proof.
  intros Hg Hp Hu Hm Hl. cbn [public_encrypt oa_digest oa_mgf oa_label]. rewrite oaep_api_encrypt_agree.
  rewrite oaep_api_encrypt_exact by auto.
  destruct (Z.leb_spec (2 ^ 61) (Z.of_nat (length (label_bytes label)))); [lia|].
  destruct (Nat.ltb_spec (key_size pk) (length msg + 2 * h_size hd + 2)).
  - split; auto. lia.
  - split; [|lia]. destruct (rng_fill g st (h_size hd)) as [[?|] ?]; discriminate.
Qed.

Lemma c41_encrypt {R} (g : rng_ops R) fuel st pk msg :
  rng_ok g -> wf_pub pk -> usable_key pk ->
  ((length msg + 11 <= key_size pk)%nat ->
   padding_fails g fuel st (key_size pk - length msg - 3) ->
   public_encrypt g fuel st pk PadPkcs1v15 msg = Err Rng) /\
  (forall hd hm label st', (0 < h_size hm)%nat -> Z.of_nat (length (label_bytes label)) < 2 ^ 61 ->
   (length msg + 2 * h_size hd + 2 <= key_size pk)%nat ->
   rng_fill g st (h_size hd) = (None, st') ->
   public_encrypt g fuel st pk (PadOaep (mkOaep (digest_new hd) (digest_new hm) label)) msg = Err Rng).
Proof.
  intros Hg Hp Hu. split.
  - intros L X. destruct (pkcs1v15_encrypt_exact g fuel st pk msg Hg Hp Hu) as [_ B].
    destruct (B L) as (_ & B2 & _). auto.
  - intros hd hm label st' Hm Hl L X. cbn [public_encrypt oa_digest oa_mgf oa_label].
    rewrite oaep_api_encrypt_agree, oaep_api_encrypt_exact by auto.
    destruct (Z.leb_spec (2 ^ 61) (Z.of_nat (length (label_bytes label)))); [lia|].
    destruct (Nat.ltb_spec (key_size pk) (length msg + 2 * h_size hd + 2)); [lia|].
    rewrite X. reflexivity.
Qed.

Lemma c41_decrypt {R} (g : rng_ops R) fuel st k ct :
  rng_ok g -> good_priv k -> os2ip ct < uval (pk_n (sk_pub k)) ->
  length ct = key_size (sk_pub k) ->
  blinding_fails g (uval (pk_n (sk_pub k))) (Some st) fuel ->
  (usable_key (sk_pub k) -> private_decrypt_blinded g fuel st k PadPkcs1v15 ct = Err Rng) /\
  (forall o, private_decrypt_blinded g fuel st k (PadOaep o) ct = Err Rng).
Proof.
  intros Hg Hk V L X. pose proof (good_pub k Hk) as Hp.
  destruct (key_size_facts _ Hp) as (_ & H2 & _).
  destruct (decrypt_core_good g fuel (Some st) k ct (fun _ => Hg) Hk) as (_ & B & _); auto.
  { rewrite L. auto. }
  specialize (B X). unfold private_decrypt_blinded. split.
  - intros Hu. cbn [scheme_decrypt]. rewrite pkcs1v15_decrypt_core.
    apply check_public_ok in Hu; auto. rewrite Hu, B. reflexivity.
  - intros o. cbn [scheme_decrypt]. rewrite oaep_api_decrypt_gen, L, Nat.eqb_refl, B. reflexivity.
Qed.
