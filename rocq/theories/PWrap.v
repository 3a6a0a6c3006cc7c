(** Lemmas about the key objects of the API: encryption keys, message-level and
    streaming verification, hexadecimal output of signatures, random keys, scheme
    constructors, binding of signatures to messages.  Theorems are in PropWrap.v. *)
From Coq Require Import ZArith List Bool Lia.
From Coq Require Import Init.Byte.
From Verif Require Import Base Bigint SpecRFC SpecHex SpecSig SpecRng SpecKey SpecDer SpecGen MHash MMgf MPkcs1 MOaep MRsa MGenerate
  MKey MApi MWrap MEncoding KeyDefs NumTheory.
From Verif Require Import BytesLemmas BigintLemmas PPad PMgf PPkcs1 PRsa POaep PPss PApi PSig PHist PRaw PEnc PSign PKey PGenerate
  PDer PEncoding PCodec PWrapEnc.
Import ListNotations.
Local Open Scope Z_scope.

(** ** Encryption key objects *)

Lemma from_private_eq k : pubkey_from_private k = to_public_key k.
Proof. unfold pubkey_from_private, to_public_key. destruct (sk_pub k); reflexivity. Qed.

Definition oek_of (label : option (list byte)) (k : pubkey) : oaep_encrypting_key :=
  match label with None => oek_new k | Some l => oek_new_with_label k l end.
Definition odk_of (label : option (list byte)) (k : privkey) : oaep_decrypting_key :=
  match label with None => odk_new k | Some l => odk_new_with_label k l end.
Definition oaep_of (hd hm : hashfn) (label : option (list byte)) : oaep_params :=
  match label with
  | None => oaep_new_with_mgf_hash hd hm
  | Some l => oaep_new_with_mgf_hash_and_label hd hm l
  end.

Lemma oaep_of_eq hd hm label : oaep_of hd hm label = mkOaep (digest_new hd) (digest_new hm) label.
Proof. destruct label; reflexivity. Qed.
Lemma oek_of_eq label k : oek_of label k = mkOEK k label. Proof. destruct label; reflexivity. Qed.
Lemma odk_of_eq label k : odk_of label k = mkODK k label. Proof. destruct label; reflexivity. Qed.

Lemma c53_pkcs1 {R1 R2} (g1 : rng_ops R1) (g2 : rng_ops R2) f1 f2 st rng k msg PS :
  rng_ok g1 -> (rng <> None -> rng_ok g2) -> good_priv k -> usable_key (sk_pub k) ->
  (length msg + 11 <= key_size (sk_pub k))%nat ->
  padding_gives g1 f1 st (key_size (sk_pub k) - length msg - 3) PS ->
  blinding_succeeds g2 (uval (pk_n (sk_pub k))) rng f2 ->
  exists ct, p1ek_encrypt g1 f1 st (p1ek_new (to_public_key k)) msg = Ok ct /\
    p1ek_encrypt g1 f1 st (p1dk_encrypting_key (p1dk_new k)) msg = Ok ct /\
    p1dk_decrypt g2 f2 rng (p1dk_new k) ct = Ok msg /\
    (forall m', p1dk_decrypt g2 f2 rng (p1dk_new k) ct = Ok m' -> m' = msg).
Proof.
  intros H1 H2 G U L P B.
  destruct (c01_round_trip g1 g2 f1 f2 st rng k msg PS H1 H2 G U L P B) as (ct & E & D).
  exists ct. unfold p1ek_encrypt, p1dk_decrypt, p1dk_encrypting_key, p1ek_new, p1dk_new.
  cbn [p1ek_inner p1dk_inner]. rewrite from_private_eq.
  split; [exact E|]. split; [exact E|]. split; [exact D|].
  intros m' D'. cbn [scheme_decrypt] in D. congruence.
Qed.

Lemma c53_oaep {R1 R2} (g1 : rng_ops R1) (g2 : rng_ops R2) f1 f2 st st' rng k hd hm label msg seed :
  rng_ok g1 -> (rng <> None -> rng_ok g2) -> (0 < h_size hm)%nat ->
  good_priv k -> usable_key (sk_pub k) -> (11 <= key_size (sk_pub k))%nat ->
  Z.of_nat (length (label_bytes label)) < 2 ^ 61 ->
  (length msg + 2 * h_size hd + 2 <= key_size (sk_pub k))%nat ->
  rng_fill g1 st (h_size hd) = (Some seed, st') ->
  blinding_succeeds g2 (uval (pk_n (sk_pub k))) rng f2 ->
  exists ct, oek_encrypt g1 hd hm st (oek_of label (to_public_key k)) msg = Ok ct /\
    public_encrypt g1 f1 st (to_public_key k) (PadOaep (oaep_of hd hm label)) msg = Ok ct /\
    odk_decrypt g2 hd hm f2 rng (odk_of label k) ct = Ok msg /\
    scheme_decrypt g2 f2 rng k (PadOaep (oaep_of hd hm label)) ct = Ok msg.
Proof.
  intros H1 H2 Hh G U L Ll Lm F B.
  destruct (c02_round_trip g1 g2 f1 f2 st st' rng k hd hm label msg seed H1 H2 Hh G U L Ll Lm F B)
    as (ct & A1 & A2 & A3 & A4).
  exists ct. rewrite oaep_of_eq, oek_of_eq, odk_of_eq. unfold oek_encrypt, odk_decrypt.
  cbn [oek_inner oek_label odk_inner odk_label]. auto.
Qed.

Lemma c53_oaep_agree {R} (g : rng_ops R) hd hm fuel st rng label k msg ct :
  oek_encrypt g hd hm st (oek_of label (to_public_key k)) msg
  = public_encrypt g fuel st (to_public_key k) (PadOaep (oaep_of hd hm label)) msg /\
  (wf_pub (sk_pub k) -> usable_key (sk_pub k) -> Z.of_nat (length (label_bytes label)) < 2 ^ 61 ->
   odk_decrypt g hd hm fuel rng (odk_of label k) ct
   = scheme_decrypt g fuel rng k (PadOaep (oaep_of hd hm label)) ct).
Proof.
  rewrite oaep_of_eq, oek_of_eq, odk_of_eq. unfold oek_encrypt, odk_decrypt.
  cbn [oek_inner oek_label odk_inner odk_label public_encrypt scheme_decrypt oa_digest oa_mgf oa_label].
  split; [symmetry; apply oaep_api_encrypt_agree|].
  intros W U Ll. apply oaep_api_decrypt_agree; auto. apply check_public_ok; auto.
Qed.

Lemma c53_pkcs1_agree {R} (g : rng_ops R) fuel st rng k msg ct :
  p1ek_encrypt g fuel st (p1dk_encrypting_key (p1dk_new k)) msg
  = public_encrypt g fuel st (to_public_key k) PadPkcs1v15 msg /\
  p1dk_decrypt g fuel rng (p1dk_new k) ct = scheme_decrypt g fuel rng k PadPkcs1v15 ct.
Proof.
  unfold p1ek_encrypt, p1dk_encrypting_key, p1dk_new, p1dk_decrypt. cbn [p1dk_inner p1ek_inner].
  rewrite from_private_eq. split; reflexivity.
Qed.

Lemma c53_no_label {R} (g : rng_ops R) hd hm fuel st rng pk k msg ct :
  oek_encrypt g hd hm st (oek_new pk) msg = oek_encrypt g hd hm st (oek_new_with_label pk []) msg /\
  odk_decrypt g hd hm fuel rng (odk_new k) ct = odk_decrypt g hd hm fuel rng (odk_new_with_label k []) ct /\
  public_encrypt g fuel st pk (PadOaep (oaep_new_with_mgf_hash hd hm)) msg
  = public_encrypt g fuel st pk (PadOaep (oaep_new_with_mgf_hash_and_label hd hm [])) msg /\
  scheme_decrypt g fuel rng k (PadOaep (oaep_new_with_mgf_hash hd hm)) ct
  = scheme_decrypt g fuel rng k (PadOaep (oaep_new_with_mgf_hash_and_label hd hm [])) ct.
Proof. repeat split; reflexivity. Qed.

(** ** Message-level verification *)

Lemma p1vk_new_inv hd oid pk vk : p1vk_new hd oid pk = Ok vk ->
  p1vk_inner vk = pk /\ pkcs1v15_generate_prefix oid (h_size hd) = Ok (p1vk_prefix vk).
Proof.
  unfold p1vk_new. intros H. apply bind_ok in H. destruct H as (pre & P & H). injection H as <-. auto.
Qed.
Lemma p1sk_new_inv hd oid k sk : p1sk_new hd oid k = Ok sk ->
  p1sk_inner sk = k /\ pkcs1v15_generate_prefix oid (h_size hd) = Ok (p1sk_prefix sk).
Proof.
  unfold p1sk_new. intros H. apply bind_ok in H. destruct H as (pre & P & H). injection H as <-. auto.
Qed.

Lemma sig_object_32 sig s : 8 * Z.of_nat (length sig) < 2 ^ 32 -> signature_try_from sig = Ok s ->
  s = mkSig (mkU (os2ip sig) (prec_for (8 * Z.of_nat (length sig)))).
Proof.
  intros L H. unfold signature_try_from in H. rewrite sig_from_bytes_ok in H by auto. cbn [bind] in H. congruence.
Qed.

Lemma c54_p1_verify hd oid pk vk msg sig s :
  wf_pub pk -> uprec (pk_n pk) < 2 ^ 32 -> stored_minimally (pk_n pk) -> length sig = key_size pk ->
  (length oid + h_size hd + 8 <= 127)%nat ->
  p1vk_new hd oid pk = Ok vk -> signature_try_from sig = Ok s ->
  let rfc := rfc_pkcs1_verifies (uval (pk_n pk)) (uval (pk_e pk)) (key_size pk)
               (der (DigestInfo oid (h_fun hd msg))) sig in
  (p1vk_verify hd vk msg s = Ok tt <-> rfc) /\ (~ rfc -> p1vk_verify hd vk msg s = Err Verification).
Proof.
  intros W H32 Hm L Hs Hv Es rfc. destruct (p1vk_new_inv _ _ _ _ Hv) as (Hi & P).
  destruct (prefix_ok oid (h_size hd) Hs) as (pre & P' & D). rewrite P in P'. injection P' as P'.
  specialize (D (h_fun hd msg) (h_len hd msg)). rewrite <- P' in D.
  assert (L8 : 8 * Z.of_nat (length sig) < 2 ^ 32) by (rewrite L; apply len_32; auto).
  assert (Hh : hash_len_ok (mkP1S None (p1vk_prefix vk)) (h_fun hd msg)) by exact I.
  unfold p1vk_verify, digest_oneshot.
  rewrite (c23_pkcs1_decision vk None (h_fun hd msg) sig s L8 Es Hh). rewrite Hi.
  pose proof (c13_rfc pk (mkP1S None (p1vk_prefix vk)) (h_fun hd msg) sig W H32 Hm L Hh) as (A & B).
  cbn [p1_prefix] in A, B. rewrite D in A, B. split; [exact A|exact B].
Qed.

Lemma c54_p1_round {R} (g : rng_ops R) hd oid fuel rng k sk msg :
  (rng <> None -> rng_ok g) -> good_priv k -> uprec (pk_n (sk_pub k)) < 2 ^ 32 ->
  (length oid + h_size hd + 21 <= key_size (sk_pub k))%nat ->
  blinding_succeeds g (uval (pk_n (sk_pub k))) rng fuel ->
  p1sk_new hd oid k = Ok sk ->
  exists s, p1sk_sign g hd fuel rng sk msg = Ok s /\
    (p1vk_verify hd (p1sk_verifying_key sk) msg s = Ok tt <-> stored_minimally (pk_n (sk_pub k))) /\
    p1vk_new hd oid (to_public_key k) = Ok (p1sk_verifying_key sk).
Proof.
  intros Hr G H32 L B Hsk. destruct (p1sk_new_inv _ _ _ _ Hsk) as (Hi & P).
  pose proof (prefix_length _ _ _ P) as Lp.
  destruct (c12_keys g fuel rng k (p1sk_prefix sk) (h_fun hd msg) Hr G H32) as (s & E & V); [|exact B|].
  { rewrite app_length, h_len. lia. }
  assert (Esk : sk = mkP1SK k (p1sk_prefix sk)) by (destruct sk; cbn in *; subst; reflexivity).
  exists s. unfold p1sk_sign, p1vk_verify, digest_oneshot. rewrite Esk at 1 2.
  split; [exact E|]. split; [exact V|].
  unfold p1vk_new. rewrite P. cbn [bind]. unfold p1sk_verifying_key. rewrite Hi. reflexivity.
Qed.

Lemma c54_pss_verify hd sl pk msg sig s :
  (0 < h_size hd)%nat -> Z.of_nat (h_size hd + sl + 2) < 2 ^ 64 ->
  wf_pub pk -> uprec (pk_n pk) < 2 ^ 32 -> stored_minimally (pk_n pk) -> length sig = key_size pk ->
  signature_try_from sig = Ok s ->
  let v := psvk_verify hd (psvk_new_with_salt_len pk sl) msg s in
  let rfc := rfc_pss_verifies (h_fun hd) (h_size hd) sl (uval (pk_n pk)) (uval (pk_e pk)) (key_size pk)
                    (Z.to_nat (ubits (pk_n pk))) (h_fun hd msg) sig in
  (v = Ok tt \/ v = Err Verification) /\ (rfc -> v = Ok tt) /\
  ((Z.to_nat (ubits (pk_n pk)) mod 8 <> 1)%nat -> v = Ok tt -> rfc).
Proof.
  intros Hh Ho W H32 Hm L Es.
  apply (c16_keys hd (psvk_new_with_salt_len pk sl) (h_fun hd msg) sig s Hh Ho W H32 Hm L Es).
Qed.

Lemma c54_pss_round {R} (g : rng_ops R) hd fuel st st' bl k sl salt msg :
  rng_ok g -> (0 < h_size hd)%nat -> good_priv k -> uprec (pk_n (sk_pub k)) < 2 ^ 32 ->
  (h_size hd + sl + 2 <= pss_em_len (em_bits (sk_pub k)))%nat ->
  rng_fill g st sl = (Some salt, st') ->
  blinding_succeeds g (uval (pk_n (sk_pub k))) (opt_blind bl st') fuel ->
  let sk := pssk_new_with_salt_len bl k sl in
  exists s, pssk_sign g hd fuel st sk msg = Ok s /\
    (psvk_verify hd (pssk_verifying_key sk) msg s = Ok tt <-> stored_minimally (pk_n (sk_pub k))) /\
    pssk_verifying_key sk = psvk_new_with_salt_len (to_public_key k) sl.
Proof.
  intros Hg Hh G H32 L F B sk.
  destruct (c15_keys g hd fuel st st' bl k (h_fun hd msg) sl salt Hg Hh G H32 (h_len hd msg) L F B) as (s & E & V).
  exists s. split; [|split; [exact V|reflexivity]].
  unfold pssk_sign, pssk_sign_digest, digest_oneshot. destruct (pssk_blinded sk); exact E.
Qed.

(** ** Streaming *)

Lemma absorb_all hd chunks : forall pending,
  fold_left digest_update chunks (mkDigest hd pending) = mkDigest hd (pending ++ concat chunks).
Proof.
  induction chunks as [|c cs IH]; intros pending; cbn [fold_left concat]; [rewrite app_nil_r; reflexivity|].
  unfold digest_update at 2. cbn [d_fn d_pending]. rewrite IH, app_assoc. reflexivity.
Qed.

Lemma c54_streaming {R} (g : rng_ops R) hd fuel rng st k1 v1 k2 v2 s chunks :
  let d := fold_left digest_update chunks (digest_new hd) in
  let msg := concat chunks in
  p1sk_sign_digest g fuel rng k1 d = p1sk_sign g hd fuel rng k1 msg /\
  p1vk_verify_digest v1 d s = p1vk_verify hd v1 msg s /\
  pssk_sign_digest g hd fuel st k2 d = pssk_sign g hd fuel st k2 msg /\
  psvk_verify_digest hd v2 d s = psvk_verify hd v2 msg s.
Proof.
  intros d msg. unfold d, digest_new. rewrite absorb_all. cbn [app]. fold msg.
  unfold p1sk_sign_digest, p1vk_verify_digest, pssk_sign_digest, psvk_verify_digest, pssk_sign,
    p1sk_sign, p1vk_verify, psvk_verify, digest_oneshot. cbn [digest_finalize_reset fst d_fn d_pending].
  repeat split. destruct (pssk_blinded k2); reflexivity.
Qed.

(** ** Hexadecimal output *)

Definition alphabet (up : bool) : list byte := if up then upper_digits else lower_digits.

Lemma hex_digit_table up v : 0 <= v < 16 ->
  hex_digit up v = digit_of (alphabet up) v.
Proof.
  intros H. assert (C : v = 0 \/ v = 1 \/ v = 2 \/ v = 3 \/ v = 4 \/ v = 5 \/ v = 6 \/ v = 7 \/ v = 8 \/ v = 9 \/
    v = 10 \/ v = 11 \/ v = 12 \/ v = 13 \/ v = 14 \/ v = 15) by lia.
  repeat (destruct C as [->|C]; [destruct up; vm_compute; reflexivity|]). subst v. destruct up; vm_compute; reflexivity.
Qed.

Lemma hex_digit_inj up a b : 0 <= a < 16 -> 0 <= b < 16 -> hex_digit up a = hex_digit up b -> a = b.
Proof.
  intros Ha Hb. rewrite !hex_digit_table by auto. unfold digit_of. intros H.
  assert (N : NoDup (alphabet up)).
  { destruct up; repeat constructor; cbn [In]; intuition discriminate. }
  apply (proj1 (NoDup_nth _ x00) N) in H; [|destruct up; cbn [length alphabet upper_digits lower_digits]; lia..]. lia.
Qed.

Lemma hex_byte_inj up a b : hex_byte up a = hex_byte up b -> a = b.
Proof.
  unfold hex_byte. pose proof (b2z_range a) as Ra. pose proof (b2z_range b) as Rb. intros H. injection H as H1 H2.
  apply hex_digit_inj in H1; [|pose proof (Z.div_pos (b2z a) 16); pose proof (Z.div_lt_upper_bound (b2z a) 16 16); lia
                              |pose proof (Z.div_pos (b2z b) 16); pose proof (Z.div_lt_upper_bound (b2z b) 16 16); lia].
  apply hex_digit_inj in H2; [|apply Z.mod_pos_bound; lia..].
  apply b2z_inj. rewrite (Z.div_mod (b2z a) 16), (Z.div_mod (b2z b) 16), H1, H2 by lia. reflexivity.
Qed.

Lemma hex_inj up a : forall b, flat_map (hex_byte up) a = flat_map (hex_byte up) b -> a = b.
Proof.
  induction a as [|x a IH]; intros [|y b] H; auto; try discriminate.
  cbn [flat_map] in H. apply app_inj_len in H; [|reflexivity]. destruct H as (H1 & H2).
  apply hex_byte_inj in H1. subst. f_equal. auto.
Qed.

Lemma hex_length up l : length (flat_map (hex_byte up) l) = (2 * length l)%nat.
Proof. induction l as [|x l IH]; auto. cbn [flat_map length]. rewrite app_length, IH. cbn. lia. Qed.

Lemma hex_digits_split up n : forall m v, 0 <= v ->
  hex_digits up (n + m) v = hex_digits up n (v / 16 ^ Z.of_nat m) ++ hex_digits up m v.
Proof.
  intros m. induction m as [|m IH]; intros v Hv.
  - rewrite Nat.add_0_r. cbn [hex_digits]. rewrite app_nil_r. change (16 ^ Z.of_nat 0) with 1. rewrite Z.div_1_r. reflexivity.
  - rewrite Nat.add_succ_r. cbn [hex_digits]. rewrite IH by (apply Z.div_pos; lia).
    rewrite <- app_assoc. f_equal. f_equal. rewrite Nat2Z.inj_succ, Z.pow_succ_r by lia.
    rewrite Z.div_div by lia. reflexivity.
Qed.

Lemma hex_digits_mod up n : forall v w, 0 <= v -> v mod 16 ^ Z.of_nat n = w mod 16 ^ Z.of_nat n -> 
  hex_digits up n v = hex_digits up n w.
Proof.
  induction n as [|n IH]; intros v w Hv H; [reflexivity|]. cbn [hex_digits].
  rewrite Nat2Z.inj_succ, Z.pow_succ_r in H by lia.
  assert (P : 0 < 16 ^ Z.of_nat n) by (apply Z.pow_pos_nonneg; lia).
  rewrite !Z.rem_mul_r in H by lia.
  assert (M : v mod 16 = w mod 16 /\ (v / 16) mod 16 ^ Z.of_nat n = (w / 16) mod 16 ^ Z.of_nat n).
  { pose proof (Z.mod_pos_bound v 16). pose proof (Z.mod_pos_bound w 16). lia. }
  destruct M as (M1 & M2). rewrite M1. f_equal. apply IH; [apply Z.div_pos; lia|exact M2].
Qed.

Lemma hex_bytes_digits up l : flat_map (hex_byte up) l = hex_digits up (2 * length l) (os2ip l).
Proof.
  induction l as [|x l IH]; [reflexivity|]. cbn [flat_map length]. rewrite IH.
  replace (2 * S (length l))%nat with (2 + 2 * length l)%nat by lia.
  pose proof (os2ip_range l) as Rl. pose proof (b2z_range x) as Rx.
  assert (E16 : 16 ^ Z.of_nat (2 * length l) = 256 ^ Z.of_nat (length l)).
  { rewrite Nat2Z.inj_mul, Z.pow_mul_r by lia. reflexivity. }
  cbn [os2ip]. change (octet_val x) with (b2z x).
  rewrite hex_digits_split, E16 by lia.
  f_equal.
  - rewrite Z.div_add_l by lia. rewrite (Z.div_small (os2ip l)) by lia. rewrite Z.add_0_r.
    unfold hex_byte. cbn [hex_digits app]. f_equal. f_equal.
    rewrite Z.mod_small; [reflexivity|]. split; [apply Z.div_pos; lia|apply Z.div_lt_upper_bound; lia].
  - apply hex_digits_mod; [lia|]. rewrite E16. rewrite Z.add_comm, Z.mod_add by lia. reflexivity.
Qed.

Lemma limbs_hex up n : forall v, 0 <= v ->
  flat_map (hex_digits up 16) (map (fun i => v / 2 ^ (64 * Z.of_nat i) mod 2 ^ 64) (rev (seq 0 n)))
  = hex_digits up (16 * n) v.
Proof.
  induction n as [|n IH]; intros v Hv; [reflexivity|].
  rewrite seq_S, rev_app_distr. cbn [rev app map flat_map]. rewrite IH by auto.
  replace (16 * S n)%nat with (16 + 16 * n)%nat by lia. rewrite hex_digits_split by auto.
  f_equal. rewrite Nat.add_0_l.
  replace (2 ^ (64 * Z.of_nat n)) with (16 ^ Z.of_nat (16 * n)).
  2:{ change 16 with (2 ^ 4) at 1. rewrite <- Z.pow_mul_r by lia. f_equal. lia. }
  assert (0 <= v / 16 ^ Z.of_nat (16 * n)) by (apply Z.div_pos; [lia|apply Z.pow_pos_nonneg; lia]).
  symmetry. apply hex_digits_mod; [lia|]. change (16 ^ Z.of_nat 16) with (2 ^ 64).
  rewrite Z.mod_mod by lia. reflexivity.
Qed.

Lemma c55_pss_hex up s : wf_uint (sg_inner s) -> pss_signature_hex up s = signature_hex up s.
Proof.
  intros W. destruct (to_bytes_value s W) as (V & L).
  unfold pss_signature_hex, uint_limbs, signature_hex. rewrite hex_bytes_digits, V.
  destruct W as (W1 & W2 & W3). rewrite limbs_hex by lia. f_equal.
  pose proof (Z.div_mod (uprec (sg_inner s)) 64 ltac:(lia)) as D. rewrite W3 in D.
  assert (0 <= uprec (sg_inner s) / 64) by (apply Z.div_pos; lia). lia.
Qed.

Lemma hex_exact up l : flat_map (hex_byte up) l = hex_text (alphabet up) l.
Proof.
  unfold hex_text. apply flat_map_ext. intros x. change (octet_val x) with (b2z x).
  pose proof (b2z_range x). unfold hex_byte. rewrite !hex_digit_table; auto.
  - apply Z.mod_pos_bound; lia.
  - split; [apply Z.div_pos; lia|apply Z.div_lt_upper_bound; lia].
Qed.

(** What the text says: two digits per byte of the object's encoding, which has the
    object's precision; the value can be read back. *)
Lemma c55_hex up s : wf_uint (sg_inner s) ->
  signature_hex up s = hex_text (alphabet up) (signature_to_bytes s) /\
  4 * Z.of_nat (length (signature_hex up s)) = uprec (sg_inner s) /\
  (forall t, signature_hex up t = signature_hex up s -> signature_to_bytes t = signature_to_bytes s) /\
  pss_signature_hex up s = signature_hex up s.
Proof.
  intros W. destruct (to_bytes_value s W) as (V & L). repeat split.
  - apply hex_exact.
  - unfold signature_hex. rewrite hex_length. lia.
  - intros t. apply hex_inj.
  - apply c55_pss_hex, W.
Qed.

Lemma c55_eqb a b : signature_eqb a b = true <-> uval (sg_inner a) = uval (sg_inner b).
Proof. unfold signature_eqb, ueqb. apply Z.eqb_eq. Qed.

Lemma c55_bytes_eq a b : wf_uint (sg_inner a) -> wf_uint (sg_inner b) ->
  (signature_to_bytes a = signature_to_bytes b <->
   signature_eqb a b = true /\ uprec (sg_inner a) = uprec (sg_inner b)).
Proof.
  intros Wa Wb. destruct (to_bytes_value a Wa) as (Va & La). destruct (to_bytes_value b Wb) as (Vb & Lb).
  rewrite c55_eqb. split.
  - intros E. rewrite <- Va, <- Vb, <- La, <- Lb, E. auto.
  - intros (E1 & E2). assert (sg_inner a = sg_inner b) as E.
    { destruct (sg_inner a) as [va pa], (sg_inner b) as [vb pb]. cbn [uval uprec] in *. congruence. }
    unfold signature_to_bytes. rewrite E. reflexivity.
Qed.

(** ** OAEP key equality *)

Lemma label_eqb_eq a b : label_eqb a b = true <-> a = b.
Proof.
  destruct a, b; cbn [label_eqb]; try rewrite bytes_eqb_eq; split; intros H; try congruence; try discriminate.
Qed.

(** ** Random keys *)

Lemma c57_keys {R} (gp : prime_gen R) b fuel st :
  (forall hd oid,
     p1sk_random gp hd oid fuel st b
     = (let* k := private_new gp fuel st b in p1sk_new hd oid k)) /\
  p1sk_random_unprefixed gp fuel st b = (let* k := private_new gp fuel st b in Ok (p1sk_new_unprefixed k)) /\
  (forall hd bl, pssk_random gp hd bl fuel st b = (let* k := private_new gp fuel st b in Ok (pssk_new hd bl k))) /\
  (forall bl sl, pssk_random_with_salt_len gp bl fuel st b sl
     = (let* k := private_new gp fuel st b in Ok (pssk_new_with_salt_len bl k sl))).
Proof. repeat split; intros; reflexivity. Qed.

Lemma bind_inv {A B} (m : outcome A) (f : A -> outcome B) b : bind m f = Ok b -> exists a, m = Ok a /\ f a = Ok b.
Proof. apply bind_ok. Qed.

Lemma random_priv_32 {R} (gp : prime_gen R) b fuel st k :
  prime_source gp b -> 0 <= b < 2 ^ 32 -> private_new gp fuel st b = Ok k ->
  good_priv k /\ uprec (pk_n (sk_pub k)) < 2 ^ 32 /\ zbits (uval (pk_n (sk_pub k))) = b /\
  (stored_minimally (pk_n (sk_pub k)) <-> ~ 2 <= b mod 128 <= 64).
Proof.
  intros HG Hb H. unfold private_new in H.
  pose proof wf_exp as We.
  pose proof (c49_minimal gp b HG fuel st _ k Hb We H) as M.
  destruct (c30_valid gp b HG fuel st _ k Hb We H)
    as (p & q & _ & _ & _ & _ & _ & _ & Zn & _ & _ & _ & _ & _ & V & _ & G).
  split; [exact G|]. split; [|split; [exact Zn|exact M]].
  assert (W : wf_pub (sk_pub k)) by apply G.
  unfold validate in V. destruct (check_public_spec (sk_pub k) W) as [[E A]|(err & E & _)];
    rewrite E in V; [|discriminate V].
  unfold public_usable, public_acceptable in A. lia.
Qed.

Lemma c57_p1 {R} (gp : prime_gen R) {Q} (g : rng_ops Q) b gfuel st hd oid sk fuel rng msg :
  prime_source gp b -> 0 <= b < 2 ^ 32 ->
  p1sk_random gp hd oid gfuel st b = Ok sk ->
  (rng <> None -> rng_ok g) ->
  8 * (Z.of_nat (length oid + h_size hd) + 21) <= b ->
  blinding_succeeds g (uval (pk_n (sk_pub (p1sk_inner sk)))) rng fuel ->
  validate (p1sk_inner sk) = Ok tt /\ zbits (uval (pk_n (sk_pub (p1sk_inner sk)))) = b /\
  p1sk_new hd oid (p1sk_inner sk) = Ok sk /\
  exists s, p1sk_sign g hd fuel rng sk msg = Ok s /\
    (p1vk_verify hd (p1sk_verifying_key sk) msg s = Ok tt <-> ~ 2 <= b mod 128 <= 64).
Proof.
  intros HG Hb H Hr HL B. unfold p1sk_random in H. apply bind_ok in H. destruct H as (k & Hk & H).
  destruct (random_priv_32 gp b gfuel st k HG Hb Hk) as (G & H32 & Zn & M).
  assert (N : p1sk_new hd oid k = Ok sk) by exact H.
  destruct (p1sk_new_inv _ _ _ _ N) as (Ei & _). rewrite Ei in *.
  assert (V : validate k = Ok tt).
  { unfold private_new in Hk. pose proof wf_exp as We.
    destruct (c30_valid gp b HG gfuel st _ k Hb We Hk) as (p & q & Y).
    repeat (destruct Y as (?Y & Y); try assumption). }
  split; [exact V|]. split; [exact Zn|]. split; [exact N|].
  destruct (c54_p1_round g hd oid fuel rng k sk msg Hr G H32) as (s & E & V' & _); [|exact B|exact N|].
  - unfold key_size, ubits, div_ceil8. rewrite Zn.
    apply Nat.div_le_lower_bound; lia.
  - exists s. split; [exact E|]. rewrite V'. exact M.
Qed.

Lemma c57_pss {R} (gp : prime_gen R) {Q} (g : rng_ops Q) b gfuel st hd bl sk fuel q q' salt msg :
  prime_source gp b -> 0 <= b < 2 ^ 32 ->
  pssk_random gp hd bl gfuel st b = Ok sk ->
  rng_ok g -> (0 < h_size hd)%nat ->
  8 * (2 * Z.of_nat (h_size hd) + 2) < b ->
  rng_fill g q (h_size hd) = (Some salt, q') ->
  blinding_succeeds g (uval (pk_n (sk_pub (pssk_inner sk)))) (opt_blind bl q') fuel ->
  validate (pssk_inner sk) = Ok tt /\ zbits (uval (pk_n (sk_pub (pssk_inner sk)))) = b /\
  pssk_salt_len sk = h_size hd /\ pssk_blinded sk = bl /\
  exists s, pssk_sign g hd fuel q sk msg = Ok s /\
    (psvk_verify hd (pssk_verifying_key sk) msg s = Ok tt <-> ~ 2 <= b mod 128 <= 64).
Proof.
  intros HG Hb H Hr Hh HL F B. unfold pssk_random, pssk_random_with_salt_len in H. apply bind_ok in H.
  destruct H as (k & Hk & H). injection H as H. subst sk. cbn [pssk_inner pssk_salt_len pssk_blinded] in *.
  destruct (random_priv_32 gp b gfuel st k HG Hb Hk) as (G & H32 & Zn & M).
  assert (V : validate k = Ok tt).
  { unfold private_new in Hk. pose proof wf_exp as We.
    destruct (c30_valid gp b HG gfuel st _ k Hb We Hk) as (p & r & Y).
    repeat (destruct Y as (?Y & Y); try assumption). }
  split; [exact V|]. split; [exact Zn|]. split; [reflexivity|]. split; [reflexivity|].
  destruct (c54_pss_round g hd fuel q q' bl k (h_size hd) salt msg Hr Hh G H32) as (s & E & V' & _); [|exact F|exact B|].
  - unfold em_bits, ubits, pss_em_len. rewrite Zn.
    apply Nat.div_le_lower_bound; lia.
  - exists s. split; [exact E|]. rewrite V'. exact M.
Qed.

(** ** Binding *)

Lemma emsa_inj k EM T1 T2 : is_emsa_pkcs1 k EM T1 -> is_emsa_pkcs1 k EM T2 -> T1 = T2.
Proof.
  intros (L1 & E1) (L2 & E2). rewrite E1 in E2. unfold emsa_pkcs1 in E2. injection E2 as E2.
  assert (X : forall a b (s1 s2 : list byte), repeat xff a ++ x00 :: s1 = repeat xff b ++ x00 :: s2 -> s1 = s2).
  { clear. induction a as [|a IH]; intros [|b] s1 s2 H; cbn [repeat app] in H; try discriminate; try congruence.
    injection H as H. eauto. }
  eapply X; eauto.
Qed.

Lemma c60_pkcs1 pk pre1 pre2 h1 h2 s :
  wf_pub pk -> wf_uint (sg_inner s) ->
  p1vk_verify_prehash (mkP1VK pk pre1) h1 s = Ok tt ->
  p1vk_verify_prehash (mkP1VK pk pre2) h2 s = Ok tt -> pre1 ++ h1 = pre2 ++ h2.
Proof.
  intros W Ws V1 V2. unfold p1vk_verify_prehash in *. cbn [p1vk_inner p1vk_prefix] in *.
  destruct (pkcs1v15_verify_exact pk pre1 h1 (sg_inner s) W Ws) as [[_ A]|[A _]]; [|congruence].
  destruct (pkcs1v15_verify_exact pk pre2 h2 (sg_inner s) W Ws) as [[_ B]|[B _]]; [|congruence].
  eapply emsa_inj; [apply A|apply B].
Qed.

Lemma c60_p1_messages hd1 hd2 o1 o2 pk v1 v2 m1 m2 s :
  wf_pub pk -> wf_uint (sg_inner s) ->
  (length o1 + h_size hd1 + 8 <= 127)%nat -> (length o2 + h_size hd2 + 8 <= 127)%nat ->
  p1vk_new hd1 o1 pk = Ok v1 -> p1vk_new hd2 o2 pk = Ok v2 ->
  p1vk_verify hd1 v1 m1 s = Ok tt -> p1vk_verify hd2 v2 m2 s = Ok tt ->
  o1 = o2 /\ h_fun hd1 m1 = h_fun hd2 m2.
Proof.
  intros W Ws L1 L2 N1 N2 V1 V2.
  destruct (p1vk_new_inv _ _ _ _ N1) as (I1 & P1). destruct (p1vk_new_inv _ _ _ _ N2) as (I2 & P2).
  destruct v1 as [k1 pre1], v2 as [k2 pre2]. cbn [p1vk_inner p1vk_prefix] in *. subst k1 k2.
  unfold p1vk_verify, digest_oneshot in *.
  pose proof (c60_pkcs1 pk pre1 pre2 _ _ s W Ws V1 V2) as E.
  destruct (prefix_ok o1 (h_size hd1) L1) as (q1 & Q1 & D1). rewrite P1 in Q1. injection Q1 as <-.
  destruct (prefix_ok o2 (h_size hd2) L2) as (q2 & Q2 & D2). rewrite P2 in Q2. injection Q2 as <-.
  rewrite D1 in E by apply h_len. rewrite D2 in E by apply h_len.
  apply digest_info_inj in E; [exact E|rewrite h_len; lia..].
Qed.

Lemma pss_encode_bind hd mh1 mh2 salt1 salt2 em_bits :
  (0 < h_size hd)%nat -> length salt1 = length salt2 ->
  (h_size hd + length salt1 + 2 <= pss_em_len em_bits)%nat ->
  pss_encode (h_fun hd) (h_size hd) mh1 salt1 em_bits = pss_encode (h_fun hd) (h_size hd) mh2 salt2 em_bits ->
  salt1 = salt2 /\ h_fun hd (repeat x00 8 ++ mh1 ++ salt1) = h_fun hd (repeat x00 8 ++ mh2 ++ salt2).
Proof.
  intros Hh Ls L1 E. assert (L2 : (h_size hd + length salt2 + 2 <= pss_em_len em_bits)%nat) by lia.
  rewrite !pss_encode_parts in E. cbv zeta in E.
  set (h1 := h_fun hd (_ ++ _ ++ salt1)) in *. set (h2 := h_fun hd (_ ++ _ ++ salt2)) in *.
  assert (Lh : length h1 = h_size hd /\ length h2 = h_size hd) by (split; apply h_len).
  clearbody h1 h2. destruct Lh as (Lh1 & Lh2).
  apply app_inj_len in E.
  2:{ rewrite !clear_top_length, !xor_octets_length, !mgf1_length, !app_length, !vec_length by auto. cbn [length]. lia. }
  destruct E as (E1 & E2). apply app_inj_len in E2; [|lia]. destruct E2 as (-> & _). split; [|reflexivity].
  set (m := mgf1 _ _ h2 _) in *. assert (Lm : length m = (pss_em_len em_bits - h_size hd - 1)%nat) by (apply mgf1_length; auto).
  clearbody m. set (z := (8 * pss_em_len em_bits - em_bits)%nat) in *. assert (Hz : (z <= 7)%nat) by apply pss_z. clearbody z.
  apply (f_equal (fun l => clear_top z (xor_octets l m))) in E1.
  rewrite !clear_top_xor in E1 by auto.
  rewrite !xor_octets_invol in E1 by (rewrite !app_length, vec_length; cbn [length]; lia).
  rewrite !clear_top_DB in E1 by auto. rewrite <- !app_assoc in E1. cbn [app] in E1.
  eapply zeros_one_inj. exact E1.
Qed.

Lemma c60_pss hd pk sl h1 h2 s :
  (0 < h_size hd)%nat -> Z.of_nat (h_size hd + sl + 2) < 2 ^ 64 ->
  wf_pub pk -> uprec (pk_n pk) < 2 ^ 32 -> wf_uint (sg_inner s) ->
  psvk_verify_prehash hd (psvk_new_with_salt_len pk sl) h1 s = Ok tt ->
  psvk_verify_prehash hd (psvk_new_with_salt_len pk sl) h2 s = Ok tt ->
  exists salt, length salt = sl /\
    h_fun hd (repeat x00 8 ++ h1 ++ salt) = h_fun hd (repeat x00 8 ++ h2 ++ salt).
Proof.
  intros Hh Ho W H32 Ws. unfold psvk_verify_prehash, psvk_new_with_salt_len. cbn [psvk_inner psvk_salt_len].
  intros V1 V2.
  destruct (pss_verify_digest_total hd pk h1 sl (sg_inner s) Hh Ho W H32 Ws) as [(_ & _ & _ & A1)|(E & _)]; [|congruence].
  destruct (pss_verify_digest_total hd pk h2 sl (sg_inner s) Hh Ho W H32 Ws) as [(_ & _ & _ & A2)|(E & _)]; [|congruence].
  destruct A1 as (_ & B1 & salt1 & L1 & E1). destruct A2 as (_ & B2 & salt2 & L2 & E2).
  rewrite E1 in E2. apply pss_encode_bind in E2; [|auto|congruence|rewrite L1; exact B1].
  destruct E2 as (-> & E2). exists salt2. auto.
Qed.
