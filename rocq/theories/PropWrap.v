(** Properties of the key objects: C53 (encryption keys), C54 (message-level and
    streaming signatures), C55 (text of signatures), C56 (OAEP key equality), C57
    (random keys), C58 (constructors), C59 (default PSS identifier), C60 (binding). *)
From Coq Require Import ZArith List Bool Lia.
From Coq Require Import Init.Byte.
From Verif Require Import Base Bigint BytesLemmas SpecRFC SpecHex SpecSig SpecRng SpecKey SpecDer SpecGen MHash MPkcs1 MOaep MRsa MGenerate
  MKey MApi MWrap MDer MEncoding KeyDefs NumTheory.
From Verif Require Import PRsa POaep PHist PApi PSig PEnc PSign PGenerate PWrapEnc PWrap KeyExamples PropGen.
Import ListNotations.
Local Open Scope Z_scope.

(** An object identifier short enough for the example key: 1.2.3 *)
Definition oid_toy : list byte := [x2a; x03].

(** ** C53: encryption and decryption key objects *)

Theorem C53_pkcs1v15 : forall {R1 R2} (g1 : rng_ops R1) (g2 : rng_ops R2) f1 f2 st rng k msg PS,
  rng_ok g1 -> (rng <> None -> rng_ok g2) -> good_priv k -> usable_key (sk_pub k) ->
  (length msg + 11 <= key_size (sk_pub k))%nat ->
  padding_gives g1 f1 st (key_size (sk_pub k) - length msg - 3) PS ->
  blinding_succeeds g2 (uval (pk_n (sk_pub k))) rng f2 ->
  exists ct, p1ek_encrypt g1 f1 st (p1ek_new (to_public_key k)) msg = Ok ct /\
    p1ek_encrypt g1 f1 st (p1dk_encrypting_key (p1dk_new k)) msg = Ok ct /\
    p1dk_decrypt g2 f2 rng (p1dk_new k) ct = Ok msg /\
    (forall m', p1dk_decrypt g2 f2 rng (p1dk_new k) ct = Ok m' -> m' = msg).
Proof. exact @c53_pkcs1. Qed.

(** With or without a label; each side may use the key objects or the padding scheme. *)
Theorem C53_oaep : forall {R1 R2} (g1 : rng_ops R1) (g2 : rng_ops R2) f1 f2 st st' rng k hd hm label msg seed,
  rng_ok g1 -> (rng <> None -> rng_ok g2) -> (0 < h_size hm)%nat ->
  good_priv k -> usable_key (sk_pub k) -> (11 <= key_size (sk_pub k))%nat ->
  Z.of_nat (length (label_bytes label)) < 2 ^ 61 ->
  (length msg + 2 * h_size hd + 2 <= key_size (sk_pub k))%nat ->
  rng_fill g1 st (h_size hd) = (Some seed, st') ->
  blinding_succeeds g2 (uval (pk_n (sk_pub k))) rng f2 ->
  exists ct, oek_encrypt g1 hd hm st (oek_of label (to_public_key k)) msg = Ok ct /\
    public_encrypt g1 f1 st (to_public_key k) (PadOaep (oaep_of hd hm label)) msg = Ok ct /\
    odk_decrypt g2 hd hm f2 rng (odk_of label k) ct = Ok msg /\
    scheme_decrypt g2 f2 rng k (PadOaep (oaep_of hd hm label)) ct = Ok msg.
Proof. exact @c53_oaep. Qed.

(** On every input, good or bad, key objects and padding schemes return the same. *)
Theorem C53_agree : forall {R} (g : rng_ops R) hd hm fuel st rng label k msg ct,
  p1ek_encrypt g fuel st (p1dk_encrypting_key (p1dk_new k)) msg
  = public_encrypt g fuel st (to_public_key k) PadPkcs1v15 msg /\
  p1dk_decrypt g fuel rng (p1dk_new k) ct = scheme_decrypt g fuel rng k PadPkcs1v15 ct /\
  oek_encrypt g hd hm st (oek_of label (to_public_key k)) msg
  = public_encrypt g fuel st (to_public_key k) (PadOaep (oaep_of hd hm label)) msg /\
  (wf_pub (sk_pub k) -> usable_key (sk_pub k) -> Z.of_nat (length (label_bytes label)) < 2 ^ 61 ->
   odk_decrypt g hd hm fuel rng (odk_of label k) ct
   = scheme_decrypt g fuel rng k (PadOaep (oaep_of hd hm label)) ct).
Proof.
  intros. destruct (c53_pkcs1_agree g fuel st rng k msg ct).
  destruct (c53_oaep_agree g hd hm fuel st rng label k msg ct). auto.
Qed.

(** No label and the empty label are the same. *)
Theorem C53_no_label : forall {R} (g : rng_ops R) hd hm fuel st rng pk k msg ct,
  oek_encrypt g hd hm st (oek_new pk) msg = oek_encrypt g hd hm st (oek_new_with_label pk []) msg /\
  odk_decrypt g hd hm fuel rng (odk_new k) ct = odk_decrypt g hd hm fuel rng (odk_new_with_label k []) ct /\
  public_encrypt g fuel st pk (PadOaep (oaep_new_with_mgf_hash hd hm)) msg
  = public_encrypt g fuel st pk (PadOaep (oaep_new_with_mgf_hash_and_label hd hm [])) msg /\
  scheme_decrypt g fuel rng k (PadOaep (oaep_new_with_mgf_hash hd hm)) ct
  = scheme_decrypt g fuel rng k (PadOaep (oaep_new_with_mgf_hash_and_label hd hm [])) ct.
Proof. exact @c53_no_label. Qed.

Example C53_case : good_priv key91 /\ usable_key pub91 /\
  (let* ct := p1ek_encrypt count_rng 5 255 (p1dk_encrypting_key (p1dk_new key91)) [x41] in
   p1dk_decrypt count_rng 5 (Some 9) (p1dk_new key91) ct) = Ok [x41] /\
  (let* ct := oek_encrypt count_rng toy_hash toy_hash 77 (oek_new_with_label pub91 [x61]) [x68; x69] in
   odk_decrypt count_rng toy_hash toy_hash 5 None (odk_new_with_label key91 [x61]) ct) = Ok [x68; x69] /\
  (let* ct := oek_encrypt count_rng toy_hash toy_hash 77 (oek_new_with_label pub91 [x61]) [x68; x69] in
   odk_decrypt count_rng toy_hash toy_hash 5 None (odk_new key91) ct) = Err Decryption.
Proof.
  split; [exact good91|]. split.
  { unfold usable_key, public_usable, public_acceptable. repeat split; vm_compute; congruence. }
  split; [|split]; vm_compute; reflexivity.
Qed.

(** ** C54: signing and verifying messages *)

(** A PKCS#1 v1.5 verifying key accepts exactly the signatures of RFC 8017 8.2.2. *)
Theorem C54_pkcs1v15_verify : forall hd oid pk vk msg sig s,
  wf_pub pk -> uprec (pk_n pk) < 2 ^ 32 -> stored_minimally (pk_n pk) -> length sig = key_size pk ->
  (length oid + h_size hd + 8 <= 127)%nat ->
  p1vk_new hd oid pk = Ok vk -> signature_try_from sig = Ok s ->
  let rfc := rfc_pkcs1_verifies (uval (pk_n pk)) (uval (pk_e pk)) (key_size pk)
               (der (DigestInfo oid (h_fun hd msg))) sig in
  (p1vk_verify hd vk msg s = Ok tt <-> rfc) /\ (~ rfc -> p1vk_verify hd vk msg s = Err Verification).
Proof. exact c54_p1_verify. Qed.

(** The same for PSS (8.1.2), exactly unless the bit length is 1 modulo 8 (see C16). *)
Theorem C54_pss_verify : forall hd sl pk msg sig s,
  (0 < h_size hd)%nat -> Z.of_nat (h_size hd + sl + 2) < 2 ^ 64 ->
  wf_pub pk -> uprec (pk_n pk) < 2 ^ 32 -> stored_minimally (pk_n pk) -> length sig = key_size pk ->
  signature_try_from sig = Ok s ->
  let v := psvk_verify hd (psvk_new_with_salt_len pk sl) msg s in
  let rfc := rfc_pss_verifies (h_fun hd) (h_size hd) sl (uval (pk_n pk)) (uval (pk_e pk)) (key_size pk)
                    (Z.to_nat (ubits (pk_n pk))) (h_fun hd msg) sig in
  (v = Ok tt \/ v = Err Verification) /\ (rfc -> v = Ok tt) /\
  ((Z.to_nat (ubits (pk_n pk)) mod 8 <> 1)%nat -> v = Ok tt -> rfc).
Proof. exact c54_pss_verify. Qed.

Theorem C54_pkcs1v15_round_trip : forall {R} (g : rng_ops R) hd oid fuel rng k sk msg,
  (rng <> None -> rng_ok g) -> good_priv k -> uprec (pk_n (sk_pub k)) < 2 ^ 32 ->
  (length oid + h_size hd + 21 <= key_size (sk_pub k))%nat ->
  blinding_succeeds g (uval (pk_n (sk_pub k))) rng fuel ->
  p1sk_new hd oid k = Ok sk ->
  exists s, p1sk_sign g hd fuel rng sk msg = Ok s /\
    (p1vk_verify hd (p1sk_verifying_key sk) msg s = Ok tt <-> stored_minimally (pk_n (sk_pub k))) /\
    p1vk_new hd oid (to_public_key k) = Ok (p1sk_verifying_key sk).
Proof. exact @c54_p1_round. Qed.

Theorem C54_pss_round_trip : forall {R} (g : rng_ops R) hd fuel st st' bl k sl salt msg,
  rng_ok g -> (0 < h_size hd)%nat -> good_priv k -> uprec (pk_n (sk_pub k)) < 2 ^ 32 ->
  (h_size hd + sl + 2 <= pss_em_len (em_bits (sk_pub k)))%nat ->
  rng_fill g st sl = (Some salt, st') ->
  blinding_succeeds g (uval (pk_n (sk_pub k))) (opt_blind bl st') fuel ->
  let sk := pssk_new_with_salt_len bl k sl in
  exists s, pssk_sign g hd fuel st sk msg = Ok s /\
    (psvk_verify hd (pssk_verifying_key sk) msg s = Ok tt <-> stored_minimally (pk_n (sk_pub k))) /\
    pssk_verifying_key sk = psvk_new_with_salt_len (to_public_key k) sl.
Proof. exact @c54_pss_round. Qed.

(** However the message is cut into pieces fed to the hasher. *)
Theorem C54_streaming : forall {R} (g : rng_ops R) hd fuel rng st k1 v1 k2 v2 s chunks,
  let d := fold_left digest_update chunks (digest_new hd) in
  let msg := concat chunks in
  p1sk_sign_digest g fuel rng k1 d = p1sk_sign g hd fuel rng k1 msg /\
  p1vk_verify_digest v1 d s = p1vk_verify hd v1 msg s /\
  pssk_sign_digest g hd fuel st k2 d = pssk_sign g hd fuel st k2 msg /\
  psvk_verify_digest hd v2 d s = psvk_verify hd v2 msg s.
Proof. exact @c54_streaming. Qed.

Lemma minimal199 : stored_minimally (pk_n pub199) /\ uprec (pk_n pub199) < 2 ^ 32 /\ key_size pub199 = 25%nat.
Proof. split; [vm_compute; congruence|]. split; vm_compute; reflexivity. Qed.

Definition sig199 : signature := mkSig (mkU 102296531544465489233365964235528805260907508056109759771693 256).

Definition vk199 : p1_verifying_key :=
  match p1vk_new toy_hash oid_toy pub199 with Ok vk => vk | _ => p1vk_new_unprefixed pub199 end.

(** A signature over "hi" fed in two pieces; another message is rejected. *)
Example C54_case : good_priv key199 /\
  (let* sk := p1sk_new toy_hash oid_toy key199 in
   p1sk_sign_digest count_rng 5 None sk (fold_left digest_update [[x68]; []; [x69]] (digest_new toy_hash)))
  = Ok sig199 /\
  (let* vk := p1vk_new toy_hash oid_toy pub199 in p1vk_verify toy_hash vk [x68; x69] sig199) = Ok tt /\
  (let* vk := p1vk_new toy_hash oid_toy pub199 in p1vk_verify toy_hash vk [x68; x6a] sig199) = Err Verification.
Proof. split; [exact good199|]. split; [|split]; vm_compute; reflexivity. Qed.

Example C54_pss_case : good_priv key199 /\ stored_minimally (pk_n pub199) /\
  (let* s := pssk_sign count_rng toy_hash 5 4 (pssk_new toy_hash true key199) [x68; x69] in
   psvk_verify toy_hash (psvk_new toy_hash pub199) [x68; x69] s) = Ok tt.
Proof. split; [exact good199|]. split; [apply minimal199|]. vm_compute. reflexivity. Qed.

(** ** C55: signatures as text, and their equality *)

(** [{:x}], [{:X}] and [{}] of both signature types: two digits per byte, as many
    bytes as the object is wide. *)
Theorem C55_text : forall up s, wf_uint (sg_inner s) ->
  signature_hex up s = hex_text (if up then upper_digits else lower_digits)
                         (i2osp (uval (sg_inner s)) (Z.to_nat (uprec (sg_inner s) / 8))) /\
  pss_signature_hex up s = signature_hex up s /\
  signature_display s = signature_hex true s /\ pss_signature_display s = signature_hex true s.
Proof.
  intros up s W. split.
  - destruct (c55_hex up s W) as (E & _). rewrite E. unfold alphabet. f_equal.
    unfold signature_to_bytes, to_be_bytes. destruct up; symmetry; apply BigintLemmas.i2osp_be_bytes.
  - split; [apply c55_pss_hex, W|]. split; [reflexivity|]. apply c55_pss_hex, W.
Qed.

(** The text determines the byte encoding, and that determines value and width. *)
Theorem C55_text_injective : forall up s t, wf_uint (sg_inner s) -> wf_uint (sg_inner t) ->
  (signature_hex up s = signature_hex up t <-> sg_inner s = sg_inner t).
Proof.
  intros up s t Ws Wt. split.
  - intros E. apply hex_inj in E. apply c55_bytes_eq in E; auto. rewrite c55_eqb in E.
    destruct s as [[vs ps]], t as [[vt pt]]. cbn in *. destruct E. congruence.
  - intros E. unfold signature_hex, signature_to_bytes. rewrite E. reflexivity.
Qed.

(** [==] on signature objects compares values only. *)
Theorem C55_equality : forall a b, wf_uint (sg_inner a) -> wf_uint (sg_inner b) ->
  (signature_eqb a b = true <-> os2ip (signature_to_bytes a) = os2ip (signature_to_bytes b)) /\
  (signature_to_bytes a = signature_to_bytes b <->
   signature_eqb a b = true /\ length (signature_to_bytes a) = length (signature_to_bytes b)).
Proof.
  intros a b Wa Wb. destruct (to_bytes_value a Wa) as (Va & La). destruct (to_bytes_value b Wb) as (Vb & Lb).
  split; [rewrite Va, Vb; apply c55_eqb|].
  rewrite c55_bytes_eq by auto. split; intros (E1 & E2); (split; [exact E1|lia]).
Qed.

(** So equal signatures need not be interchangeable. *)
Theorem C55_equal_signatures_verify_alike_refuted : exists vk msg a b,
  signature_eqb a b = true /\ wf_uint (sg_inner a) /\ wf_uint (sg_inner b) /\
  p1vk_verify toy_hash vk msg a = Ok tt /\ p1vk_verify toy_hash vk msg b = Err Verification.
Proof.
  exists vk199, [x68; x69], sig199, (mkSig (mkU (uval (sg_inner sig199)) 320)).
  repeat split; vm_compute; congruence.
Qed.

Example C55_case : wf_uint (u_of_u64 42) /\
  signature_display (mkSig (u_of_u64 43)) = repeat x30 14 ++ [x32; x42] /\
  pss_signature_hex false (mkSig (mkU (2 ^ 64 + 171) 128))
  = repeat x30 15 ++ [x31] ++ repeat x30 14 ++ [x61; x62].
Proof. split; [unfold wf_uint; repeat split; vm_compute; congruence|]. split; vm_compute; reflexivity. Qed.

(** ** C56: equality of OAEP keys *)

Theorem C56_equality : forall a b c d,
  (oek_eqb a b = true <->
   uval (pk_n (oek_inner a)) = uval (pk_n (oek_inner b)) /\
   uval (pk_e (oek_inner a)) = uval (pk_e (oek_inner b)) /\ oek_label a = oek_label b) /\
  (odk_eqb c d = true <-> priv_eqb (odk_inner c) (odk_inner d) = true /\ odk_label c = odk_label d).
Proof.
  intros. unfold oek_eqb, odk_eqb, pub_eqb, ueqb. rewrite !andb_true_iff, !Z.eqb_eq, !label_eqb_eq. intuition.
Qed.

(** A key without label and one with the empty label differ, though they encrypt and
    decrypt alike (C53). *)
Theorem C56_empty_label : forall pk k,
  oek_eqb (oek_new pk) (oek_new_with_label pk []) = false /\
  odk_eqb (odk_new k) (odk_new_with_label k []) = false.
Proof. intros. unfold oek_eqb, odk_eqb. cbn [oek_label odk_label label_eqb]. rewrite !andb_false_r. auto. Qed.

Example C56_case : oek_eqb (oek_new_with_label pub91 [x61]) (oek_new_with_label pub91 [x61]) = true /\
  oek_eqb (oek_new_with_label pub91 [x61]) (oek_new_with_label pub91 [x62]) = false /\
  odk_eqb (odk_new key91) (odk_new key91_plain) = true.
Proof. repeat split; vm_compute; reflexivity. Qed.

(** ** C57: randomly generated signing keys *)

Theorem C57_pkcs1v15 : forall {R} (gp : prime_gen R) {Q} (g : rng_ops Q) b gfuel st hd oid sk fuel rng msg,
  prime_source gp b -> 0 <= b < 2 ^ 32 ->
  p1sk_random gp hd oid gfuel st b = Ok sk ->
  (rng <> None -> rng_ok g) ->
  8 * (Z.of_nat (length oid + h_size hd) + 21) <= b ->
  blinding_succeeds g (uval (pk_n (sk_pub (p1sk_inner sk)))) rng fuel ->
  validate (p1sk_inner sk) = Ok tt /\ zbits (uval (pk_n (sk_pub (p1sk_inner sk)))) = b /\
  p1sk_new hd oid (p1sk_inner sk) = Ok sk /\
  exists s, p1sk_sign g hd fuel rng sk msg = Ok s /\
    (p1vk_verify hd (p1sk_verifying_key sk) msg s = Ok tt <-> ~ 2 <= b mod 128 <= 64).
Proof. exact @c57_p1. Qed.

Theorem C57_pss : forall {R} (gp : prime_gen R) {Q} (g : rng_ops Q) b gfuel st hd bl sk fuel q q' salt msg,
  prime_source gp b -> 0 <= b < 2 ^ 32 ->
  pssk_random gp hd bl gfuel st b = Ok sk ->
  rng_ok g -> (0 < h_size hd)%nat ->
  8 * (2 * Z.of_nat (h_size hd) + 2) < b ->
  rng_fill g q (h_size hd) = (Some salt, q') ->
  blinding_succeeds g (uval (pk_n (sk_pub (pssk_inner sk)))) (opt_blind bl q') fuel ->
  validate (pssk_inner sk) = Ok tt /\ zbits (uval (pk_n (sk_pub (pssk_inner sk)))) = b /\
  pssk_salt_len sk = h_size hd /\ pssk_blinded sk = bl /\
  exists s, pssk_sign g hd fuel q sk msg = Ok s /\
    (psvk_verify hd (pssk_verifying_key sk) msg s = Ok tt <-> ~ 2 <= b mod 128 <= 64).
Proof. exact @c57_pss. Qed.

(** Generation through a signing key type returns, fails, panics or runs on exactly as
    generation of the bare key. *)
Theorem C57_constructors : forall {R} (gp : prime_gen R) b fuel st,
  (forall hd oid,
     p1sk_random gp hd oid fuel st b
     = (let* k := private_new gp fuel st b in p1sk_new hd oid k)) /\
  p1sk_random_unprefixed gp fuel st b = (let* k := private_new gp fuel st b in Ok (p1sk_new_unprefixed k)) /\
  (forall hd bl, pssk_random gp hd bl fuel st b = (let* k := private_new gp fuel st b in Ok (pssk_new hd bl k))) /\
  (forall bl sl, pssk_random_with_salt_len gp bl fuel st b sl
     = (let* k := private_new gp fuel st b in Ok (pssk_new_with_salt_len bl k sl))).
Proof. exact @c57_keys. Qed.

Example C57_case : prime_source toy_source 64 /\
  exists sk, pssk_random toy_source toy_hash true 2 0%nat 64 = Ok sk /\ sk_primes (pssk_inner sk) = [p64; q64] /\
    8 * (2 * Z.of_nat (h_size toy_hash) + 2) < 64 /\
    blinding_succeeds count_rng (uval (pk_n (sk_pub (pssk_inner sk)))) (Some 6) 1.
Proof.
  split; [exact toy_source_64|]. eexists. split; [vm_compute; reflexivity|]. split; [reflexivity|].
  split; [vm_compute; reflexivity|]. exists 0%nat. split; [lia|].
  eapply usable_now; [reflexivity|]. right. vm_compute. reflexivity.
Qed.

(** ** C58: constructors of the schemes *)

Theorem C58_pkcs1v15_new : forall oid hd s, pkcs1_sign_new oid hd = Ok s ->
  (forall {R} (g : rng_ops R) fuel rng k pk hashed sig, length hashed <> h_size hd ->
     scheme_sign g fuel rng k (SigPkcs1v15 s) hashed = Err InputNotHashed /\
     public_verify pk (SigPkcs1v15 s) hashed sig = Err InputNotHashed) /\
  (forall pk hashed sig, length hashed = h_size hd -> (length oid + h_size hd + 8 <= 127)%nat ->
     wf_pub pk -> uprec (pk_n pk) < 2 ^ 32 -> stored_minimally (pk_n pk) -> length sig = key_size pk ->
     (public_verify pk (SigPkcs1v15 s) hashed sig = Ok tt <->
      rfc_pkcs1_verifies (uval (pk_n pk)) (uval (pk_e pk)) (key_size pk) (der (DigestInfo oid hashed)) sig)).
Proof.
  intros oid hd s H. unfold pkcs1_sign_new in H. apply bind_inv in H. destruct H as (pre & P & H). injection H as <-.
  split.
  - intros R g fuel rng k pk hashed sig L.
    assert (C : check_hash_len (mkP1S (Some (h_size hd)) pre) hashed = Err InputNotHashed).
    { unfold check_hash_len, guard. cbn [p1_hash_len]. apply Nat.eqb_neq in L. rewrite L. reflexivity. }
    cbn [scheme_sign public_verify]. rewrite C. auto.
  - intros pk hashed sig L Lo W H32 Hm Ls.
    destruct (prefix_ok oid (h_size hd) Lo) as (pre' & P' & D). rewrite P in P'. injection P' as <-.
    destruct (c13_rfc pk (mkP1S (Some (h_size hd)) pre) hashed sig W H32 Hm Ls L) as (A & _).
    cbn [p1_prefix] in A. rewrite D in A by exact L. exact A.
Qed.

(** Without prefix any input is taken as it is. *)
Theorem C58_pkcs1v15_unprefixed : forall pk hashed sig,
  wf_pub pk -> uprec (pk_n pk) < 2 ^ 32 -> stored_minimally (pk_n pk) -> length sig = key_size pk ->
  (public_verify pk (SigPkcs1v15 pkcs1_sign_new_unprefixed) hashed sig = Ok tt <->
   rfc_pkcs1_verifies (uval (pk_n pk)) (uval (pk_e pk)) (key_size pk) hashed sig) /\
  (forall s, signature_try_from sig = Ok s ->
   (p1vk_verify_prehash (p1vk_new_unprefixed pk) hashed s = Ok tt <->
    rfc_pkcs1_verifies (uval (pk_n pk)) (uval (pk_e pk)) (key_size pk) hashed sig)).
Proof.
  intros pk hashed sig W H32 Hm L.
  destruct (c13_rfc pk pkcs1_sign_new_unprefixed hashed sig W H32 Hm L I) as (A & _).
  split; [exact A|]. intros s Es.
  rewrite (c23_pkcs1_decision (p1vk_new_unprefixed pk) None hashed sig s); [exact A| |exact Es|exact I].
  rewrite L. apply len_32; auto.
Qed.

(** The four PSS constructors; signatures of one are accepted by the others with the
    same salt length. *)
Theorem C58_pss : forall {R} (g : rng_ops R) hd fuel st st' k hashed sl salt a b,
  rng_ok g -> (0 < h_size hd)%nat -> good_priv k -> uprec (pk_n (sk_pub k)) < 2 ^ 32 ->
  length hashed = h_size hd -> (h_size hd + sl + 2 <= pss_em_len (em_bits (sk_pub k)))%nat ->
  rng_fill g st sl = (Some salt, st') ->
  blinding_succeeds g (uval (pk_n (sk_pub k))) (Some st') fuel ->
  let scheme s := s = pss_new_with_salt hd sl \/ s = pss_new_blinded_with_salt hd sl \/
                  (sl = h_size hd /\ (s = pss_new hd \/ s = pss_new_blinded hd)) in
  scheme a -> scheme b ->
  exists sig, private_sign_with_rng g fuel st k (SigPss a) hashed = Ok sig /\
    public_verify (sk_pub k) (SigPss b) hashed sig = Ok tt.
Proof.
  intros R g hd fuel st st' k hashed sl salt a b Hg Hh G H32 Lh Ls F B scheme Ha Hb.
  assert (N : forall s, scheme s -> exists bl, s = mkPss bl (digest_new hd) sl).
  { intros s [->|[->|(-> & [->| ->])]]; eexists; reflexivity. }
  destruct (N a Ha) as (bl & ->). destruct (N b Hb) as (bl' & ->).
  assert (Bl : blinding_succeeds g (uval (pk_n (sk_pub k))) (opt_blind bl st') fuel) by (destruct bl; [exact B|exact I]).
  destruct (c15_scheme g hd fuel st st' bl k hashed sl salt Hg Hh G H32 Lh Ls F Bl) as (sig & E & V).
  exists sig. split; [exact E|exact V].
Qed.

(** Which of the four ask the RNG for a blinding factor: with an RNG that yields the salt
    and then fails, the two plain constructors still sign and the two blinded ones report
    the failure. *)
Theorem C58_pss_blinding : forall {R} (g : rng_ops R) hd fuel st st' k hashed sl salt,
  rng_ok g -> (0 < h_size hd)%nat -> good_priv k -> uprec (pk_n (sk_pub k)) < 2 ^ 32 ->
  length hashed = h_size hd -> (h_size hd + sl + 2 <= pss_em_len (em_bits (sk_pub k)))%nat ->
  rng_fill g st sl = (Some salt, st') ->
  blinding_fails g (uval (pk_n (sk_pub k))) (Some st') fuel ->
  let sign s := private_sign_with_rng g fuel st k (SigPss s) hashed in
  (exists sig, sign (pss_new_with_salt hd sl) = Ok sig) /\
  sign (pss_new_blinded_with_salt hd sl) = Err Rng /\
  (sl = h_size hd -> (exists sig, sign (pss_new hd) = Ok sig) /\ sign (pss_new_blinded hd) = Err Rng).
Proof.
  intros R g hd fuel st st' k hashed sl salt Hg Hh G H32 Lh Ls F B sign.
  destruct (c15_scheme g hd fuel st st' false k hashed sl salt Hg Hh G H32 Lh Ls F I) as (sig & E & _).
  destruct (c41_pss_sign g hd fuel st true k hashed sl Hg Hh G H32) as (_ & X).
  specialize (X salt st' F eq_refl Lh Ls B).
  split; [exists sig; exact E|]. split; [exact X|].
  intros ->. split; [exists sig; exact E|exact X].
Qed.

(** The mask generation hash defaults to the hash, the label to the empty one. *)
Theorem C58_oaep : forall {R1 R2} (g1 : rng_ops R1) (g2 : rng_ops R2) f1 f2 st st' rng k hd msg seed l a b,
  rng_ok g1 -> (rng <> None -> rng_ok g2) -> (0 < h_size hd)%nat ->
  good_priv k -> usable_key (sk_pub k) -> (11 <= key_size (sk_pub k))%nat ->
  Z.of_nat (length l) < 2 ^ 61 ->
  (length msg + 2 * h_size hd + 2 <= key_size (sk_pub k))%nat ->
  rng_fill g1 st (h_size hd) = (Some seed, st') ->
  blinding_succeeds g2 (uval (pk_n (sk_pub k))) rng f2 ->
  let scheme o := o = oaep_new_with_label hd l \/ o = oaep_new_with_mgf_hash_and_label hd hd l \/
                  (l = [] /\ (o = oaep_new hd \/ o = oaep_new_with_mgf_hash hd hd)) in
  scheme a -> scheme b ->
  exists ct, public_encrypt g1 f1 st (sk_pub k) (PadOaep a) msg = Ok ct /\
             scheme_decrypt g2 f2 rng k (PadOaep b) ct = Ok msg.
Proof.
  intros R1 R2 g1 g2 f1 f2 st st' rng k hd msg seed l a b H1 H2 Hh G U K L Lm F B scheme Ha Hb.
  assert (Lb : Z.of_nat (length (label_bytes (Some l))) < 2 ^ 61) by exact L.
  destruct (c02_round_trip g1 g2 f1 f2 st st' rng k hd hd (Some l) msg seed H1 H2 Hh G U K Lb Lm F B)
    as (ct & E & _ & D & _).
  assert (N : forall s, scheme s -> exists label, s = mkOaep (digest_new hd) (digest_new hd) label /\ label_bytes label = l).
  { intros s [->|[->|(-> & [->| ->])]]; eexists; split; reflexivity. }
  destruct (N a Ha) as (la & -> & La). destruct (N b Hb) as (lb & -> & Lb').
  exists ct. split.
  - rewrite <- E. clear - La. destruct la; cbn [label_bytes] in La; subst l; reflexivity.
  - rewrite <- D. clear - Lb'. destruct lb; cbn [label_bytes] in Lb'; subst l; reflexivity.
Qed.

(** An RNG that answers its first request only. *)
Definition once_rng : rng_ops bool :=
  mkRng bool (fun st n => if st then (None, true) else (Some (repeat x2a n), true))
             (fun st m => if st then (None, true) else (Some (2 mod m), true)).

Example C58_pss_blinding_case :
  rng_fill once_rng false 2 = (Some [x2a; x2a], true) /\
  blinding_fails once_rng (uval (pk_n pub199)) (Some true) 5 /\
  is_ok (private_sign_with_rng once_rng 5 false key199 (SigPss (pss_new toy_hash)) [x0a; x0b]) = true /\
  private_sign_with_rng once_rng 5 false key199 (SigPss (pss_new_blinded toy_hash)) [x0a; x0b] = Err Rng.
Proof.
  split; [reflexivity|]. split; [exists 0%nat; split; [lia|]; eapply fails_now; reflexivity|].
  split; vm_compute; reflexivity.
Qed.

Example C58_case :
  (exists s, pkcs1_sign_new oid_toy toy_hash = Ok s /\
     private_sign count_rng 5 key199 (SigPkcs1v15 s) [x41] = Err InputNotHashed /\
     (let* sig := private_sign count_rng 5 key199 (SigPkcs1v15 s) [x41; x42] in
      public_verify pub199 (SigPkcs1v15 s) [x41; x42] sig) = Ok tt) /\
  (let* sig := private_sign_with_rng count_rng 5 4 key199 (SigPss (pss_new toy_hash)) [x0a; x0b] in
   public_verify pub199 (SigPss (pss_new_blinded_with_salt toy_hash 2)) [x0a; x0b] sig) = Ok tt /\
  (let* ct := public_encrypt count_rng 5 77 pub91 (PadOaep (oaep_new toy_hash)) [x68] in
   private_decrypt count_rng 5 key91 (PadOaep (oaep_new_with_label toy_hash [])) ct) = Ok [x68].
Proof.
  split; [eexists; split; [vm_compute; reflexivity|split; vm_compute; reflexivity]|].
  split; vm_compute; reflexivity.
Qed.

(** ** C59: the default PSS algorithm identifier *)

(** It is that of a signing key made with the default salt length, and describes
    such a key exactly when the digest has fewer than 256 bytes. *)
Theorem C59_default_identifier : forall hd oid bl k,
  get_default_pss_signature_algo_id hd oid = pssk_algorithm_id oid (pssk_new hd bl k) /\
  psa_oid (get_default_pss_signature_algo_id hd oid) = id_RSASSA_PSS /\
  psp_hash (psa_params (get_default_pss_signature_algo_id hd oid)) = oid /\
  psp_mgf_hash (psa_params (get_default_pss_signature_algo_id hd oid)) = oid /\
  (psp_salt_len (psa_params (get_default_pss_signature_algo_id hd oid)) = Z.of_nat (h_size hd) <->
   (h_size hd < 256)%nat).
Proof.
  intros hd oid bl k. split; [reflexivity|].
  destruct (c44_identifier oid (pssk_new hd bl k)) as (A & B & C & _ & D). auto.
Qed.

Example C59_case : psp_salt_len (psa_params (get_default_pss_signature_algo_id toy_hash oid_toy)) = 2.
Proof. reflexivity. Qed.

(** ** C60: a signature binds hash function and message *)

(** The same signature object, accepted by two PKCS#1 v1.5 verifying keys for the same
    public key: same algorithm and same digest. *)
Theorem C60_pkcs1v15 : forall hd1 hd2 o1 o2 pk v1 v2 m1 m2 s,
  wf_pub pk -> wf_uint (sg_inner s) ->
  (length o1 + h_size hd1 + 8 <= 127)%nat -> (length o2 + h_size hd2 + 8 <= 127)%nat ->
  p1vk_new hd1 o1 pk = Ok v1 -> p1vk_new hd2 o2 pk = Ok v2 ->
  p1vk_verify hd1 v1 m1 s = Ok tt -> p1vk_verify hd2 v2 m2 s = Ok tt ->
  o1 = o2 /\ h_fun hd1 m1 = h_fun hd2 m2.
Proof. exact c60_p1_messages. Qed.

(** Without prefix the input itself is bound; and an unprefixed verifier accepts a
    prefixed signature only for the whole DigestInfo. *)
Theorem C60_unprefixed : forall hd oid pk v m h1 h2 s,
  wf_pub pk -> wf_uint (sg_inner s) ->
  p1vk_verify_prehash (p1vk_new_unprefixed pk) h1 s = Ok tt ->
  (p1vk_verify_prehash (p1vk_new_unprefixed pk) h2 s = Ok tt -> h1 = h2) /\
  ((length oid + h_size hd + 8 <= 127)%nat -> p1vk_new hd oid pk = Ok v ->
   p1vk_verify hd v m s = Ok tt -> h1 = der (DigestInfo oid (h_fun hd m))).
Proof.
  intros hd oid pk v m h1 h2 s W Ws V1. split.
  - intros V2. exact (c60_pkcs1 pk [] [] h1 h2 s W Ws V1 V2).
  - intros L N V2. destruct (p1vk_new_inv _ _ _ _ N) as (I & P).
    destruct v as [k pre]. cbn [p1vk_inner p1vk_prefix] in *. subst k.
    pose proof (c60_pkcs1 pk [] pre h1 _ s W Ws V1 V2) as E. cbn [app] in E. rewrite E.
    destruct (prefix_ok oid (h_size hd) L) as (q & Q & D). rewrite P in Q. injection Q as <-.
    apply D, h_len.
Qed.

(** PSS: two messages accepted with one signature give a collision of the hash
    function at explicit inputs, or have the same digest. *)
Theorem C60_pss : forall hd pk sl m1 m2 s,
  (0 < h_size hd)%nat -> Z.of_nat (h_size hd + sl + 2) < 2 ^ 64 ->
  wf_pub pk -> uprec (pk_n pk) < 2 ^ 32 -> wf_uint (sg_inner s) ->
  psvk_verify hd (psvk_new_with_salt_len pk sl) m1 s = Ok tt ->
  psvk_verify hd (psvk_new_with_salt_len pk sl) m2 s = Ok tt ->
  exists salt, length salt = sl /\
    h_fun hd (repeat x00 8 ++ h_fun hd m1 ++ salt) = h_fun hd (repeat x00 8 ++ h_fun hd m2 ++ salt).
Proof. intros hd pk sl m1 m2 s. apply c60_pss. Qed.

(** With another object identifier the signature is rejected. *)
Example C60_case : oid_toy <> [x2a; x04] /\
  (let* vk := p1vk_new toy_hash oid_toy pub199 in p1vk_verify toy_hash vk [x68; x69] sig199) = Ok tt /\
  (let* vk := p1vk_new toy_hash [x2a; x04] pub199 in p1vk_verify toy_hash vk [x68; x69] sig199) = Err Verification.
Proof. split; [discriminate|]. split; vm_compute; reflexivity. Qed.

Print Assumptions C53_pkcs1v15.
Print Assumptions C53_oaep.
Print Assumptions C53_agree.
Print Assumptions C53_no_label.
Print Assumptions C54_pkcs1v15_verify.
Print Assumptions C54_pss_verify.
Print Assumptions C54_pkcs1v15_round_trip.
Print Assumptions C54_pss_round_trip.
Print Assumptions C54_streaming.
Print Assumptions C55_text.
Print Assumptions C55_text_injective.
Print Assumptions C55_equality.
Print Assumptions C55_equal_signatures_verify_alike_refuted.
Print Assumptions C56_equality.
Print Assumptions C56_empty_label.
Print Assumptions C57_pkcs1v15.
Print Assumptions C57_pss.
Print Assumptions C57_constructors.
Print Assumptions C58_pkcs1v15_new.
Print Assumptions C58_pkcs1v15_unprefixed.
Print Assumptions C58_pss.
Print Assumptions C58_pss_blinding.
Print Assumptions C58_oaep.
Print Assumptions C59_default_identifier.
Print Assumptions C60_pkcs1v15.
Print Assumptions C60_unprefixed.
Print Assumptions C60_pss.
