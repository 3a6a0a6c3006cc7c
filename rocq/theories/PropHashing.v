(** Property C104: how much a call hashes, and what verifying a signature costs.

    The amounts are read off the traces of MLeak.v, MLeakEnc.v and MLeakVerify.v, whose
    results are those of the plain functions (C70, and [C104_same_results] below). *)
From Coq Require Import ZArith List Bool Lia.
From Coq Require Import Init.Byte.
From Verif Require Import Base Bigint BytesLemmas SpecRFC SpecRng SpecKey SpecDer SpecWork SpecHashing MHash MOaep MRsa MKey MApi
  MEncoding MLeak MLeakEnc MLeakVerify KeyDefs KeyExamples.
From Verif Require Import PRsa PPss PApi PSig PLeak PLeakVerify PWork PCodec PHashing PropLeak PropEncoding.
Import ListNotations.
Local Open Scope Z_scope.

(** The traced verification functions compute what the plain ones do. *)
Theorem C104_same_results :
  (forall pk prefix hashed sig, result (l_pkcs1v15_verify pk prefix hashed sig) = pkcs1v15_verify pk prefix hashed sig) /\
  (forall pk hashed sig n dg sl, result (l_pss_verify pk hashed sig n dg sl) = pss_verify pk hashed sig n dg sl) /\
  (forall hd pk hashed sig sl, result (l_pss_verify_digest hd pk hashed sig sl) = pss_verify_digest hd pk hashed sig sl) /\
  (forall k s hashed sig, result (l_public_verify k s hashed sig) = public_verify k s hashed sig).
Proof.
  split; [exact rf_pkcs1_verify|]. split; [exact rf_pss_verify|]. split; [exact rf_pss_verify_digest|exact rf_public_verify].
Qed.

Lemma bit_len_unique n b b' : is_bit_len n b -> is_bit_len n b' -> b = b'.
Proof.
  intros (A & B) (A' & B'). destruct (Nat.lt_trichotomy b b') as [L|[L|L]]; [|exact L|].
  - assert (2 ^ Z.of_nat b <= 2 ^ (Z.of_nat b' - 1)) by (apply Z.pow_le_mono_r; lia). lia.
  - assert (2 ^ Z.of_nat b' <= 2 ^ (Z.of_nat b - 1)) by (apply Z.pow_le_mono_r; lia). lia.
Qed.

(** OAEP decryption with a valid key.  Nothing is hashed for a ciphertext of the wrong
    length or not below the modulus, or when blinding fails.  Otherwise the label is hashed
    and both masks are generated in full: right or wrong padding, right or wrong label, the
    amounts are the same.  A hash function too large for the key stops after the label. *)
Theorem C104_decrypt_oaep : forall {R} (g : rng_ops R) fuel rng k ct hd hm label,
  (rng <> None -> rng_ok g) -> good_priv k -> (0 < h_size hm)%nat ->
  (11 <= key_size (sk_pub k))%nat -> uprec (pk_n (sk_pub k)) < 2 ^ 32 ->
  let n := uval (pk_n (sk_pub k)) in let K := key_size (sk_pub k) in let l := length (label_bytes label) in
  let claim W :=
    (length ct <> K \/ n <= os2ip ct \/ 2 ^ 61 <= Z.of_nat l -> W = []) /\
    (length ct = K -> os2ip ct < n -> Z.of_nat l < 2 ^ 61 ->
     (blinding_succeeds g n rng fuel ->
        (h_size hd * 2 + 2 <= K -> W = oaep_hashings (h_size hd) (h_size hm) l K)%nat /\
        (K < h_size hd * 2 + 2 -> W = [l])%nat) /\
     (blinding_fails g n rng fuel \/ blinding_undecided g n rng fuel -> W = [])) in
  claim (hashings (trace (l_oaep_api_decrypt g fuel rng k ct (digest_new hd) (digest_new hm) label))) /\
  (public_usable n (uval (pk_e (sk_pub k))) (uprec (pk_n (sk_pub k))) ->
   claim (hashings (trace (l_oaep_api_decrypt_digest g hd hm fuel rng k ct label)))).
Proof.
  intros R g fuel rng k ct hd hm label Hr Hk Hm K11 H32 n K l claim.
  pose proof (good_pub k Hk) as Hp. destruct (key_size_facts _ Hp) as (_ & K2 & _). fold K in K2.
  destruct (hashed_api_decrypt g hd hm fuel rng k ct label Hm Hk K11 H32) as (A & B). fold K l in A, B.
  unfold hashed in A, B.
  assert (X : claim (if (length ct =? K)%nat
             then match decrypt_core g fuel rng k ct with
                  | Ok _ => oaep_hashing (h_size hd) (h_size hm) l K | _ => [] end else [])).
  { unfold claim, oaep_hashing. destruct (Nat.eqb_spec (length ct) K) as [L|L].
    2:{ split; [reflexivity|]. intros; contradiction. }
    destruct (Z.leb_spec (2 ^ 61) (Z.of_nat l)) as [Ll|Ll].
    { split; [intros _; destruct (decrypt_core g fuel rng k ct); reflexivity|intros; lia]. }
    split.
    - intros [?|[H|?]]; [contradiction| |lia]. rewrite decrypt_core_range by (auto; rewrite L; exact K2). reflexivity.
    - intros _ C _. destruct (decrypt_core_good g fuel rng k ct Hr Hk ltac:(rewrite L; exact K2) C) as (D & E & F). split.
      + intros T. rewrite (D T). destruct (Nat.ltb_spec K (h_size hd * 2 + 2)); split; intros; try lia; reflexivity.
      + intros [T|T]; [rewrite (E T)|rewrite (F T)]; reflexivity. }
  split; [rewrite A; exact X|]. intros Hu. rewrite (B Hu). exact X.
Qed.

(** Two ciphertexts of the 12-octet key, one decrypting and one not: the label of three
    octets, one application for the seed's mask and five for the block's, each time. *)
Definition ct91 : list byte := Eval vm_compute in
  match oaep_api_encrypt_digest count_rng toy_hash toy_hash 3 pub91 [x41] (Some [x61; x62; x63]) with Ok c => c | _ => [] end.
Definition bad91 : list byte := Eval vm_compute in removelast ct91 ++ [x00].
Example C104_decrypt_case :
  let W c := hashings (trace (l_oaep_api_decrypt_digest count_rng toy_hash toy_hash 5 None key91 c (Some [x61; x62; x63]))) in
  good_priv key91 /\ (11 <= key_size (sk_pub key91))%nat /\
  oaep_api_decrypt_digest count_rng toy_hash toy_hash 5 None key91 ct91 (Some [x61; x62; x63]) = Ok [x41] /\
  oaep_api_decrypt_digest count_rng toy_hash toy_hash 5 None key91 bad91 (Some [x61; x62; x63]) = Err Decryption /\
  W ct91 = [3; 13; 6; 6; 6; 6; 6]%nat /\ W bad91 = [3; 13; 6; 6; 6; 6; 6]%nat /\
  oaep_hashings 2 2 3 12 = [3; 13; 6; 6; 6; 6; 6]%nat.
Proof.
  intros W. split; [exact good91|]. split; [vm_compute; lia|]. split; [vm_compute; reflexivity|]. split; [vm_compute; reflexivity|].
  split; [vm_compute; reflexivity|]. split; [vm_compute; reflexivity|]. reflexivity.
Qed.

(** OAEP encryption: the label is hashed before the length of the message is looked at;
    the masks only when the message fits and the seed could be drawn. *)
Theorem C104_encrypt_oaep : forall {R} (g : rng_ops R) st pk msg hd hm label,
  rng_ok g -> wf_pub pk -> (0 < h_size hm)%nat ->
  let K := key_size pk in let l := length (label_bytes label) in
  let claim W :=
    (~ public_usable (uval (pk_n pk)) (uval (pk_e pk)) (uprec (pk_n pk)) \/ 2 ^ 61 <= Z.of_nat l -> W = []) /\
    (public_usable (uval (pk_n pk)) (uval (pk_e pk)) (uprec (pk_n pk)) -> Z.of_nat l < 2 ^ 61 ->
     (K < length msg + 2 * h_size hd + 2 -> W = [l])%nat /\
     ((length msg + 2 * h_size hd + 2 <= K)%nat ->
      (fst (rng_fill g st (h_size hd)) = None -> W = [l]) /\
      (fst (rng_fill g st (h_size hd)) <> None -> W = oaep_encrypt_hashings (h_size hd) (h_size hm) l K))) in
  claim (hashings (trace (l_oaep_api_encrypt g st pk msg (digest_new hd) (digest_new hm) label))) /\
  claim (hashings (trace (l_oaep_api_encrypt_digest g hd hm st pk msg label))).
Proof.
  intros R g st pk msg hd hm label Hg Hp Hm K l claim.
  destruct (hashed_api_encrypt g hd hm st pk msg label Hg Hm Hp) as (A & B). fold K l in A, B. unfold hashed in A, B.
  assert (X : claim (match check_public pk with
     | Ok _ => oaep_encrypt_hashing g st (h_size hd) (h_size hm) l (length msg) K | _ => [] end)).
  { unfold claim, oaep_encrypt_hashing. split.
    - intros [H|H].
      + destruct (check_public pk) as [[]| | |] eqn:C; try reflexivity. apply check_public_ok in C; auto. contradiction.
      + destruct (Z.leb_spec (2 ^ 61) (Z.of_nat l)); [|lia]. destruct (check_public pk); reflexivity.
    - intros Hu Hl. apply check_public_ok in Hu; auto. rewrite Hu.
      destruct (Z.leb_spec (2 ^ 61) (Z.of_nat l)); [lia|].
      destruct (Nat.ltb_spec K (length msg + 2 * h_size hd + 2)); (split; [intros; try lia; reflexivity|]); intros; try lia.
      destruct (rng_fill g st (h_size hd)) as [[s|] st']; cbn [fst]; (split; [intros; try discriminate; reflexivity|]);
        intros; try reflexivity. contradiction. }
  split; [rewrite A; exact X|rewrite B; exact X].
Qed.

Example C104_encrypt_case :
  let W m := hashings (trace (l_oaep_api_encrypt_digest count_rng toy_hash toy_hash 3 pub91 m (Some [x61; x62; x63]))) in
  wf_pub pub91 /\ W [x41] = [3; 6; 6; 6; 6; 6; 13]%nat /\ W (repeat x41 7) = [3%nat] /\
  oaep_encrypt_hashings 2 2 3 12 = [3; 6; 6; 6; 6; 6; 13]%nat.
Proof.
  intros W. split; [exact wf_pub91|]. split; [vm_compute; reflexivity|]. split; [vm_compute; reflexivity|]. reflexivity.
Qed.

(** PSS signing: everything is hashed before the private key is used. *)
Theorem C104_sign_pss : forall {R} (g : rng_ops R) fuel st blind k hashed sl hd b,
  rng_ok g -> (0 < h_size hd)%nat -> wf_pub (sk_pub k) -> uprec (pk_n (sk_pub k)) < 2 ^ 32 ->
  is_bit_len (uval (pk_n (sk_pub k))) b ->
  let emLen := pss_em_len (b - 1) in
  let claim W :=
    (fst (rng_fill g st sl) = None \/ length hashed <> h_size hd \/ (emLen < h_size hd + sl + 2)%nat -> W = []) /\
    (fst (rng_fill g st sl) <> None -> length hashed = h_size hd -> (h_size hd + sl + 2 <= emLen)%nat ->
     W = pss_hashings (h_size hd) sl emLen) in
  claim (hashings (trace (l_pss_sign g fuel st blind k hashed sl (digest_new hd)))) /\
  claim (hashings (trace (l_pss_sign_digest g hd fuel st blind k hashed sl))).
Proof.
  intros R g fuel st blind k mh sl hd b Hg Hh Hp H32 Hb emLen claim.
  destruct (nbits_facts _ Hp) as (_ & _ & B3 & _). pose proof (bit_len_unique _ _ _ Hb B3) as ->.
  destruct (hashed_pss_sign g hd fuel st blind k mh sl Hg Hh Hp H32) as (A & B). fold emLen in A, B. unfold hashed in A, B.
  assert (X : claim (match rng_fill g st sl with
             | (Some _, _) => pss_hashing (h_size hd) (length mh) sl emLen | _ => [] end)).
  { unfold claim, pss_hashing. destruct (rng_fill g st sl) as [[s|] st']; cbn [fst].
    - destruct (Nat.eqb_spec (length mh) (h_size hd)); cbn [negb];
        destruct (Nat.ltb_spec emLen (h_size hd + sl + 2)); split; intros; try reflexivity; try lia; try contradiction.
      destruct H0 as [?|[?|?]]; [discriminate|contradiction|lia].
    - split; [reflexivity|]. intros X; contradiction. }
  split; [rewrite A; exact X|rewrite B; exact X].
Qed.

(** Verifying a PSS signature with an encoding of emLen octets: either nothing is hashed,
    and then the signature is refused, or the mask and the eight zero octets, the digest
    and the salt.  No signature, however made up, causes more hashing than a valid one. *)
Theorem C104_verify_pss : forall hd pk hashed sl b,
  (0 < h_size hd)%nat -> wf_pub pk -> uprec (pk_n pk) < 2 ^ 32 -> is_bit_len (uval (pk_n pk)) b ->
  let full := pss_verify_hashings (h_size hd) sl (pss_em_len (b - 1)) in
  let claim W r := (W = [] /\ r <> Ok tt) \/ W = full in
  (forall sig, claim (hashings (trace (l_pss_verify_digest hd pk hashed sig sl))) (pss_verify_digest hd pk hashed sig sl)) /\
  (forall sig n, claim (hashings (trace (l_pss_verify pk hashed sig n (digest_new hd) sl)))
                       (pss_verify pk hashed sig n (digest_new hd) sl)).
Proof.
  intros hd pk mh sl b Hh Hk H32 Hb full claim.
  destruct (nbits_facts _ Hk) as (_ & _ & B3 & _). pose proof (bit_len_unique _ _ _ Hb B3) as ->.
  exact (hashed_api_verify hd pk mh sl Hh Hk H32).
Qed.

(** A signature by key91, a changed one and one of the wrong length. *)
Definition sig91h : list byte := Eval vm_compute in
  match pss_sign_digest count_rng toy_hash 5 3 false key91 [x01; x02] 4 with Ok s => s | _ => [] end.
Example C104_pss_case :
  let s := SigPss (mkPss false (digest_new toy_hash) 4) in
  let W sig := hashings (trace (l_public_verify pub91 s [x01; x02] sig)) in
  good_priv key91 /\ is_bit_len (uval (pk_n pub91)) 91 /\
  hashings (trace (l_pss_sign_digest count_rng toy_hash 5 3 false key91 [x01; x02] 4)) = [14; 6; 6; 6; 6; 6]%nat /\
  public_verify pub91 s [x01; x02] sig91h = Ok tt /\ W sig91h = [6; 6; 6; 6; 6; 14]%nat /\
  public_verify pub91 s [x01; x03] sig91h = Err Verification /\
  hashings (trace (l_public_verify pub91 s [x01; x03] sig91h)) = [6; 6; 6; 6; 6; 14]%nat /\
  W (removelast sig91h ++ [x00]) = [] /\ W (sig91h ++ [x00]) = [] /\
  pss_hashings 2 4 12 = [14; 6; 6; 6; 6; 6]%nat /\ pss_verify_hashings 2 4 12 = [6; 6; 6; 6; 6; 14]%nat.
Proof.
  intros s W. split; [exact good91|]. split; [unfold is_bit_len; split; vm_compute; congruence|].
  do 7 (split; [vm_compute; reflexivity|]). split; reflexivity.
Qed.

(** PKCS#1 v1.5 verification of a digest hashes nothing. *)
Theorem C104_verify_pkcs1v15 : forall pk prefix hashed sig,
  hashings (trace (l_pkcs1v15_verify pk prefix hashed sig)) = [].
Proof. exact quiet_pkcs1_verify. Qed.

(** One exponentiation with e, as wide as the stored modulus and exponent, whether the
    signature is accepted or refused; none when it is refused for its size. *)
Theorem C104_verify_work : forall pk, wf_pub pk ->
  (forall prefix hashed sig, wf_uint sig ->
     exponentiations (trace (l_pkcs1v15_verify pk prefix hashed sig))
     = if (uval sig <? uval (pk_n pk)) && (uprec sig =? uprec (pk_n pk)) then public_work pk else []) /\
  (forall hd hashed sig sl, wf_uint sig ->
     exponentiations (trace (l_pss_verify_digest hd pk hashed sig sl))
     = if (uval sig <? uval (pk_n pk)) && (uprec sig =? uprec (pk_n pk)) then public_work pk else []) /\
  (forall s hashed sig, 8 * Z.of_nat (length sig) < 2 ^ 32 ->
     let W := exponentiations (trace (l_public_verify pk s hashed sig)) in
     (W = [] \/ W = public_work pk) /\ (public_verify pk s hashed sig = Ok tt -> W = public_work pk)).
Proof.
  intros pk Hk. split; [|split].
  - intros. apply work_pkcs1_verify; auto.
  - intros. apply work_pss_verify_digest; auto.
  - intros. apply work_public_verify; auto.
Qed.

Example C104_verify_case :
  wf_pub pub91 /\
  exponentiations (trace (l_public_verify pub91 (SigPss (pss_new toy_hash)) [x01; x00] (repeat x01 12))) = [(128, 64)] /\
  exponentiations (trace (l_public_verify pub91 (SigPss (pss_new toy_hash)) [x01; x00] (repeat x01 11))) = [] /\
  exponentiations (trace (l_pkcs1v15_verify pub91 [] [x01; x00] (mkU 12345 128))) = [(128, 64)] /\
  exponentiations (trace (l_pkcs1v15_verify pub91 [] [x01; x00] (mkU (2 ^ 127) 128))) = [].
Proof. split; [exact wf_pub91|]. repeat split; vm_compute; reflexivity. Qed.

(** A public key read from a document, wherever it comes from: at most 4096 bits of
    modulus and one 64-bit word of exponent, so verification is bounded. *)
Theorem C104_decoded_key : forall mx, mx < 2 ^ 29 -> forall l k, from_public_key_der mx l = Ok k ->
  exists m, 0 < m <= 4096 /\ public_work k = [(m, 64)].
Proof.
  intros mx Hmx l k H. destruct (C51_public mx Hmx l k H) as (_ & U & W & Pn & Pe). cbv zeta in U, Pn, Pe.
  exists (uprec (pk_n k)). unfold public_usable, public_acceptable in U. rewrite <- Pn in U.
  destruct U as (U1 & _ & _ & U2 & _ & U3).
  split; [destruct W as ((_ & ? & _) & _); lia|].
  unfold public_work. rewrite Pe. do 2 f_equal. 
  assert (Z.log2 (uval (pk_e k)) < 33) by (apply Z.log2_lt_pow2; lia).
  pose proof (Z.log2_nonneg (uval (pk_e k))).
  unfold limb_bits, octet_size.
  assert (Z.log2 (uval (pk_e k)) / 8 <= 4) by (apply Z.div_le_upper_bound; lia).
  assert (0 <= Z.log2 (uval (pk_e k)) / 8) by (apply Z.div_pos; lia).
  assert ((8 * (Z.log2 (uval (pk_e k)) / 8 + 1) + 63) / 64 = 1) as ->; [|reflexivity].
  symmetry. apply Z.div_unique with (8 * (Z.log2 (uval (pk_e k)) / 8 + 1) - 1); lia.
Qed.

Definition doc91 : list byte := Eval vm_compute in match to_public_key_der mx28 pub91 with Ok d => d | _ => [] end.
Example C104_decoded_case :
  match from_public_key_der mx28 doc91 with Ok k => public_work k = [(128, 64)] | _ => False end.
Proof. vm_compute. reflexivity. Qed.

(** A key put together by the caller is not: [RsaPublicKey::new] limits the stored width
    of the modulus and the value of the exponent, but not the exponent's stored width. *)
Theorem C104_exponent_width_refuted : forall w, exists n e k,
  wf_uint n /\ wf_uint e /\ public_new n e = Ok k /\ wf_pub k /\ uval n = 2 ^ 62 + 1 /\ uval e = 65537 /\
  exists m e', public_work k = [(m, e')] /\ w <= e'.
Proof.
  intros w. set (W := 64 * Z.max 1 w). set (n := mkU (2 ^ 62 + 1) 64).
  assert (Hn : wf_uint n) by (repeat split; vm_compute; congruence).
  assert (He : wf_uint (mkU 65537 W)).
  { split; [|split]; cbn [uval uprec].
    - assert (2 ^ 64 <= 2 ^ W) by (apply Z.pow_le_mono_r; unfold W; lia). split; [lia|]. cbn in *; lia.
    - unfold W. lia.
    - unfold W. rewrite Z.mul_comm. apply Z.mod_mul. lia. }
  exists n, (mkU 65537 W), (mkPub n (mkU 65537 W) (mkMP n)).
  split; [exact Hn|]. split; [exact He|]. split; [reflexivity|].
  split; [split; [exact Hn|split; [exact He|split; reflexivity]]|].
  split; [reflexivity|]. split; [reflexivity|]. exists 64, W. split; [reflexivity|]. unfold W. lia.
Qed.

Print Assumptions C104_same_results.
Print Assumptions C104_decrypt_oaep.
Print Assumptions C104_encrypt_oaep.
Print Assumptions C104_sign_pss.
Print Assumptions C104_verify_pss.
Print Assumptions C104_verify_pkcs1v15.
Print Assumptions C104_verify_work.
Print Assumptions C104_decoded_key.
Print Assumptions C104_exponent_width_refuted.
