(** C91, continued: the complete list, in order, of what a call gives back to the allocator,
    with the contents of each object and whether it is erased. *)
From Coq Require Import ZArith Znumtheory List Bool Lia.
From Coq Require Import Init.Byte.
From Verif Require Import Base Bigint BigintLemmas SpecRFC SpecRng SpecKey MHash MMgf MPkcs1 MOaep MPss MRsa MKey MApi
  MDer MEncoding MResidue MResidueSig KeyDefs SpecResidue SpecInventory PPad PMgf PApi PRsa PEnc PSig PEncoding POaep PPkcs1 PPss PWrapEnc
  KeyExamples PropEncoding PHist PCodec PropLeak PResidue PResidueSig PInventory.
Import ListNotations.
Local Open Scope Z_scope.

(** The raw operation, without and with the check that the result encrypts to the input. *)
Theorem C91_complete_raw : forall {R} (g : rng_ops R) fuel rng k c m, (rng <> None -> rng_ok g) -> good_priv k ->
  wf_uint c -> uprec c = uprec (pk_n (sk_pub k)) ->
  (outcome_of (z_rsa_decrypt g fuel rng k c) = Ok m ->
   private_list rng k (uval c) (inventory (z_rsa_decrypt g fuel rng k c))) /\
  (outcome_of (z_rsa_decrypt_and_check g fuel k rng c) = Ok m ->
   checked_list rng k (uval c) (inventory (z_rsa_decrypt_and_check g fuel k rng c))).
Proof.
  intros R g fuel rng k c m G K Wc Pc. split; intros H.
  - rewrite zr_dec in H. exact (inv_dec g fuel rng k c m G K Wc Pc H).
  - rewrite zr_check in H. apply (inv_check g fuel rng k c m G K Wc Pc H).
Qed.

(** Decryption, whether the padding turns out right or wrong: [M] is the decrypted number,
    [EM] its octets. *)
Definition decryption_list {R} (rng : option R) (k : privkey) (ct : list byte) (rest l : list fate) : Prop :=
  let n := uval (pk_n (sk_pub k)) in
  exists l0, checked_list rng k (os2ip ct) l0 /\
    l = l0 ++ wiped_twice (uprec (pk_n (sk_pub k))) (RSADP n (uval (sk_d k)) (os2ip ct)) ++ rest ++ kept [os2ip ct].

Theorem C91_complete_decryption : forall {R} (g : rng_ops R) fuel rng k ct,
  (rng <> None -> rng_ok g) -> good_priv k -> usable_key (sk_pub k) -> uprec (pk_n (sk_pub k)) < 2 ^ 32 ->
  let n := uval (pk_n (sk_pub k)) in let K := key_size (sk_pub k) in
  os2ip ct < n -> blinding_succeeds g n rng fuel ->
  let EM := i2osp (RSADP n (uval (sk_d k)) (os2ip ct)) K in
  (8 * Z.of_nat (length ct) <= uprec (pk_n (sk_pub k)) ->
   decryption_list rng k ct (kept_texts [EM]) (inventory (z_pkcs1v15_decrypt g fuel rng k ct))) /\
  (forall hd hm label, (0 < h_size hm)%nat -> length ct = K ->
   let L := label_bytes label in let h := h_size hd in
   let static := inventory (z_oaep_api_decrypt_digest g hd hm fuel rng k ct label) in
   let dynamic := inventory (z_oaep_api_decrypt g fuel rng k ct (digest_new hd) (digest_new hm) label) in
   if (2 ^ 61 <=? Z.of_nat (length L)) then
     decryption_list rng k ct (kept_texts [EM; L]) static /\ decryption_list rng k ct (kept_texts [EM; L]) dynamic
   else if ((K <? 11) || (K <? 2 * h + 2))%nat%bool then
     decryption_list rng k ct (kept_texts [EM; L]) static /\
     decryption_list rng k ct (kept_texts [EM; h_fun hd L; L]) dynamic
   else
     let maskedSeed := firstn h (tl EM) in let maskedDB := skipn h (tl EM) in
     let seed := xor_octets maskedSeed (mgf1 (h_fun hm) (h_size hm) maskedDB h) in
     let DB := xor_octets maskedDB (mgf1 (h_fun hm) (h_size hm) seed (K - h - 1)) in
     let out := firstn 1 EM ++ seed ++ DB in
     decryption_list rng k ct (kept_texts [out; out; L]) static /\
     decryption_list rng k ct
       (mgf_list (h_fun hm) (h_size hm) maskedDB h ++ mgf_list (h_fun hm) (h_size hm) seed (K - h - 1) ++
        kept_texts [out; out; h_fun hd L; L]) dynamic).
Proof.
  intros R g fuel rng k ct G HK U P n K C B EM. pose proof (good_pub k HK) as W.
  assert (CP : check_public (sk_pub k) = Ok tt) by (apply usable_check; auto).
  destruct (key_size_facts _ W) as (_ & K8 & _). fold K in K8.
  assert (LEM : length EM = K) by apply i2osp_length. split.
  - intros L. unfold z_pkcs1v15_decrypt. rewrite (inv_step _ _ _ CP).
    destruct (inv_decrypt_with g fuel rng k ct (fun em => z_pkcs1v15_encrypt_unpad em (key_size (sk_pub k))) G HK L C B) as (l & CL & E).
    exists l. split; [exact CL|]. rewrite E. fold K n EM. unfold z_pkcs1v15_encrypt_unpad. rewrite inv_own, inv_lift. reflexivity.
  - intros hd hm label Hm Lct L h static dynamic.
    assert (L8 : 8 * Z.of_nat (length ct) <= uprec (pk_n (sk_pub k))) by (rewrite Lct; exact K8).
    assert (DL : forall zu rest, inventory (zu EM) = rest ->
      decryption_list rng k ct rest (inventory (z_decrypt_with g fuel rng k ct zu))).
    { intros zu rest E. destruct (inv_decrypt_with g fuel rng k ct zu G HK L8 C B) as (l & CL & E').
      exists l. split; [exact CL|]. rewrite E'. fold K n EM. rewrite E. reflexivity. }
    assert (ES : static = inventory (z_decrypt_with g fuel rng k ct (fun em => z_oaep_decrypt_digest hd hm em label K))).
    { unfold static, z_oaep_api_decrypt_digest. rewrite (inv_step _ _ _ CP), Lct, Nat.eqb_refl. reflexivity. }
    assert (ED : dynamic = inventory (z_decrypt_with g fuel rng k ct (fun em => z_oaep_decrypt em (digest_new hd) (digest_new hm) label K))).
    { unfold dynamic, z_oaep_api_decrypt. fold K. rewrite Lct, Nat.eqb_refl. reflexivity. }
    rewrite ES, ED. clear static dynamic ES ED.
    destruct (Z.leb_spec (2 ^ 61) (Z.of_nat (length L))) as [HL|HL].
    + split; apply DL; unfold z_oaep_decrypt_digest, z_oaep_decrypt, MAX_LABEL_LEN; cbv zeta; fold L;
        (destruct (Z.leb_spec (2 ^ 61) (Z.of_nat (length L))); [|lia]); rewrite !inv_own, inv_lift; reflexivity.
    + destruct ((K <? 11) || (K <? 2 * h + 2))%nat%bool eqn:S.
      * assert (I : forall ph zf, z_oaep_decrypt_inner EM h ph K zf = z_lift (Err Decryption)).
        { intros ph zf. unfold z_oaep_decrypt_inner. destruct (K <? 11)%nat; [reflexivity|]. cbn [orb] in S.
          replace (h * 2 + 2)%nat with (2 * h + 2)%nat by lia. rewrite S. reflexivity. }
        split; apply DL; unfold z_oaep_decrypt_digest, z_oaep_decrypt, MAX_LABEL_LEN; cbv zeta; fold L;
        unfold digest_finalize_reset, digest_update, digest_oneshot, digest_output_size, digest_new; cbn [d_fn d_pending app]; fold h;
        (destruct (Z.leb_spec (2 ^ 61) (Z.of_nat (length L))); [lia|]); rewrite I; unfold z_oaep_finish;
        rewrite zr_lift, !inv_own, inv_bind, inv_lift; reflexivity.
      * apply orb_false_iff in S. destruct S as (S1 & S2). apply Nat.ltb_ge in S1, S2.
        destruct (inv_oaep_decrypt hd hm EM label K Hm ltac:(lia) LEM HL S1 S2) as (D1 & D2).
        cbv zeta. split; apply DL; [exact D1|exact D2].
Qed.

(** Signing: [em] is the encoded message. *)
Definition signature_list {R} (rng : option R) (k : privkey) (em : list byte) (l : list fate) : Prop :=
  exists l0, checked_list rng k (os2ip em) l0 /\
    l = l0 ++ wiped_twice (uprec (pk_n (sk_pub k))) (RSADP (uval (pk_n (sk_pub k))) (uval (sk_d k)) (os2ip em)) ++
        kept [os2ip em] ++ kept_texts [em].

Theorem C91_complete_signature : forall {R} (g : rng_ops R) fuel k sig, good_priv k -> uprec (pk_n (sk_pub k)) < 2 ^ 32 ->
  (forall rng prefix hashed, (rng <> None -> rng_ok g) ->
   let run := z_pkcs1v15_sign g fuel rng k prefix hashed in
   outcome_of run = Ok sig -> signature_list rng k (emsa_pkcs1 (prefix ++ hashed) (key_size (sk_pub k))) (inventory run)) /\
  (forall hd st (bl : bool) hashed sl, rng_ok g -> (0 < h_size hd)%nat ->
   let emBits := Z.to_nat (Z.log2 (uval (pk_n (sk_pub k)))) in
   let static := z_pss_sign_digest g hd fuel st bl k hashed sl in
   let dynamic := z_pss_sign g fuel st bl k hashed sl (digest_new hd) in
   outcome_of static = Ok sig \/ outcome_of dynamic = Ok sig ->
   exists salt st' l, rng_fill g st sl = (Some salt, st') /\
     signature_list (if bl then Some st' else None) k (pss_encode (h_fun hd) (h_size hd) hashed salt emBits) l /\
     inventory static = l ++ kept_texts [salt] /\
     let H := h_fun hd (repeat x00 8 ++ hashed ++ salt) in
     inventory dynamic =
       mgf_list (h_fun hd) (h_size hd) H (pss_em_len emBits - h_size hd - 1) ++ kept_texts [H] ++ l ++ kept_texts [salt]).
Proof.
  intros R g fuel k sig K P. pose proof (good_pub k K) as W. pose proof (good_gt1 k K) as N1.
  split; [|intros hd st bl hashed sl G Hh].
  - intros rng prefix hashed G. cbv zeta.
    change (z_pkcs1v15_sign g fuel rng k prefix hashed)
      with (let~ em := z_lift (pkcs1v15_sign_pad prefix hashed (key_size (sk_pub k))) in z_sign_em g fuel rng k em) in *.
    intros H. rewrite zr_bind, zr_lift in H. apply bind_ok in H. destruct H as (em & E & H).
    rewrite (inv_step _ _ _ E). apply sign_pad_spec in E. destruct E as (_ & <-). exact (inv_sign_em g fuel rng k em sig G K H).
  - cbv zeta. intros H0.
    assert (H : outcome_of (z_pss_sign_digest g hd fuel st bl k hashed sl) = Ok sig).
    { destruct H0 as [H|H]; [exact H|]. rewrite zr_pss_sign in H. rewrite zr_pss_sign_digest.
      rewrite <- pss_sign_agree. exact H. }
    clear H0. unfold z_pss_sign_digest, z_pss_sign in *. destruct (rng_fill g st sl) as [[salt|] st']; [|discriminate].
    rewrite zr_own in H. unfold z_sign_pss_with_salt_digest, z_sign_pss_with_salt in *. cbv zeta in *.
    rewrite zr_bind, zr_lift in H. apply bind_ok in H. destruct H as (eb & B & H).
    rewrite zr_bind, zr_lift in H. apply bind_ok in H. destruct H as (em & E & H).
    assert (Eb : eb = Z.to_nat (Z.log2 (uval (pk_n (sk_pub k))))).
    { unfold usub in B. destruct (_ <=? _)%nat; [|discriminate]. injection B as <-.
      unfold ubits, zbits. destruct (Z.leb_spec (uval (pk_n (sk_pub k))) 0); [lia|].
      pose proof (Z.log2_nonneg (uval (pk_n (sk_pub k)))). lia. }
    assert (LE : Z.of_nat (pss_em_len eb) <= 2 ^ 32).
    { assert (Z.of_nat eb < 2 ^ 32).
      { pose proof W as ((Vn & P1 & _) & _). assert (Z.log2 (uval (pk_n (sk_pub k))) < uprec (pk_n (sk_pub k))) by (apply Z.log2_lt_pow2; lia).
        pose proof (Z.log2_nonneg (uval (pk_n (sk_pub k)))). lia. }
      unfold pss_em_len. pose proof (Nat.div_le_upper_bound (eb + 7) 8 (eb + 7) ltac:(lia) ltac:(lia)).
      pose proof (div_ceil8_spec eb) as D. unfold div_ceil8 in D. lia. }
    exists salt, st', (inventory (z_sign_em g fuel (if bl then Some st' else None) k em)). split; [reflexivity|].
    rewrite !inv_own, !(inv_step _ _ _ B), (inv_step _ _ _ E).
    pose proof (inv_emsa hd hashed eb salt em Hh LE E) as IE. cbv zeta in IE.
    rewrite inv_bind, IE, zr_emsa, emsa_pss_encode_agree, E. cbn [bind].
    pose proof E as E'. rewrite emsa_pss_encode_digest_spec in E' by auto.
    destruct (negb _); [discriminate|]. destruct (_ <? _)%nat; [discriminate|].
    assert (em = pss_encode (h_fun hd) (h_size hd) hashed salt eb) as Eem by congruence. rewrite <- Eb, <- Eem.
    split; [|split; [reflexivity|]].
    + apply (inv_sign_em g fuel _ k em sig); auto.
    + rewrite <- !app_assoc. reflexivity.
Qed.

(** Encryption. *)
Definition encryption_list (k : pubkey) (em : list byte) : list fate :=
  let n := uval (pk_n k) in let e := uval (pk_e k) in let c := RSAEP n e (os2ip em) in
  power_list n (os2ip em) e ++ kept_texts [octets_of (uprec (pk_n k)) c] ++ kept [c; os2ip em] ++ [Wiped (Text em)].

Theorem C91_complete_encryption : forall {R} (g : rng_ops R) k ct, rng_ok g -> wf_pub k -> uprec (pk_n k) < 2 ^ 32 ->
  let n := uval (pk_n k) in let e := uval (pk_e k) in let K := key_size k in
  (forall fuel st msg, let run := z_pkcs1v15_encrypt g fuel st k msg in outcome_of run = Ok ct ->
   exists em, is_eme_pkcs1 K em msg /\ os2ip ct = RSAEP n e (os2ip em) /\ inventory run = encryption_list k em) /\
  (forall hd hm st msg label, (0 < h_size hm)%nat ->
   let L := label_bytes label in let h := h_size hd in
   let static := z_oaep_api_encrypt_digest g hd hm st k msg label in
   let dynamic := z_oaep_api_encrypt g st k msg (digest_new hd) (digest_new hm) label in
   outcome_of static = Ok ct \/ outcome_of dynamic = Ok ct ->
   exists seed, length seed = h /\
     let em := oaep_encode (h_fun hd) h (h_fun hm) (h_size hm) L seed msg K in
     os2ip ct = RSAEP n e (os2ip em) /\
     inventory static = kept_texts [L] ++ encryption_list k em /\
     inventory dynamic = mgf_list (h_fun hm) (h_size hm) seed (K - h - 1) ++
       mgf_list (h_fun hm) (h_size hm) (skipn (S h) em) h ++ kept_texts [h_fun hd L; L] ++ encryption_list k em).
Proof.
  intros R g k ct G W P n e K. destruct (key_size_facts k W) as (_ & K8 & _). fold K in K8.
  assert (FIN : forall em, length em = K -> outcome_of (z_finish_encrypt k em) = Ok ct ->
    os2ip ct = RSAEP n e (os2ip em) /\ inventory (z_finish_encrypt k em) = encryption_list k em).
  { intros em Le H. split; [|exact (inv_finish_encrypt k em W Le)].
    rewrite zr_finish_encrypt in H. change (encrypt_core k em = Ok ct) in H. rewrite (encrypt_core_ok k em W Le) in H.
    injection H as <-. apply os2ip_i2osp. pose proof (key_n_lt k W). pose proof (odd_pos_n k W) as N0.
    pose proof (Z.mod_pos_bound (os2ip em ^ uval (pk_e k)) (uval (pk_n k)) N0). unfold RSAEP. lia. }
  split; [|intros hd hm st msg label Hm].
  - intros fuel st msg. cbv zeta. unfold z_pkcs1v15_encrypt. intros H.
    rewrite zr_bind, zr_lift in H. apply bind_ok in H. destruct H as ([] & CP & H). rewrite (inv_step _ _ _ CP).
    rewrite zr_bind in H. apply bind_ok in H. destruct H as (em & E & H). rewrite (inv_ok _ _ _ E).
    assert (IP : inventory (z_pkcs1v15_encrypt_pad g fuel st msg (key_size k)) = []).
    { rewrite zr_pad in E. unfold z_pkcs1v15_encrypt_pad. destruct (_ <? _)%nat; [reflexivity|].
      rewrite inv_if_err, zr_lift, E. reflexivity. }
    rewrite zr_pad in E. apply encrypt_pad_ok in E; [|exact G]. fold K in E.
    destruct (FIN em (proj1 E) H) as (F1 & F2).
    exists em. split; [apply E|]. split; [exact F1|]. rewrite IP. exact F2.
  - cbv zeta. intros H0.
    assert (H : outcome_of (z_oaep_api_encrypt_digest g hd hm st k msg label) = Ok ct).
    { destruct H0 as [H|H]; [exact H|].
      rewrite zr_oaep_api_encrypt, oaep_api_encrypt_agree in H. rewrite zr_oaep_api_encrypt_digest. exact H. }
    clear H0. unfold z_oaep_api_encrypt_digest, z_oaep_api_encrypt in *.
    rewrite zr_bind, zr_lift in H. apply bind_ok in H. destruct H as ([] & CP & H). rewrite !(inv_step _ _ _ CP).
    rewrite zr_bind in H. apply bind_ok in H. destruct H as (em & E & H). fold K in E |- *.
    assert (E2 : outcome_of (z_oaep_encrypt g st msg (digest_new hd) (digest_new hm) label K) = Ok em).
    { rewrite zr_oaep_encrypt, oaep_encrypt_agree, <- (zr_oaep_encrypt_digest g). exact E. }
    rewrite (inv_ok _ _ _ E), (inv_ok _ _ _ E2). rewrite zr_oaep_encrypt_digest in E.
    assert (Le : length em = K) by (apply (oaep_digest_len g hd hm st msg label K em G Hm ltac:(clear - K8 P; lia) E)).
    destruct (inv_oaep_encrypt g hd hm st msg label K em G Hm ltac:(lia) E) as (seed & Ls & Eem & I1 & I2).
    exists seed. split; [exact Ls|]. rewrite <- Eem. destruct (FIN em Le H) as (F1 & F2).
    split; [exact F1|]. rewrite I1, I2, F2. split; [reflexivity|]. rewrite <- !app_assoc. reflexivity.
Qed.

(** Export: [key] is the DER text of the key inside the document. *)
Theorem C91_complete_export : forall mx tl k p q doc, tl 0 [] = true -> mx < 2 ^ 32 ->
  wf_pub (sk_pub k) -> wf_uint (sk_d k) -> sk_primes k = [p; q] -> wf_uint p -> wf_uint q ->
  2 <= uval p -> 2 <= uval q -> uprec p <= uprec (sk_d k) -> uprec q <= uprec (sk_d k) ->
  outcome_of (z_to_pkcs8_der mx k) = Ok doc ->
  exists key c, decode_key_info mx tl doc = Ok (mkKI rsa_algorithm_id key) /\
    0 <= c < uval p /\ (c * uval q) mod uval p = 1 mod uval p /\
    let d := uval (sk_d k) in
    let dp := d mod (uval p - 1) in let dq := d mod (uval q - 1) in
    let wiped u z := Wiped (Text (octets_of (uprec u) z)) in
    inventory (z_to_pkcs8_der mx k) =
      kept [dp; 1; uval p; dq; 1; uval q] ++ kept_texts [key] ++ [wiped p c] ++ kept [c] ++
      [wiped (sk_d k) dq; wiped (sk_d k) dp; wiped q (uval q); wiped p (uval p); wiped (sk_d k) d] ++
      kept_texts [octets_of (uprec (pk_e (sk_pub k))) (uval (pk_e (sk_pub k)));
                  octets_of (uprec (pk_n (sk_pub k))) (uval (pk_n (sk_pub k)))].
Proof. exact inv_export. Qed.

(** * Concrete cases *)

(** An unblinded and a blinded operation with CRT values, an encryption, a signature with a
    salt, and the length of an export. *)
Example C91_case_complete :
  good_priv key64 /\ rng_ok count_rng /\
  inventory (z_rsa_decrypt count_rng 5 None key64 (mkU 5 (uprec n64))) =
    kept [2083703297; 3190011988; 1362700471; 1362700471; 5; 5; 7425920504113577858] /\
  inventory (z_rsa_decrypt count_rng 5 (Some 3) key64 (mkU 5 (uprec n64))) =
    kept [12595923821958042199; 1; 3; 3; 12595923821958042199; 23606494726119773; 3; 118032473630598865] ++
    [Wiped (Number 23606494726119773)] ++
    kept [3; 118032473630598865; 2716710623; 2530647128; 524292442; 524292442; 771894702; 1277793867;
          7425920504113577858; 9681837690382691375; 8397282547972028133; 9681837690382691375] /\
  inventory (z_pkcs1v15_encrypt count_rng 20 3 pub91 [x41]) =
    encryption_list pub91 [x00; x02; x03; x04; x05; x06; x07; x08; x09; x0a; x00; x41] /\
  outcome_of (z_pss_sign_digest count_rng toy_hash 5 3 false key64 [x0a; x0b] 3) =
    Ok [x7b; x7d; x3c; xee; xe1; x5e; xbb; x45] /\
  length (inventory (z_pss_sign count_rng 5 3 false key64 [x0a; x0b] 3 (digest_new toy_hash))) = 25%nat /\
  length (inventory (z_to_pkcs8_der mx28 key64)) = 16%nat.
Proof.
  split; [apply good64|]. split; [apply count_rng_ok|]. split; [vm_compute; reflexivity|]. split; [vm_compute; reflexivity|].
  split; [vm_compute; reflexivity|]. split; [vm_compute; reflexivity|]. split; vm_compute; reflexivity.
Qed.

(** The hypotheses of the theorem on decryption hold of a real ciphertext; after the private
    operation come the decrypted block, erased twice and left once, and the ciphertext. *)
Example C91_case_complete_decryption :
  let ct := ct91 em91 in let n := uval n91 in
  good_priv key91_plain /\ usable_key pub91 /\ uprec n91 < 2 ^ 32 /\ os2ip ct < n /\
  blinding_succeeds count_rng n None 5 /\ length ct = key_size pub91 /\
  let l := inventory (z_pkcs1v15_decrypt count_rng 5 None key91_plain ct) in
  length l = 17%nat /\
  skipn 13 l = wiped_twice (uprec n91) em91 ++ kept_texts [i2osp em91 12] ++ kept [os2ip ct].
Proof.
  cbv zeta. split; [apply good91_plain|]. split; [apply usable91|]. split; [reflexivity|].
  split; [vm_compute; reflexivity|]. split; [exact I|]. split; [vm_compute; reflexivity|].
  split; vm_compute; reflexivity.
Qed.

Print Assumptions C91_complete_raw.
Print Assumptions C91_complete_decryption.
Print Assumptions C91_complete_signature.
Print Assumptions C91_complete_encryption.
Print Assumptions C91_complete_export.
