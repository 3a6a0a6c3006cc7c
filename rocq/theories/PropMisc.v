(** Released plaintexts, refused keys, PSS key objects (C10, C25, C58) and the
    properties C72 to C77. *)
From Coq Require Import ZArith List Bool Lia Znumtheory.
From Coq Require Import Init.Byte.
From Verif Require Import Base Bigint BytesLemmas SpecRFC SpecRng SpecSig SpecKey BigintLemmas MHash MPkcs1 MOaep MPss MRsa
  MGenerate MKey MApi MWrap MMisc KeyDefs.
From Verif Require Import PRsa PApi PEnc PHist PPub PSign PWrap PMisc PMisc2 KeyExamples PropSig PropWrap PropLeak PropKey.
Import ListNotations.
Local Open Scope Z_scope.

(** ** C10: no plaintext of a faulty private-key operation is released *)

(** Whatever the private parts of the key object are (wrong primes, wrong d, corrupted CRT
    values), a released plaintext is the content of a well-formed block whose encryption is
    the given ciphertext. *)
Theorem C10_decryptions : forall {R} (g : rng_ops R) fuel rng k ct msg hd hm label,
  wf_pub (sk_pub k) -> uprec (pk_n (sk_pub k)) < 2 ^ 32 -> (0 < h_size hm)%nat ->
  let opens P := exists em, P em /\
    RSAEP (uval (pk_n (sk_pub k))) (uval (pk_e (sk_pub k))) (os2ip em) = os2ip ct in
  (scheme_decrypt g fuel rng k PadPkcs1v15 ct = Ok msg \/
   p1dk_decrypt g fuel rng (p1dk_new k) ct = Ok msg ->
   opens (fun em => is_eme_pkcs1 (key_size (sk_pub k)) em msg)) /\
  (scheme_decrypt g fuel rng k (PadOaep (oaep_of hd hm label)) ct = Ok msg \/
   odk_decrypt g hd hm fuel rng (odk_of label k) ct = Ok msg ->
   opens (fun em => is_eme_oaep (h_fun hd) (h_size hd) (h_fun hm) (h_size hm) (label_bytes label)
                                (key_size (sk_pub k)) em msg)).
Proof.
  intros R g fuel rng k ct msg hd hm label W H32 Hm opens. split.
  - intros H. apply (released_pkcs1 g fuel rng k ct msg W). destruct H as [H|H]; exact H.
  - intros H. apply (released_oaep g fuel rng k ct hd hm label msg W H32 Hm).
    rewrite oaep_of_eq, odk_of_eq in H. exact H.
Qed.

(** [key91] with a wrong private exponent. *)
Definition key91_bad : privkey := mkPriv pub91 (mkU 460177425 128) ps91 None.

Example C10_decryptions_case :
  wf_pub (sk_pub key91_bad) /\
  private_decrypt count_rng 5 key91_plain PadPkcs1v15 (ct91 em91) = Ok [x41] /\
  private_decrypt count_rng 5 key91_bad PadPkcs1v15 (ct91 em91) = Err Internal.
Proof. split; [exact wf_pub91|]. split; vm_compute; reflexivity. Qed.

(** ** C25: keys that encryption refuses *)

(** A public key made without the checks, or with a larger size limit, is refused by every
    encryption, with the error its construction by [new] would have given. *)
Theorem C25_refused_keys : forall {R} (g : rng_ops R) fuel st pk hd hm lab pad msg,
  wf_pub pk -> ~ public_usable (uval (pk_n pk)) (uval (pk_e pk)) (uprec (pk_n pk)) ->
  exists e,
    e = (if 4096 <? uprec (pk_n pk) then ModulusTooLarge
         else if uval (pk_n pk) <=? uval (pk_e pk) then InvalidModulus
         else if Z.even (uval (pk_e pk)) then InvalidExponent
         else if uval (pk_e pk) <? 2 then PublicExponentTooSmall
         else PublicExponentTooLarge) /\
    public_new (pk_n pk) (pk_e pk) = Err e /\
    public_encrypt g fuel st pk pad msg = Err e /\
    p1ek_encrypt g fuel st (p1ek_new pk) msg = Err e /\
    oek_encrypt g hd hm st (oek_of lab pk) msg = Err e.
Proof.
  intros R g fuel st pk hd hm lab pad msg W N. pose proof (check_public_err pk W N) as C.
  eexists. split; [reflexivity|]. split.
  - unfold public_new, public_new_with_max_size. unfold check_public in C. rewrite C. reflexivity.
  - rewrite oek_of_eq. apply refused_everywhere. exact C.
Qed.

Example C25_refused_keys_case :
  public_new_unchecked n91 (mkU 6 64) = Ok (mkPub n91 (mkU 6 64) (mkMP n91)) /\
  public_encrypt count_rng 5 7 (mkPub n91 (mkU 6 64) (mkMP n91)) PadPkcs1v15 [x41] = Err InvalidExponent.
Proof. split; vm_compute; reflexivity. Qed.

(** ** C58: the PSS signing key types *)

(** [BlindedSigningKey] asks the RNG for a blinding factor in each of its three ways of
    signing, [SigningKey] in none: with an RNG that yields the salt and then fails, the
    former reports the failure and the latter signs. *)
Theorem C58_pss_key_blinding : forall {R} (g : rng_ops R) hd fuel st st' bl k sl salt msg chunks h,
  rng_ok g -> (0 < h_size hd)%nat -> good_priv k -> uprec (pk_n (sk_pub k)) < 2 ^ 32 ->
  length h = h_size hd -> (h_size hd + sl + 2 <= pss_em_len (em_bits (sk_pub k)))%nat ->
  rng_fill g st sl = (Some salt, st') ->
  blinding_fails g (uval (pk_n (sk_pub k))) (Some st') fuel ->
  let sk := pssk_new_with_salt_len bl k sl in
  forall r, In r [pssk_sign g hd fuel st sk msg; pssk_sign_prehash g hd fuel st sk h;
                  pssk_sign_digest g hd fuel st sk (fold_left digest_update chunks (digest_new hd))] ->
  if bl then r = Err Rng else exists s, r = Ok s.
Proof. exact @pssk_blinding_all. Qed.

Example C58_pss_key_blinding_case :
  rng_fill once_rng false 2 = (Some [x2a; x2a], true) /\
  blinding_fails once_rng (uval (pk_n pub199)) (Some true) 5 /\
  is_ok (pssk_sign once_rng toy_hash 5 false (pssk_new toy_hash false key199) [x68]) = true /\
  pssk_sign once_rng toy_hash 5 false (pssk_new toy_hash true key199) [x68] = Err Rng.
Proof.
  split; [reflexivity|]. split; [exists 0%nat; split; [lia|]; eapply fails_now; reflexivity|].
  split; vm_compute; reflexivity.
Qed.

(** ** C72: equal keys are interchangeable *)

(** What equality of the signing and verifying key types means. *)
Theorem C72_equality : forall (a b : p1_signing_key) (c d : p1_verifying_key)
    (i j : pss_signing_key) (l m : pss_verifying_key),
  (p1sk_eqb a b = true <-> priv_eqb (p1sk_inner a) (p1sk_inner b) = true /\ p1sk_prefix a = p1sk_prefix b) /\
  (p1vk_eqb c d = true <-> pub_eqb (p1vk_inner c) (p1vk_inner d) = true /\ p1vk_prefix c = p1vk_prefix d) /\
  (pssk_eqb i j = true <-> priv_eqb (pssk_inner i) (pssk_inner j) = true /\ pssk_salt_len i = pssk_salt_len j) /\
  (psvk_eqb l m = true <-> pub_eqb (psvk_inner l) (psvk_inner m) = true /\ psvk_salt_len l = psvk_salt_len m).
Proof.
  intros. split; [apply p1sk_eqb_spec|]. split; [apply p1vk_eqb_spec|].
  split; [apply pssk_eqb_spec|apply psvk_eqb_spec].
Qed.

(** It is an equivalence. *)
Definition equiv {A} (eqb : A -> A -> bool) : Prop :=
  (forall a, eqb a a = true) /\ (forall a b, eqb a b = true -> eqb b a = true) /\
  (forall a b c, eqb a b = true -> eqb b c = true -> eqb a c = true).
Theorem C72_equivalence :
  equiv p1sk_eqb /\ equiv p1vk_eqb /\ equiv pssk_eqb /\ equiv psvk_eqb /\ equiv odk_eqb /\ equiv oek_eqb.
Proof.
  destruct c36_pub_equiv as (P1 & P2 & P3). destruct c36_priv_equiv as (Q1 & Q2 & Q3).
  assert (X : forall A B C (f : A -> B) (h : A -> C) (beq : B -> B -> bool) (eqb : A -> A -> bool),
    equiv beq -> (forall a b, eqb a b = true <-> beq (f a) (f b) = true /\ h a = h b) -> equiv eqb).
  { intros A B C f h beq eqb (E1 & E2 & E3) S. split; [|split].
    - intros a. apply S. auto.
    - intros a b H. apply S in H. apply S. destruct H; auto.
    - intros a b c H1 H2. apply S in H1, H2. apply S. destruct H1, H2. split; [eauto|congruence]. }
  assert (Ep : equiv pub_eqb) by (split; auto). assert (Eq : equiv priv_eqb) by (split; auto).
  split; [exact (X _ _ _ _ _ _ _ Eq p1sk_eqb_spec)|]. split; [exact (X _ _ _ _ _ _ _ Ep p1vk_eqb_spec)|].
  split; [exact (X _ _ _ _ _ _ _ Eq pssk_eqb_spec)|]. split; [exact (X _ _ _ _ _ _ _ Ep psvk_eqb_spec)|].
  split.
  - apply (X _ _ _ odk_inner odk_label priv_eqb odk_eqb Eq). intros a b. unfold odk_eqb.
    rewrite andb_true_iff, label_eqb_eq. tauto.
  - apply (X _ _ _ oek_inner oek_label pub_eqb oek_eqb Ep). intros a b. unfold oek_eqb.
    rewrite andb_true_iff, label_eqb_eq. tauto.
Qed.

(** Equal public keys stored with equal widths encrypt and verify alike. *)
Theorem C72_public : forall {R} (g : rng_ops R) fuel st a b pad msg s hashed sig,
  wf_pub a -> wf_pub b -> pub_eqb a b = true -> uprec (pk_n a) = uprec (pk_n b) ->
  public_encrypt g fuel st a pad msg = public_encrypt g fuel st b pad msg /\
  public_verify a s hashed sig = public_verify b s hashed sig.
Proof.
  intros. split; [apply eq_public_encrypt|apply eq_public_verify]; auto.
Qed.

(** Equal private keys stored with equal widths decrypt and sign alike, whatever values
    they have precomputed and however d is stored. *)
Theorem C72_private : forall {R} (g : rng_ops R) fuel rng a b pad ct s hashed,
  (rng <> None -> rng_ok g) -> good_priv a -> good_priv b -> priv_eqb a b = true ->
  uprec (pk_n (sk_pub a)) = uprec (pk_n (sk_pub b)) ->
  scheme_decrypt g fuel rng a pad ct = scheme_decrypt g fuel rng b pad ct /\
  scheme_sign g fuel rng a s hashed = scheme_sign g fuel rng b s hashed.
Proof.
  intros. split; [apply eq_scheme_decrypt|apply eq_scheme_sign]; auto.
Qed.

(** So do equal signing and verifying keys. *)
Theorem C72_key_objects : forall {R} (g : rng_ops R) hd fuel st msg s,
  (forall a b rng, (rng <> None -> rng_ok g) -> good_priv (p1sk_inner a) -> good_priv (p1sk_inner b) ->
     p1sk_eqb a b = true ->
     uprec (pk_n (sk_pub (p1sk_inner a))) = uprec (pk_n (sk_pub (p1sk_inner b))) ->
     p1sk_sign g hd fuel rng a msg = p1sk_sign g hd fuel rng b msg) /\
  (forall a b, rng_ok g -> good_priv (pssk_inner a) -> good_priv (pssk_inner b) ->
     pssk_eqb a b = true -> pssk_blinded a = pssk_blinded b ->
     uprec (pk_n (sk_pub (pssk_inner a))) = uprec (pk_n (sk_pub (pssk_inner b))) ->
     pssk_sign g hd fuel st a msg = pssk_sign g hd fuel st b msg) /\
  (forall a b, wf_pub (p1vk_inner a) -> wf_pub (p1vk_inner b) -> p1vk_eqb a b = true ->
     uprec (pk_n (p1vk_inner a)) = uprec (pk_n (p1vk_inner b)) ->
     p1vk_verify hd a msg s = p1vk_verify hd b msg s) /\
  (forall a b, wf_pub (psvk_inner a) -> wf_pub (psvk_inner b) -> psvk_eqb a b = true ->
     uprec (pk_n (psvk_inner a)) = uprec (pk_n (psvk_inner b)) ->
     psvk_verify hd a msg s = psvk_verify hd b msg s).
Proof.
  intros. split; [intros; apply eq_p1sk; auto|]. split; [intros; apply eq_pssk; auto|].
  split; [intros; apply eq_p1vk; auto|intros; apply eq_psvk; auto].
Qed.

(** The same modulus stored wider: both keys are made by [new] and are equal, but only the
    first accepts the signature. *)
Theorem C72_widths_refuted : exists a b s hashed sig n n' e,
  public_new n e = Ok a /\ public_new n' e = Ok b /\ pub_eqb a b = true /\
  public_verify a s hashed sig = Ok tt /\ public_verify b s hashed sig = Err Verification.
Proof.
  exists pub91, (mkPub (mkU (uval n91) 192) e91 (mkMP (mkU (uval n91) 192))),
    (SigPkcs1v15 raw1), [x41], sig91, n91, (mkU (uval n91) 192), e91.
  do 4 (split; [vm_compute; reflexivity|]). vm_compute. reflexivity.
Qed.

Example C72_case : good_priv key91 /\ good_priv key91_plain /\ priv_eqb key91 key91_plain = true /\
  sk_pre key91 <> sk_pre key91_plain /\
  private_decrypt count_rng 5 key91 PadPkcs1v15 (ct91 em91) = Ok [x41] /\
  private_decrypt count_rng 5 key91_plain PadPkcs1v15 (ct91 em91) = Ok [x41].
Proof.
  split; [exact good91|]. split; [exact good91_plain|]. split; [vm_compute; reflexivity|].
  split; [vm_compute; discriminate|]. split; vm_compute; reflexivity.
Qed.

(** ** C73: the raw operations are multiplicative *)

Theorem C73_public : forall k m1 m2 c1 c2,
  wf_pub k -> wf_uint m1 -> wf_uint m2 -> uprec m1 = uprec (pk_n k) -> uprec m2 = uprec (pk_n k) ->
  rsa_encrypt k m1 = Ok c1 -> rsa_encrypt k m2 = Ok c2 ->
  rsa_encrypt k (mkU (uval m1 * uval m2 mod uval (pk_n k)) (uprec (pk_n k)))
  = Ok (mkU (uval c1 * uval c2 mod uval (pk_n k)) (uprec (pk_n k))).
Proof. exact public_mult. Qed.

Theorem C73_private : forall {R} (g : rng_ops R) fuel rng k c1 c2 m1 m2,
  (rng <> None -> rng_ok g) -> good_priv k -> wf_uint c1 -> wf_uint c2 ->
  uprec c1 = uprec (pk_n (sk_pub k)) -> uprec c2 = uprec (pk_n (sk_pub k)) ->
  uval c1 < uval (pk_n (sk_pub k)) -> uval c2 < uval (pk_n (sk_pub k)) ->
  rsa_decrypt g fuel rng k c1 = Ok m1 -> rsa_decrypt g fuel rng k c2 = Ok m2 ->
  rsa_decrypt g fuel rng k (mkU (uval c1 * uval c2 mod uval (pk_n (sk_pub k))) (uprec (pk_n (sk_pub k))))
  = Ok (mkU (uval m1 * uval m2 mod uval (pk_n (sk_pub k))) (uprec (pk_n (sk_pub k)))).
Proof. exact @private_mult. Qed.

(** Blind signatures: from the raw signature of [em * r^e] alone one gets that of [em]. *)
Theorem C73_blind_signature : forall {R} (g : rng_ops R) fuel rng k em r ri,
  (rng <> None -> rng_ok g) -> good_priv k -> wf_uint em -> uprec em = uprec (pk_n (sk_pub k)) ->
  uval em < uval (pk_n (sk_pub k)) -> 0 <= r -> (r * ri) mod uval (pk_n (sk_pub k)) = 1 ->
  blinding_succeeds g (uval (pk_n (sk_pub k))) rng fuel ->
  let n := uval (pk_n (sk_pub k)) in let e := uval (pk_e (sk_pub k)) in
  exists s, rsa_decrypt_and_check g fuel k rng
              (mkU (uval em * RSAEP n e r mod n) (uprec (pk_n (sk_pub k)))) = Ok s /\
    rsa_decrypt_and_check g fuel k rng em = Ok (mkU (uval s * ri mod n) (uprec (pk_n (sk_pub k)))).
Proof. exact @blind_signature. Qed.

Example C73_case : good_priv key91 /\ (2 * ((uval n91 + 1) / 2)) mod uval n91 = 1 /\
  rsa_encrypt pub91 (mkU 2 128) = Ok (mkU 128 128) /\ rsa_encrypt pub91 (mkU 3 128) = Ok (mkU 2187 128) /\
  rsa_encrypt pub91 (mkU 6 128) = Ok (mkU (128 * 2187) 128).
Proof. split; [exact good91|]. split; [reflexivity|]. split; [|split]; vm_compute; reflexivity. Qed.

(** ** C74: digest objects that have already absorbed octets

    The fields of the [Oaep] and [Pss] schemes are public: a caller can put in a digest
    object that has been updated before. *)

(** In the hash of an OAEP scheme, octets absorbed before are a prefix of the label. *)
Theorem C74_oaep_hash : forall {R1 R2} (g1 : rng_ops R1) (g2 : rng_ops R2) f1 f2 st rng k hd x md label msg ct,
  Z.of_nat (length x + length (label_bytes label)) < 2 ^ 61 ->
  let fed := PadOaep (mkOaep (digest_update (digest_new hd) x) md label) in
  let fresh := PadOaep (mkOaep (digest_new hd) md (Some (x ++ label_bytes label))) in
  public_encrypt g1 f1 st (sk_pub k) fed msg = public_encrypt g1 f1 st (sk_pub k) fresh msg /\
  scheme_decrypt g2 f2 rng k fed ct = scheme_decrypt g2 f2 rng k fresh ct.
Proof. intros. split; [apply prefed_encrypt|apply prefed_decrypt]; auto. Qed.

Definition or_nil (o : outcome (list byte)) : list byte := match o with Ok l => l | _ => [] end.

(** In the mask generation hash they break decryption: the scheme cannot decrypt what it
    encrypted. *)
Theorem C74_oaep_mask_refuted : exists (x msg ct : list byte),
  let o := mkOaep (digest_new toy_hash) (digest_update (digest_new toy_hash) x) None in
  good_priv key91 /\
  public_encrypt count_rng 5 77 pub91 (PadOaep o) msg = Ok ct /\
  private_decrypt count_rng 5 key91 (PadOaep o) ct = Err Decryption.
Proof.
  exists [x01], [x68], (or_nil (public_encrypt count_rng 5 77 pub91 (PadOaep
    (mkOaep (digest_new toy_hash) (digest_update (digest_new toy_hash) [x01]) None)) [x68])).
  split; [exact good91|]. split; vm_compute; reflexivity.
Qed.

(** In a PSS scheme they break verification: the scheme rejects its own signatures. *)
Theorem C74_pss_refuted : exists (x hashed sig : list byte),
  let s := mkPss false (digest_update (digest_new toy_hash) x) 2 in
  good_priv key199 /\
  private_sign_with_rng count_rng 5 4 key199 (SigPss s) hashed = Ok sig /\
  public_verify pub199 (SigPss s) hashed sig = Err Verification.
Proof.
  exists [x01], [x0a; x0b], (or_nil (private_sign_with_rng count_rng 5 4 key199 (SigPss
    (mkPss false (digest_update (digest_new toy_hash) [x01]) 2)) [x0a; x0b])).
  split; [exact good199|]. split; vm_compute; reflexivity.
Qed.

Example C74_case :
  (let* ct := public_encrypt count_rng 5 77 pub91
                (PadOaep (mkOaep (digest_update (digest_new toy_hash) [x61]) (digest_new toy_hash) (Some [x62]))) [x68] in
   private_decrypt count_rng 5 key91 (PadOaep (oaep_new_with_label toy_hash [x61; x62])) ct) = Ok [x68].
Proof. vm_compute. reflexivity. Qed.

(** ** C75: the CRT values a key reports *)

(** RFC 8017 section 3.2: e*dP = 1 (mod p-1), e*dQ = 1 (mod q-1), q*qInv = 1 (mod p), each
    the least positive such number. *)
Theorem C75_values : forall k p q rest,
  good_priv k -> sk_primes k = p :: q :: rest -> sk_pre k <> None ->
  exists dp dq qi,
    priv_dp k = Some dp /\ priv_dq k = Some dq /\ priv_qinv k = Some qi /\
    priv_p_params k = Some (mkMP (mkU (uval p) (uprec (sk_d k)))) /\
    priv_q_params k = Some (mkMP (mkU (uval q) (uprec (sk_d k)))) /\
    0 < uval dp < uval p - 1 /\ (uval (pk_e (sk_pub k)) * uval dp) mod (uval p - 1) = 1 /\
    0 < uval dq < uval q - 1 /\ (uval (pk_e (sk_pub k)) * uval dq) mod (uval q - 1) = 1 /\
    0 < mf_res qi < uval p /\ (uval q * mf_res qi) mod uval p = 1.
Proof. exact crt_accessors. Qed.

(** They are there after [precompute], whatever was stored before, and gone after
    [clear_precomputed]; the other fields stay. *)
Theorem C75_presence : forall k, good_priv k -> primes_fit k ->
  (exists k', precompute k = Ok k' /\ good_priv k' /\
     priv_dp k' <> None /\ priv_dq k' <> None /\ priv_qinv k' <> None /\
     priv_p_params k' <> None /\ priv_q_params k' <> None /\
     priv_n k' = priv_n k /\ priv_e k' = priv_e k /\ priv_d k' = priv_d k /\ priv_primes k' = priv_primes k) /\
  (let k' := clear_precomputed k in
   priv_dp k' = None /\ priv_dq k' = None /\ priv_qinv k' = None /\
   priv_p_params k' = None /\ priv_q_params k' = None /\
   priv_n k' = priv_n k /\ priv_e k' = priv_e k /\ priv_d k' = priv_d k /\ priv_primes k' = priv_primes k) /\
  priv_crt_values k = None.
Proof.
  intros k G F. split; [|split; [repeat split|reflexivity]].
  destruct (precompute_total k G F) as (k' & E). exists k'. split; [exact E|].
  pose proof (good_precompute k k' G E) as G'. split; [exact G'|].
  destruct (precompute_keeps k k' E) as (A & B & C).
  assert (N : sk_pre k' <> None).
  { unfold precompute in E. destruct (sk_pre k) as [pc|] eqn:Ep; [injection E as <-; congruence|].
    pose proof G as (_ & Wd & HF & _).
    assert (E' : precompute k = Ok k') by (unfold precompute; rewrite Ep; exact E).
    destruct (precompute_inv k k' Wd HF Ep E') as (p & q & rest & qi & _ & H).
    cbv zeta in H. decompose [and] H. subst k'. discriminate. }
  unfold priv_dp, priv_dq, priv_qinv, priv_p_params, priv_q_params, priv_n, priv_e, priv_d, priv_primes.
  rewrite A, B, C. destruct (sk_pre k') as [pc|]; [|congruence].
  repeat split; discriminate.
Qed.

(** The accessors of a new key return what it was made from. *)
Theorem C75_components :
  (forall n e d primes k, wf_uint n -> wf_uint e -> wf_uint d -> Forall wf_uint primes -> Z.odd (uval n) = true ->
     from_components n e d primes = Ok k ->
     priv_n k = n /\ priv_e k = e /\ priv_d k = d /\ priv_primes k = primes /\
     pub_n (to_public_key k) = n /\ pub_e (to_public_key k) = e) /\
  (forall n e mx k, public_new n e = Ok k \/ public_new_with_max_size n e mx = Ok k \/ public_new_unchecked n e = Ok k ->
     pub_n k = n /\ pub_e k = e).
Proof.
  split.
  - intros n e d primes k Wn We Wd Wp O H. destruct (C27_two_primes n e d primes k Wn We Wd Wp O H) as (L & _).
    destruct (C27_result n e d primes k Wn We Wd Wp O L H) as (A & B & C & D & _). repeat split; assumption.
  - assert (A : forall n e mx k, public_new_with_max_size n e mx = Ok k -> pub_n k = n /\ pub_e k = e).
    { intros n e mx k H. apply bind_ok in H. destruct H as (_ & _ & H). apply bind_ok in H. destruct H as (_ & _ & H).
      cbv zeta in H. apply bind_ok in H. destruct H as (_ & _ & H). injection H as <-. split; reflexivity. }
    intros n e mx k [H|[H|H]]; [exact (A _ _ _ _ H)|exact (A _ _ _ _ H)|].
    unfold public_new_unchecked in H. apply bind_ok in H. destruct H as (_ & _ & H). cbv zeta in H.
    try (apply bind_ok in H; destruct H as (_ & _ & H)). injection H as <-. split; reflexivity.
Qed.

(** The coefficient that encoding a key computes is the stored one. *)
Theorem C75_coefficient : forall k qi c, good_priv k -> priv_qinv k = Some qi ->
  crt_coefficient k = Ok (Some c) -> uval c = mf_res qi.
Proof. exact crt_coefficient_agrees. Qed.

(** The naive reading of the accessor [crt_values], "the CRT values of a multi-prime key",
    is wrong: it never answers. *)
Theorem C75_crt_values_refuted : exists k, good_priv k /\ length (sk_primes k) = 3%nat /\
  sk_pre k <> None /\ priv_crt_values k = None.
Proof.
  exists key91. split; [exact good91|]. split; [reflexivity|]. split; [vm_compute; discriminate|reflexivity].
Qed.

Example C75_case : good_priv key91 /\ primes_fit key91 /\ sk_pre key91 <> None /\
  option_map uval (priv_dp key91) = Some 460177423 /\
  (7 * 460177423) mod (805310491 - 1) = 1.
Proof.
  split; [exact good91|]. split.
  { assert (E : firstn 2 (sk_primes key91) = [mkU 805310491 64; mkU 1073747321 64]) by (vm_compute; reflexivity).
    assert (D : uprec (sk_d key91) = 128) by (vm_compute; reflexivity).
    unfold primes_fit. rewrite E, D. intros p [<-|[<-|[]]]; cbn [uprec]; lia. }
  split; [vm_compute; discriminate|]. split; vm_compute; reflexivity.
Qed.

(** ** C76: conversions between keys and key objects *)

(** Turning a key into a signing or verifying key and back loses nothing; a signing key and
    the verifying key made from the public half agree with the verifying key it derives. *)
Theorem C76_conversions : forall hd oid bl (k : privkey),
  (forall sk, p1sk_from hd oid k = Ok sk ->
     p1sk_into sk = k /\ p1sk_as_ref sk = k /\
     p1vk_from hd oid (to_public_key k) = Ok (p1sk_verifying_key sk) /\
     p1vk_into (p1sk_verifying_key sk) = sk_pub k /\ p1vk_as_ref (p1sk_verifying_key sk) = sk_pub k) /\
  (let sk := pssk_from hd bl k in
   pssk_into sk = k /\ pssk_as_ref sk = k /\ pssk_get_salt_len sk = h_size hd /\
   psvk_from hd (to_public_key k) = pssk_verifying_key sk /\
   psvk_into (pssk_verifying_key sk) = sk_pub k /\ psvk_as_ref (pssk_verifying_key sk) = sk_pub k /\
   psvk_get_salt_len (pssk_verifying_key sk) = h_size hd).
Proof.
  intros hd oid bl k. split; [|repeat split].
  intros sk H. unfold p1sk_from, p1sk_new in H. apply bind_ok in H. destruct H as (px & E & H).
  injection H as <-. unfold p1vk_from, p1vk_new. rewrite E. repeat split.
Qed.

(** A clone of a verifying key equals it and gives the same verdicts. *)
Theorem C76_clone : forall hd v w msg s,
  p1vk_eqb (p1vk_clone v) v = true /\ psvk_eqb (psvk_clone w) w = true /\
  p1vk_verify hd (p1vk_clone v) msg s = p1vk_verify hd v msg s /\
  psvk_verify hd (psvk_clone w) msg s = psvk_verify hd w msg s.
Proof.
  intros. destruct c36_pub_equiv as (P & _).
  split; [apply p1vk_eqb_spec; split; [apply P|reflexivity]|].
  split; [apply psvk_eqb_spec; split; [apply P|reflexivity]|]. split; reflexivity.
Qed.

(** The deprecated names do what the current ones do: they sign and verify with the
    prefix of RFC 8017 A.2.4, respectively without one. *)
Theorem C76_deprecated : forall {R} (gp : prime_gen R) hd oid k pk fuel st bits,
  p1sk_new_with_prefix hd oid k = p1sk_new hd oid k /\
  p1vk_new_with_prefix hd oid pk = p1vk_new hd oid pk /\
  p1sk_random_with_prefix gp hd oid fuel st bits = p1sk_random gp hd oid fuel st bits /\
  p1_prefix pkcs1_sign_new_raw = [] /\ p1_hash_len pkcs1_sign_new_raw = None.
Proof. repeat split. Qed.

Example C76_case : exists sk, p1sk_from toy_hash oid_toy key199 = Ok sk /\ p1sk_into sk = key199.
Proof. eexists. split; [vm_compute; reflexivity|reflexivity]. Qed.

(** ** C77: how far the generator reaches *)

(** Without a generator argument nothing random happens: the results are the same in every
    environment. *)
Theorem C77_no_generator : forall {R1 R2} (g1 : rng_ops R1) (g2 : rng_ops R2) f1 f2 k pad ct s h c,
  private_decrypt g1 f1 k pad ct = private_decrypt g2 f2 k pad ct /\
  private_sign g1 f1 k s h = private_sign g2 f2 k s h /\
  rsa_decrypt g1 f1 None k c = rsa_decrypt g2 f2 None k c /\
  rsa_decrypt_and_check g1 f1 k None c = rsa_decrypt_and_check g2 f2 k None c.
Proof.
  intros. split; [apply no_rng_decrypt|]. split; [apply no_rng_sign|]. apply no_rng_raw.
Qed.

(** With one, the output depends on the octets drawn for the seed, the salt or the padding
    string, and on nothing else of the generator. *)
Theorem C77_oaep_seed : forall {R1 R2} (g1 : rng_ops R1) (g2 : rng_ops R2) f1 f2 st1 st2 pk o msg,
  fst (rng_fill g1 st1 (digest_output_size (oa_digest o))) =
  fst (rng_fill g2 st2 (digest_output_size (oa_digest o))) ->
  public_encrypt g1 f1 st1 pk (PadOaep o) msg = public_encrypt g2 f2 st2 pk (PadOaep o) msg.
Proof. exact @oaep_seed_only. Qed.

Theorem C77_pss_salt : forall {R1 R2} (g1 : rng_ops R1) (g2 : rng_ops R2) f1 f2 st1 st2 k s h,
  ps_blinded s = false ->
  fst (rng_fill g1 st1 (ps_salt_len s)) = fst (rng_fill g2 st2 (ps_salt_len s)) ->
  private_sign_with_rng g1 f1 st1 k (SigPss s) h = private_sign_with_rng g2 f2 st2 k (SigPss s) h.
Proof. exact @pss_salt_only. Qed.

Theorem C77_pkcs1v15_padding : forall {R1 R2} (g1 : rng_ops R1) (g2 : rng_ops R2) f1 f2 st1 st2 pk msg PS,
  rng_ok g1 -> rng_ok g2 ->
  padding_gives g1 f1 st1 (key_size pk - length msg - 3) PS ->
  padding_gives g2 f2 st2 (key_size pk - length msg - 3) PS ->
  public_encrypt g1 f1 st1 pk PadPkcs1v15 msg = public_encrypt g2 f2 st2 pk PadPkcs1v15 msg.
Proof. exact @pkcs1_padding_only. Qed.

(** [once_rng] and this generator agree on the first request only. *)
Definition const_rng : rng_ops unit := mkRng unit (fun _ n => (Some (repeat x2a n), tt)) (fun _ m => (Some (1 mod m), tt)).

Example C77_case :
  is_ok (public_encrypt once_rng 5 false pub91 (PadOaep (oaep_new toy_hash)) [x68]) = true /\
  public_encrypt once_rng 5 false pub91 (PadOaep (oaep_new toy_hash)) [x68] =
  public_encrypt const_rng 9 tt pub91 (PadOaep (oaep_new toy_hash)) [x68] /\
  is_ok (private_sign_with_rng once_rng 5 false key199 (SigPss (pss_new toy_hash)) [x0a; x0b]) = true.
Proof. split; [vm_compute; reflexivity|]. split; [apply C77_oaep_seed; reflexivity|vm_compute; reflexivity]. Qed.

Print Assumptions C10_decryptions.
Print Assumptions C25_refused_keys.
Print Assumptions C58_pss_key_blinding.
Print Assumptions C72_equality.
Print Assumptions C72_equivalence.
Print Assumptions C72_public.
Print Assumptions C72_private.
Print Assumptions C72_key_objects.
Print Assumptions C72_widths_refuted.
Print Assumptions C73_public.
Print Assumptions C73_private.
Print Assumptions C73_blind_signature.
Print Assumptions C74_oaep_hash.
Print Assumptions C74_oaep_mask_refuted.
Print Assumptions C74_pss_refuted.
Print Assumptions C75_values.
Print Assumptions C75_presence.
Print Assumptions C75_components.
Print Assumptions C75_coefficient.
Print Assumptions C75_crt_values_refuted.
Print Assumptions C76_conversions.
Print Assumptions C76_clone.
Print Assumptions C76_deprecated.
Print Assumptions C77_no_generator.
Print Assumptions C77_oaep_seed.
Print Assumptions C77_pss_salt.
Print Assumptions C77_pkcs1v15_padding.
