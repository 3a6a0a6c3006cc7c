(** Proofs about what each error means (C87). *)
From Coq Require Import ZArith List Bool Lia.
From Coq Require Import Init.Byte.
From Verif Require Import Base Bigint BytesLemmas BigintLemmas SpecRFC SpecRng SpecKey SpecSig
  MHash MPkcs1 MOaep MPss MRsa MKey MApi KeyDefs.
From Verif Require Import PRsa PPkcs1 POaep PApi PEnc PSig PSign PKey PMisc.
Import ListNotations.
Local Open Scope Z_scope.

Section Errors.
  Context {R : Type} (g : rng_ops R).

  Lemma decrypt_errors fuel rng k ct err :
    (rng <> None -> rng_ok g) -> good_priv k -> usable_key (sk_pub k) ->
    let n := uval (pk_n (sk_pub k)) in let width := uprec (pk_n (sk_pub k)) in let K := key_size (sk_pub k) in
    (pkcs1v15_decrypt g fuel rng k ct = Err err <->
     (err = Decode DecodeInputSize /\ width < 8 * Z.of_nat (length ct)) \/
     (8 * Z.of_nat (length ct) <= width /\
      ((err = Decryption /\ n <= os2ip ct) \/
       (os2ip ct < n /\
        ((err = Rng /\ blinding_fails g n rng fuel) \/
         (err = Decryption /\ blinding_succeeds g n rng fuel /\
          forall M, ~ is_eme_pkcs1 K (i2osp (RSADP n (uval (sk_d k)) (os2ip ct)) K) M)))))).
  Proof.
    intros Hr Hk Hu n width K.
    destruct (pkcs1v15_decrypt_exact g fuel rng k ct Hr Hk Hu) as (A & B & C). fold n width K in A, B, C.
    destruct (Z.lt_ge_cases width (8 * Z.of_nat (length ct))) as [L|L].
    { rewrite (A L). split; [intros E; injection E as <-; auto|]. intros [(-> & _)|(L' & _)]; [auto|lia]. }
    destruct (Z.lt_ge_cases (os2ip ct) n) as [V|V].
    2:{ rewrite (B L V). split; [intros E; injection E as <-; auto|].
        intros [(_ & L')|(_ & [(-> & _)|(V' & _)])]; [lia|auto|lia]. }
    destruct (C L V) as (S & F & U). split.
    - intros E. right. split; [auto|]. right. split; [auto|].
      destruct (blinding_trichotomy g n rng fuel) as [X|[X|X]].
      + right. destruct (S X) as (S1 & S2).
        assert (N : forall M, ~ is_eme_pkcs1 K (i2osp (RSADP n (uval (sk_d k)) (os2ip ct)) K) M).
        { intros M HM. apply S1 in HM. congruence. }
        rewrite (S2 N) in E. injection E as <-. auto.
      + rewrite (F X) in E. injection E as <-. auto.
      + rewrite (U X) in E. discriminate.
    - intros [(_ & L')|(_ & [(_ & V')|(_ & [(-> & X)|(-> & X & N)])])]; [lia|lia|auto|].
      apply (proj2 (S X)). exact N.
  Qed.

  Lemma oaep_decrypt_errors fuel rng k ct hd hm label err :
    (rng <> None -> rng_ok g) -> (0 < h_size hm)%nat -> good_priv k -> usable_key (sk_pub k) ->
    (11 <= key_size (sk_pub k))%nat -> Z.of_nat (length (label_bytes label)) < 2 ^ 61 ->
    let n := uval (pk_n (sk_pub k)) in let K := key_size (sk_pub k) in
    (oaep_api_decrypt g fuel rng k ct (digest_new hd) (digest_new hm) label = Err err <->
     (err = Decryption /\ (length ct <> K \/ n <= os2ip ct)) \/
     (length ct = K /\ os2ip ct < n /\
      ((err = Rng /\ blinding_fails g n rng fuel) \/
       (err = Decryption /\ blinding_succeeds g n rng fuel /\
        forall M, ~ is_eme_oaep (h_fun hd) (h_size hd) (h_fun hm) (h_size hm) (label_bytes label) K
                      (i2osp (RSADP n (uval (sk_d k)) (os2ip ct)) K) M)))) /\
    oaep_api_decrypt_digest g hd hm fuel rng k ct label =
    oaep_api_decrypt g fuel rng k ct (digest_new hd) (digest_new hm) label.
  Proof.
    intros Hr H0 Hk Hu H11 HL n K. pose proof (good_pub k Hk) as Wp.
    split; [|apply oaep_api_decrypt_agree; auto; apply check_public_ok; auto].
    destruct (oaep_api_decrypt_exact g fuel rng k ct hd hm label Hr H0 Hk) as (A & B & C); auto.
    { unfold usable_key, public_usable, public_acceptable in Hu. clear - Hu. lia. }
    fold n K in A, B, C. set (dec := oaep_api_decrypt _ _ _ _ _ _ _ _) in *.
    destruct (Nat.eq_dec (length ct) K) as [L|L].
    2:{ rewrite (A L). split; [intros E; injection E as <-; auto|]. intros [(-> & _)|(L' & _)]; [auto|contradiction]. }
    destruct (Z.lt_ge_cases (os2ip ct) n) as [V|V].
    2:{ rewrite (B L V). split; [intros E; injection E as <-; auto|].
        intros [(-> & _)|(_ & V' & _)]; [auto|lia]. }
    destruct (C L V) as (S & F & U). split.
    - intros E. right. split; [auto|]. split; [auto|].
      destruct (blinding_trichotomy g n rng fuel) as [X|[X|X]].
      + right. destruct (S X) as (S1 & S2). split; [|split; [exact X|intros M HM; apply S1 in HM; congruence]].
        rewrite S2 in E by (intros M HM; apply S1 in HM; congruence). injection E as <-. auto.
      + rewrite (F X) in E. injection E as <-. auto.
      + rewrite (U X) in E. discriminate.
    - intros [(_ & [X|X])|(_ & _ & [(-> & X)|(-> & X & N)])]; [contradiction|lia|auto|].
      apply (proj2 (S X)). exact N.
  Qed.

  (** Labels beyond the limit: the two forms of the call report different errors. *)
  Lemma oaep_long_label fuel rng k ct hd hm label :
    (rng <> None -> rng_ok g) -> good_priv k -> usable_key (sk_pub k) ->
    2 ^ 61 <= Z.of_nat (length (label_bytes label)) ->
    let n := uval (pk_n (sk_pub k)) in let K := key_size (sk_pub k) in
    let dyn := oaep_api_decrypt g fuel rng k ct (digest_new hd) (digest_new hm) label in
    let static := oaep_api_decrypt_digest g hd hm fuel rng k ct label in
    (length ct <> K \/ n <= os2ip ct -> dyn = Err Decryption /\ static = Err Decryption) /\
    (length ct = K -> os2ip ct < n ->
     (blinding_succeeds g n rng fuel -> dyn = Err Decryption /\ static = Err LabelTooLong) /\
     (blinding_fails g n rng fuel -> dyn = Err Rng /\ static = Err Rng)).
  Proof.
    intros Hr Hk Hu HL n K dyn static. pose proof (good_pub k Hk) as Hp.
    assert (H32 : uprec (pk_n (sk_pub k)) < 2 ^ 32).
    { unfold usable_key, public_usable, public_acceptable in Hu. clear - Hu. lia. }
    destruct (key_size_facts _ Hp) as (_ & Hs & _).
    pose proof (proj2 (check_public_ok _ Hp) Hu) as Hc.
    unfold dyn, static. rewrite oaep_api_decrypt_core, oaep_api_decrypt_dyn_core, Hc. cbn [bind]. fold K.
    apply Z.leb_le in HL. rewrite !HL.
    split.
    - intros X. destruct (Nat.eqb_spec (length ct) K) as [L|L]; cbn [negb]; [|auto].
      destruct X as [X|X]; [contradiction|].
      rewrite !decrypt_core_range by (auto; rewrite L; exact Hs). auto.
    - intros L V. destruct (Nat.eqb_spec (length ct) K); [|contradiction]. cbn [negb].
      destruct (decrypt_core_good g fuel rng k ct Hr Hk) as (A & B & C); auto.
      { rewrite L; auto. }
      split; intros X; [rewrite (A X)|rewrite (B X); auto]. cbn [bind].
      unfold oaep_decrypt_digest. unfold MAX_LABEL_LEN. rewrite HL. auto.
  Qed.

  Lemma encrypt_errors fuel st pk msg err : rng_ok g -> wf_pub pk -> usable_key pk ->
    (pkcs1v15_encrypt g fuel st pk msg = Err err <->
     (err = MessageTooLong /\ (key_size pk < length msg + 11)%nat) \/
     (err = Rng /\ (length msg + 11 <= key_size pk)%nat /\ padding_fails g fuel st (key_size pk - length msg - 3))).
  Proof.
    intros Hg Wp Hu. destruct (pkcs1v15_encrypt_exact g fuel st pk msg Hg Wp Hu) as (A & B).
    destruct (Nat.lt_ge_cases (key_size pk) (length msg + 11)) as [L|L].
    - rewrite (A L). split; [intros E; injection E as <-; auto|]. intros [(-> & _)|(_ & L' & _)]; [auto|lia].
    - destruct (B L) as (S & F & U). split.
      + intros E. right. destruct (padding_trichotomy g Hg fuel st (key_size pk - length msg - 3)) as [(PS & X)|[X|X]].
        * rewrite (S PS X) in E. discriminate.
        * rewrite (F X) in E. injection E as <-. auto.
        * rewrite (U X) in E. discriminate.
      + intros [(_ & L')|(-> & _ & X)]; [lia|auto].
  Qed.

  Lemma oaep_encrypt_errors st pk msg hd hm label err : rng_ok g -> (0 < h_size hm)%nat -> wf_pub pk -> usable_key pk ->
    (oaep_api_encrypt g st pk msg (digest_new hd) (digest_new hm) label = Err err <->
     (err = LabelTooLong /\ 2 ^ 61 <= Z.of_nat (length (label_bytes label))) \/
     (Z.of_nat (length (label_bytes label)) < 2 ^ 61 /\
      ((err = MessageTooLong /\ (key_size pk < length msg + 2 * h_size hd + 2)%nat) \/
       (err = Rng /\ (length msg + 2 * h_size hd + 2 <= key_size pk)%nat /\
        exists st', rng_fill g st (h_size hd) = (None, st'))))) /\
    oaep_api_encrypt_digest g hd hm st pk msg label =
    oaep_api_encrypt g st pk msg (digest_new hd) (digest_new hm) label.
  Proof.
    intros Hg H0 Wp Hu. split; [|symmetry; apply oaep_api_encrypt_agree].
    rewrite oaep_api_encrypt_agree, oaep_api_encrypt_exact by auto.
    destruct (Z.leb_spec (2 ^ 61) (Z.of_nat (length (label_bytes label)))) as [L|L].
    { split; [intros E; injection E as <-; auto|]. intros [(-> & _)|(L' & _)]; [auto|lia]. }
    destruct (Nat.ltb_spec (key_size pk) (length msg + 2 * h_size hd + 2)) as [M|M].
    { split; [intros E; injection E as <-; auto|].
      intros [(_ & L')|(_ & [(-> & _)|(_ & M' & _)])]; [lia|auto|lia]. }
    destruct (rng_fill g st (h_size hd)) as [[seed|] st'].
    - split; [discriminate|]. intros [(_ & L')|(_ & [(_ & M')|(_ & _ & (s & E))])]; [lia|lia|discriminate].
    - split; [intros E; injection E as <-; right; split; auto; right; eauto|].
      intros [(_ & L')|(_ & [(_ & M')|(-> & _)])]; [lia|lia|auto].
  Qed.

  Lemma sign_errors fuel rng k s hashed err : (rng <> None -> rng_ok g) -> good_priv k ->
    let n := uval (pk_n (sk_pub k)) in let K := key_size (sk_pub k) in
    let long := (K < length (p1_prefix s ++ hashed) + 11)%nat in
    (scheme_sign g fuel rng k (SigPkcs1v15 s) hashed = Err err <->
     (err = InputNotHashed /\ ~ hash_len_ok s hashed) \/
     (hash_len_ok s hashed /\
      ((err = MessageTooLong /\ long) \/ (err = Rng /\ ~ long /\ blinding_fails g n rng fuel)))).
  Proof.
    intros Hr Hk n K long. unfold scheme_sign, check_hash_len, hash_len_ok, guard.
    destruct (p1_hash_len s) as [l|]; [destruct (Nat.eqb_spec (length hashed) l) as [E|E]|]; cbn [bind].
    2:{ split; [intros X; injection X as <-; auto|]. intros [(-> & _)|(X & _)]; [auto|contradiction]. }
    all: destruct (pkcs1v15_sign_exact g fuel rng k (p1_prefix s) hashed Hr Hk) as (A & B);
      fold n K in A, B.
    all: destruct (Nat.lt_ge_cases K (length (p1_prefix s ++ hashed) + 11)) as [L|L];
      [rewrite (A L); split; [intros X; injection X as <-; auto|];
       intros [(_ & X)|(_ & [(-> & _)|(_ & L' & _)])]; [tauto|auto|unfold long in L'; lia]|].
    all: destruct (B L) as (S & F & U); split;
      [intros X; right; split; [auto|]; right; destruct (blinding_trichotomy g n rng fuel) as [Y|[Y|Y]];
         [rewrite (S Y) in X; discriminate
         |rewrite (F Y) in X; injection X as <-; unfold long; split; [auto|split; [lia|auto]]
         |rewrite (U Y) in X; discriminate]
      |intros [(_ & X)|(_ & [(_ & L')|(-> & _ & Y)])]; [tauto|unfold long in L'; lia|auto]].
  Qed.

  Lemma sign_pss_errors hd bl fuel rng k hashed salt_len err :
    (rng <> None -> rng_ok g) -> (0 < h_size hd)%nat -> good_priv k ->
    uprec (pk_n (sk_pub k)) < 2 ^ 32 ->
    let n := uval (pk_n (sk_pub k)) in
    let emBits := (Z.to_nat (ubits (pk_n (sk_pub k))) - 1)%nat in
    let long := (pss_em_len emBits < h_size hd + salt_len + 2)%nat in
    (scheme_sign g fuel rng k (SigPss (mkPss bl (digest_new hd) salt_len)) hashed = Err err <->
     (err = InvalidPaddingScheme /\ rng = None) \/
     (exists st, rng = Some st /\
       ((err = Rng /\ exists st', rng_fill g st salt_len = (None, st')) \/
        (exists salt st', rng_fill g st salt_len = (Some salt, st') /\
          ((err = InputNotHashed /\ length hashed <> h_size hd) \/
           (length hashed = h_size hd /\
            ((err = Internal /\ long) \/
             (err = Rng /\ ~ long /\ bl = true /\ blinding_fails g n (Some st') fuel)))))))).
  Proof.
    intros Hr H0 Hk H32 n emBits long. destruct rng as [st|].
    2:{ cbn [scheme_sign]. split; [intros E; injection E as <-; auto|].
        intros [(-> & _)|(st & E & _)]; [auto|discriminate]. }
    assert (Hg : rng_ok g) by (apply Hr; discriminate).
    cbn [scheme_sign ps_blinded ps_salt_len ps_digest]. rewrite pss_sign_agree. unfold pss_sign_digest.
    destruct (rng_fill g st salt_len) as [[salt|] st'] eqn:EF.
    2:{ split; [intros E; injection E as <-; right; exists st; eauto|].
        intros [(_ & E)|(s & E & [(-> & _)|(salt & s' & E' & _)])]; [discriminate|auto|]. injection E as <-. congruence. }
    assert (LS : length salt = salt_len) by (eapply (proj1 Hg); eauto).
    destruct (sign_pss_exact g hd fuel (if bl then Some st' else None) k hashed salt) as (A & B); auto.
    fold n emBits in A, B. rewrite LS in B. fold long in B.
    set (sign := sign_pss_with_salt_digest _ _ _ _ _ _ _) in *.
    assert (P : forall Q : Prop,
      (Q <-> (err = InputNotHashed /\ length hashed <> h_size hd) \/
           (length hashed = h_size hd /\
            ((err = Internal /\ long) \/
             (err = Rng /\ ~ long /\ bl = true /\ blinding_fails g n (Some st') fuel)))) ->
      (Q <-> (err = InvalidPaddingScheme /\ Some st = None) \/
     (exists st0, Some st = Some st0 /\
       ((err = Rng /\ exists st', rng_fill g st0 salt_len = (None, st')) \/
        (exists salt st', rng_fill g st0 salt_len = (Some salt, st') /\
          ((err = InputNotHashed /\ length hashed <> h_size hd) \/
           (length hashed = h_size hd /\
            ((err = Internal /\ long) \/
             (err = Rng /\ ~ long /\ bl = true /\ blinding_fails g n (Some st') fuel))))))))).
    { intros Q HQ. rewrite HQ. split.
      - intros X. right. exists st. split; [auto|]. right. eauto.
      - intros [(_ & X)|(s & X & [(_ & (s' & Y))|(sa & s' & Y & Z)])]; [discriminate| |]; injection X as <-; [congruence|].
        rewrite EF in Y. injection Y as <- <-. exact Z. }
    apply P. clear P.
    destruct (Nat.eq_dec (length hashed) (h_size hd)) as [L|L].
    2:{ rewrite (A L). split; [intros E; injection E as <-; auto|]. intros [(-> & _)|(X & _)]; [auto|contradiction]. }
    destruct (B L) as (C & D).
    destruct (Nat.lt_ge_cases (pss_em_len emBits) (h_size hd + salt_len + 2)) as [M|M].
    { rewrite (C M). split; [intros E; injection E as <-; auto|].
      intros [(_ & X)|(_ & [(-> & _)|(_ & X & _)])]; [contradiction|auto|unfold long in X; lia]. }
    destruct (D M) as (S & F & U). split.
    - intros E. right. split; [auto|]. right.
      destruct (blinding_trichotomy g n (if bl then Some st' else None) fuel) as [Y|[Y|Y]].
      + rewrite (S Y) in E; discriminate.
      + rewrite (F Y) in E. injection E as <-. destruct bl; [|destruct Y]. unfold long. split; [auto|]. split; [lia|auto].
      + rewrite (U Y) in E; discriminate.
    - intros [(_ & X)|(_ & [(_ & X)|(-> & _ & -> & Y)])]; [contradiction|unfold long in X; lia|auto].
  Qed.
End Errors.

Lemma verify_errors pk s hashed sig err : wf_pub pk -> 8 * Z.of_nat (length sig) < 2 ^ 32 ->
  (public_verify pk (SigPkcs1v15 s) hashed sig = Err err <->
   (err = InputNotHashed /\ ~ hash_len_ok s hashed) \/
   (err = Verification /\ hash_len_ok s hashed /\ ~ pkcs1v15_accepts pk (p1_prefix s ++ hashed) sig)).
Proof.
  intros Wp L. destruct (public_verify_pkcs1_exact pk s hashed sig Wp L) as (A & B).
  assert (D : hash_len_ok s hashed \/ ~ hash_len_ok s hashed).
  { unfold hash_len_ok. destruct (p1_hash_len s) as [l|]; [|auto]. destruct (Nat.eq_dec (length hashed) l); auto. }
  destruct D as [D|D].
  - destruct (B D) as (C & N). split.
    + intros E. right. assert (X : ~ pkcs1v15_accepts pk (p1_prefix s ++ hashed) sig) by (intros X; apply C in X; congruence).
      rewrite (N X) in E. injection E as <-. auto.
    + intros [(_ & X)|(-> & _ & X)]; [contradiction|auto].
  - rewrite (A D). split; [intros E; injection E as <-; auto|]. intros [(-> & _)|(_ & X & _)]; [auto|contradiction].
Qed.

Lemma verify_pss_errors hd bl pk hashed salt_len sig err :
  (0 < h_size hd)%nat -> Z.of_nat (h_size hd + salt_len + 2) < 2 ^ 64 ->
  wf_pub pk -> uprec (pk_n pk) < 2 ^ 32 -> 8 * Z.of_nat (length sig) < 2 ^ 32 ->
  (public_verify pk (SigPss (mkPss bl (digest_new hd) salt_len)) hashed sig = Err err <->
   err = Verification /\ ~ (length sig = key_size pk /\ pss_accepts hd pk salt_len hashed (os2ip sig))).
Proof.
  intros H0 HS Wp H32 HL. destruct (public_verify_pss_total hd bl pk hashed salt_len sig H0 HS Wp H32 HL) as [(A & B)|(A & B)]; rewrite A.
  - split; [discriminate|]. intros (_ & X). contradiction.
  - split; [intros E; injection E as <-; auto|]. intros (-> & _). auto.
Qed.

(** * Key validation *)

Lemma public_new_errors pk err : wf_pub pk ->
  (check_public pk = Err err <-> public_new (pk_n pk) (pk_e pk) = Err err).
Proof.
  intros (_ & _ & _ & O). unfold public_new, public_new_with_max_size, check_public.
  destruct (check_public_with_max_size (pk_n pk) (pk_e pk) MAX_SIZE) as [[]| | |]; cbn [bind];
    [|split; intros X; injection X as <-; auto|split; discriminate|split; discriminate].
  split; [discriminate|]. unfold uis_odd, uis_zero, guard, assert_. rewrite O. cbn [bind].
  destruct (uval (pk_n pk) =? 0); discriminate.
Qed.

Lemma validate_errors k err :
  wf_pub (sk_pub k) -> wf_uint (sk_d k) -> Forall wf_uint (sk_primes k) ->
  let n := pk_n (sk_pub k) in let e := uval (pk_e (sk_pub k)) in let d := sk_d k in
  let ed := e * uval d in let primes := sk_primes k in
  (validate k = Err err <->
   public_new n (pk_e (sk_pub k)) = Err err \/
   (public_usable (uval n) e (uprec n) /\
    ((err = InvalidPrime /\ exists p, In p primes /\ uval p = 0) \/
     ((forall p, In p primes -> 0 < uval p) /\
      ((err = InvalidModulus /\ product (map uval primes) mod 2 ^ uprec n <> uval n) \/
       (err = InvalidExponent /\ product (map uval primes) mod 2 ^ uprec n = uval n /\
        exists before p after, primes = before ++ p :: after /\
          (forall q, In q before -> 1 < uval q /\ uprec q <= 2 * uprec d /\ ed mod (uval q - 1) = 1) /\
          1 < uval p /\ uprec p <= 2 * uprec d /\ ed mod (uval p - 1) <> 1)))))).
Proof.
  intros W Wd Wp n e d ed primes. unfold n. rewrite <- public_new_errors by auto. fold n.
  pose proof (validate_total k W Wd Wp) as T0. cbv zeta in T0. fold n e d primes in T0.
  destruct T0 as [(x & E & C & U)|[(E & U & Z)|[(E & U & P & M)|(U & P & M & T)]]].
  - rewrite E, C. split; [auto|]. intros [X|(X & _)]; [auto|contradiction].
  - assert (C : forall x, check_public (sk_pub k) <> Err x).
    { intros x X. destruct (check_public_spec (sk_pub k) W) as [(Y & _)|(y & _ & Y)]; [congruence|contradiction]. }
    rewrite Exists_exists in Z. rewrite E. split; [intros X; injection X as <-; right; split; auto|].
    intros [X|(_ & [(-> & _)|(X & _)])]; [destruct (C _ X)|auto|]. destruct Z as (p & I & Z). specialize (X p I). lia.
  - assert (C : forall x, check_public (sk_pub k) <> Err x).
    { intros x X. destruct (check_public_spec (sk_pub k) W) as [(Y & _)|(y & _ & Y)]; [congruence|contradiction]. }
    rewrite Forall_forall in P. rewrite E. split; [intros X; injection X as <-; right; split; auto|].
    intros [X|(_ & [(_ & p & I & Z)|(_ & [(-> & _)|(_ & X & _)])])]; [destruct (C _ X)| |auto|contradiction].
    specialize (P p I). lia.
  - assert (C : forall x, check_public (sk_pub k) <> Err x).
    { intros x X. destruct (check_public_spec (sk_pub k) W) as [(Y & _)|(y & _ & Y)]; [congruence|contradiction]. }
    rewrite Forall_forall in P.
    assert (G : forall q, exponent_ok k q <-> uprec q <= 2 * uprec d /\ uval q <> 1 /\ ed mod (uval q - 1) = 1) by (intros; reflexivity).
    destruct T as [(E & F)|(l1 & p & l2 & El & F & [(E & Z)|(E & Z & B)])]; rewrite E.
    + rewrite Forall_forall in F. split; [discriminate|].
      intros [X|(_ & [(_ & p & I & Z)|(_ & [(_ & X)|(_ & _ & l1 & p & l2 & El & _ & _ & _ & X)])])]; [destruct (C _ X)| |contradiction|].
      * specialize (P p I). lia.
      * assert (I : In p primes) by (rewrite El; apply in_or_app; right; left; auto).
        destruct (F p I) as (_ & _ & Y). contradiction.
    + split; [discriminate|].
      intros [X|(_ & [(_ & q & I & Y)|(_ & [(_ & X)|(_ & _ & m1 & q & m2 & Em & Hb & X1 & X2 & X3)])])]; [destruct (C _ X)| |contradiction|].
      * specialize (P q I). lia.
      * exfalso. rewrite Forall_forall in F. rewrite El in Em.
        destruct (app_eq_app _ _ _ _ Em) as (l & [(A & B)|(A & B)]).
        { destruct l as [|y l]; cbn [app] in B.
          - injection B as -> _. destruct Z as [Z|Z]; lia.
          - injection B as <- _. assert (I : In q l1) by (rewrite A; apply in_or_app; right; left; auto).
            destruct (F q I) as (_ & _ & Y). contradiction. }
        { destruct l as [|y l]; cbn [app] in B.
          - injection B as -> _. destruct Z as [Z|Z]; lia.
          - injection B as <- _. assert (I : In p m1) by (rewrite A; apply in_or_app; right; left; auto).
            destruct (Hb p I) as (Y1 & Y2 & _). destruct Z as [Z|Z]; lia. }
    + split; [intros X; injection X as <-|].
      * right. split; [auto|]. right. split; [auto|]. right. split; [auto|]. split; [auto|].
        exists l1, p, l2. rewrite Forall_forall in F.
        assert (I1 : forall q, In q l1 -> In q primes) by (intros q I; rewrite El; apply in_or_app; auto).
        assert (I2 : In p primes) by (rewrite El; apply in_or_app; right; left; auto).
        split; [auto|]. split.
        { intros q I. pose proof (P q (I1 q I)). destruct (F q I) as (Y1 & Y2 & Y3). split; [lia|]. split; auto. }
        unfold prime_panics in Z. fold d in Z. pose proof (P p I2).
        split; [lia|]. split; [lia|]. intros Y. apply B. apply G. split; [lia|split; [lia|auto]].
      * intros [X|(_ & [(_ & q & I & Y)|(_ & [(_ & X)|(-> & _)])])]; [destruct (C _ X)| |contradiction|auto].
        specialize (P q I). lia.
Qed.

Lemma errors_never {R} (g : rng_ops R) fuel rng st k s hd hm bl salt_len label msg hashed ct err :
  rng_ok g -> (0 < h_size hm)%nat -> (0 < h_size hd)%nat -> good_priv k -> usable_key (sk_pub k) ->
  (11 <= key_size (sk_pub k))%nat -> Z.of_nat (length (label_bytes label)) < 2 ^ 61 ->
  In (Err err)
    [pkcs1v15_decrypt g fuel rng k ct; oaep_api_decrypt g fuel rng k ct (digest_new hd) (digest_new hm) label;
     pkcs1v15_encrypt g fuel st (sk_pub k) msg;
     oaep_api_encrypt g st (sk_pub k) msg (digest_new hd) (digest_new hm) label;
     scheme_sign g fuel rng k (SigPkcs1v15 s) hashed;
     scheme_sign g fuel rng k (SigPss (mkPss bl (digest_new hd) salt_len)) hashed] ->
  In err [Decode DecodeInputSize; Decryption; Rng; MessageTooLong; InputNotHashed; InvalidPaddingScheme; Internal].
Proof.
  intros Hg H0 H1 Hk Hu H11 HL. pose proof (good_pub k Hk) as Wp.
  assert (H32 : uprec (pk_n (sk_pub k)) < 2 ^ 32).
  { unfold usable_key, public_usable, public_acceptable in Hu. clear - Hu. lia. }
  intros [E|[E|[E|[E|[E|[E|[]]]]]]].
  - apply decrypt_errors in E; auto. decompose [and or] E; subst; cbn; tauto.
  - apply (oaep_decrypt_errors g) in E; auto. decompose [and or] E; subst; cbn; tauto.
  - apply encrypt_errors in E; auto. decompose [and or] E; subst; cbn; tauto.
  - apply oaep_encrypt_errors in E; auto. decompose [and or] E; subst; try (exfalso; clear - H3 HL; lia); cbn; tauto.
  - apply sign_errors in E; auto. decompose [and or] E; subst; cbn; tauto.
  - apply sign_pss_errors in E; auto. decompose [and or ex] E; subst; cbn; tauto.
Qed.
