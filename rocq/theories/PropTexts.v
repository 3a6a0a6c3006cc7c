(** C90: what a failed call tells. *)
From Coq Require Import String ZArith List Bool Lia.
From Coq Require Import Init.Byte.
From Verif Require Import Base Bigint SpecRFC SpecRng SpecKey SpecSig
  MHash MPkcs1 MOaep MPss MRsa MGenerate MKey MApi MErrors KeyDefs PApi PEnc PSig PSign KeyExamples PErrors PHist PGenerate PropLeak.
Import ListNotations.
Local Open Scope Z_scope.

(** * C90: failed calls cannot be told apart *)

(** A padding scheme with fresh digests and a label below the limit of the hash. *)
Definition fresh_padding (p : padding) : Prop :=
  match p with
  | PadPkcs1v15 => True
  | PadOaep o => exists hd hm, oa_digest o = digest_new hd /\ oa_mgf o = digest_new hm /\ (0 < h_size hm)%nat /\
                   Z.of_nat (length (label_bytes (oa_label o))) < 2 ^ 61
  end.

Section Tell.
  Context {R : Type} (g : rng_ops R).
  Lemma decryption_error fuel rng k p ct e :
    (rng <> None -> rng_ok g) -> good_priv k -> usable_key (sk_pub k) -> (11 <= key_size (sk_pub k))%nat ->
    fresh_padding p -> 8 * Z.of_nat (length ct) <= uprec (pk_n (sk_pub k)) ->
    blinding_succeeds g (uval (pk_n (sk_pub k))) rng fuel ->
    scheme_decrypt g fuel rng k p ct = Err e -> e = Decryption.
  Proof.
    intros Hr Hk Hu H11 Hp HL HB E.
    destruct p as [|o]; cbn [scheme_decrypt] in E.
    - destruct (pkcs1v15_decrypt_exact g fuel rng k ct Hr Hk Hu) as (_ & B & C).
      destruct (Z.lt_ge_cases (os2ip ct) (uval (pk_n (sk_pub k)))) as [V|V];
        [|rewrite (B HL V) in E; congruence].
      destruct (C HL V) as (S & _). destruct (S HB) as (S1 & S2).
      rewrite S2 in E by (intros M HM; apply S1 in HM; congruence). congruence.
    - destruct Hp as (hd & hm & D & M & H0 & LB). rewrite D, M in E.
      destruct (oaep_api_decrypt_exact g fuel rng k ct hd hm (oa_label o) Hr H0 Hk) as (A & B & C); auto.
      { unfold usable_key, public_usable, public_acceptable in Hu. clear - Hu. lia. }
      destruct (Nat.eq_dec (length ct) (key_size (sk_pub k))) as [L|L]; [|rewrite (A L) in E; congruence].
      destruct (Z.lt_ge_cases (os2ip ct) (uval (pk_n (sk_pub k)))) as [V|V];
        [|rewrite (B L V) in E; congruence].
      destruct (C L V) as (S & _). destruct (S HB) as (S1 & S2).
      rewrite S2 in E by (intros M' HM; apply S1 in HM; congruence). congruence.
  Qed.
End Tell.

(** Whatever the ciphertexts, schemes, hash functions and labels, and whether or not blinding is
    used: two decryptions that fail report the same error with the same text. *)
Theorem C90_decryptions : forall {R1 R2} (g1 : rng_ops R1) (g2 : rng_ops R2) f1 f2 rng1 rng2 k p1 p2 ct1 ct2 e1 e2
    {P1 P8} (show1 : P1 -> string) (show8 : P8 -> string),
  (rng1 <> None -> rng_ok g1) -> (rng2 <> None -> rng_ok g2) ->
  good_priv k -> usable_key (sk_pub k) -> (11 <= key_size (sk_pub k))%nat ->
  fresh_padding p1 -> fresh_padding p2 ->
  8 * Z.of_nat (length ct1) <= uprec (pk_n (sk_pub k)) -> 8 * Z.of_nat (length ct2) <= uprec (pk_n (sk_pub k)) ->
  blinding_succeeds g1 (uval (pk_n (sk_pub k))) rng1 f1 -> blinding_succeeds g2 (uval (pk_n (sk_pub k))) rng2 f2 ->
  scheme_decrypt g1 f1 rng1 k p1 ct1 = Err e1 -> scheme_decrypt g2 f2 rng2 k p2 ct2 = Err e2 ->
  e1 = e2 /\ error_display show1 show8 (Native e1) = "decryption error"%string.
Proof.
  intros R1 R2 g1 g2 f1 f2 rng1 rng2 k p1 p2 ct1 ct2 e1 e2 P1 P8 s1 s8 Hr1 Hr2 Hk Hu H11 Q1 Q2 L1 L2 B1 B2 E1 E2.
  rewrite (decryption_error g1 f1 rng1 k p1 ct1 e1 Hr1 Hk Hu H11 Q1 L1 B1 E1).
  rewrite (decryption_error g2 f2 rng2 k p2 ct2 e2 Hr2 Hk Hu H11 Q2 L2 B2 E2). split; reflexivity.
Qed.

(** Two signatures that are refused for data of the right length: the same. *)
Theorem C90_verifications : forall pk s1 h1 sig1 hd bl sl h2 sig2 e1 e2
    {P1 P8} (show1 : P1 -> string) (show8 : P8 -> string),
  wf_pub pk -> uprec (pk_n pk) < 2 ^ 32 ->
  8 * Z.of_nat (length sig1) < 2 ^ 32 -> 8 * Z.of_nat (length sig2) < 2 ^ 32 ->
  (0 < h_size hd)%nat -> Z.of_nat (h_size hd + sl + 2) < 2 ^ 64 -> hash_len_ok s1 h1 ->
  public_verify pk (SigPkcs1v15 s1) h1 sig1 = Err e1 ->
  public_verify pk (SigPss (mkPss bl (digest_new hd) sl)) h2 sig2 = Err e2 ->
  e1 = e2 /\ error_display show1 show8 (Native e1) = "verification error"%string.
Proof.
  intros pk s1 h1 sig1 hd bl sl h2 sig2 e1 e2 P1 P8 sh1 sh8 Wp Hp L1 L2 H0 HS HL E1 E2.
  apply verify_errors in E1; auto. apply verify_pss_errors in E2; auto. destruct E2 as (-> & _).
  destruct E1 as [(_ & N)|(-> & _)]; [contradiction|]. split; reflexivity.
Qed.

(** The text of an error of this crate identifies it; for errors of other crates it is their text. *)
Theorem C90_texts : forall {P1 P8} (show1 debug1 : P1 -> string) (show8 debug8 : P8 -> string) e1 e2,
  native e1 = true -> native e2 = true ->
  (error_display show1 show8 (Native e1) = error_display show1 show8 (Native e2) -> e1 = e2) /\
  (error_debug debug1 debug8 (Native e1) = error_debug debug1 debug8 (Native e2) -> e1 = e2) /\
  error_display show1 show8 (Native e1) <> ""%string.
Proof.
  intros P1 P8 sh1 d1 sh8 d8 e1 e2 N1 N2.
  split; [|split]; [| |destruct e1 as [| | | | | | | | | | | | | | | | | |[]| | | | | | | |]; discriminate].
  - destruct e1 as [| | | | | | | | | | | | | | | | | |[]| | | | | | | |]; try discriminate N1;
    destruct e2 as [| | | | | | | | | | | | | | | | | |[]| | | | | | | |]; try discriminate N2;
      try reflexivity; discriminate.
  - destruct e1 as [| | | | | | | | | | | | | | | | | |[]| | | | | | | |]; try discriminate N1;
    destruct e2 as [| | | | | | | | | | | | | | | | | |[]| | | | | | | |]; try discriminate N2;
      try reflexivity; discriminate.
Qed.

(** The printed form shows which dependency a foreign error came from; the message does not. *)
Theorem C90_foreign : forall {P1 P8} (show1 debug1 : P1 -> string) (show8 debug8 : P8 -> string) a b e,
  error_debug debug1 debug8 (error_from_pkcs1 a) <> error_debug debug1 debug8 (error_from_pkcs8 b) /\
  (native e = true ->
   error_debug debug1 debug8 (error_from_pkcs1 a) <> error_debug debug1 debug8 (Native e) /\
   error_debug debug1 debug8 (error_from_pkcs8 b) <> error_debug debug1 debug8 (Native e)) /\
  (error_display show1 show8 (error_from_pkcs1 a) = error_display show1 show8 (error_from_pkcs8 b) <->
   show1 a = show8 b).
Proof.
  intros P1 P8 sh1 d1 sh8 d8 a b e. split; [discriminate|]. split; [|cbn; tauto]. intros N.
  destruct e as [| | | | | | | | | | | | | | | | | |[]| | | | | | | |]; try discriminate N; split; discriminate.
Qed.

(** The error of a signing or verifying object: with "std" its source is the error itself, without
    it every failure looks the same. *)
Theorem C90_signature_errors : forall {P1 P8} (e1 e2 : api_error P1 P8),
  (signature_error true e1 = signature_error true e2 <-> e1 = e2) /\
  signature_error false e1 = signature_error false e2.
Proof. intros P1 P8 e1 e2. split; [split; [intros E; injection E; auto|congruence]|reflexivity]. Qed.

(** The number in a text is the limit itself: a key built from its primes, or generated with a
    number of primes, is refused with "nprimes must be >= 2" exactly when there are fewer than two. *)
Ltac no_count :=
  match goal with |- context [(let* _ := ?m in _) = Err NprimesTooSmall] =>
    let E := fresh "E" in destruct m as [?|?| |] eqn:E; cbn [bind]; [|intros [= ->]; revert E|discriminate|discriminate]
  end.
Lemma validate_count k : validate k <> Err NprimesTooSmall.
Proof.
  assert (PC : forall l m, product_check l m <> Err NprimesTooSmall).
  { induction l as [|p l IH]; intros m; cbn [product_check]; [discriminate|]. destruct (ultb _ _); [discriminate|apply IH]. }
  assert (EC : forall l d de, exponent_check l d de <> Err NprimesTooSmall).
  { induction l as [|p l IH]; intros d de; cbn [exponent_check]; [discriminate|].
    unfold widen, assert_, urem. destruct (_ <=? _); cbn [bind]; [|discriminate].
    destruct (negb (uis_zero _)); cbn [bind]; [|discriminate].
    destruct (_ =? 0); cbn [bind]; [discriminate|]. destruct (negb _); [discriminate|apply IH]. }
  unfold validate. no_count.
  - no_count; [|apply PC]. destruct (negb _); [discriminate|]. no_count; [apply EC|].
    unfold widen. destruct (_ <=? _); discriminate.
  - unfold check_public, check_public_with_max_size. repeat (destruct (_ : bool); [discriminate|]). discriminate.
Qed.
Theorem C90_prime_count : forall {R} (gp : prime_gen R) {P1 P8} (show1 : P1 -> string) (show8 : P8 -> string) ps e fuel st k b err,
  0 <= b ->
  (from_primes ps e = Err err ->
   (error_display show1 show8 (Native err) = "nprimes must be >= 2"%string <-> (length ps < 2)%nat)) /\
  (generate_multi_prime_key_with_exp gp fuel st k b e = Err err ->
   (error_display show1 show8 (Native err) = "nprimes must be >= 2"%string <-> (k < 2)%nat)).
Proof.
  intros R gp P1 P8 s1 s8 ps e fuel st k b err B0.
  assert (T : error_display s1 s8 (Native err) = "nprimes must be >= 2"%string <-> err = NprimesTooSmall).
  { split; [|intros ->; reflexivity]. destruct err as [| | | | | | | | | | | | | | | | | |[]| | | | | | | |]; try discriminate; reflexivity. }
  rewrite T. split.
  - intros H. split.
    + intros ->. unfold from_primes in H. destruct (Nat.ltb_spec (length ps) 2) as [L|L]; [exact L|exfalso].
      revert H. destruct (has_duplicate ps); [discriminate|]. no_count.
      * no_count.
        -- unfold from_components. no_count; [|unfold guard; destruct (negb _); discriminate].
           destruct ps as [|p [|q ps]]; [cbn in L; lia|cbn in L; lia|]. cbn [bind].
           no_count; [|apply validate_count]. unfold try_precompute. destruct (precompute _); discriminate.
        -- unfold compute_private_exponent_euler_totient. destruct (_ <? _)%nat; [discriminate|].
           no_count; [|unfold get_idx; destruct (nth_error _ _); discriminate].
           no_count; [|].
           ++ no_count; [|unfold widen; destruct (_ <=? _); discriminate].
              no_count; [|unfold uinv_mod; destruct (_ =? _); discriminate]. destruct a3; discriminate.
           ++ clear. generalize (u_one_with (uprec a0)). induction ps as [|p ps IH]; intros t; cbn [totient_loop]; [discriminate|].
              no_count; [apply IH|]. unfold usub_big. destruct (_ <=? _); discriminate.
      * unfold compute_modulus. destruct ps; [discriminate|]. no_count; [discriminate|]. unfold assert_. destruct (uis_odd _); discriminate.
    + intros L. unfold from_primes in H. destruct (Nat.ltb_spec (length ps) 2); [congruence|lia].
  - intros H. apply c32_errors in H; [|exact B0]. split.
    + intros ->. destruct H as [(H & _)|(_ & _ & H)]; [exact H|discriminate].
    + intros L. destruct H as [(_ & H)|(H & _)]; [exact H|lia].
Qed.

Example C90_count_case :
  from_primes [p64] (u_of_u64 EXP) = Err NprimesTooSmall /\ from_primes [p64; p64] (u_of_u64 EXP) = Err InvalidPrime.
Proof. split; vm_compute; reflexivity. Qed.

Example C90_case : good_priv key91 /\ usable_key pub91 /\ (11 <= key_size pub91)%nat /\
  fresh_padding (PadOaep (oaep_new_with_label toy_hash [x61])) /\
  private_decrypt count_rng 5 key91 (PadOaep (oaep_new_with_label toy_hash [x61])) (repeat x01 12) = Err Decryption /\
  private_decrypt count_rng 5 key91 PadPkcs1v15 [x05] = Err Decryption /\
  public_verify pub91 (SigPss (pss_new toy_hash)) [x01; x00] [x05] = Err Verification /\
  public_verify pub91 (SigPkcs1v15 (mkP1S (Some 1%nat) [])) [x41] [x05] = Err Verification.
Proof.
  split; [exact good91|]. split; [exact usable91|]. split; [vm_compute; lia|].
  split; [exists toy_hash, toy_hash; repeat split; vm_compute; lia|]. repeat split; vm_compute; reflexivity.
Qed.

Example C90_texts_case :
  error_display (fun s : string => s) (fun s : string => s) (error_from_decode DecodeInputSize) = "InputSize"%string /\
  error_display (fun s : string => s) (fun s : string => s) (error_from_pkcs8 "invalid"%string) = "invalid"%string.
Proof. split; reflexivity. Qed.

Print Assumptions C90_decryptions.
Print Assumptions C90_verifications.
Print Assumptions C90_texts.
Print Assumptions C90_foreign.
Print Assumptions C90_signature_errors.
Print Assumptions C90_prime_count.
