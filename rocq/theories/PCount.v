(** Lemmas for C94: how many ciphertexts and signatures are accepted. *)
From Coq Require Import ZArith List Bool Lia Permutation.
From Coq Require Import Init.Byte.
From Verif Require Import Base Bigint BytesLemmas BigintLemmas SpecRFC SpecRng SpecSig SpecKey SpecBlind SpecCount MHash
  MPkcs1 MOaep MPss MRsa MKey MApi MWrap KeyDefs.
From Verif Require Import PRsa PApi PEnc PPub PSig PSign PWrap PUniform PUniform2 PAccept.
Import ListNotations.
Local Open Scope Z_scope.

(** * Counting *)

Lemma counted_iff {A} (P Q : A -> Prop) N : (forall x, P x <-> Q x) -> counted P N -> counted Q N.
Proof. intros H (l & D & I & L). exists l. split; [exact D|]. split; [|exact L]. intros x. rewrite I. apply H. Qed.

Lemma counted_unique {A} (P : A -> Prop) N M : counted P N -> counted P M -> N = M.
Proof.
  intros (l & D & I & L) (l' & D' & I' & L'). rewrite <- L, <- L'. f_equal. apply Permutation_length.
  apply NoDup_Permutation; auto. intros x. rewrite I, I'. reflexivity.
Qed.

Lemma counted_none {A} (P : A -> Prop) : (forall x, ~ P x) -> counted P 0.
Proof. intros H. exists []. split; [constructor|]. split; [|reflexivity]. intros x. split; [intros []|apply H]. Qed.

Lemma counted_one {A} (P : A -> Prop) a : (forall x, P x <-> x = a) -> counted P 1.
Proof.
  intros H. exists [a]. split; [repeat constructor; intros []|]. split; [|reflexivity]. intros x. rewrite H. cbn. 
  split; [intros [E|[]]; auto|intros ->; auto].
Qed.

Lemma counted_image {A B} (P : A -> Prop) (f : A -> B) N :
  (forall x y, P x -> P y -> f x = f y -> x = y) -> counted P N -> counted (fun y => exists x, P x /\ y = f x) N.
Proof.
  intros Inj (l & D & I & L). exists (map f l). split.
  - apply map_nodup_in; auto. intros x y X Y. apply Inj; apply I; auto.
  - split; [|rewrite map_length; exact L]. intros y. rewrite in_map_iff. split.
    + intros (x & E & X). exists x. split; [apply I; exact X|auto].
    + intros (x & X & E). exists x. split; [auto|apply I; exact X].
Qed.

Lemma counted_or {A} (P Q : A -> Prop) N M : (forall x, P x -> Q x -> False) -> counted P N -> counted Q M ->
  counted (fun x => P x \/ Q x) (N + M).
Proof.
  intros X (l & D & I & L) (l' & D' & I' & L'). exists (l ++ l'). split.
  - apply NoDup_app_intro; auto. intros x A1 A2. apply (X x); [apply I|apply I']; auto.
  - split; [|rewrite app_length; lia]. intros x. rewrite in_app_iff, I, I'. reflexivity.
Qed.

Lemma counted_cons {A} (P : A -> Prop) (Q : list A -> Prop) N M : counted P N -> counted Q M ->
  counted (fun l => exists a t, P a /\ Q t /\ l = a :: t) (N * M).
Proof.
  intros (l & D & I & L) (l' & D' & I' & L').
  exists (map (fun p => fst p :: snd p) (list_prod l l')). split.
  - apply map_nodup_in.
    + intros (a & t) (b & s) _ _ E. cbn in E. congruence.
    + clear - D D'. induction D as [|a l Ha D IH]; cbn; [constructor|]. apply NoDup_app_intro; auto.
      * apply FinFun.Injective_map_NoDup; auto. intros x y E. congruence.
      * intros (x & t) X Y. apply in_map_iff in X. destruct X as (s & E & _). injection E as <- _.
        apply in_prod_iff in Y. apply Ha, Y.
  - split; [|rewrite map_length, prod_length; lia]. intros x. rewrite in_map_iff. split.
    + intros ((a & t) & E & X). apply in_prod_iff in X. exists a, t. rewrite <- I, <- I'. cbn in E. intuition.
    + intros (a & t & X & Y & ->). exists (a, t). split; [reflexivity|]. apply in_prod_iff. rewrite I, I'. auto.
Qed.

Lemma counted_pair {A B} (P : A -> Prop) (Q : B -> Prop) N M : counted P N -> counted Q M ->
  counted (fun p => P (fst p) /\ Q (snd p)) (N * M).
Proof.
  intros (l & D & I & L) (l' & D' & I' & L'). exists (list_prod l l'). split.
  - clear - D D'. induction D as [|a l Ha D IH]; cbn; [constructor|]. apply NoDup_app_intro; auto.
    + apply FinFun.Injective_map_NoDup; auto. intros x y E. congruence.
    + intros (x & t) X Y. apply in_map_iff in X. destruct X as (s & E & _). injection E as <- _.
      apply in_prod_iff in Y. apply Ha, Y.
  - split; [|rewrite prod_length; lia]. intros (a & b). rewrite in_prod_iff, I, I'. reflexivity.
Qed.

Fixpoint sum_below (f : nat -> Z) (m : nat) : Z :=
  match m with O => 0 | S m => sum_below f m + f m end.

Lemma counted_sum {A} (P : nat -> A -> Prop) f m :
  (forall i j x, P i x -> P j x -> i = j) -> (forall i, (i < m)%nat -> counted (P i) (f i)) ->
  counted (fun x => exists i, (i < m)%nat /\ P i x) (sum_below f m).
Proof.
  intros X. induction m as [|m IH]; intros H; cbn [sum_below].
  - apply counted_none. intros x (i & L & _). lia.
  - apply (counted_iff (fun x => (exists i, (i < m)%nat /\ P i x) \/ P m x)).
    + intros x. split.
      * intros [(i & L & Y)|Y]; [exists i; split; [lia|exact Y]|exists m; split; [lia|exact Y]].
      * intros (i & L & Y). destruct (Nat.eq_dec i m) as [->|E]; [right; exact Y|left; exists i; split; [lia|exact Y]].
    + apply counted_or; [|apply IH; intros i L; apply H; lia|apply H; lia].
      intros x (i & L & Y) Z. pose proof (X _ _ _ Y Z). lia.
Qed.

(** * Octet strings *)

Lemma counted_octets P N : counted P N -> forall L, counted (fun l : list byte => length l = L /\ Forall P l) (N ^ Z.of_nat L).
Proof.
  intros H. induction L as [|L IH].
  - apply (counted_one _ []). intros x. split; [intros (E & _); apply length_zero_iff_nil; exact E|intros ->; auto].
  - rewrite Nat2Z.inj_succ, Z.pow_succ_r by lia. eapply counted_iff; [|apply counted_cons; [exact H|exact IH]].
    intros l. cbn beta. split.
    + intros (a & t & X & (Y & Z) & ->). split; [cbn; lia|constructor; auto].
    + destruct l as [|a t]; intros (Y & Z); [discriminate|]. inversion Z; subst. exists a, t. cbn in Y. auto.
Qed.

Lemma counted_byte : counted (fun _ : byte => True) 256.
Proof.
  exists (map (fun i => z2b (Z.of_nat i)) (seq 0 256)). split; [|split].
  - apply map_nodup_in; [|apply seq_NoDup]. intros i j Hi Hj E. apply in_seq in Hi. apply in_seq in Hj.
    apply (f_equal b2z) in E. rewrite !b2z_z2b_small in E by lia. lia.
  - intros b. split; auto. intros _. apply in_map_iff. exists (Z.to_nat (b2z b)). pose proof (b2z_range b).
    split; [|apply in_seq; lia]. rewrite Z2Nat.id by lia. apply z2b_b2z.
  - rewrite map_length, seq_length. reflexivity.
Qed.

Lemma counted_nonzero : counted (fun b : byte => b <> x00) 255.
Proof.
  exists (map (fun i => z2b (Z.of_nat i)) (seq 1 255)). split; [|split].
  - apply map_nodup_in; [|apply seq_NoDup]. intros i j Hi Hj E. apply in_seq in Hi. apply in_seq in Hj.
    apply (f_equal b2z) in E. rewrite !b2z_z2b_small in E by lia. lia.
  - intros b. rewrite in_map_iff. split.
    + intros (i & <- & Hi) E. apply in_seq in Hi. apply (f_equal b2z) in E. rewrite b2z_z2b_small in E by lia.
      change (b2z x00) with 0 in E. lia.
    + intros H. exists (Z.to_nat (b2z b)). pose proof (b2z_range b). rewrite Z2Nat.id by lia.
      split; [apply z2b_b2z|]. apply in_seq.
      assert (b2z b <> 0); [|lia]. intros E. apply H. rewrite <- (z2b_b2z b), E. reflexivity.
  - rewrite map_length, seq_length. reflexivity.
Qed.

Lemma counted_strings L : counted (fun l : list byte => length l = L) (256 ^ Z.of_nat L).
Proof.
  eapply counted_iff; [|apply (counted_octets _ _ counted_byte L)]. intros l. cbn beta.
  split; [intros (E & _); exact E|intros E; split; [exact E|]]. apply Forall_forall. auto.
Qed.

(** * Closed forms *)

Lemma geometric m : 255 * sum_below (fun i => 256 ^ Z.of_nat i) m = 256 ^ Z.of_nat m - 1.
Proof.
  induction m as [|m IH]; cbn [sum_below]; [reflexivity|].
  rewrite Nat2Z.inj_succ, Z.pow_succ_r by lia. lia.
Qed.

Lemma difference m : sum_below (fun i => 255 ^ Z.of_nat (m - 1 - i) * 256 ^ Z.of_nat i) m
  = 256 ^ Z.of_nat m - 255 ^ Z.of_nat m.
Proof.
  assert (G : forall j, (j <= m)%nat ->
    sum_below (fun i => 255 ^ Z.of_nat (m - 1 - i) * 256 ^ Z.of_nat i) j
    = 255 ^ Z.of_nat (m - j) * (256 ^ Z.of_nat j - 255 ^ Z.of_nat j)).
  { induction j as [|j IH]; intros L; cbn [sum_below]; [change (256 ^ Z.of_nat 0 - 255 ^ Z.of_nat 0) with 0; lia|].
    rewrite IH by lia. replace (m - j)%nat with (S (m - S j)) by lia. replace (m - 1 - j)%nat with (m - S j)%nat by lia.
    rewrite !Nat2Z.inj_succ, !Z.pow_succ_r by lia. ring. }
  rewrite G by lia. rewrite Nat.sub_diag. lia.
Qed.

Lemma sum_scale c f m : sum_below (fun i => c * f i) m = c * sum_below f m.
Proof. induction m as [|m IH]; cbn [sum_below]; lia. Qed.

Lemma sum_ext f h m : (forall i, (i < m)%nat -> f i = h i) -> sum_below f m = sum_below h m.
Proof. induction m as [|m IH]; intros H; cbn [sum_below]; auto. rewrite IH, H by (auto; intros; apply H; lia). reflexivity. Qed.

(** * Ciphertexts *)

Section Dec.
  Context {R : Type} (g : rng_ops R).

  Lemma count_pkcs1v15 fuel rng k : (rng <> None -> rng_ok g) -> good_priv k -> usable_key (sk_pub k) ->
    blinding_succeeds g (uval (pk_n (sk_pub k))) rng fuel ->
    let K := key_size (sk_pub k) in
    counted (fun ct => length ct = K /\ exists msg, scheme_decrypt g fuel rng k PadPkcs1v15 ct = Ok msg)
      (255 ^ 8 * (256 ^ Z.of_nat (K - 10) - 255 ^ Z.of_nat (K - 10))).
  Proof.
    intros Hr Hk Hu B K. pose proof (good_pub k Hk) as Hp.
    set (P := fun (i : nat) (p : list byte * list byte) =>
                (length (fst p) = (K - i - 3)%nat /\ Forall (fun b => b <> x00) (fst p)) /\ length (snd p) = i).
    assert (C : counted (fun p => exists i, (i < K - 10)%nat /\ P i p)
                  (255 ^ 8 * (256 ^ Z.of_nat (K - 10) - 255 ^ Z.of_nat (K - 10)))).
    { rewrite <- difference, <- sum_scale.
      rewrite (sum_ext _ (fun i => 255 ^ Z.of_nat (K - i - 3) * 256 ^ Z.of_nat i)).
      2:{ intros i Hi. replace (K - i - 3)%nat with (8 + (K - 10 - 1 - i))%nat by lia.
          rewrite Nat2Z.inj_add, Z.pow_add_r by lia. change (Z.of_nat 8) with 8. ring. }
      apply counted_sum.
      - intros i j p (_ & E) (_ & E'). lia.
      - intros i _. unfold P.
        apply (counted_pair _ _ _ _ (counted_octets _ _ counted_nonzero (K - i - 3)) (counted_strings i)). }
    apply (counted_image _ (fun p => pkcs1_ciphertext (sk_pub k) (fst p) (snd p))) in C.
    2:{ intros (PS & M) (PS' & M') (i & Li & (L1 & F1) & L2) (j & Lj & (L3 & F3) & L4) E. cbn [fst snd] in *.
        subst i j. apply ciphertext_inj in E; auto; try lia. destruct E as (-> & ->). reflexivity. }
    revert C. apply counted_iff. intros ct. split.
    - intros ((PS & M) & (i & Li & (L1 & F1) & L2) & ->). cbn [fst snd] in *. subst i.
      assert (X : public_encrypt tape 0 PS (sk_pub k) PadPkcs1v15 M = Ok (pkcs1_ciphertext (sk_pub k) PS M)).
      { destruct (pkcs1v15_encrypt_exact tape 0 PS (sk_pub k) M tape_ok Hp Hu) as (_ & A).
        destruct (A ltac:(fold K; lia)) as (A1 & _). apply A1. apply tape_padding; auto. }
      split; [apply i2osp_length|]. exists M. apply accept_pkcs1v15; auto. split.
      + unfold pkcs1_ciphertext. rewrite i2osp_length. destruct (key_size_facts _ Hp) as (_ & H2 & _). lia.
      + exists 0%nat, PS. eexists. split; [exact X|reflexivity].
    - intros (L & M & H). apply accept_pkcs1v15 in H; auto. destruct H as (_ & f & t & ct' & E & V).
      cbn [public_encrypt] in E.
      destruct (pkcs1v15_encrypt_exact tape f t (sk_pub k) M tape_ok Hp Hu) as (A0 & A). fold K in A0, A.
      destruct (Nat.lt_ge_cases K (length M + 11)) as [X|X]; [rewrite (A0 X) in E; discriminate|].
      destruct (A X) as (A1 & A2 & A3).
      destruct (padding_trichotomy tape tape_ok f t (K - length M - 3)) as [(PS & G)|[G|G]].
      + rewrite (A1 PS G) in E. destruct (padding_gives_props _ _ _ _ _ tape_ok G) as (L0 & F0).
        apply ok_inj in E. exists (PS, M). split.
        * exists (length M). split; [lia|]. unfold P. cbn [fst snd]. auto.
        * cbn [fst snd]. apply octets_eq; [rewrite L; symmetry; apply i2osp_length|].
          rewrite <- V, <- E. reflexivity.
      + rewrite (A2 G) in E. discriminate.
      + rewrite (A3 G) in E. discriminate.
  Qed.

  Lemma count_oaep fuel rng k hd hm label : (rng <> None -> rng_ok g) -> good_priv k -> usable_key (sk_pub k) ->
    (0 < h_size hm)%nat -> (11 <= key_size (sk_pub k))%nat -> Z.of_nat (length (label_bytes label)) < 2 ^ 61 ->
    blinding_succeeds g (uval (pk_n (sk_pub k))) rng fuel ->
    let K := key_size (sk_pub k) in
    exists N, 255 * N = 256 ^ Z.of_nat (h_size hd) * (256 ^ Z.of_nat (K - 2 * h_size hd - 1) - 1) /\
    counted (fun ct => exists msg,
      scheme_decrypt g fuel rng k (PadOaep (mkOaep (digest_new hd) (digest_new hm) label)) ct = Ok msg) N.
  Proof.
    intros Hr Hk Hu Hm K11 HL B K. pose proof (good_pub k Hk) as Hp. set (h := h_size hd).
    set (m := (K - 2 * h - 1)%nat).
    exists (256 ^ Z.of_nat h * sum_below (fun i => 256 ^ Z.of_nat i) m). split; [rewrite <- geometric; fold m; ring|].
    set (P := fun (i : nat) (p : list byte * list byte) => length (fst p) = h /\ length (snd p) = i).
    assert (C : counted (fun p => exists i, (i < m)%nat /\ P i p) (256 ^ Z.of_nat h * sum_below (fun i => 256 ^ Z.of_nat i) m)).
    { rewrite <- sum_scale. apply counted_sum.
      - intros i j p (_ & E) (_ & E'). lia.
      - intros i _. apply (counted_pair _ _ _ _ (counted_strings h) (counted_strings i)). }
    apply (counted_image _ (fun p => oaep_ciphertext (sk_pub k) hd hm (label_bytes label) (fst p) (snd p))) in C.
    2:{ intros (s & M) (s' & M') (i & Li & L1 & L2) (j & Lj & L3 & L4) E. cbn [fst snd] in *.
        subst i j. apply oaep_ciphertext_inj in E; auto; try (fold K h; lia). destruct E as (-> & -> & _). reflexivity. }
    assert (Enc : forall t M, public_encrypt tape 0 t (sk_pub k) (PadOaep (mkOaep (digest_new hd) (digest_new hm) label)) M
              = if (K <? length M + 2 * h + 2)%nat then Err MessageTooLong
                else if (h <=? length t)%nat then Ok (oaep_ciphertext (sk_pub k) hd hm (label_bytes label) (firstn h t) M)
                else Err Rng).
    { intros t M. cbn [public_encrypt oa_digest oa_mgf oa_label].
      rewrite oaep_api_encrypt_agree, oaep_api_encrypt_exact by (auto using tape_ok). fold K h.
      destruct (Z.leb_spec (2 ^ 61) (Z.of_nat (length (label_bytes label)))); [lia|].
      destruct (K <? length M + 2 * h + 2)%nat; [reflexivity|]. cbn [rng_fill tape].
      destruct (h <=? length t)%nat; reflexivity. }
    assert (Fu : forall f t M, public_encrypt tape f t (sk_pub k) (PadOaep (mkOaep (digest_new hd) (digest_new hm) label)) M
              = public_encrypt tape 0 t (sk_pub k) (PadOaep (mkOaep (digest_new hd) (digest_new hm) label)) M)
      by reflexivity.
    revert C. apply counted_iff. intros ct. split.
    - intros ((s & M) & (i & Li & L1 & L2) & ->). cbn [fst snd] in *. subst i.
      exists M. apply accept_oaep; auto. exists 0%nat, s. rewrite Enc.
      destruct (Nat.ltb_spec K (length M + 2 * h + 2)); [lia|].
      rewrite <- L1, Nat.leb_refl, firstn_all. reflexivity.
    - intros (M & H). apply accept_oaep in H; auto. destruct H as (f & t & E). rewrite Fu, Enc in E.
      destruct (Nat.ltb_spec K (length M + 2 * h + 2)); [discriminate|].
      destruct (Nat.leb_spec h (length t)) as [X|X]; [|discriminate]. apply ok_inj in E. subst ct.
      exists (firstn h t, M). split; [|reflexivity]. exists (length M). split; [lia|].
      unfold P. cbn [fst snd]. split; [apply firstn_length_le; exact X|reflexivity].
  Qed.
End Dec.

(** * Signatures *)

Lemma count_pss k hd bl sl hashed : good_priv k -> uprec (pk_n (sk_pub k)) < 2 ^ 32 -> (0 < h_size hd)%nat ->
  Z.of_nat (h_size hd + sl + 2) < 2 ^ 64 -> (Z.to_nat (ubits (pk_n (sk_pub k))) mod 8 <> 1)%nat ->
  counted (fun sig => 8 * Z.of_nat (length sig) < 2 ^ 32 /\
      public_verify (sk_pub k) (SigPss (mkPss bl (digest_new hd) sl)) hashed sig = Ok tt /\
      os2ip sig < uval (pk_n (sk_pub k)))
    (if (length hashed =? h_size hd)%nat && (h_size hd + sl + 2 <=? pss_em_len (em_bits (sk_pub k)))%nat
     then 256 ^ Z.of_nat sl else 0).
Proof.
  intros Hk H32 Hh Ho Hm. pose proof (good_pub k Hk) as Hp.
  apply (counted_iff (fun sig => exists f t, pss_sign_digest tape hd f t false k hashed sl = Ok sig)).
  { intros sig. split.
    - intros H. assert (L8 : 8 * Z.of_nat (length sig) < 2 ^ 32).
      { destruct H as (f & t & H). destruct (sign_tape_inv _ _ _ _ _ _ _ Hk H32 Hh H) as (_ & _ & salt & _ & ->).
        unfold pss_signature. rewrite i2osp_length. apply len_32; auto. }
      split; [exact L8|]. apply (accept_pss k hd bl sl hashed sig Hk H32 Hh Ho L8) in H.
      destruct H as (A & C & _). auto.
    - intros (L8 & A & C). apply (accept_pss k hd bl sl hashed sig Hk H32 Hh Ho L8). split; [exact A|].
      split; [exact C|]. apply fits_em; auto. }
  destruct (Nat.eqb_spec (length hashed) (h_size hd)) as [E|E].
  - destruct (Nat.leb_spec (h_size hd + sl + 2) (pss_em_len (em_bits (sk_pub k)))) as [F|F]; cbn [andb].
    + pose proof (counted_strings sl) as C. apply (counted_image _ (pss_signature k hd hashed)) in C.
      2:{ intros x y X Y. subst sl. apply pss_signature_inj; auto. }
      revert C. apply counted_iff. intros sig. split.
      * intros (salt & L & ->). exists 0%nat, salt.
        pose proof (sign_tape k 0 hd hashed sl salt Hk H32 Hh E F) as T.
        cbn [private_sign_with_rng scheme_sign ps_blinded ps_salt_len ps_digest] in T. rewrite pss_sign_agree in T.
        rewrite T, <- L, Nat.leb_refl, firstn_all. reflexivity.
      * intros (f & t & H). destruct (sign_tape_inv _ _ _ _ _ _ _ Hk H32 Hh H) as (_ & _ & salt & L & S). exists salt. auto.
    + apply counted_none. intros sig (f & t & H). destruct (sign_tape_inv _ _ _ _ _ _ _ Hk H32 Hh H) as (_ & X & _). lia.
  - apply counted_none. intros sig (f & t & H). destruct (sign_tape_inv _ _ _ _ _ _ _ Hk H32 Hh H) as (X & _). lia.
Qed.

Lemma count_pss_keys k hd sl hashed : good_priv k -> uprec (pk_n (sk_pub k)) < 2 ^ 32 -> (0 < h_size hd)%nat ->
  Z.of_nat (h_size hd + sl + 2) < 2 ^ 64 -> stored_minimally (pk_n (sk_pub k)) ->
  (Z.to_nat (ubits (pk_n (sk_pub k))) mod 8 <> 1)%nat ->
  counted (fun sig => length sig = key_size (sk_pub k) /\
      (let* s := signature_try_from sig in
       psvk_verify_prehash hd (psvk_new_with_salt_len (sk_pub k) sl) hashed s) = Ok tt)
    (if (length hashed =? h_size hd)%nat && (h_size hd + sl + 2 <=? pss_em_len (em_bits (sk_pub k)))%nat
     then 256 ^ Z.of_nat sl else 0).
Proof.
  intros Hk H32 Hh Ho M Hm. pose proof (good_pub k Hk) as Hp.
  eapply counted_iff; [|apply (count_pss k hd false sl hashed Hk H32 Hh Ho Hm)]. intros sig. cbn beta.
  assert (G : 8 * Z.of_nat (length sig) < 2 ^ 32 ->
    (public_verify (sk_pub k) (SigPss (mkPss false (digest_new hd) sl)) hashed sig = Ok tt /\
     os2ip sig < uval (pk_n (sk_pub k)) <->
     exists f t, pss_sign_digest tape hd f t false k hashed sl = Ok sig)).
  { intros L8. rewrite (accept_pss k hd false sl hashed sig Hk H32 Hh Ho L8). pose proof (fits_em (sk_pub k) (os2ip sig) Hp Hm).
    tauto. }
  assert (S : length sig = key_size (sk_pub k) ->
    ((let* s := signature_try_from sig in
      psvk_verify_prehash hd (psvk_new_with_salt_len (sk_pub k) sl) hashed s) = Ok tt <->
     exists f t, pss_sign_digest tape hd f t false k hashed sl = Ok sig)).
  { intros L. rewrite (sig_object (sk_pub k) Hp H32 sig L). cbn [bind].
    set (s := mkSig _).
    pose proof (accept_pss_keys k hd sl hashed sig s Hk H32 Hh Ho M L (sig_object (sk_pub k) Hp H32 sig L)) as A.
    cbv zeta in A. pose proof (fits_em (sk_pub k) (os2ip sig) Hp Hm) as F.
    transitivity (exists f t, pssk_sign_prehash tape hd f t (pssk_new_with_salt_len false k sl) hashed = Ok s).
    - rewrite A. unfold pssk_verifying_key, pssk_new_with_salt_len, psvk_new_with_salt_len. cbn. tauto.
    - unfold pssk_sign_prehash, pssk_new_with_salt_len. cbn [pssk_blinded pssk_inner pssk_salt_len]. split.
      + intros (f & t & H). apply bind_ok in H. destruct H as (sig' & S' & T'). exists f, t.
        destruct (sign_tape_inv _ _ _ _ _ _ _ Hk H32 Hh S') as (_ & _ & salt & _ & E).
        assert (L' : length sig' = key_size (sk_pub k)) by (subst sig'; apply i2osp_length).
        rewrite (try_from_inj (sk_pub k) sig sig' _ Hp H32 L L' (sig_object (sk_pub k) Hp H32 sig L) T'). exact S'.
      + intros (f & t & S'). exists f, t. rewrite S'. cbn [bind]. apply sig_object; auto. }
  split.
  - intros (L8 & H). pose proof (proj1 (G L8) H) as (f & t & Q).
    assert (L : length sig = key_size (sk_pub k)).
    { destruct (sign_tape_inv _ _ _ _ _ _ _ Hk H32 Hh Q) as (_ & _ & salt & _ & ->). apply i2osp_length. }
    split; [exact L|]. apply (S L). exists f, t. exact Q.
  - intros (L & H). assert (L8 : 8 * Z.of_nat (length sig) < 2 ^ 32) by (rewrite L; apply len_32; auto).
    split; [exact L8|]. apply (G L8), (S L), H.
Qed.

Lemma count_pkcs1v15_sig k s hashed : good_priv k -> uprec (pk_n (sk_pub k)) < 2 ^ 32 -> stored_minimally (pk_n (sk_pub k)) ->
  let P sig := length sig = key_size (sk_pub k) /\ public_verify (sk_pub k) (SigPkcs1v15 s) hashed sig = Ok tt in
  (hash_len_ok s hashed -> (length (p1_prefix s ++ hashed) + 11 <= key_size (sk_pub k))%nat -> counted P 1) /\
  (~ hash_len_ok s hashed \/ (key_size (sk_pub k) < length (p1_prefix s ++ hashed) + 11)%nat -> counted P 0).
Proof.
  intros Hk H32 M P. pose proof (good_pub k Hk) as Hp.
  assert (A : forall sig, length sig = key_size (sk_pub k) ->
    (public_verify (sk_pub k) (SigPkcs1v15 s) hashed sig = Ok tt <-> scheme_sign tape 0 None k (SigPkcs1v15 s) hashed = Ok sig))
    by (intros sig L; apply accept_pkcs1v15_sig; auto; [congruence|exact I]).
  destruct (pkcs1v15_sign_exact tape 0 None k (p1_prefix s) hashed ltac:(congruence) Hk) as (S0 & S1). cbv zeta in S0, S1.
  split.
  - intros Hh Hf. destruct (S1 Hf) as (S2 & _). specialize (S2 I).
    assert (E : scheme_sign tape 0 None k (SigPkcs1v15 s) hashed = pkcs1v15_sign tape 0 None k (p1_prefix s) hashed).
    { cbn [scheme_sign]. rewrite (check_hash_len_ok s hashed Hh). reflexivity. }
    eapply counted_one. intros sig. unfold P. split.
    + intros (L & V). apply (A sig L) in V. rewrite E, S2 in V. apply ok_inj in V. symmetry. exact V.
    + intros ->. pose proof (i2osp_length (RSADP (uval (pk_n (sk_pub k))) (uval (sk_d k))
        (os2ip (emsa_pkcs1 (p1_prefix s ++ hashed) (key_size (sk_pub k))))) (key_size (sk_pub k))) as L.
      split; [exact L|]. apply (A _ L). rewrite E. exact S2.
  - intros H. apply counted_none. intros sig (L & V). apply (A sig L) in V. cbn [scheme_sign] in V.
    destruct H as [H|H].
    + unfold hash_len_ok in H. unfold check_hash_len in V. destruct (p1_hash_len s) as [l|]; [|apply H; exact I].
      destruct (Nat.eqb_spec (length hashed) l) as [X|X]; [apply H; exact X|]. discriminate.
    + destruct (check_hash_len s hashed); try discriminate. cbn [bind] in V. rewrite (S0 H) in V. discriminate.
Qed.

(** * Fractions *)

Lemma oaep_fraction pk h N : wf_pub pk ->
  255 * N = 256 ^ Z.of_nat h * (256 ^ Z.of_nat (key_size pk - 2 * h - 1) - 1) ->
  255 * 256 ^ Z.of_nat h * N < uval (pk_n pk).
Proof.
  intros Hp E. destruct (key_size_octets pk Hp) as (O1 & O2). pose proof (odd_pos_n _ Hp).
  set (K := key_size pk) in *. set (a := 256 ^ Z.of_nat h) in *.
  assert (Ha : 0 < a) by (apply Z.pow_pos_nonneg; lia).
  destruct (Nat.le_gt_cases (2 * h + 1) K) as [L|L].
  - set (b := 256 ^ Z.of_nat (K - 2 * h - 1)) in *.
    assert (X : a * (a * b) = 256 ^ (Z.of_nat K - 1)).
    { unfold a, b. rewrite <- !Z.pow_add_r by lia. f_equal. lia. }
    replace (255 * a * N) with (a * (255 * N)) by ring. rewrite E.
    assert (0 < a * a) by nia. replace (a * (a * (b - 1))) with (a * (a * b) - a * a) by ring. lia.
  - replace (K - 2 * h - 1)%nat with 0%nat in E by lia. change (256 ^ Z.of_nat 0 - 1) with 0 in E. nia.
Qed.

Lemma pkcs1v15_fraction pk : wf_pub pk -> (11 <= key_size pk)%nat ->
  let N := 255 ^ 8 * (256 ^ Z.of_nat (key_size pk - 10) - 255 ^ Z.of_nat (key_size pk - 10)) in
  uval (pk_n pk) < 2 ^ 25 * N.
Proof.
  intros Hp K11 N. pose proof (key_n_lt pk Hp) as O2. set (K := key_size pk) in *.
  set (m := (K - 11)%nat).
  assert (D : 256 ^ Z.of_nat m <= 256 ^ Z.of_nat (K - 10) - 255 ^ Z.of_nat (K - 10)).
  { replace (K - 10)%nat with (S m) by lia. rewrite !Nat2Z.inj_succ, !Z.pow_succ_r by lia.
    pose proof (Z.pow_le_mono_l 255 256 (Z.of_nat m) ltac:(lia)). lia. }
  assert (E : 256 ^ Z.of_nat K = 2 ^ 88 * 256 ^ Z.of_nat m).
  { replace (Z.of_nat K) with (11 + Z.of_nat m) by lia. rewrite Z.pow_add_r by lia. reflexivity. }
  assert (P : 0 < 256 ^ Z.of_nat m) by (apply Z.pow_pos_nonneg; lia).
  assert (Q : 2 ^ 25 * 255 ^ 8 * 256 ^ Z.of_nat m <= 2 ^ 25 * N).
  { unfold N. rewrite Z.mul_assoc. apply Z.mul_le_mono_nonneg_l; [vm_compute; discriminate|exact D]. }
  assert (T : 2 ^ 88 <= 2 ^ 25 * 255 ^ 8) by (vm_compute; discriminate).
  clearbody N. set (c := 2 ^ 25 * 255 ^ 8) in *. clearbody c. rewrite E in O2. nia.
Qed.
