(** Proofs about how often draws are repeated (C84). *)
From Coq Require Import ZArith Znumtheory List Bool Lia Permutation.
From Coq Require Import Init.Byte.
From Verif Require Import Base Bigint BytesLemmas BigintLemmas NumTheory SpecRFC SpecRng SpecKey SpecBlind SpecDraws
  MHash MPad MPkcs1 MPss MRsa MKey MApi KeyDefs.
From Verif Require Import PRsa PPkcs1 PApi PEnc PSig PBlind PUniform.
Import ListNotations.
Local Open Scope Z_scope.

Lemma listed_ok : rng_ok listed.
Proof.
  split; [discriminate|]. intros s n v s' Hn. cbn. destruct s; [discriminate|].
  intros E. injection E as <- <-. apply Z.mod_pos_bound. auto.
Qed.

Definition shares (n v : Z) : bool := negb (v =? 0) && negb (Z.gcd v n =? 1).

Lemma in_all_draws n v : In v (all_draws n) <-> 0 <= v < n.
Proof.
  unfold all_draws. rewrite in_map_iff. split.
  - intros (x & <- & H). apply in_seq in H. lia.
  - intros H. exists (Z.to_nat v). split; [lia|]. apply in_seq. lia.
Qed.

Lemma all_draws_nodup n : NoDup (all_draws n).
Proof.
  unfold all_draws. apply FinFun.Injective_map_NoDup; [|apply seq_NoDup]. intros a b H. lia.
Qed.

Lemma sequences_range n f : forall s, In s (all_sequences n f) ->
  length s = f /\ Forall (fun v => 0 <= v < n) s.
Proof.
  induction f as [|f IH]; intros s H; cbn [all_sequences] in H.
  - destruct H as [<-|[]]. split; constructor.
  - apply in_flat_map in H. destruct H as (v & Hv & H). apply in_map_iff in H.
    destruct H as (s' & <- & H). apply IH in H. destruct H as (L & F). apply in_all_draws in Hv.
    split; [cbn; lia|constructor; auto].
Qed.

Lemma sequences_all n f : forall s, length s = f -> Forall (fun v => 0 <= v < n) s ->
  In s (all_sequences n f).
Proof.
  induction f as [|f IH]; intros s L F; cbn [all_sequences].
  - destruct s; [left; auto|discriminate].
  - destruct s as [|v s]; [discriminate|]. inversion F; subst. apply in_flat_map. exists v.
    split; [apply in_all_draws; auto|]. apply in_map. apply IH; auto.
Qed.

Lemma sequences_nodup n f : NoDup (all_sequences n f).
Proof.
  induction f as [|f IH]; cbn [all_sequences]; [repeat constructor; intros []|].
  pose proof (all_draws_nodup n) as D. induction D as [|v l N D IHl]; cbn [flat_map]; [constructor|].
  apply NoDup_app_intro.
  - apply FinFun.Injective_map_NoDup; auto. intros a b H. congruence.
  - auto.
  - intros s H1 H2. apply in_map_iff in H1. destruct H1 as (s1 & <- & _).
    apply in_flat_map in H2. destruct H2 as (v2 & Hv & H2). apply in_map_iff in H2.
    destruct H2 as (s2 & E & _). injection E as -> _. auto.
Qed.

Lemma flat_map_length_const {A B} (h : A -> list B) c l :
  (forall x, In x l -> length (h x) = c) -> length (flat_map h l) = (length l * c)%nat.
Proof.
  induction l as [|x l IH]; intros H; cbn [flat_map]; auto.
  rewrite app_length, IH, H by (auto using in_eq; intros; apply H; right; auto). cbn. lia.
Qed.

Lemma all_draws_length n : length (all_draws n) = Z.to_nat n.
Proof. unfold all_draws. rewrite map_length, seq_length. reflexivity. Qed.

Lemma sequences_length n f : length (all_sequences n f) = (Z.to_nat n ^ f)%nat.
Proof.
  induction f as [|f IH]; cbn [all_sequences]; auto.
  rewrite (flat_map_length_const _ (Z.to_nat n ^ f)%nat).
  - rewrite all_draws_length. reflexivity.
  - intros v _. rewrite map_length. auto.
Qed.

Lemma filter_map_comm {A B} (P : B -> bool) (h : A -> B) l :
  length (filter P (map h l)) = length (filter (fun x => P (h x)) l).
Proof. induction l as [|x l IH]; cbn; auto. destruct (P (h x)); cbn; rewrite IH; auto. Qed.

Lemma filter_app_length {A} (P : A -> bool) l l' :
  length (filter P (l ++ l')) = (length (filter P l) + length (filter P l'))%nat.
Proof. rewrite filter_app, app_length. auto. Qed.

Lemma filter_false {A} (l : list A) : length (filter (fun _ => false) l) = 0%nat.
Proof. induction l; auto. Qed.

Lemma sequences_filter (P : Z -> bool) n f :
  length (filter (forallb P) (all_sequences n f)) = (length (filter P (all_draws n)) ^ f)%nat.
Proof.
  induction f as [|f IH]; cbn [all_sequences]; auto.
  assert (G : forall l, length (filter (forallb P) (flat_map (fun v => map (cons v) (all_sequences n f)) l))
               = (length (filter P l) * length (filter P (all_draws n)) ^ f)%nat).
  { induction l as [|v l IHl]; auto. cbn [flat_map filter].
    rewrite filter_app_length, IHl, filter_map_comm. cbn [forallb].
    destruct (P v); cbn [andb length].
    - rewrite <- IH. cbn. f_equal.
    - rewrite filter_false. reflexivity. }
  rewrite G. reflexivity.
Qed.

(** The source reading a list is undecided exactly if no number of the list is usable. *)
Lemma listed_undecided n s : 0 < n -> Forall (fun v => 0 <= v < n) s ->
  (unusable_for listed n s (length s) <-> forallb (shares n) s = true).
Proof.
  intros Hn F. induction F as [|v s Hv F IH]; cbn [length forallb].
  - split; auto. constructor.
  - unfold shares at 1. rewrite !andb_true_iff, !negb_true_iff, !Z.eqb_neq. split.
    + intros H. inversion H as [|? ? ? ? E H1 H2 H3]; subst. cbn in E. rewrite Z.mod_small in E by auto.
      injection E as <- <-. tauto.
    + intros ((H1 & H2) & H3). apply unusable_S with s v; auto; [|tauto].
      cbn. rewrite Z.mod_small by auto. reflexivity.
Qed.

Lemma listed_decided n s : 0 < n -> Forall (fun v => 0 <= v < n) s ->
  forallb (shares n) s = false -> exists j, (j < length s)%nat /\ usable_at listed n s j.
Proof.
  intros Hn F. induction F as [|v s Hv F IH]; cbn [length forallb]; [discriminate|].
  assert (E : rng_mod listed (v :: s) n = (Some v, s)) by (cbn; rewrite Z.mod_small by auto; auto).
  intros H. destruct (shares n v) eqn:Sv; cbn [andb] in H.
  - destruct (IH H) as (j & Hj & U). unfold shares in Sv.
    rewrite andb_true_iff, !negb_true_iff, !Z.eqb_neq in Sv. exists (S j). split; [lia|].
    eapply usable_later; eauto; tauto.
  - exists 0%nat. split; [lia|]. apply usable_now with s v; auto.
    unfold shares in Sv. rewrite andb_false_iff, !negb_false_iff, !Z.eqb_eq in Sv. tauto.
Qed.

Lemma filter_ext_len {A} (P Q : A -> bool) l : (forall x, In x l -> P x = Q x) ->
  length (filter P l) = length (filter Q l).
Proof.
  induction l as [|x l IH]; intros H; auto. cbn [filter]. rewrite H by (left; auto).
  destruct (Q x); cbn [length]; rewrite IH; auto; intros; apply H; right; auto.
Qed.

(** Any computation that waits exactly as long as blinding is undecided. *)
Lemma unfinished_count {A} (run : list Z -> outcome A) n f :
  0 < n ->
  (forall s, blinding_succeeds listed n (Some s) f -> run s <> OutOfFuel) ->
  (forall s, blinding_undecided listed n (Some s) f -> run s = OutOfFuel) ->
  unfinished run (all_sequences n f) = (length (sharing n) ^ f)%nat.
Proof.
  intros Hn Hs Hu. unfold unfinished, sharing. fold (shares n). rewrite <- sequences_filter.
  apply filter_ext_len. intros s Hi. apply sequences_range in Hi. destruct Hi as (L & F).
  destruct (forallb (shares n) s) eqn:E.
  - rewrite Hu; auto. cbn [blinding_undecided]. rewrite <- L. apply listed_undecided; auto.
  - destruct (listed_decided n s Hn F E) as (j & Hj & U).
    specialize (Hs s). cbn [blinding_succeeds] in Hs.
    destruct (run s); auto. exfalso. apply Hs; auto. exists j. split; auto. lia.
Qed.

Lemma unfinished_private k c f :
  good_priv k -> wf_uint c -> uprec c = uprec (pk_n (sk_pub k)) ->
  let n := uval (pk_n (sk_pub k)) in
  uval c < n ->
  unfinished (fun s => rsa_decrypt_and_check listed f k (Some s) c) (all_sequences n f)
  = (length (sharing n) ^ f)%nat.
Proof.
  intros Hk Hc Hp n Hcn. pose proof (good_gt1 k Hk) as H1. fold n in H1.
  apply unfinished_count; [lia| |]; intros s H;
    destruct (rsa_decrypt_and_check_good listed f (Some s) k c (fun _ => listed_ok) Hk Hc Hp Hcn)
      as (A & _ & C); [rewrite A by auto; discriminate|auto].
Qed.

Lemma unfinished_decrypt k ct f :
  good_priv k -> usable_key (sk_pub k) ->
  let n := uval (pk_n (sk_pub k)) in
  8 * Z.of_nat (length ct) <= uprec (pk_n (sk_pub k)) -> os2ip ct < n ->
  unfinished (fun s => pkcs1v15_decrypt listed f (Some s) k ct) (all_sequences n f)
  = (length (sharing n) ^ f)%nat.
Proof.
  intros Hk Hu n HL Hc. pose proof (good_gt1 k Hk) as H1. fold n in H1.
  pose proof (good_pub k Hk) as Hp.
  apply unfinished_count; [lia| |]; intros s H;
    destruct (pkcs1v15_decrypt_exact listed f (Some s) k ct (fun _ => listed_ok) Hk Hu) as (_ & _ & A);
    destruct (A HL Hc) as (A1 & _ & A3); [|auto].
  destruct (A1 H) as (B1 & B2). intros E.
  assert (forall M, ~ is_eme_pkcs1 (key_size (sk_pub k))
           (i2osp (RSADP n (uval (sk_d k)) (os2ip ct)) (key_size (sk_pub k))) M) as N.
  { intros M HM. apply B1 in HM. congruence. }
  apply B2 in N. congruence.
Qed.

Lemma unfinished_sign k prefix hashed f :
  good_priv k -> (length prefix + length hashed + 11 <= key_size (sk_pub k))%nat ->
  let n := uval (pk_n (sk_pub k)) in
  unfinished (fun s => pkcs1v15_sign listed f (Some s) k prefix hashed) (all_sequences n f)
  = (length (sharing n) ^ f)%nat.
Proof.
  intros Hk HL n. pose proof (good_gt1 k Hk) as H1. fold n in H1.
  apply unfinished_count; [lia| |]; intros s H;
    destruct (pkcs1v15_sign_exact listed f (Some s) k prefix hashed (fun _ => listed_ok) Hk) as (_ & A);
    (destruct A as (A1 & _ & A3); [rewrite app_length; auto|]); [rewrite A1 by auto; discriminate|auto].
Qed.

Lemma unfinished_pss hd k hashed salt f :
  good_priv k -> uprec (pk_n (sk_pub k)) < 2 ^ 32 -> (0 < h_size hd)%nat -> length hashed = h_size hd ->
  (h_size hd + length salt + 2 <= pss_em_len (Z.to_nat (ubits (pk_n (sk_pub k))) - 1))%nat ->
  let n := uval (pk_n (sk_pub k)) in
  unfinished (fun s => sign_pss_with_salt_digest listed hd f (Some s) k hashed salt) (all_sequences n f)
  = (length (sharing n) ^ f)%nat.
Proof.
  intros Hk Hq Hz Hh HL n. pose proof (good_gt1 k Hk) as H1. fold n in H1.
  apply unfinished_count; [lia| |]; intros s H;
    destruct (sign_pss_exact listed hd f (Some s) k hashed salt (fun _ => listed_ok) Hz Hk Hq) as (_ & A);
    destruct (A Hh) as (_ & A'); destruct (A' HL) as (A1 & _ & A3);
    [rewrite A1 by auto; discriminate|auto].
Qed.

(** * How many numbers share a factor with the modulus *)

Lemma in_sharing n v : In v (sharing n) <-> 1 <= v < n /\ Z.gcd v n <> 1.
Proof.
  unfold sharing. rewrite filter_In, in_all_draws, andb_true_iff, !negb_true_iff, !Z.eqb_neq. lia.
Qed.

Lemma coprime_product v ps : Forall prime ps -> (forall p, In p ps -> ~ (p | v)) ->
  rel_prime v (product ps).
Proof.
  induction ps as [|p ps IH]; intros F H; cbn [product fold_right].
  - apply rel_prime_sym, rel_prime_1.
  - inversion F; subst. apply rel_prime_mult.
    + apply rel_prime_sym, prime_rel_prime; auto. apply H. left; auto.
    + apply IH; auto. intros q Hq. apply H. right; auto.
Qed.

Lemma sharing_factor ps v : Forall prime ps -> Z.gcd v (product ps) <> 1 ->
  exists p, In p ps /\ (p | v).
Proof.
  intros F H. destruct (Exists_dec (fun p => (p | v)) ps) as [E|E].
  - intros p. apply Zdivide_dec.
  - apply Exists_exists in E. auto.
  - exfalso. apply H. apply Zgcd_1_rel_prime. apply coprime_product; auto.
    intros p Hp D. apply E. apply Exists_exists. eauto.
Qed.

(** The multiples of [p] from [p] to [n - p]. *)
Definition multiples (n p : Z) : list Z := map (fun i => p * Z.of_nat i) (seq 1 (Z.to_nat (n / p - 1))).

Lemma in_multiples n p v : 0 < p -> (p | n) -> In v (multiples n p) <-> (p | v) /\ 1 <= v < n.
Proof.
  intros Hp (m & ->). unfold multiples. rewrite Z.div_mul by lia. rewrite in_map_iff. split.
  - intros (i & <- & H). apply in_seq in H. split; [exists (Z.of_nat i); ring|]. nia.
  - intros ((i & ->) & H). exists (Z.to_nat i). split; [rewrite Z2Nat.id by nia; ring|].
    apply in_seq. nia.
Qed.

Lemma multiples_nodup n p : 0 < p -> NoDup (multiples n p).
Proof.
  intros Hp. apply FinFun.Injective_map_NoDup; [|apply seq_NoDup]. intros a b H. nia.
Qed.

Lemma sharing_nodup n : NoDup (sharing n).
Proof. apply NoDup_filter, all_draws_nodup. Qed.

Lemma sharing_bound ps : Forall prime ps ->
  let n := product ps in
  Z.of_nat (length (sharing n)) <= total (map (fun p => n / p - 1) ps).
Proof.
  intros F n.
  assert (Hn : 0 < n) by (unfold n; rewrite product_zprod; apply zprod_pos, prime_pos_all; auto).
  assert (I : incl (sharing n) (flat_map (multiples n) ps)).
  { intros v Hv. apply in_sharing in Hv. destruct Hv as (Hr & Hg).
    destruct (sharing_factor ps v F Hg) as (p & Hp & D). apply in_flat_map. exists p. split; auto.
    rewrite Forall_forall in F. apply in_multiples; auto.
    - pose proof (prime_ge_2 p (F p Hp)). lia.
    - unfold n. rewrite product_zprod. apply in_divide_zprod; auto. }
  apply NoDup_incl_length in I; [|apply sharing_nodup].
  assert (G : forall l, (forall p, In p l -> In p ps) ->
    Z.of_nat (length (flat_map (multiples n) l)) = total (map (fun p => n / p - 1) l)).
  { induction l as [|p l IH]; intros Hl; auto. cbn [flat_map map total fold_right].
    rewrite app_length, Nat2Z.inj_add, IH by (intros; apply Hl; right; auto).
    unfold multiples. rewrite map_length, seq_length.
    assert (Hp : In p ps) by (apply Hl; left; auto).
    assert (p | n) as (m & Hm) by (unfold n; rewrite product_zprod; apply in_divide_zprod; auto).
    rewrite Forall_forall in F. pose proof (prime_ge_2 p (F p Hp)).
    rewrite Hm, Z.div_mul by lia. unfold total. rewrite Z2Nat.id by nia. reflexivity. }
  rewrite <- G; auto. lia.
Qed.

Lemma sharing_two p q : prime p -> prime q -> p <> q ->
  Z.of_nat (length (sharing (p * q))) = p + q - 2.
Proof.
  intros Hp Hq Hd. pose proof (prime_ge_2 p Hp). pose proof (prime_ge_2 q Hq).
  assert (Dp : (p | p * q)) by (exists q; ring).
  assert (Dq : (q | p * q)) by (exists p; ring).
  assert (P : Permutation (sharing (p * q)) (multiples (p * q) p ++ multiples (p * q) q)).
  { apply NoDup_Permutation.
    - apply sharing_nodup.
    - apply NoDup_app_intro; [apply multiples_nodup; lia|apply multiples_nodup; lia|].
      intros v H1 H2. apply in_multiples in H1; auto; [|lia]. apply in_multiples in H2; auto; [|lia].
      destruct H1 as (D1 & H1), H2 as (D2 & _).
      assert (p * q | v) as D.
      { pose proof (prod_divide [p; q] v) as G. cbn [zprod fold_right] in G.
        rewrite Z.mul_1_r in G. apply G.
        - auto using Forall_cons, Forall_nil.
        - constructor; [intros [E|[]]; auto|]. constructor; [intros []|constructor].
        - intros r [<-|[<-|[]]]; auto. }
      apply Z.divide_pos_le in D; lia.
    - intros v. rewrite in_app_iff, !in_multiples by (auto; lia). rewrite in_sharing. split.
      + intros (Hr & Hg). destruct (sharing_factor [p; q] v) as (r & Hi & D).
        * auto using Forall_cons, Forall_nil.
        * cbn [product fold_right]. rewrite Z.mul_1_r. auto.
        * destruct Hi as [<-|[<-|[]]]; auto.
      + intros H'. assert (Hr : 1 <= v < p * q) by tauto. split; auto. intros G.
        destruct H' as [(D & _)|(D & _)].
        * assert (p | 1) as X by (rewrite <- G; apply Z.gcd_greatest; auto).
          apply Z.divide_pos_le in X; lia.
        * assert (q | 1) as X by (rewrite <- G; apply Z.gcd_greatest; auto).
          apply Z.divide_pos_le in X; lia. }
  apply Permutation_length in P. rewrite P, app_length. unfold multiples.
  rewrite !map_length, !seq_length, Z.div_mul by lia.
  replace (p * q) with (q * p) by ring. rewrite Z.div_mul by lia. lia.
Qed.

(** * Padding *)

Lemma nonzeros_cons b t : nonzeros (b :: t) = ((if byte_eqb b x00 then 0 else 1) + nonzeros t)%nat.
Proof. unfold nonzeros. cbn [filter]. destruct (byte_eqb b x00); reflexivity. Qed.

Lemma nonzeros_app a b : nonzeros (a ++ b) = (nonzeros a + nonzeros b)%nat.
Proof. unfold nonzeros. apply filter_app_length. Qed.

Lemma nonzeros_le t : (nonzeros t <= length t)%nat.
Proof. induction t as [|b t IH]; auto. rewrite nonzeros_cons. cbn. destruct (byte_eqb b x00); lia. Qed.

Lemma refill_tape f : forall t, (length t < f)%nat ->
  (nonzeros t = 0%nat /\ refill tape f t = Err Rng) \/
  (exists b t', refill tape f t = Ok (b, t') /\ nonzeros t = S (nonzeros t') /\ (length t' < length t)%nat).
Proof.
  induction f as [|f IH]; intros t L; [lia|]. destruct t as [|b t]; [left; auto|].
  cbn [refill]. rewrite fill_cons. cbn [get_idx nth_error bind]. cbn [length] in L. rewrite nonzeros_cons.
  destruct (byte_eqb b x00) eqn:E.
  - destruct (IH t ltac:(lia)) as [(A & B)|(b' & t' & A & B & C)]; [left; split; [exact A|exact B]|right].
    exists b', t'. repeat split; auto. cbn. lia.
  - right. exists b, t. repeat split; auto.
Qed.

Lemma nz_loop_tape f : forall data t, (length t < f)%nat ->
  ((length data <= nonzeros data + nonzeros t)%nat /\ exists x, nz_loop tape f t data = Ok x) \/
  ((nonzeros data + nonzeros t < length data)%nat /\ nz_loop tape f t data = Err Rng).
Proof.
  induction data as [|b data IH]; intros t L; cbn [nz_loop length]; [left; split; [lia|eauto]|].
  rewrite nonzeros_cons. destruct (byte_eqb b x00) eqn:E.
  - destruct (refill_tape f t L) as [(A & B)|(b' & t' & A & B & C)].
    + right. rewrite B. split; auto. pose proof (nonzeros_le data). lia.
    + rewrite A. cbn [bind]. destruct (IH t' ltac:(lia)) as [(D & x & ->)|(D & ->)].
      * left. split; [lia|]. destruct x. cbn [bind]. eauto.
      * right. split; [lia|]. auto.
  - cbn [bind]. destruct (IH t ltac:(lia)) as [(D & x & ->)|(D & ->)].
    + left. split; [lia|]. destruct x. cbn [bind]. eauto.
    + right. split; [lia|]. auto.
Qed.

Lemma padding_tape f t w : (length t < f)%nat ->
  ((w <= nonzeros t)%nat /\ exists x, non_zero_random_bytes tape f t w = Ok x) \/
  ((nonzeros t < w)%nat /\ non_zero_random_bytes tape f t w = Err Rng).
Proof.
  intros L. unfold non_zero_random_bytes. cbn [rng_fill tape].
  destruct (Nat.leb_spec w (length t)) as [H|H].
  - destruct (nz_loop_tape f (firstn w t) (skipn w t)) as [(A & B)|(A & B)];
      [rewrite skipn_length; lia| |];
      rewrite firstn_length_le in A by auto;
      rewrite <- nonzeros_app, firstn_skipn in A; auto.
  - right. split; auto. pose proof (nonzeros_le t). lia.
Qed.

Lemma encrypt_tape pk msg f t : wf_pub pk -> usable_key pk ->
  (length msg + 11 <= key_size pk)%nat -> (length t < f)%nat ->
  let w := (key_size pk - length msg - 3)%nat in
  ((w <= nonzeros t)%nat /\ exists ct, pkcs1v15_encrypt tape f t pk msg = Ok ct) \/
  ((nonzeros t < w)%nat /\ pkcs1v15_encrypt tape f t pk msg = Err Rng).
Proof.
  intros Hp Hu HL Lf w.
  destruct (pkcs1v15_encrypt_exact tape f t pk msg tape_ok Hp Hu) as (_ & A).
  destruct (A HL) as (A1 & A2 & A3). fold w in A1, A2, A3.
  destruct (padding_trichotomy tape tape_ok f t w) as [(PS & G)|[G|G]];
    destruct (padding_tape f t w Lf) as [(B & x & C)|(B & C)]; unfold non_zero_random_bytes in C.
  - left. split; auto. rewrite (A1 PS G). eauto.
  - destruct G as (d & s1 & s2 & E & G). rewrite E, (nz_loop_patched _ _ _ _ _ _ G) in C. discriminate.
  - destruct G as [(s & E)|(d & s & E & G)]; rewrite E in C; try discriminate.
    rewrite (nz_loop_fails _ _ _ _ G) in C. discriminate.
  - right. split; auto.
  - destruct G as (d & s & E & G); rewrite E in C.
    rewrite (nz_loop_stuck _ _ _ _ G) in C. discriminate.
  - destruct G as (d & s & E & G); rewrite E in C.
    rewrite (nz_loop_stuck _ _ _ _ G) in C. discriminate.
Qed.

(** Counting tapes. *)
Definition short (w L : nat) : nat := length (filter (fun t => (nonzeros t <? w)%nat) (all_tapes L)).

Lemma bytes_split (P Q : bool) :
  length (filter (fun i => if byte_eqb (z2b (Z.of_nat i)) x00 then P else Q) (seq 0 256))
  = ((if P then 1 else 0) + (if Q then 255 else 0))%nat.
Proof. destruct P, Q; vm_compute; reflexivity. Qed.

Lemma short_step w L : short (S w) (S L) = (255 * short w L + short (S w) L)%nat.
Proof.
  unfold short. cbn [all_tapes].
  generalize (all_tapes L) as l. induction l as [|t l IH]; auto.
  cbn [flat_map]. rewrite filter_app_length, IH, filter_map_comm.
  replace (length (filter (fun x : nat => (nonzeros (z2b (Z.of_nat x) :: t) <? S w)%nat) (seq 0 256)))
    with ((if (nonzeros t <? S w)%nat then 1 else 0) + (if (nonzeros t <? w)%nat then 255 else 0))%nat.
  2:{ rewrite <- bytes_split. apply filter_ext_len. intros x _. rewrite nonzeros_cons.
      destruct (byte_eqb (z2b (Z.of_nat x)) x00); reflexivity. }
  cbn [filter]. destruct (nonzeros t <? S w)%nat, (nonzeros t <? w)%nat; cbn [length]; lia.
Qed.

Lemma short_zero L : short 0 L = 0%nat.
Proof.
  unfold short. rewrite (filter_ext_len _ (fun _ => false)); [apply filter_false|].
  intros t _. destruct (Nat.ltb_spec (nonzeros t) 0); auto. lia.
Qed.

Lemma short_nil w : short (S w) 0 = 1%nat.
Proof. reflexivity. Qed.

Lemma all_tapes_length L : Z.of_nat (length (all_tapes L)) = 256 ^ Z.of_nat L.
Proof.
  induction L as [|L IH]; auto. cbn [all_tapes].
  rewrite (flat_map_length_const _ 256) by (intros; rewrite map_length, seq_length; auto).
  rewrite Nat2Z.inj_mul, IH, (Nat2Z.inj_succ L), Z.pow_succ_r by lia. lia.
Qed.

Lemma short_all w L : (L < w)%nat -> Z.of_nat (short w L) = 256 ^ Z.of_nat L.
Proof.
  intros H. rewrite <- all_tapes_length. unfold short. f_equal.
  rewrite (filter_ext_len _ (fun _ => true)).
  - induction (all_tapes L); cbn; congruence.
  - intros t Ht. apply in_all_tapes in Ht. pose proof (nonzeros_le t).
    destruct (Nat.ltb_spec (nonzeros t) w); auto. lia.
Qed.

Lemma choose_nonneg n : forall k, 0 <= choose n k.
Proof.
  induction n as [|n IH]; intros [|k]; try (cbn [choose]; lia).
  change (choose (S n) (S k)) with (choose n k + choose n (S k)).
  pose proof (IH k). pose proof (IH (S k)). lia.
Qed.

(** At least [z] zeros among [L] octets. *)
Lemma short_bound L : forall z w, (w + z = S L)%nat ->
  Z.of_nat (short w L) * 256 ^ Z.of_nat z <= choose L z * 256 ^ Z.of_nat L.
Proof.
  induction L as [|L IH]; intros z w H.
  - destruct w as [|w]; [rewrite short_zero|].
    + assert (z = 1%nat) as -> by lia. vm_compute. discriminate.
    + assert (w = 0 /\ z = 0)%nat as (-> & ->) by lia. vm_compute. discriminate.
  - destruct z as [|z].
    + rewrite short_all by lia. cbn [choose]. lia.
    + destruct w as [|w].
      { rewrite short_zero. pose proof (choose_nonneg (S L) (S z)).
        pose proof (Z.pow_nonneg 256 (Z.of_nat (S L)) ltac:(lia)). nia. }
      rewrite short_step. change (choose (S L) (S z)) with (choose L z + choose L (S z)).
      pose proof (IH z (S w) ltac:(lia)) as A. pose proof (IH (S z) w ltac:(lia)) as B.
      pose proof (choose_nonneg L (S z)) as C.
      pose proof (Z.pow_nonneg 256 (Z.of_nat L) ltac:(lia)) as D.
      rewrite Nat2Z.inj_add, Nat2Z.inj_mul. change (Z.of_nat 255) with 255.
      rewrite (Nat2Z.inj_succ z), (Nat2Z.inj_succ L), !Z.pow_succ_r by lia.
      rewrite (Nat2Z.inj_succ z), Z.pow_succ_r in B by lia. nia.
Qed.

Lemma filter_le {A} (P : A -> bool) l : (length (filter P l) <= length l)%nat.
Proof. induction l as [|x l IH]; cbn; auto. destruct (P x); cbn; lia. Qed.

Lemma short_le w L : (short w L <= length (all_tapes L))%nat.
Proof. apply filter_le. Qed.

Lemma no_redraw w : Z.of_nat (length (all_tapes w) - short w w) = 255 ^ Z.of_nat w.
Proof.
  rewrite Nat2Z.inj_sub by apply short_le. rewrite all_tapes_length.
  induction w as [|w IH]; [vm_compute; reflexivity|].
  rewrite short_step, Nat2Z.inj_add, Nat2Z.inj_mul.
  rewrite (short_all (S w) w) by lia. change (Z.of_nat 255) with 255.
  rewrite (Nat2Z.inj_succ w), !Z.pow_succ_r by lia. lia.
Qed.

Lemma filter_negb {A} (P : A -> bool) l :
  length (filter P l) = (length l - length (filter (fun x => negb (P x)) l))%nat.
Proof.
  assert (length (filter P l) + length (filter (fun x => negb (P x)) l) = length l)%nat.
  { induction l as [|x l IH]; auto. cbn. destruct (P x); cbn; lia. }
  lia.
Qed.

Lemma succeeding_short pk msg f L : wf_pub pk -> usable_key pk ->
  (length msg + 11 <= key_size pk)%nat -> (L < f)%nat ->
  succeeding (fun t => pkcs1v15_encrypt tape f t pk msg) (all_tapes L)
  = (length (all_tapes L) - short (key_size pk - length msg - 3) L)%nat.
Proof.
  intros Hp Hu HL Hf. unfold succeeding. rewrite filter_negb. f_equal. unfold short.
  apply filter_ext_len. intros t Ht. apply in_all_tapes in Ht.
  destruct (encrypt_tape pk msg f t Hp Hu HL ltac:(lia)) as [(A & ct & ->)|(A & ->)]; cbn [negb].
  - destruct (Nat.ltb_spec (nonzeros t) (key_size pk - length msg - 3)); auto; lia.
  - destruct (Nat.ltb_spec (nonzeros t) (key_size pk - length msg - 3)); auto; lia.
Qed.

Lemma encryption_rarely_short pk msg f j : wf_pub pk -> usable_key pk ->
  (length msg + 11 <= key_size pk)%nat ->
  let w := (key_size pk - length msg - 3)%nat in
  let L := (w + j)%nat in (L < f)%nat ->
  (256 ^ Z.of_nat L - Z.of_nat (succeeding (fun t => pkcs1v15_encrypt tape f t pk msg) (all_tapes L)))
    * 256 ^ Z.of_nat (S j) <= choose L (S j) * 256 ^ Z.of_nat L.
Proof.
  intros Hp Hu HL w L Hf. rewrite succeeding_short by auto. fold w.
  rewrite Nat2Z.inj_sub, all_tapes_length by apply short_le.
  pose proof (short_bound L (S j) w ltac:(unfold L; lia)).
  replace (256 ^ Z.of_nat L - (256 ^ Z.of_nat L - Z.of_nat (short w L))) with (Z.of_nat (short w L)) by ring.
  auto.
Qed.

Lemma encryption_no_redraw pk msg f : wf_pub pk -> usable_key pk ->
  (length msg + 11 <= key_size pk)%nat ->
  let w := (key_size pk - length msg - 3)%nat in (w < f)%nat ->
  Z.of_nat (succeeding (fun t => pkcs1v15_encrypt tape f t pk msg) (all_tapes w)) = 255 ^ Z.of_nat w.
Proof.
  intros Hp Hu HL w Hf. rewrite succeeding_short by auto. fold w. apply no_redraw.
Qed.

Lemma sharing_small ps B : Forall prime ps -> 0 < B -> Forall (fun p => B <= p) ps ->
  Z.of_nat (length (sharing (product ps))) * B <= Z.of_nat (length ps) * product ps.
Proof.
  intros F HB HF. pose proof (sharing_bound ps F) as G. cbv zeta in G.
  assert (Hn : 0 < product ps) by (rewrite product_zprod; apply zprod_pos, prime_pos_all; auto).
  assert (T : forall l, Forall (fun p => B <= p) l ->
     total (map (fun p => product ps / p - 1) l) * B <= Z.of_nat (length l) * product ps).
  { clear - HB Hn. induction 1 as [|p l Hp F IH]; [cbn; lia|].
    cbn [map length total fold_right] in *. fold (total (map (fun p => product ps / p - 1) l)).
    unfold total in *. pose proof (Z.mul_div_le (product ps) p ltac:(lia)).
    pose proof (Z.div_pos (product ps) p ltac:(lia) ltac:(lia)).
    rewrite Nat2Z.inj_succ. nia. }
  specialize (T ps HF). nia.
Qed.

Lemma of_nat_pow a f : Z.of_nat (a ^ f) = Z.of_nat a ^ Z.of_nat f.
Proof.
  induction f as [|f IH]; [reflexivity|]. cbn [Nat.pow].
  rewrite Nat2Z.inj_mul, IH, (Nat2Z.inj_succ f), Z.pow_succ_r by lia. reflexivity.
Qed.

Lemma sharing_power ps B f : Forall prime ps -> 0 < B -> Forall (fun p => B <= p) ps ->
  Z.of_nat (length (sharing (product ps)) ^ f) * B ^ Z.of_nat f <=
  (Z.of_nat (length ps) * product ps) ^ Z.of_nat f.
Proof.
  intros F HB HF. rewrite of_nat_pow, <- Z.pow_mul_l. apply Z.pow_le_mono_l.
  split; [nia|]. apply sharing_small; auto.
Qed.

Lemma choose_over n : forall k, (n < k)%nat -> choose n k = 0.
Proof.
  induction n as [|n IH]; intros [|k] H; try lia; [reflexivity|].
  change (choose (S n) (S k)) with (choose n k + choose n (S k)). rewrite !IH by lia. reflexivity.
Qed.

Lemma choose_fact n : forall k, (k <= n)%nat ->
  choose n k * (Z.of_nat (fact k) * Z.of_nat (fact (n - k))) = Z.of_nat (fact n).
Proof.
  induction n as [|n IH]; intros k H.
  - assert (k = 0%nat) as -> by lia. reflexivity.
  - destruct k as [|k].
    + cbn [choose Nat.sub]. change (fact 0) with 1%nat. lia.
    + change (choose (S n) (S k)) with (choose n k + choose n (S k)). cbn [Nat.sub].
      pose proof (IH k ltac:(lia)) as A.
      assert (F : forall m, Z.of_nat (fact (S m)) = (Z.of_nat m + 1) * Z.of_nat (fact m)).
      { intros m. cbn [fact]. lia. }
      destruct (Nat.eq_dec k n) as [->|Hk].
      * rewrite choose_over with (k := S n) by lia. rewrite !F in *. nia.
      * pose proof (IH (S k) ltac:(lia)) as B.
        replace (n - k)%nat with (S (n - S k)) in * by lia. rewrite !F in *.
        replace (Z.of_nat (n - S k)) with (Z.of_nat n - Z.of_nat k - 1) in * by lia.
        transitivity ((Z.of_nat k + 1) * Z.of_nat (fact n) + (Z.of_nat n - Z.of_nat k) * Z.of_nat (fact n)).
        { rewrite <- A at 1. rewrite <- B. ring. }
        ring.
Qed.
