(** C97: what the outcomes of decrypting other ciphertexts say about a ciphertext. *)
From Coq Require Import ZArith Zpow_facts Znumtheory List Bool Lia.
From Coq Require Import Init.Byte.
From Verif Require Import Base Bigint BytesLemmas BigintLemmas SpecRFC SpecKey SpecRng SpecBlind SpecOracle MHash MPkcs1 MOaep
  MRsa MKey MApi KeyDefs.
From Verif Require Import NumTheory PRsa PApi PEnc PPub PMisc PSig PSign POracle KeyExamples PropEnc PropLeak.
Import ListNotations.
Local Open Scope Z_scope.

(** * C97: answers about mauled ciphertexts

    [mauled n e K c s] (SpecOracle.v) is c * s^e mod n as a ciphertext: made from c with the public
    key alone. *)

Lemma mauled_opens k c s : good_priv k -> 0 <= c ->
  let n := uval (pk_n (sk_pub k)) in let e := uval (pk_e (sk_pub k)) in let d := uval (sk_d k) in
  let ct := mauled n e (key_size (sk_pub k)) c s in
  length ct = key_size (sk_pub k) /\ 0 <= os2ip ct < n /\ RSADP n d (os2ip ct) = RSADP n d c * s mod n.
Proof.
  intros Hk Hc n e d ct. pose proof (good_pub k Hk) as Hp. pose proof (key_n_lt _ Hp) as Kn. fold n in Kn.
  pose proof (odd_pos_n _ Hp) as Hn. fold n in Hn. pose proof Hk as (_ & _ & _ & HV & _).
  pose proof HV as (_ & _ & _ & _ & He & Hd & _). fold d in Hd. fold e in He.
  split; [apply i2osp_length|]. unfold ct, mauled.
  pose proof (Z.mod_pos_bound (c * RSAEP n e s) n ltac:(clear - Hn; lia)) as R.
  rewrite os2ip_i2osp by (clear - R Kn; lia). split; [exact R|].
  unfold RSADP, RSAEP. rewrite pow_mod_mult by (clear - Hn Hd; lia).
  rewrite pow_mod_base by (clear - Hn Hd; lia). rewrite <- Z.pow_mul_r by (clear - He Hd; lia).
  pose proof (rsa_id _ _ _ _ s HV) as E. fold n e d in E. rewrite E. apply Zmult_mod_idemp_r.
Qed.

(** One answer: the mauled ciphertext decrypts exactly if s times the secret number is, modulo n, a
    well-formed block; in particular it then lies between 2B and 3B. *)
Theorem C97_question_pkcs1v15 : forall {R} (g : rng_ops R) fuel rng k c s,
  (rng <> None -> rng_ok g) -> good_priv k -> usable_key (sk_pub k) -> 0 <= c ->
  let n := uval (pk_n (sk_pub k)) in let e := uval (pk_e (sk_pub k)) in let K := key_size (sk_pub k) in
  blinding_succeeds g n rng fuel ->
  let answer := scheme_decrypt g fuel rng k PadPkcs1v15 (mauled n e K c s) in
  let x := RSADP n (uval (sk_d k)) c * s mod n in
  (forall M, answer = Ok M <-> is_eme_pkcs1 K (i2osp x K) M) /\
  ((forall M, ~ is_eme_pkcs1 K (i2osp x K) M) -> answer = Err Decryption) /\
  (is_ok answer = conforms K x) /\
  (is_ok answer = true -> 2 * 256 ^ (Z.of_nat K - 2) <= x < 3 * 256 ^ (Z.of_nat K - 2)).
Proof.
  intros R g fuel rng k c s Hr Hk Hu Hc n e K B answer x. pose proof (good_pub k Hk) as Hp.
  destruct (mauled_opens k c s Hk Hc) as (L & V & E). fold n e K in L, V, E.
  destruct (key_size_facts _ Hp) as (_ & F4 & _).
  destruct (C05_decrypt_exact g fuel rng k (mauled n e K c s) Hr Hk Hu) as (_ & _ & D).
  cbv zeta in D. fold n e K in D. rewrite L in D. destruct (D F4 (proj2 V)) as (D1 & _).
  destruct (D1 B) as (D2 & D3). rewrite E in D2. rewrite E in D3. fold x in D2, D3.
  split; [exact D2|]. split; [exact D3|].
  assert (X : is_ok answer = conforms K x).
  { destruct (conforms K x) eqn:C.
    - apply conforms_exact in C. destruct C as (M & C). apply D2 in C. unfold answer. cbn [scheme_decrypt]. rewrite C. reflexivity.
    - unfold answer. cbn [scheme_decrypt]. rewrite D3; [reflexivity|].
      intros M H. assert (conforms K x = true) by (apply conforms_exact; eauto). congruence. }
  split; [exact X|]. rewrite X. intros C. apply conforms_exact in C. destruct C as (M & C). apply eme_range in C.
  pose proof (key_n_lt _ Hp) as Kn. fold n K in Kn. pose proof (odd_pos_n _ Hp) as Hn. fold n in Hn.
  pose proof (Z.mod_pos_bound (RSADP n (uval (sk_d k)) c * s) n ltac:(clear - Hn; lia)) as Y. fold x in Y.
  rewrite os2ip_i2osp in C by (clear - Y Kn; lia). exact C.
Qed.

Theorem C97_question_oaep : forall {R} (g : rng_ops R) fuel rng k c s hd hm label,
  (rng <> None -> rng_ok g) -> good_priv k -> usable_key (sk_pub k) -> 0 <= c ->
  (0 < h_size hm)%nat -> (11 <= key_size (sk_pub k))%nat -> Z.of_nat (length (label_bytes label)) < 2 ^ 61 ->
  let n := uval (pk_n (sk_pub k)) in let e := uval (pk_e (sk_pub k)) in let K := key_size (sk_pub k) in
  blinding_succeeds g n rng fuel ->
  let answer := scheme_decrypt g fuel rng k (PadOaep (mkOaep (digest_new hd) (digest_new hm) label)) (mauled n e K c s) in
  let x := RSADP n (uval (sk_d k)) c * s mod n in
  let block M := is_eme_oaep (h_fun hd) (h_size hd) (h_fun hm) (h_size hm) (label_bytes label) K (i2osp x K) M in
  (forall M, answer = Ok M <-> block M) /\ ((forall M, ~ block M) -> answer = Err Decryption).
Proof.
  intros R g fuel rng k c s hd hm label Hr Hk Hu Hc Hm K11 HL n e K B answer x block.
  destruct (mauled_opens k c s Hk Hc) as (L & V & E). fold n e K in L, V, E.
  assert (H32 : uprec (pk_n (sk_pub k)) < 2 ^ 32) by (destruct Hu as (X & _); clear - X; lia).
  destruct (C03_decrypt_exact g fuel rng k (mauled n e K c s) hd hm label Hr Hm Hk H32 K11 HL) as (_ & _ & D).
  cbv zeta in D. fold n e K in D. destruct (D L (proj2 V)) as (D1 & _). destruct (D1 B) as (D2 & D3).
  rewrite E in D2. rewrite E in D3. fold x in D2, D3. split; [exact D2|exact D3].
Qed.

(** All answers: what a program that has the public key and learns only which decryptions succeed
    needs to find the number inside a PKCS#1 v1.5 ciphertext.  Each decryption may use a generator of
    its own. *)
Definition answers_of (k : privkey) (c : Z) (answers : Z -> bool) : Prop :=
  let n := uval (pk_n (sk_pub k)) in
  forall s, 0 <= s < n -> exists (R : Type) (g : rng_ops R) fuel rng,
    (rng <> None -> rng_ok g) /\ blinding_succeeds g n rng fuel /\
    answers s = is_ok (scheme_decrypt g fuel rng k PadPkcs1v15
                         (mauled n (uval (pk_e (sk_pub k))) (key_size (sk_pub k)) c s)).

Lemma unit_number k c : good_priv k -> 0 <= c -> Z.gcd c (uval (pk_n (sk_pub k))) = 1 ->
  Z.gcd (RSADP (uval (pk_n (sk_pub k))) (uval (sk_d k)) c) (uval (pk_n (sk_pub k))) = 1.
Proof.
  intros Hk Hc G. pose proof (good_pub k Hk) as Hp. pose proof (odd_pos_n _ Hp) as Hn.
  pose proof Hk as (_ & _ & _ & HV & _). pose proof HV as (_ & _ & _ & _ & _ & Hd & _).
  unfold RSADP. rewrite Z.gcd_mod by (clear - Hn; lia).
  apply Zgcd_1_rel_prime.
  apply rel_prime_Zpower_r; [clear - Hd; lia|]. apply rel_prime_sym. apply Zgcd_1_rel_prime. exact G.
Qed.

Theorem C97_recovered : forall k c answers,
  good_priv k -> usable_key (sk_pub k) -> (12 <= key_size (sk_pub k))%nat ->
  let n := uval (pk_n (sk_pub k)) in
  0 <= c < n -> Z.gcd c n = 1 -> answers_of k c answers ->
  recover n (key_size (sk_pub k)) answers = Some (RSADP n (uval (sk_d k)) c).
Proof.
  intros k c answers Hk Hu K12 n Hc G A. pose proof (good_pub k Hk) as Hp. pose proof (odd_pos_n _ Hp) as Hn. fold n in Hn.
  apply recover_unit; [exact K12|apply key_size_octets; exact Hp|apply Z.mod_pos_bound; clear - Hn; lia
    |apply unit_number; [exact Hk|apply Hc|exact G]|].
  intros s Hs. destruct (A s Hs) as (R & g & fuel & rng & Hr & B & E). rewrite E.
  destruct (C97_question_pkcs1v15 g fuel rng k c s Hr Hk Hu (proj1 Hc) B) as (_ & _ & X & _). exact X.
Qed.

(** So the answers give away the message of every PKCS#1 v1.5 ciphertext. *)
Theorem C97_message : forall {R} (g : rng_ops R) fuel rng k ct msg answers,
  (rng <> None -> rng_ok g) -> good_priv k -> usable_key (sk_pub k) -> (12 <= key_size (sk_pub k))%nat ->
  let n := uval (pk_n (sk_pub k)) in let K := key_size (sk_pub k) in
  scheme_decrypt g fuel rng k PadPkcs1v15 ct = Ok msg -> Z.gcd (os2ip ct) n = 1 -> answers_of k (os2ip ct) answers ->
  exists m, recover n K answers = Some m /\ is_eme_pkcs1 K (i2osp m K) msg.
Proof.
  intros R g fuel rng k ct msg answers Hr Hk Hu K12 n K D G A.
  destruct (C05_decrypt_exact g fuel rng k ct Hr Hk Hu) as (D1 & D2 & D3). cbv zeta in D1, D2, D3. fold n K in D1, D2, D3.
  cbn [scheme_decrypt] in D. pose proof (os2ip_range ct) as P0.
  destruct (Z.lt_ge_cases (uprec (pk_n (sk_pub k))) (8 * Z.of_nat (length ct))) as [X|X]; [rewrite (D1 X) in D; discriminate|].
  destruct (Z.lt_ge_cases (os2ip ct) n) as [Y|Y]; [|rewrite (D2 X Y) in D; discriminate].
  destruct (D3 X Y) as (D4 & D5 & D6).
  destruct (blinding_trichotomy g n rng fuel) as [T|[T|T]]; [|rewrite (D5 T) in D; discriminate|rewrite (D6 T) in D; discriminate].
  exists (RSADP n (uval (sk_d k)) (os2ip ct)). split.
  - apply C97_recovered; auto. split; [apply P0|exact Y].
  - apply (proj1 (D4 T)). exact D.
Qed.

(** And the signature of every message, also when the answers are all there is: take the encoded
    message for the ciphertext. *)
Theorem C97_forged : forall {R} (g : rng_ops R) fuel rng k s hashed answers,
  (rng <> None -> rng_ok g) -> good_priv k -> usable_key (sk_pub k) -> (12 <= key_size (sk_pub k))%nat ->
  let n := uval (pk_n (sk_pub k)) in let K := key_size (sk_pub k) in let T := p1_prefix s ++ hashed in
  hash_len_ok s hashed -> (length T + 11 <= K)%nat -> blinding_succeeds g n rng fuel ->
  Z.gcd (os2ip (emsa_pkcs1 T K)) n = 1 -> answers_of k (os2ip (emsa_pkcs1 T K)) answers ->
  exists m, recover n K answers = Some m /\
    scheme_sign g fuel rng k (SigPkcs1v15 s) hashed = Ok (i2osp m K) /\
    (stored_minimally (pk_n (sk_pub k)) -> public_verify (sk_pub k) (SigPkcs1v15 s) hashed (i2osp m K) = Ok tt).
Proof.
  intros R g fuel rng k s hashed answers Hr Hk Hu K12 n K T HL LT B G A.
  pose proof (good_pub k Hk) as Hp. assert (H32 : uprec (pk_n (sk_pub k)) < 2 ^ 32) by (destruct Hu as (X & _); clear - X; lia).
  exists (RSADP n (uval (sk_d k)) (os2ip (emsa_pkcs1 T K))). split.
  - apply C97_recovered; [exact Hk|exact Hu|exact K12| |exact G|exact A].
    split; [apply os2ip_range|apply emsa_pkcs1_lt; [exact Hp|exact LT]].
  - destruct (pkcs1v15_sign_exact g fuel rng k (p1_prefix s) hashed Hr Hk) as (_ & X). destruct (X LT) as (S & _).
    specialize (S B). destruct (c12_scheme g fuel rng k s hashed Hr Hk H32 HL LT B) as (sig & Y & V).
    assert (E : scheme_sign g fuel rng k (SigPkcs1v15 s) hashed = Ok (i2osp (RSADP n (uval (sk_d k)) (os2ip (emsa_pkcs1 T K))) K)).
    { cbn [scheme_sign]. rewrite check_hash_len_ok by exact HL. cbn [bind]. exact S. }
    split; [exact E|]. intros M. rewrite E in Y. injection Y as <-. apply V. exact M.
Qed.

(** Two ciphertexts never have the same answers. *)
Theorem C97_told_apart : forall k c c' answers answers',
  good_priv k -> usable_key (sk_pub k) -> (12 <= key_size (sk_pub k))%nat ->
  let n := uval (pk_n (sk_pub k)) in
  0 <= c < n -> 0 <= c' < n -> Z.gcd c n = 1 -> c <> c' -> answers_of k c answers -> answers_of k c' answers' ->
  exists s, 0 <= s < n /\ answers s = true /\ answers' s = false.
Proof.
  intros k c c' answers answers' Hk Hu K12 n Hc Hc' G N A A'. pose proof (good_pub k Hk) as Hp.
  pose proof (odd_pos_n _ Hp) as Hn. fold n in Hn. pose proof Hk as (_ & _ & _ & HV & _).
  destruct (distinguish n (key_size (sk_pub k)) (RSADP n (uval (sk_d k)) c) (RSADP n (uval (sk_d k)) c') K12
              (key_size_octets _ Hp)) as (s & S & X & X').
  - apply Z.mod_pos_bound. clear - Hn. lia.
  - apply Z.mod_pos_bound. clear - Hn. lia.
  - apply unit_number; [exact Hk|apply Hc|exact G].
  - intros E. apply N. pose proof (rsa_enc_dec _ _ _ _ c HV Hc) as E1. pose proof (rsa_enc_dec _ _ _ _ c' HV Hc') as E2.
    fold n in E1, E2. rewrite <- E1, <- E2, E. reflexivity.
  - exists s. split; [exact S|]. split.
    + destruct (A s S) as (R & g & fuel & rng & Hr & B & E). rewrite E.
      destruct (C97_question_pkcs1v15 g fuel rng k c s Hr Hk Hu (proj1 Hc) B) as (_ & _ & Y & _). rewrite Y. exact X.
    + destruct (A' s S) as (R & g & fuel & rng & Hr & B & E). rewrite E.
      destruct (C97_question_pkcs1v15 g fuel rng k c' s Hr Hk Hu (proj1 Hc') B) as (_ & _ & Y & _). rewrite Y. exact X'.
Qed.

(** 1 and 128 encrypt 1 and 2 under the three-prime key. *)
Definition answers91 (c : Z) : Z -> bool := fun s =>
  is_ok (private_decrypt dead_rng 0 key91 PadPkcs1v15 (mauled (uval n91) (uval e91) 12 c s)).
Example C97_case : good_priv key91 /\ usable_key pub91 /\ key_size pub91 = 12%nat /\
  (forall c, answers_of key91 c (answers91 c)) /\ Z.gcd 128 (uval n91) = 1 /\ RSAEP (uval n91) (uval e91) 2 = 128 /\
  (exists s, answers91 128 s = true /\ answers91 1 s = false).
Proof.
  assert (A : forall c, answers_of key91 c (answers91 c)).
  { intros c s _. exists unit, dead_rng, 0%nat, None. split; [congruence|]. split; [exact I|]. reflexivity. }
  split; [exact good91|]. split; [exact usable91|]. split; [vm_compute; reflexivity|]. split; [exact A|].
  split; [vm_compute; reflexivity|]. split; [vm_compute; reflexivity|].
  assert (K12 : (12 <= key_size (sk_pub key91))%nat) by (vm_compute; lia).
  assert (H1 : 0 <= 128 < uval (pk_n (sk_pub key91))) by (vm_compute; split; [discriminate|reflexivity]).
  assert (H2 : 0 <= 1 < uval (pk_n (sk_pub key91))) by (vm_compute; split; [discriminate|reflexivity]).
  assert (H3 : Z.gcd 128 (uval (pk_n (sk_pub key91))) = 1) by (vm_compute; reflexivity).
  assert (H4 : 128 <> 1) by discriminate.
  destruct (C97_told_apart key91 128 1 (answers91 128) (answers91 1) good91 usable91 K12 H1 H2 H3 H4 (A 128) (A 1))
    as (s & _ & S1 & S2). exists s. split; [exact S1|exact S2].
Qed.

Print Assumptions C97_question_pkcs1v15.
Print Assumptions C97_question_oaep.
Print Assumptions C97_recovered.
Print Assumptions C97_message.
Print Assumptions C97_forged.
Print Assumptions C97_told_apart.
