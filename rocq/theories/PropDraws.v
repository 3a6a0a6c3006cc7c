(** C84: repeated draws are rare, and how rare. *)
From Coq Require Import ZArith Znumtheory List Bool Lia.
From Coq Require Import Init.Byte.
From Verif Require Import Base Bigint SpecRFC SpecKey SpecRng SpecBlind SpecDraws BytesLemmas BigintLemmas MHash MPkcs1
  MPss MRsa MKey MApi KeyDefs.
From Verif Require Import PRsa PApi PEnc PUniform PDraws KeyExamples PropLeak.
Import ListNotations.
Local Open Scope Z_scope.

(** * C84: how often the library has to ask the random source again *)

(** The sequences and tapes counted below are all there are, each once. *)
Theorem C84_sequences : forall n f,
  NoDup (all_sequences n f) /\ length (all_sequences n f) = (Z.to_nat n ^ f)%nat /\
  (forall s, In s (all_sequences n f) <-> length s = f /\ Forall (fun v => 0 <= v < n) s).
Proof.
  intros n f. split; [apply sequences_nodup|]. split; [apply sequences_length|].
  intros s. split; [apply sequences_range|]. intros (L & F). apply sequences_all; auto.
Qed.

(** Blinding.  Of all sequences of [f] draws below n, those that leave the operation still
    asking are exactly the [f]-th power of the number of draws that share a factor with n. *)
Theorem C84_blinding_exact : forall k f,
  good_priv k ->
  let n := uval (pk_n (sk_pub k)) in
  let again := (length (sharing n) ^ f)%nat in
  (forall c, wf_uint c -> uprec c = uprec (pk_n (sk_pub k)) -> uval c < n ->
   unfinished (fun s => rsa_decrypt_and_check listed f k (Some s) c) (all_sequences n f) = again) /\
  (forall ct, usable_key (sk_pub k) ->
   8 * Z.of_nat (length ct) <= uprec (pk_n (sk_pub k)) -> os2ip ct < n ->
   unfinished (fun s => pkcs1v15_decrypt listed f (Some s) k ct) (all_sequences n f) = again) /\
  (forall prefix hashed, (length prefix + length hashed + 11 <= key_size (sk_pub k))%nat ->
   unfinished (fun s => pkcs1v15_sign listed f (Some s) k prefix hashed) (all_sequences n f) = again) /\
  (forall hd hashed salt, uprec (pk_n (sk_pub k)) < 2 ^ 32 -> (0 < h_size hd)%nat ->
   length hashed = h_size hd ->
   (h_size hd + length salt + 2 <= pss_em_len (Z.to_nat (ubits (pk_n (sk_pub k))) - 1))%nat ->
   unfinished (fun s => sign_pss_with_salt_digest listed hd f (Some s) k hashed salt) (all_sequences n f)
   = again).
Proof.
  intros k f Hk n again. split; [|split; [|split]]; intros.
  - apply unfinished_private; auto.
  - apply unfinished_decrypt; auto.
  - apply unfinished_sign; auto.
  - apply unfinished_pss; auto.
Qed.

(** How many draws share a factor with n: at most the sum of n/p - 1 over the primes, and
    p + q - 2 if there are two. *)
Theorem C84_sharing : forall k,
  good_priv k ->
  let n := uval (pk_n (sk_pub k)) in
  (forall v, In v (sharing n) <-> 1 <= v < n /\ Z.gcd v n <> 1) /\
  Z.of_nat (length (sharing n)) <= total (map (fun p => n / uval p - 1) (sk_primes k)) /\
  (forall p q, sk_primes k = [p; q] -> Z.of_nat (length (sharing n)) = uval p + uval q - 2).
Proof.
  intros k Hk n. pose proof Hk as (_ & _ & _ & (_ & HP & HD & HN & _) & _). fold n in HN.
  split; [intros; apply in_sharing|]. split.
  - pose proof (sharing_bound _ HP) as G. cbv zeta in G. rewrite <- HN, map_map in G. exact G.
  - intros p q E. rewrite E in *. cbn [map] in *. cbn [product fold_right] in HN.
    rewrite Z.mul_1_r in HN. rewrite HN. inversion HP as [|? ? P1 P2]; subst. inversion P2; subst.
    apply sharing_two; auto. intros X. inversion HD; subst. apply H3. left. auto.
Qed.

(** So with primes of at least [B] the chance of [f] useless draws in a row is at most
    (number of primes / B) to the power [f]. *)
Theorem C84_blinding_rare : forall k B f c,
  good_priv k -> 0 < B -> Forall (fun p => B <= uval p) (sk_primes k) ->
  wf_uint c -> uprec c = uprec (pk_n (sk_pub k)) ->
  let n := uval (pk_n (sk_pub k)) in
  uval c < n ->
  Z.of_nat (unfinished (fun s => rsa_decrypt_and_check listed f k (Some s) c) (all_sequences n f))
    * B ^ Z.of_nat f <=
  Z.of_nat (length (sk_primes k)) ^ Z.of_nat f * Z.of_nat (length (all_sequences n f)).
Proof.
  intros k B f c Hk HB HF Hc Hp n Hcn. pose proof (unfinished_private k c f Hk Hc Hp Hcn) as U. fold n in U. rewrite U. clear U.
  pose proof (good_gt1 k Hk) as H1. fold n in H1.
  pose proof Hk as (_ & _ & _ & (_ & HP & HD & HN & _) & _). fold n in HN.
  rewrite sequences_length, (of_nat_pow (Z.to_nat n)), Z2Nat.id, <- Z.pow_mul_l by lia.
  rewrite <- (map_length uval (sk_primes k)). rewrite HN. apply sharing_power; auto.
  clear - HF. induction HF; constructor; auto.
Qed.

(** PKCS#1 v1.5 encryption.  With w octets of padding string to fill, a source that hands out
    the octets of a tape lets the encryption succeed exactly if at least w of them are not
    zero; otherwise the source has run out. *)
Theorem C84_padding_exact : forall pk msg f t,
  wf_pub pk -> usable_key pk -> (length msg + 11 <= key_size pk)%nat -> (length t < f)%nat ->
  let w := (key_size pk - length msg - 3)%nat in
  ((w <= nonzeros t)%nat /\ exists ct, pkcs1v15_encrypt tape f t pk msg = Ok ct) \/
  ((nonzeros t < w)%nat /\ pkcs1v15_encrypt tape f t pk msg = Err Rng).
Proof. exact encrypt_tape. Qed.

(** Of the 256^w tapes of w octets, 255^w need no second request. *)
Theorem C84_padding_at_once : forall pk msg f,
  wf_pub pk -> usable_key pk -> (length msg + 11 <= key_size pk)%nat ->
  let w := (key_size pk - length msg - 3)%nat in (w < f)%nat ->
  Z.of_nat (succeeding (fun t => pkcs1v15_encrypt tape f t pk msg) (all_tapes w)) = 255 ^ Z.of_nat w
  /\ Z.of_nat (length (all_tapes w)) = 256 ^ Z.of_nat w.
Proof.
  intros. split; [apply encryption_no_redraw; auto|apply all_tapes_length].
Qed.

(** [choose] is n! / (k! (n-k)!). *)
Theorem C84_choose : forall n k, (k <= n)%nat ->
  choose n k * (Z.of_nat (fact k) * Z.of_nat (fact (n - k))) = Z.of_nat (fact n).
Proof. exact choose_fact. Qed.

(** Of the tapes with j octets to spare, at most one in 256^(j+1) / C(w+j, j+1) is not
    enough. *)
Theorem C84_padding_rare : forall pk msg f j,
  wf_pub pk -> usable_key pk -> (length msg + 11 <= key_size pk)%nat ->
  let w := (key_size pk - length msg - 3)%nat in
  let L := (w + j)%nat in (L < f)%nat ->
  (Z.of_nat (length (all_tapes L)) -
   Z.of_nat (succeeding (fun t => pkcs1v15_encrypt tape f t pk msg) (all_tapes L)))
    * 256 ^ Z.of_nat (S j) <= choose L (S j) * Z.of_nat (length (all_tapes L)).
Proof.
  intros. rewrite all_tapes_length. apply encryption_rarely_short; auto.
Qed.

(** That a good source is never asked twice is false, for both. *)
Theorem C84_once_refuted :
  (exists k c, good_priv k /\ wf_uint c /\ uprec c = uprec (pk_n (sk_pub k)) /\
     uval c < uval (pk_n (sk_pub k)) /\
     (0 < unfinished (fun s => rsa_decrypt_and_check listed 1 k (Some s) c)
            (all_sequences (uval (pk_n (sk_pub k))) 1))%nat) /\
  (exists pk msg t, wf_pub pk /\ usable_key pk /\
     length t = (key_size pk - length msg - 3)%nat /\
     pkcs1v15_encrypt tape 100 t pk msg = Err Rng).
Proof.
  split.
  - exists key64_plain, (mkU 5 64).
    assert (G : good_priv key64_plain) by apply good64_plain.
    assert (W : wf_uint (mkU 5 64)) by (repeat split; vm_compute; congruence).
    assert (N : uval (mkU 5 64) < uval (pk_n (sk_pub key64_plain))) by (vm_compute; reflexivity).
    split; [exact G|]. split; [exact W|]. split; [reflexivity|]. split; [exact N|].
    pose proof (unfinished_private key64_plain (mkU 5 64) 1 G W eq_refl N) as U. cbv zeta in U.
    rewrite U. clear U.
    rewrite Nat.pow_1_r. apply Nat2Z.inj_lt.
    destruct (C84_sharing key64_plain G) as (_ & _ & T).
    rewrite (T p64 q64 eq_refl). reflexivity.
  - exists pub91, [x41], [x01;x02;x03;x00;x05;x06;x07;x08].
    split; [apply wf_pub91|]. split; [apply usable91|]. split; vm_compute; reflexivity.
Qed.

Example C84_case :
  good_priv key64_plain /\
  Z.of_nat (length (sharing (uval (pk_n (sk_pub key64_plain))))) = uval p64 + uval q64 - 2 /\
  Forall (fun p => 2 ^ 31 <= uval p) (sk_primes key64_plain) /\
  (* two useless draws, then a usable one *)
  rsa_decrypt_and_check listed 2 key64_plain (Some [uval p64; 3 * uval q64]) (mkU 5 64) = OutOfFuel /\
  is_ok (rsa_decrypt_and_check listed 3 key64_plain (Some [uval p64; 3 * uval q64; 7]) (mkU 5 64)) = true /\
  rsa_decrypt_and_check listed 3 key64_plain (Some [uval p64; 3 * uval q64]) (mkU 5 64) = Err Rng /\
  (* 8 octets to fill, 4 to spare: not enough in less than one case of a billion *)
  choose 12 5 * 10 ^ 9 < 256 ^ 5 /\
  (* one octet to spare, one zero *)
  is_ok (pkcs1v15_encrypt tape 100 [x01;x02;x03;x00;x05;x06;x07;x08;x09] pub91 [x41]) = true /\
  pkcs1v15_encrypt tape 100 [x01;x02;x03;x00;x05;x06;x07;x00;x09] pub91 [x41] = Err Rng /\
  (* small enough to count out *)
  length (sharing 15) = 6%nat /\ length (all_sequences 15 2) = 225%nat.
Proof.
  split; [apply good64_plain|].
  split; [apply (proj2 (proj2 (C84_sharing key64_plain good64_plain)) p64 q64 eq_refl)|].
  split; [repeat constructor; vm_compute; congruence|].
  repeat split; vm_compute; reflexivity.
Qed.

Print Assumptions C84_sequences.
Print Assumptions C84_blinding_exact.
Print Assumptions C84_sharing.
Print Assumptions C84_blinding_rare.
Print Assumptions C84_padding_exact.
Print Assumptions C84_padding_at_once.
Print Assumptions C84_choose.
Print Assumptions C84_padding_rare.
Print Assumptions C84_once_refuted.
