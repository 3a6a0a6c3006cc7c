(** C91, signing: what signatures and CRT operations leave in the memory they give back. *)
From Coq Require Import ZArith Znumtheory List Bool Lia.
From Coq Require Import Init.Byte.
From Verif Require Import Base Bigint BigintLemmas SpecRFC SpecRng SpecKey MHash MMgf MPkcs1 MPss MRsa MKey MApi
  MResidue MResidueSig SpecResidue KeyDefs PApi PRsa KeyExamples PropLeak PResidue PResidueSig.
Import ListNotations.
Local Open Scope Z_scope.

(** The signing functions that list what they free compute what the functions of the other
    theorems compute. *)
Theorem C91_signing_results : forall {R} (g : rng_ops R),
  (forall mh eb salt dg, outcome_of (z_emsa_pss_encode mh eb salt dg) = emsa_pss_encode mh eb salt dg) /\
  (forall fuel st bl k hashed sl dg,
     outcome_of (z_pss_sign g fuel st bl k hashed sl dg) = pss_sign g fuel st bl k hashed sl dg) /\
  (forall hd fuel st bl k hashed sl,
     outcome_of (z_pss_sign_digest g hd fuel st bl k hashed sl) = pss_sign_digest g hd fuel st bl k hashed sl).
Proof.
  intros R g. split; [intros; apply zr_emsa|]. split; [intros; apply zr_pss_sign|].
  intros; apply zr_pss_sign_digest.
Qed.

(** ** Signatures

    A signature leaves its number, next to an erased copy of its octets.  Every octet buffer
    left behind has the value the public key takes the signature to, so it can be computed
    from the signature; PSS adds the salt, and with a digest chosen at run time the hash of
    the salted message and the blocks of its mask. *)
Theorem C91_pkcs1v15_signature : forall {R} (g : rng_ops R) fuel rng k prefix hashed sig, wf_pub (sk_pub k) ->
  let run := z_pkcs1v15_sign g fuel rng k prefix hashed in
  outcome_of run = Ok sig ->
  (forall bs, left_behind run (Octets bs) ->
     os2ip bs = RSAEP (uval (pk_n (sk_pub k))) (uval (pk_e (sk_pub k))) (os2ip sig)) /\
  left_integer run (os2ip sig) /\ exists bs, erased run (Octets bs) /\ os2ip bs = os2ip sig.
Proof.
  intros R g fuel rng k prefix hashed sig W run H.
  destruct (pkcs1v15_sign_residue g fuel rng k prefix hashed sig W H) as (A & B).
  split; [|exact B]. intros bs I. destruct (A bs I) as [[]|]; assumption.
Qed.

Theorem C91_pss_signature : forall {R} (g : rng_ops R) hd fuel st bl k hashed sl sig, wf_pub (sk_pub k) ->
  let opens bs := os2ip bs = RSAEP (uval (pk_n (sk_pub k))) (uval (pk_e (sk_pub k))) (os2ip sig) in
  (let run := z_pss_sign_digest g hd fuel st bl k hashed sl in
   outcome_of run = Ok sig ->
   exists salt, fst (rng_fill g st sl) = Some salt /\ left_behind run (Octets salt) /\
     (forall bs, left_behind run (Octets bs) -> bs = salt \/ opens bs) /\
     left_integer run (os2ip sig) /\ exists bs, erased run (Octets bs) /\ os2ip bs = os2ip sig) /\
  (let run := z_pss_sign g fuel st bl k hashed sl (digest_new hd) in
   outcome_of run = Ok sig ->
   exists salt, fst (rng_fill g st sl) = Some salt /\ left_behind run (Octets salt) /\
     (let H := h_fun hd (repeat x00 8 ++ hashed ++ salt) in
      forall bs, left_behind run (Octets bs) ->
        bs = salt \/ opens bs \/ bs = H \/
        exists ctr, length ctr = 4%nat /\ (bs = H ++ ctr \/ bs = h_fun hd (H ++ ctr))) /\
     left_integer run (os2ip sig) /\ exists bs, erased run (Octets bs) /\ os2ip bs = os2ip sig).
Proof.
  intros R g hd fuel st bl k hashed sl sig W opens. split; intros run H.
  - destruct (pss_sign_digest_residue g hd fuel st bl k hashed sl sig W H) as (salt & st' & F & (A & B) & L).
    exists salt. rewrite F. split; [reflexivity|]. split; [exact L|]. split; [exact A|exact B].
  - destruct (pss_sign_residue g hd fuel st bl k hashed sl sig W H) as (salt & st' & F & (A & B) & L).
    exists salt. rewrite F. split; [reflexivity|]. split; [exact L|]. split; [|exact B].
    intros Hh bs I. destruct (A bs I) as [[X|X]|X]; auto.
Qed.

(** A number below the product of two primes, less its residue modulo one of them, shares
    with the product exactly that prime, or is zero. *)
Local Lemma residue_gcd p q M : prime p -> prime q -> 0 <= M < p * q ->
  M = M mod q \/ Z.gcd (M - M mod q) (p * q) = q.
Proof.
  intros Hp Hq B. pose proof (prime_ge_2 _ Hp). pose proof (prime_ge_2 _ Hq).
  destruct (Z.eq_dec M (M mod q)) as [|Ne]; [auto|right].
  assert (D : M - M mod q = q * (M / q)) by (rewrite (Z.div_mod M q) at 1 by lia; ring).
  rewrite D, (Z.mul_comm p q), Z.gcd_mul_mono_l_nonneg by lia.
  assert (B2 : 0 < M / q < p).
  { split; [|apply Z.div_lt_upper_bound; lia]. assert (0 <= M / q) by (apply Z.div_pos; lia). nia. }
  replace (Z.gcd (M / q) p) with 1; [ring|]. symmetry. apply Zgcd_1_rel_prime.
  apply rel_prime_le_prime; auto. lia.
Qed.

Local Lemma two_primes k p q : good_priv k -> sk_primes k = [p; q] ->
  prime (uval p) /\ prime (uval q) /\ uval (pk_n (sk_pub k)) = uval p * uval q.
Proof.
  intros K EP. destruct K as (_ & _ & _ & V & _). destruct V as (_ & VP & _ & Vp & _).
  rewrite EP in VP, Vp. cbn [map] in VP, Vp. unfold product in Vp. cbn [fold_right] in Vp. rewrite Z.mul_1_r in Vp.
  inversion VP as [|? ? Hp VP2]; subst. inversion VP2 as [|? ? Hq _]; subst. auto.
Qed.

(** ** The halves of a CRT operation

    With two primes and CRT values a private-key operation leaves the number it computed,
    and in Montgomery form that number's residue [h] modulo the second prime: unless the two
    are equal, their difference shares with the modulus exactly that prime.  Without
    blinding the number is the result. *)
Theorem C91_crt_factor : forall {R} (g : rng_ops R) fuel rng k c m p q, (rng <> None -> rng_ok g) ->
  good_priv k -> wf_uint c -> uprec c = uprec (pk_n (sk_pub k)) -> sk_primes k = [p; q] -> sk_pre k <> None ->
  let run := z_rsa_decrypt g fuel rng k c in
  outcome_of run = Ok m ->
  exists M f, left_integer run M /\ left_behind run (Form f) /\ (rng = None -> M = uval m) /\
    (M = mf_res f \/ Z.gcd (M - mf_res f) (uval (pk_n (sk_pub k))) = uval q).
Proof.
  intros R g fuel rng k c m p q G K W P EP Np run H.
  destruct (dec_halves g fuel rng k c m p q G K W P EP Np H) as (M & f & L & E & F & Fr & B & _).
  exists M, f. split; [exact L|]. split; [exact F|]. split; [exact E|].
  destruct (two_primes k p q K EP) as (Hp & Hq & En). rewrite En in B |- *. rewrite Fr.
  apply residue_gcd; auto.
Qed.

(** The number going in does the same with the first prime: its residue modulo that prime is
    left.  Without blinding the number is the argument, for a decryption the ciphertext
    everybody knows; with blinding it is left as well. *)
Theorem C91_input_factor : forall {R} (g : rng_ops R) fuel rng k c m p q, (rng <> None -> rng_ok g) ->
  good_priv k -> wf_uint c -> uprec c = uprec (pk_n (sk_pub k)) -> sk_primes k = [p; q] -> sk_pre k <> None ->
  let run := z_rsa_decrypt g fuel rng k c in
  outcome_of run = Ok m ->
  exists C f, left_behind run (Form f) /\ (rng = None -> C = uval c) /\ (rng <> None -> left_integer run C) /\
    (C = mf_res f \/ Z.gcd (C - mf_res f) (uval (pk_n (sk_pub k))) = uval p).
Proof.
  intros R g fuel rng k c m p q G K W P EP Np run H.
  destruct (dec_halves g fuel rng k c m p q G K W P EP Np H) as (_ & _ & _ & _ & _ & _ & _ & C & f & E & L & F & Fr & B).
  exists C, f. split; [exact F|]. split; [exact E|]. split; [exact L|].
  destruct (two_primes k p q K EP) as (Hp & Hq & En). rewrite En, Z.mul_comm in B |- *. rewrite Fr.
  apply residue_gcd; auto.
Qed.

(** A signature made without blinding is itself that number: whoever knows the signature and
    reads the freed residue has the factors of the modulus. *)
Theorem C91_signature_factor : forall {R} (g : rng_ops R) fuel k sig p q, good_priv k ->
  sk_primes k = [p; q] -> sk_pre k <> None ->
  let factors run := outcome_of run = Ok sig ->
    exists f, left_behind run (Form f) /\
      (os2ip sig = mf_res f \/ Z.gcd (os2ip sig - mf_res f) (uval (pk_n (sk_pub k))) = uval q) in
  (forall prefix hashed, factors (z_pkcs1v15_sign g fuel None k prefix hashed)) /\
  (forall hd st hashed sl, factors (z_pss_sign_digest g hd fuel st false k hashed sl)) /\
  (forall hd st hashed sl, factors (z_pss_sign g fuel st false k hashed sl (digest_new hd))).
Proof.
  intros R g fuel k sig p q K EP Np factors.
  assert (Em : forall em (run : holding (list byte)), outcome_of (z_sign_em g fuel None k em) = Ok sig ->
    (forall x, In x (heap (z_sign_em g fuel None k em)) -> In x (heap run)) ->
    exists f, left_behind run (Form f) /\
      (os2ip sig = mf_res f \/ Z.gcd (os2ip sig - mf_res f) (uval (pk_n (sk_pub k))) = uval q)).
  { intros em run H I. destruct (sign_em_raw g fuel None k em sig (good_pub k K) H) as (m & Wc & D & V & I2).
    destruct (C91_crt_factor g fuel None k _ m p q ltac:(congruence) K Wc eq_refl EP Np D) as (M & f & _ & F & E & X).
    exists f. rewrite (E eq_refl), V in X. split; [apply I, I2, F|exact X]. }
  split; [|split].
  - intros prefix hashed H. destruct (pkcs1v15_sign_em g _ _ _ _ _ _ H) as (em & A & B). eauto.
  - intros hd st hashed sl H. destruct (pss_sign_digest_em g _ _ _ _ _ _ _ _ H) as (st' & em & A & B). eauto.
  - intros hd st hashed sl H. destruct (pss_sign_em g _ _ _ _ _ _ _ _ H) as (st' & em & A & B). eauto.
Qed.

(** "What a private-key operation leaves cannot be used to factor the modulus" is false: [key64]. *)
Definition c64 : uint := mkU 5 (uprec n64).
Theorem C91_factor_refuted : exists k c m f, good_priv k /\
  outcome_of (z_rsa_decrypt count_rng 5 None k c) = Ok m /\
  left_behind (z_rsa_decrypt count_rng 5 None k c) (Form f) /\
  In (Z.gcd (uval m - mf_res f) (uval (pk_n (sk_pub k)))) (map uval (sk_primes k)).
Proof.
  exists key64, c64, (mkU 0x670E2B5AB1FABF82 64), (mkMF 1362700471 (mkMP q64)). split; [apply good64|].
  assert (H : exists h, z_rsa_decrypt count_rng 5 None key64 c64 = h) by eauto.
  destruct H as (h & H). unfold left_behind. rewrite H. vm_compute in H. subst h.
  split; [reflexivity|]. split; [vm_compute; tauto|]. vm_compute. tauto.
Qed.

(** * Concrete cases *)

Example C91_case_crt : good_priv key64 /\ wf_uint c64 /\ uprec c64 = uprec (pk_n (sk_pub key64)) /\
  sk_primes key64 = [p64; q64] /\ sk_pre key64 <> None.
Proof.
  split; [apply good64|]. split; [repeat split; vm_compute; congruence|]. split; [reflexivity|].
  split; [vm_compute; reflexivity|]. vm_compute. discriminate.
Qed.

(** A ciphertext above the primes, decrypted without blinding: the first prime is found. *)
Definition c64_large : uint := mkU (uval n64 - 5) (uprec n64).
Example C91_case_input : wf_uint c64_large /\ exists m f,
  outcome_of (z_rsa_decrypt count_rng 5 None key64 c64_large) = Ok m /\
  left_behind (z_rsa_decrypt count_rng 5 None key64 c64_large) (Form f) /\
  Z.gcd (uval c64_large - mf_res f) (uval (pk_n (sk_pub key64))) = uval p64.
Proof.
  split; [repeat split; vm_compute; congruence|].
  assert (H : exists h, z_rsa_decrypt count_rng 5 None key64 c64_large = h) by eauto.
  destruct H as (h & H). exists (match outcome_of h with Ok m => m | _ => c64 end), (mkMF (uval p64 - 5) (mkMP p64)).
  unfold left_behind. rewrite H. vm_compute in H. subst h.
  split; [reflexivity|]. split; [vm_compute; tauto|]. vm_compute. reflexivity.
Qed.

(** Signatures with an unprefixed one-octet digest and with a PSS salt. *)
Example C91_case_signatures :
  (exists sig, outcome_of (z_pkcs1v15_sign count_rng 5 None key91 [] [x41]) = Ok sig) /\
  (exists sig, outcome_of (z_pss_sign_digest count_rng toy_hash 5 3 false key91 [x0a; x0b] 3) = Ok sig) /\
  (exists sig, outcome_of (z_pss_sign count_rng 5 3 false key91 [x0a; x0b] 3 (digest_new toy_hash)) = Ok sig) /\
  (exists sig, outcome_of (z_pss_sign_digest count_rng toy_hash 5 3 false key64 [x0a; x0b] 3) = Ok sig) /\
  wf_pub (sk_pub key91).
Proof.
  split; [eexists; vm_compute; reflexivity|]. split; [eexists; vm_compute; reflexivity|].
  split; [eexists; vm_compute; reflexivity|]. split; [eexists; vm_compute; reflexivity|]. apply wf_pub91.
Qed.

Print Assumptions C91_signing_results.
Print Assumptions C91_pkcs1v15_signature.
Print Assumptions C91_pss_signature.
Print Assumptions C91_crt_factor.
Print Assumptions C91_input_factor.
Print Assumptions C91_signature_factor.
Print Assumptions C91_factor_refuted.
