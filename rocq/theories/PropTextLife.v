(** C109, continued: generated keys and the signing keys made from them, saved as text. *)
From Coq Require Import ZArith List Bool Lia.
From Coq Require Import Init.Byte.
From Verif Require Import Base Bigint SpecRFC SpecKey SpecGen SpecDer SpecPem SpecRng SpecSig MHash MPkcs1 MRsa MGenerate
  MKey MApi MWrap MDer MEncoding MPem KeyDefs.
From Verif Require Import PApi PSig PSign PCodec PPem PGenerate PWrapEnc PExport PropGen PropEncoding PropExport PropPem KeyExamples.
Import ListNotations.
Local Open Scope Z_scope.

Lemma preamble_nil : preamble [].
Proof. left. reflexivity. Qed.

(** A generated key saved with any line ending and read again is equal, valid, and has its
    modulus in the fewest limbs; for the sizes that cannot be exported (C85) there is no text. *)
Theorem C109_generated : forall {R} (gp : prime_gen R) b, prime_source gp b ->
  forall fuel st e k mx tl le, 0 <= b < 2 ^ 32 -> wf_uint e ->
  private_new_with_exp gp fuel st b e = Ok k -> tl 0 [] = true -> 2 ^ 21 <= mx < 2 ^ 32 ->
  (b mod 128 <> 1 ->
   exists t k', to_pkcs8_pem mx le k = Ok t /\ from_pkcs8_pem mx tl t = Ok k' /\
     priv_eqb k' k = true /\ good_priv k' /\ stored_minimally (pk_n (sk_pub k'))) /\
  (b mod 128 = 1 -> to_pkcs8_pem mx le k = Panic).
Proof.
  intros R gp b S fuel st e k mx tl le Hb We E Ht M.
  destruct (C85_export gp b S fuel st e k mx tl Hb We E Ht M) as (A & B). split.
  - intros H. destruct (A H) as (doc & k' & A1 & A2 & A3 & A4 & _ & A5).
    destruct (proj1 (C109_private mx tl le k) doc A1) as (t & T & _ & P). exists t, k'.
    split; [exact T|]. split; [|auto]. rewrite <- A2. exact (P [] preamble_nil).
  - intros H. unfold to_pkcs8_pem, write_pem. rewrite (B H). reflexivity.
Qed.

(** Signing keys made from it: PKCS#1 v1.5 with the prefix of the digest, PSS with the default
    salt length; both come back equal, around a valid key. *)
Theorem C109_generated_signing : forall {R} (gp : prime_gen R) b, prime_source gp b ->
  forall fuel st e k mx tl le hd oid w blinded, 0 <= b < 2 ^ 32 -> b mod 128 <> 1 -> wf_uint e ->
  private_new_with_exp gp fuel st b e = Ok k -> tl 0 [] = true -> 2 ^ 21 <= mx < 2 ^ 32 ->
  (p1sk_new hd oid k = Ok w ->
   exists t w', p1sk_to_pkcs8_pem mx le w = Ok t /\ p1sk_from_pkcs8_pem mx tl hd oid t = Ok w' /\
     p1sk_eqb w' w = true /\ good_priv (p1sk_inner w')) /\
  (exists t w', pssk_to_pkcs8_pem mx le (pssk_new hd blinded k) = Ok t /\
     pssk_from_pkcs8_pem mx tl hd blinded t = Ok w' /\
     pssk_eqb w' (pssk_new hd blinded k) = true /\ pssk_blinded w' = blinded /\ good_priv (pssk_inner w')).
Proof.
  intros R gp b S fuel st e k mx tl le hd oid w blinded Hb H We E Ht M.
  destruct (C85_export gp b S fuel st e k mx tl Hb We E Ht M) as (A & _).
  destruct (A H) as (doc & k' & A1 & A2 & A3 & A4 & _).
  destruct (C109_signing_keys mx tl hd le) as (P1 & P2). split.
  - unfold p1sk_new. destruct (pkcs1v15_generate_prefix oid (h_size hd)) as [pre| | |] eqn:G; cbn [bind]; try discriminate.
    intros X. injection X as <-.
    destruct (C43_pkcs1v15_signing_key mx tl hd oid pre (mkP1SK k pre) doc k' Ht ltac:(lia) G A1 A2 A3) as (w' & W1 & W2 & W3).
    destruct (proj1 (P1 oid (mkP1SK k pre)) doc A1) as (t & T & _ & P). exists t, w'.
    split; [exact T|]. split; [rewrite <- W1; exact (P [] preamble_nil)|]. split; [apply W3; reflexivity|].
    apply (proj1 (C34_pkcs1v15_signing_keys mx ltac:(lia) tl hd oid doc w')) in W1.
    destruct W1 as (k2 & F & N & _). assert (k2 = k') by congruence. subst k2.
    unfold p1sk_new in N. rewrite G in N. cbn [bind] in N. injection N as <-. exact A4.
  - destruct (C43_pss_signing_key mx tl hd blinded (pssk_new hd blinded k) doc k' A1 A2 A3) as (w' & W1 & W2 & W3).
    destruct (proj1 (P2 blinded (pssk_new hd blinded k)) doc A1) as (t & T & _ & P). exists t, w'.
    split; [exact T|]. split; [rewrite <- W1; exact (P [] preamble_nil)|]. split; [apply W3; reflexivity|].
    rewrite C34_pss_signing_keys, A2 in W1. cbn [bind] in W1. injection W1 as <-. split; [reflexivity|exact A4].
Qed.

(** The 160-bit key of C85_case, and the signing keys made from it *)
Example C109_case_generated : exists k w t w',
  private_new_with_exp toy_source 1 0%nat 160 (u_of_u64 EXP) = Ok k /\ 160 mod 128 <> 1 /\
  p1sk_new toy_hash oid_sha256 k = Ok w /\ p1sk_to_pkcs8_pem mx28 CRLF w = Ok t /\
  p1sk_from_pkcs8_pem mx28 opt28 toy_hash oid_sha256 t = Ok w' /\ p1sk_eqb w' w = true.
Proof.
  assert (E : exists k, private_new_with_exp toy_source 1 0%nat 160 (u_of_u64 EXP) = Ok k)
    by (eexists; vm_compute; reflexivity).
  destruct E as (k & E). assert (N : exists w, p1sk_new toy_hash oid_sha256 k = Ok w) by (eexists; reflexivity).
  destruct N as (w & N). exists k, w.
  destruct (C109_generated_signing toy_source 160 toy_source_160 1 0%nat (u_of_u64 EXP) k mx28 opt28 CRLF toy_hash oid_sha256 w true
    ltac:(lia) ltac:(discriminate) wf_exp E eq_refl ltac:(unfold mx28; lia)) as (A & _).
  destruct (A N) as (t & w' & A1 & A2 & A3 & _). exists t, w'.
  split; [exact E|]. split; [discriminate|]. auto.
Qed.

Print Assumptions C109_generated.
Print Assumptions C109_generated_signing.
