(** Property C102: low public exponents. *)
From Coq Require Import ZArith List Bool Lia Znumtheory.
From Coq Require Import Init.Byte.
From Verif Require Import Base Bigint NumTheory SpecRFC SpecRng SpecKey SpecBroadcast MHash MRsa MKey MApi KeyDefs BigintLemmas
  PRsa PApi PBroadcast KeyExamples.
Import ListNotations.
Local Open Scope Z_scope.

(** Raw encryption of a number whose e-th power is below n is undone by an integer root. *)
Theorem C102_raw_small : forall pk m c, wf_pub pk -> wf_uint m -> 0 < uval (pk_e pk) ->
  uval m ^ uval (pk_e pk) < uval (pk_n pk) -> uval m < 2 ^ uprec (pk_n pk) ->
  rsa_encrypt pk m = Ok c -> iroot (uval (pk_e pk)) (uval c) = uval m.
Proof.
  intros pk m c W Wm E B F H. rewrite rsa_encrypt_small in H by assumption. injection H as <-. cbn [uval].
  unfold RSAEP. destruct Wm as ((M0 & _) & _). rewrite Z.mod_small.
  - apply iroot_exact; assumption.
  - split; [apply Z.pow_nonneg; exact M0|exact B].
Qed.

(** One number encrypted raw to at least e public keys with the same exponent e and moduli
    without common factors is read from the ciphertexts: a chinese remainder and a root. *)
Theorem C102_broadcast : forall e m sent, 0 < e -> e <= Z.of_nat (length sent) ->
  coprime (map (fun s => uval (pk_n (fst (fst s)))) sent) ->
  Forall (fun '(pk, u, c) => wf_pub pk /\ wf_uint u /\ uval u = m /\ uval (pk_e pk) = e /\
            1 < uval (pk_n pk) /\ m < uval (pk_n pk) /\ rsa_encrypt pk u = Ok c) sent ->
  broadcast e (map (fun '(pk, u, c) => (uval c, uval (pk_n pk))) sent) = m.
Proof.
  intros e m sent E L C F.
  assert (M0 : 0 <= m).
  { destruct sent as [|[[pk u] c] s]; [cbn in L; lia|]. apply Forall_cons_iff in F.
    destruct F as ((_ & ((U & _) & _) & <- & _) & _). exact U. }
  apply broadcast_exact; [exact E|rewrite map_length; exact L|exact M0| |].
  - rewrite map_map. erewrite map_ext; [exact C|]. intros [[pk u] c]. reflexivity.
  - apply Forall_map. eapply Forall_impl; [|exact F]. intros [[pk u] c] (W & Wu & Eu & Ee & N & B & H). cbn [fst snd].
    split; [exact N|]. split; [exact B|].
    assert (S : uval u < 2 ^ uprec (pk_n pk)) by (destruct W as (((_ & X) & _) & _); lia).
    rewrite rsa_encrypt_small in H by assumption. injection H as <-. cbn [uval]. unfold RSAEP. rewrite Eu, Ee. reflexivity.
Qed.

(** Not so for PKCS#1 v1.5 encryption: with every public key, every message and every
    generator the power exceeds the modulus, so the root of the ciphertext is not what
    was encrypted. *)
Theorem C102_padded : forall {R} (g : rng_ops R) fuel st pk msg ct, rng_ok g -> wf_pub pk ->
  public_encrypt g fuel st pk PadPkcs1v15 msg = Ok ct ->
  let n := uval (pk_n pk) in let e := uval (pk_e pk) in
  exists em, is_eme_pkcs1 (key_size pk) em msg /\ os2ip ct = os2ip em ^ e mod n /\
    n < os2ip em ^ e /\ forall x, x ^ e = os2ip ct -> x <> os2ip em.
Proof.
  intros R g fuel st pk msg ct Hg W H n e.
  destruct (pkcs1v15_encrypt_inv g fuel st pk msg ct Hg W H) as (U & em & I & C). exists em. split; [exact I|].
  pose proof (key_size_octets pk W) as (_ & O2). pose proof (odd_pos_n pk W) as N0.
  destruct (eme_big _ _ _ I) as (B & K). destruct U as (_ & _ & _ & E2 & _).
  pose proof (Z.mod_pos_bound (os2ip em ^ e) n N0) as R0.
  fold n in O2.
  assert (V : os2ip ct = os2ip em ^ e mod n).
  { subst ct. apply os2ip_i2osp. unfold RSAEP. fold n e. clear - R0 O2. lia. }
  split; [exact V|].
  assert (X : n < os2ip em ^ e).
  { apply (padded_wraps n e (os2ip em) (key_size pk)); [|exact K|exact B|exact E2]. split; [exact N0|exact O2]. }
  split; [exact X|]. intros x Hx ->. rewrite Hx, V in X. clear - X R0. lia.
Qed.

(** 10^12 sent raw with e = 3 to three keys of 65 bits, and 10^6 to one of them. *)
Definition pub3 (n : Z) : pubkey := mkPub (mkU n 128) (mkU 3 64) (mkMP (mkU n 128)).
Definition n3a := 18446744073709551629.
Definition n3b := 18446744073709551653.
Definition n3c := 18446744073709551667.
Example C102_case :
  broadcast 3 (map (fun n => (1000000000000 ^ 3 mod n, n)) [n3a; n3b; n3c]) = 1000000000000 /\
  coprime [n3a; n3b; n3c] /\
  rsa_encrypt (pub3 n3a) (mkU 1000000000000 64) = Ok (mkU (1000000000000 ^ 3 mod n3a) 128) /\
  rsa_encrypt (pub3 n3a) (mkU 1000000 64) = Ok (mkU (1000000 ^ 3) 128) /\ iroot 3 (1000000 ^ 3) = 1000000.
Proof.
  split; [vm_compute; reflexivity|].
  split; [repeat split; repeat constructor; vm_compute; reflexivity|].
  split; [vm_compute; reflexivity|]. split; vm_compute; reflexivity.
Qed.

(** One octet encrypted with PKCS#1 v1.5 to a key with e = 7: no seventh root comes out. *)
Example C102_case_padded : rng_ok count_rng /\ wf_pub pub91 /\ uval (pk_e pub91) = 7 /\
  exists ct, public_encrypt count_rng 5 255 pub91 PadPkcs1v15 [x41] = Ok ct /\
    iroot 7 (os2ip ct) ^ 7 <> os2ip ct.
Proof.
  split; [exact count_rng_ok|]. split; [exact wf_pub91|]. split; [vm_compute; reflexivity|].
  eexists. split; [vm_compute; reflexivity|]. vm_compute. congruence.
Qed.

Print Assumptions C102_raw_small.
Print Assumptions C102_broadcast.
Print Assumptions C102_padded.
