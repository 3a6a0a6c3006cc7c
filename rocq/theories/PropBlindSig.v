(** C73, continued: blind signatures made with the raw private operation are signatures of the
    two schemes. *)
From Coq Require Import ZArith List Bool Lia.
From Coq Require Import Init.Byte.
From Verif Require Import Base Bigint SpecRFC SpecRng SpecKey SpecSig MHash MPkcs1 MPss MRsa MKey MApi MWrap KeyDefs.
From Verif Require Import BigintLemmas PRsa PApi PPss PSig PSign PMisc PropSig PropMisc KeyExamples.
Import ListNotations.
Local Open Scope Z_scope.

(** What the requester sends: the encoded message times [r^e], modulo n *)
Definition blinded_message (k : pubkey) (EM : list byte) (r : Z) : uint :=
  mkU (os2ip EM * RSAEP (uval (pk_n k)) (uval (pk_e k)) r mod uval (pk_n k)) (uprec (pk_n k)).
(** What they make of the answer: it times the inverse of [r], as octets *)
Definition unblinded (k : pubkey) (answer : uint) (ri : Z) : list byte :=
  i2osp (uval answer * ri mod uval (pk_n k)) (key_size k).

Lemma answer_is_signature {R} (g : rng_ops R) fuel rng k EM r ri :
  (rng <> None -> rng_ok g) -> good_priv k -> os2ip EM < uval (pk_n (sk_pub k)) ->
  0 <= r -> (r * ri) mod uval (pk_n (sk_pub k)) = 1 ->
  blinding_succeeds g (uval (pk_n (sk_pub k))) rng fuel ->
  exists answer, rsa_decrypt_and_check g fuel k rng (blinded_message (sk_pub k) EM r) = Ok answer /\
    unblinded (sk_pub k) answer ri =
    i2osp (RSADP (uval (pk_n (sk_pub k))) (uval (sk_d k)) (os2ip EM)) (key_size (sk_pub k)).
Proof.
  intros Hg G L Hr Hi Bl. set (pk := sk_pub k) in *.
  set (em := mkU (os2ip EM) (uprec (pk_n pk))).
  pose proof (good_pub k G) as W. fold pk in W.
  assert (We : wf_uint em).
  { destruct W as ((Wv & Wp) & _). split; [|exact Wp]. cbn [uval uprec em].
    pose proof (os2ip_range EM). clear - Wv L H. lia. }
  destruct (blind_signature g fuel rng k em r ri Hg G We eq_refl L Hr Hi Bl) as (s & A & B).
  exists s. split; [exact A|]. fold pk in B.
  destruct (rsa_decrypt_and_check_good g fuel rng k em Hg G We eq_refl L) as (C & _).
  rewrite C in B by exact Bl. injection B as B. unfold unblinded. fold pk in B. rewrite <- B. reflexivity.
Qed.

(** ** PKCS#1 v1.5: the result is the signature the key's owner would have made, octet for
    octet. *)
Theorem C73_blind_pkcs1v15 : forall {R} (g : rng_ops R) fuel rng k s hashed r ri,
  (rng <> None -> rng_ok g) -> good_priv k ->
  hash_len_ok s hashed -> (length (p1_prefix s ++ hashed) + 11 <= key_size (sk_pub k))%nat ->
  0 <= r -> (r * ri) mod uval (pk_n (sk_pub k)) = 1 ->
  blinding_succeeds g (uval (pk_n (sk_pub k))) rng fuel ->
  let EM := emsa_pkcs1 (p1_prefix s ++ hashed) (key_size (sk_pub k)) in
  exists answer, rsa_decrypt_and_check g fuel k rng (blinded_message (sk_pub k) EM r) = Ok answer /\
    scheme_sign g fuel rng k (SigPkcs1v15 s) hashed = Ok (unblinded (sk_pub k) answer ri).
Proof.
  intros R g fuel rng k s hashed r ri Hg G Hh HT Hr Hi Bl EM.
  pose proof (emsa_pkcs1_lt _ _ (good_pub k G) HT) as L. fold EM in L.
  destruct (answer_is_signature g fuel rng k EM r ri Hg G L Hr Hi Bl) as (a & A & B).
  exists a. split; [exact A|]. rewrite B.
  destruct (pkcs1v15_sign_exact g fuel rng k (p1_prefix s) hashed Hg G) as [_ X].
  destruct (X HT) as (X1 & _). cbn [scheme_sign]. rewrite check_hash_len_ok by auto. cbn [bind]. exact (X1 Bl).
Qed.

(** ** PSS: with any salt the requester chooses, the result is accepted. *)
Theorem C73_blind_pss : forall {R} (g : rng_ops R) hd fuel rng k bl hashed salt r ri,
  (rng <> None -> rng_ok g) -> (0 < h_size hd)%nat -> good_priv k -> uprec (pk_n (sk_pub k)) < 2 ^ 32 ->
  let bits := Z.to_nat (ubits (pk_n (sk_pub k))) in
  length hashed = h_size hd -> (h_size hd + length salt + 2 <= pss_em_len (bits - 1))%nat ->
  0 <= r -> (r * ri) mod uval (pk_n (sk_pub k)) = 1 ->
  blinding_succeeds g (uval (pk_n (sk_pub k))) rng fuel ->
  let EM := pss_encode (h_fun hd) (h_size hd) hashed salt (bits - 1) in
  exists answer, rsa_decrypt_and_check g fuel k rng (blinded_message (sk_pub k) EM r) = Ok answer /\
    public_verify (sk_pub k) (SigPss (mkPss bl (digest_new hd) (length salt))) hashed
      (unblinded (sk_pub k) answer ri) = Ok tt.
Proof.
  intros R g hd fuel rng k bl hashed salt r ri Hg Hh G H32 bits Hl Hs Hr Hi Bl EM.
  pose proof (good_pub k G) as Hp.
  destruct (pss_sig_accepts hd k hashed salt Hh G Hl Hs) as (L' & V & E & Acc).
  assert (L : os2ip EM < uval (pk_n (sk_pub k))).
  { unfold EM, bits. rewrite <- E. apply RSAEP_range, odd_pos_n, Hp. }
  destruct (answer_is_signature g fuel rng k EM r ri Hg G L Hr Hi Bl) as (a & A & B).
  exists a. split; [exact A|]. rewrite B.
  destruct (public_verify_pss_total hd bl (sk_pub k) hashed (length salt)
              (i2osp (RSADP (uval (pk_n (sk_pub k))) (uval (sk_d k)) (os2ip EM)) (key_size (sk_pub k))) Hh
               (size_overflow _ _ _ Hp H32 Hs) Hp H32) as [[X _]|[_ Y]]; auto.
  - rewrite i2osp_length. apply len_32; auto.
  - exfalso. apply Y. split; [exact L'|exact Acc].
Qed.

(** ** What is sent is compatible with every message: for any two encodings with an inverse
    modulo n and any [r1] there is an [r2], also with an inverse, for which the same value is
    sent. *)
Theorem C73_blindness : forall k EM1 EM2 i1 i2 r1 ri1, good_priv k ->
  let n := uval (pk_n (sk_pub k)) in
  (os2ip EM1 * i1) mod n = 1 -> (os2ip EM2 * i2) mod n = 1 -> 0 <= r1 -> (r1 * ri1) mod n = 1 ->
  exists r2 ri2, 0 <= r2 < n /\ (r2 * ri2) mod n = 1 /\
    blinded_message (sk_pub k) EM2 r2 = blinded_message (sk_pub k) EM1 r1.
Proof.
  intros k EM1 EM2 i1 i2 r1 ri1 G n H1 H2 Hr1 HR.
  pose proof (good_pub k G) as W. pose proof (odd_pos_n _ W) as Hn. fold n in Hn.
  set (e := uval (pk_e (sk_pub k))).
  pose proof G as (_ & _ & _ & HV & _). fold n in HV. fold e in HV.
  assert (E1 : 1 <= e) by (destruct HV as (_ & _ & _ & _ & ? & _); lia).
  set (c := (os2ip EM1 * i2) mod n).
  assert (Hc : 0 <= c < n) by (apply Z.mod_pos_bound; exact Hn).
  set (x := RSADP n (uval (sk_d k)) c).
  assert (Ex : x ^ e mod n = c) by (apply (rsa_enc_dec n e (uval (sk_d k)) _ c HV Hc)).
  set (r2 := (r1 * x) mod n).
  assert (P2 : (os2ip EM2 * (r2 ^ e mod n)) mod n = (os2ip EM1 * (r1 ^ e mod n)) mod n).
  { unfold r2. rewrite <- (Zpow_facts.Zpower_mod (r1 * x)) by exact Hn. rewrite Z.pow_mul_l.
    rewrite !Z.mul_mod_idemp_r by lia.
    replace (os2ip EM2 * (r1 ^ e * x ^ e)) with (os2ip EM2 * r1 ^ e * x ^ e) by ring.
    rewrite <- (Z.mul_mod_idemp_r _ (x ^ e)), Ex by lia. unfold c. rewrite Z.mul_mod_idemp_r by lia.
    replace (os2ip EM2 * r1 ^ e * (os2ip EM1 * i2)) with ((os2ip EM1 * r1 ^ e) * (os2ip EM2 * i2)) by ring.
    rewrite Z.mul_mod, H2, Z.mul_1_r, Z.mod_mod by lia. reflexivity. }
  exists r2, (ri1 * (x ^ (e - 1) * (i1 * os2ip EM2))).
  split; [apply Z.mod_pos_bound; exact Hn|]. split.
  - unfold r2. rewrite Z.mul_mod_idemp_l by lia.
    replace (r1 * x * (ri1 * (x ^ (e - 1) * (i1 * os2ip EM2))))
      with ((r1 * ri1) * (x ^ 1 * x ^ (e - 1) * (i1 * os2ip EM2))) by ring.
    rewrite <- Z.pow_add_r by lia. replace (1 + (e - 1)) with e by ring.
    rewrite Z.mul_mod, HR, Z.mul_1_l, Z.mod_mod by lia.
    rewrite <- (Z.mul_mod_idemp_l (x ^ e)), Ex by lia. unfold c. rewrite Z.mul_mod_idemp_l by lia.
    replace (os2ip EM1 * i2 * (i1 * os2ip EM2)) with ((os2ip EM1 * i1) * (os2ip EM2 * i2)) by ring.
    rewrite Z.mul_mod, H1, H2 by lia. destruct (Z.eq_dec n 1) as [N1|N1].
    + rewrite N1, Z.mod_1_r in H1. discriminate.
    + apply Z.mod_small. lia.
  - unfold blinded_message. f_equal. exact P2.
Qed.

(** ** Cases *)

(** The signature of C12_case, obtained blindly with r = 2 *)
Example C73_case_blind_pkcs1v15 :
  hash_len_ok raw1 [x41] /\ (2 * ((uval n91 + 1) / 2)) mod uval n91 = 1 /\
  exists answer, rsa_decrypt_and_check count_rng 5 key91 None
      (blinded_message pub91 (emsa_pkcs1 [x41] (key_size pub91)) 2) = Ok answer /\
    i2osp (uval answer) (key_size pub91) <> sig91 /\ unblinded pub91 answer ((uval n91 + 1) / 2) = sig91.
Proof.
  split; [reflexivity|]. split; [reflexivity|].
  destruct (rsa_decrypt_and_check count_rng 5 key91 None (blinded_message pub91 (emsa_pkcs1 [x41] (key_size pub91)) 2))
    as [a| | |] eqn:E; vm_compute in E; try discriminate.
  injection E as <-. eexists. split; [reflexivity|]. split; [vm_compute; discriminate|vm_compute; reflexivity].
Qed.

(** A PSS signature of a two-octet digest with a salt of one octet *)
Example C73_case_blind_pss :
  (h_size toy_hash + length [x05] + 2 <= pss_em_len (Z.to_nat (ubits n91) - 1))%nat /\
  (let* answer := rsa_decrypt_and_check count_rng 5 key91 None
      (blinded_message pub91 (pss_encode (h_fun toy_hash) (h_size toy_hash) [x01; x02] [x05] (Z.to_nat (ubits n91) - 1)) 2) in
   public_verify pub91 (SigPss (mkPss false (digest_new toy_hash) 1)) [x01; x02]
     (unblinded pub91 answer ((uval n91 + 1) / 2))) = Ok tt.
Proof. split; [vm_compute; lia|vm_compute; reflexivity]. Qed.

(** Encodings with an inverse *)
Example C73_case_blindness : good_priv key91 /\
  let n := uval n91 in let h := (n + 1) / 2 in
  (os2ip [x02] * h) mod n = 1 /\ (os2ip [x04] * (h * h)) mod n = 1 /\ (8 * (h * h * h)) mod n = 1.
Proof. split; [exact good91|]. repeat split; vm_compute; reflexivity. Qed.

Print Assumptions C73_blind_pkcs1v15.
Print Assumptions C73_blind_pss.
Print Assumptions C73_blindness.
