(** The traced verification computes what the plain one computes. *)
From Coq Require Import ZArith List Bool Lia.
From Coq Require Import Init.Byte.
From Verif Require Import Base Bigint BytesLemmas BigintLemmas MHash MPad MMgf MPkcs1 MOaep MPss MRsa MKey MApi MLeak
  MLeakVerify PLeak.
Import ListNotations.
Local Open Scope Z_scope.

Lemma rf_all_equal b l : forall i len ok,
  result (l_all_equal b l i len ok) = Ok (fold_left (fun a e => a && byte_eqb e b) l ok).
Proof.
  induction l as [|x l IH]; intros; cbn [l_all_equal fold_left]; [reflexivity|]. rf1. apply IH.
Qed.

Lemma rf_sign_unpad prefix hashed em k :
  result (l_pkcs1v15_sign_unpad prefix hashed em k) = pkcs1v15_sign_unpad prefix hashed em k.
Proof.
  unfold l_pkcs1v15_sign_unpad, pkcs1v15_sign_unpad. cbv zeta. rf1.
  destruct (k <? length prefix + length hashed + 11)%nat; [reflexivity|].
  rf1. rf1. rf1. rf1. rf1. rf1. rf1. rf1. rf1. rf1. rf1.
  eapply rf_val; [apply rf_all_equal|]. rf1.
  match goal with |- result (if ?b then _ else _) = _ => destruct b end; reflexivity.
Qed.

Lemma rf_verify_pre mh em eb sl hl :
  result (l_emsa_pss_verify_pre mh em eb sl hl) = emsa_pss_verify_pre mh em eb sl hl.
Proof.
  unfold l_emsa_pss_verify_pre, emsa_pss_verify_pre. cbv zeta. rf1.
  destruct (negb (length mh =? hl)%nat); [reflexivity|]. rf1. rf1.
  destruct (length em <? a)%nat; [reflexivity|]. rf1. rf1. rf1.
  destruct (negb (byte_eqb a1 xbc)); [reflexivity|]. rf1. rf1.
  eapply rf_bind; [reflexivity|]. intros [db h] _. rf1. rf1. rf1. rf1. rf1.
  match goal with |- result (if ?b then _ else _) = _ => destruct b end; reflexivity.
Qed.

Lemma rf_verify_salt db el sl hl :
  result (l_emsa_pss_verify_salt db el sl hl) = emsa_pss_verify_salt db el sl hl.
Proof.
  unfold l_emsa_pss_verify_salt, emsa_pss_verify_salt. rf1. rf1. rf1.
  eapply rf_bind; [reflexivity|]. intros [z r] _. cbv zeta.
  eapply rf_val; [apply rf_all_equal|]. rf1. reflexivity.
Qed.

Lemma rf_emsa_verify mh em sl dg kb :
  result (l_emsa_pss_verify mh em sl dg kb) = emsa_pss_verify mh em sl dg kb.
Proof.
  unfold l_emsa_pss_verify, emsa_pss_verify, l_emsa_pss_finish. rf1. cbv zeta. rf1. rf1.
  eapply rf_bind; [apply rf_verify_pre|]. intros [db h] _.
  eapply rf_bind; [apply rf_mgf|]. intros [db1 md] _.
  rf1. rf1. rf1. rf1. eapply rf_bind; [apply rf_verify_salt|]. intros sv _.
  rf1. rf1. rf1. rf1. rf1. unfold digest_finalize_reset at 1. rf1. unfold digest_finalize_reset. rf1. rf1.
  match goal with |- result (if ?b then _ else _) = _ => destruct b end; reflexivity.
Qed.

Lemma rf_emsa_verify_digest hd mh em sl kb :
  result (l_emsa_pss_verify_digest hd mh em sl kb) = emsa_pss_verify_digest hd mh em sl kb.
Proof.
  unfold l_emsa_pss_verify_digest, emsa_pss_verify_digest, l_emsa_pss_finish. rf1. cbv zeta. rf1. rf1.
  eapply rf_bind; [apply rf_verify_pre|]. intros [db h] _.
  eapply rf_bind; [apply rf_mgf_digest|]. intros [db1 md] _.
  rf1. rf1. rf1. rf1. eapply rf_bind; [apply rf_verify_salt|]. intros sv _.
  rf1. rf1. rf1. rf1. rf1. unfold digest_finalize_reset at 1. rf1. unfold digest_finalize_reset. rf1. rf1.
  match goal with |- result (if ?b then _ else _) = _ => destruct b end; reflexivity.
Qed.

Lemma rf_pkcs1_verify pk prefix hashed sig :
  result (l_pkcs1v15_verify pk prefix hashed sig) = pkcs1v15_verify pk prefix hashed sig.
Proof.
  unfold l_pkcs1v15_verify, pkcs1v15_verify. rf1. rf1.
  destruct (uleb (pk_n pk) sig || negb (uprec sig =? n_bits_precision pk)); [reflexivity|].
  eapply rf_bind; [apply rf_encrypt|]. intros m _. eapply rf_bind; [apply rf_be_pad|]. intros em _.
  apply rf_sign_unpad.
Qed.

Lemma rf_pss_verify pk hashed sig n dg sl :
  result (l_pss_verify pk hashed sig n dg sl) = pss_verify pk hashed sig n dg sl.
Proof.
  unfold l_pss_verify, pss_verify. rf1. destruct (negb (n =? key_size pk)%nat); [reflexivity|].
  eapply rf_bind; [apply rf_encrypt|]. intros m _. eapply rf_bind; [apply rf_be_pad|]. intros em _.
  apply rf_emsa_verify.
Qed.

Lemma rf_pss_verify_digest hd pk hashed sig sl :
  result (l_pss_verify_digest hd pk hashed sig sl) = pss_verify_digest hd pk hashed sig sl.
Proof.
  unfold l_pss_verify_digest, pss_verify_digest. rf1. rf1.
  destruct (uleb (pk_n pk) sig || negb (uprec sig =? n_bits_precision pk)); [reflexivity|].
  eapply rf_bind; [apply rf_encrypt|]. intros m _. eapply rf_bind; [apply rf_be_pad|]. intros em _.
  apply rf_emsa_verify_digest.
Qed.

Lemma rf_public_verify k s hashed sig :
  result (l_public_verify k s hashed sig) = public_verify k s hashed sig.
Proof.
  unfold l_public_verify, public_verify. destruct s.
  - eapply rf_bind; [reflexivity|]. intros _ _. eapply rf_bind; [reflexivity|]. intros su _. apply rf_pkcs1_verify.
  - eapply rf_bind; [reflexivity|]. intros su _. apply rf_pss_verify.
Qed.
