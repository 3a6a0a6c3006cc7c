(** Property C82: miscalculations of the private operation.

    [MFault.v] runs the private operation with any of its intermediate numbers replaced by
    arbitrary numbers; the final comparison is computed correctly. *)
From Coq Require Import ZArith List Bool Lia.
From Coq Require Import Init.Byte.
From Verif Require Import Base Bigint BytesLemmas SpecRFC SpecRng SpecKey MHash MRsa MKey MApi MFault KeyDefs KeyExamples.
From Verif Require Import PRsa PFault PropLeak.
Import ListNotations.
Local Open Scope Z_scope.

(** Without a fault it is the crate's operation. *)
Theorem C82_no_fault : forall {R} (g : rng_ops R) fuel rng k c,
  rsa_decrypt_f g no_fault fuel rng k c = rsa_decrypt g fuel rng k c /\
  rsa_decrypt_and_check_f g no_fault fuel k rng c = rsa_decrypt_and_check g fuel k rng c.
Proof. intros. split; [apply no_fault_decrypt|apply no_fault_check]. Qed.

(** Whatever is miscalculated, and whatever the private part of the key contains, a number
    is released only if its e-th power is the input.  With a valid key it is then the right
    result modulo n. *)
Theorem C82_checked : forall {R} (g : rng_ops R) F fuel rng k c m,
  wf_pub (sk_pub k) -> rsa_decrypt_and_check_f g F fuel k rng c = Ok m ->
  let n := uval (pk_n (sk_pub k)) in
  RSAEP n (uval (pk_e (sk_pub k))) (uval m) = uval c /\ uval c < n /\
  (good_priv k -> uval m mod n = RSADP n (uval (sk_d k)) (uval c)).
Proof.
  intros R g F fuel rng k c m W H n. destruct (check_f_sound g F fuel rng k c m W H) as (A & B & _).
  split; auto. split; auto. intros G. exact (check_f_valid g F fuel rng k c m G H).
Qed.

(** One number replaced. *)
Definition only (at_ : site -> bool) (v : Z) : fault := fun s => if at_ s then Some v else None.
Definition is_operand (s : site) := match s with At_operand => true | _ => false end.
Definition is_result (s : site) := match s with At_result => true | _ => false end.

(** Most faults are caught; one that leaves the outcome unchanged is not an error. *)
Example C82_checked_case :
  wf_pub (sk_pub key64) /\
  rsa_decrypt_and_check_f count_rng (m1_fault 5) 5 key64 (Some 3) (mkU 77 64) = Err Internal /\
  rsa_decrypt_and_check_f count_rng (only is_result 5) 5 key64 (Some 3) (mkU 77 64) = Err Internal /\
  is_ok (rsa_decrypt_and_check_f count_rng no_fault 5 key64 (Some 3) (mkU 77 64)) = true.
Proof. split; [exact wf_pub64|]. repeat split; vm_compute; reflexivity. Qed.

(** Decryption with a valid key never releases a wrong message: what it returns is what
    the faultless, unblinded decryption returns. *)
Theorem C82_decryption : forall {R} (g : rng_ops R) F fuel rng k ct hd hm label msg,
  good_priv k ->
  (pkcs1v15_decrypt_f g F fuel rng k ct = Ok msg -> pkcs1v15_decrypt g fuel None k ct = Ok msg) /\
  (uprec (pk_n (sk_pub k)) < 2 ^ 32 -> (0 < h_size hm)%nat -> (11 <= key_size (sk_pub k))%nat ->
   oaep_api_decrypt_f g F fuel rng k ct (digest_new hd) (digest_new hm) label = Ok msg ->
   oaep_api_decrypt g fuel None k ct (digest_new hd) (digest_new hm) label = Ok msg).
Proof.
  intros R g F fuel rng k ct hd hm label msg G. split.
  - apply faulty_pkcs1_decrypt; auto.
  - intros. eapply faulty_oaep_decrypt; eauto.
Qed.

(** A fault that adds n to the operand: the message is still the right one.  One that adds
    1 is reported. *)
Example C82_decryption_case :
  good_priv key91 /\
  pkcs1v15_decrypt_f dead_rng (only is_operand (os2ip (ct91 em91) + uval (pk_n pub91))) 0 None key91 (ct91 em91)
  = Ok [x41] /\
  pkcs1v15_decrypt_f dead_rng (only is_operand (os2ip (ct91 em91) + 1)) 0 None key91 (ct91 em91)
  = Err Internal.
Proof. split; [exact good91|]. split; vm_compute; reflexivity. Qed.

(** A signature released in spite of a fault opens to the encoding that was signed; so the
    difference that would betray a factor of n is a multiple of n. *)
Theorem C82_signature : forall {R} (g : rng_ops R) F fuel rng k prefix hashed salt hd sig,
  wf_pub (sk_pub k) ->
  let n := uval (pk_n (sk_pub k)) in let e := uval (pk_e (sk_pub k)) in
  let harmless em := length sig = key_size (sk_pub k) /\ RSAEP n e (os2ip sig) = os2ip em /\
                     Z.gcd (os2ip sig ^ e - os2ip em) n = n in
  (pkcs1v15_sign_f g F fuel rng k prefix hashed = Ok sig ->
   harmless (emsa_pkcs1 (prefix ++ hashed) (key_size (sk_pub k)))) /\
  (uprec (pk_n (sk_pub k)) < 2 ^ 32 -> (0 < h_size hd)%nat ->
   sign_pss_with_salt_f g F fuel rng k hashed salt (digest_new hd) = Ok sig ->
   harmless (pss_encode (h_fun hd) (h_size hd) hashed salt (Z.to_nat (ubits (pk_n (sk_pub k))) - 1))).
Proof.
  intros R g F fuel rng k prefix hashed salt hd sig W n e harmless.
  assert (N : 0 < n) by (apply odd_pos_n; auto).
  assert (X : forall em, length sig = key_size (sk_pub k) -> RSAEP n e (os2ip sig) = os2ip em -> harmless em).
  { intros em L E. split; auto. split; auto. apply gcd_of_congruence; auto.
    rewrite <- E. apply Z.mod_pos_bound; auto. }
  split.
  - intros H. apply faulty_pkcs1_sign in H; auto. destruct H. apply X; auto.
  - intros H32 Hh H. apply faulty_pss_sign in H; auto. destruct H. apply X; auto.
Qed.

(** The released signature need not be the right octets: a fault that adds n to the result
    passes the comparison, and the verifier then rejects what was released. *)
Theorem C82_same_octets_refuted : exists F k hashed sig right,
  good_priv k /\
  pkcs1v15_sign dead_rng 0 None k [] hashed = Ok right /\
  pkcs1v15_sign_f dead_rng F 0 None k [] hashed = Ok sig /\
  os2ip sig = os2ip right + uval (pk_n (sk_pub k)) /\
  public_verify (sk_pub k) (SigPkcs1v15 pkcs1_sign_new_unprefixed) hashed sig = Err Verification /\
  public_verify (sk_pub k) (SigPkcs1v15 pkcs1_sign_new_unprefixed) hashed right = Ok tt.
Proof.
  exists (only is_result 1423299417381802801147119423), key91, [x41].
  eexists. eexists. split; [exact good91|].
  split; [vm_compute; reflexivity|]. split; [vm_compute; reflexivity|].
  split; [vm_compute; reflexivity|]. split; vm_compute; reflexivity.
Qed.

(** The comparison is what makes this so.  Without it ([hazmat::rsa_decrypt]) a valid
    two-prime key whose exponentiation modulo the first prime is disturbed, in any way that
    changes its outcome modulo that prime, produces a number from which anyone computes the
    other prime. *)
Theorem C82_unchecked_betrays : forall {R} (g : rng_ops R) fuel k pc p q c v,
  good_priv k -> sk_pre k = Some pc -> sk_primes k = [p; q] ->
  wf_uint c -> uprec c <= uprec (sk_d k) -> uval c < uval (pk_n (sk_pub k)) ->
  (v mod 2 ^ uprec (sk_d k)) mod uval p
    <> RSADP (uval (pk_n (sk_pub k))) (uval (sk_d k)) (uval c) mod uval p ->
  exists m, rsa_decrypt_f g (m1_fault v) fuel None k c = Ok m /\
    Z.gcd (uval m ^ uval (pk_e (sk_pub k)) - uval c) (uval (pk_n (sk_pub k))) = uval q.
Proof. exact @unchecked_factors. Qed.

Example C82_unchecked_betrays_case :
  good_priv key64 /\ map uval (sk_primes key64) = [3534399269; 3563808971] /\
  (5 mod 2 ^ 64) mod 3534399269
    <> RSADP (uval n64) (uval (sk_d key64)) 77 mod 3534399269 /\
  exists m, rsa_decrypt_f dead_rng (m1_fault 5) 0 None key64 (mkU 77 64) = Ok m /\
    Z.gcd (powm (uval m) (uval e64) (uval n64) - 77) (uval n64) = 3563808971.
Proof.
  split; [exact good64|]. split; [vm_compute; reflexivity|]. split.
  - pose proof (rsa_decrypt_plain dead_rng 0 key64 (mkU 77 64) good64) as H.
    assert (W : wf_uint (mkU 77 64)) by (unfold wf_uint; repeat split; vm_compute; congruence).
    specialize (H W ltac:(vm_compute; congruence) ltac:(vm_compute; reflexivity)).
    assert (E : rsa_decrypt dead_rng 0 None key64 (mkU 77 64) = Ok (mkU 6972377830172744268 64))
      by (vm_compute; reflexivity).
    rewrite E in H. clear E W.
    assert (X : forall a b p q, Ok (mkU a p) = Ok (mkU b q) -> a = b) by congruence.
    apply X in H. change (uval n64) with (uval (pk_n (sk_pub key64))).
    change 77 with (uval (mkU 77 64)). rewrite <- H. vm_compute. congruence.
  - exists (mkU 2512605783403822225 64). split; vm_compute; reflexivity.
Qed.

Print Assumptions C82_no_fault.
Print Assumptions C82_checked.
Print Assumptions C82_decryption.
Print Assumptions C82_signature.
Print Assumptions C82_same_octets_refuted.
Print Assumptions C82_unchecked_betrays.
