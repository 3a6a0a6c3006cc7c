(** C107: the raw operations on any type that implements the key traits. *)
From Coq Require Import ZArith List Bool Lia.
From Coq Require Import Init.Byte.
From Verif Require Import Base Bigint SpecRFC SpecRng MHash MRsa MGenerate MKey MApi MWrap MMisc MParts KeyDefs.
From Verif Require Import PRsa PHist PParts KeyExamples.
Import ListNotations.
Local Open Scope Z_scope.

(** ** C107: implementors of the key traits

    [typed_parts] is what the Rust types say about the answers (big integers, an odd modulus
    in Montgomery parameters); nothing relates the answers to each other. *)

(** Encryption is the RSA function for the modulus of the Montgomery parameters, whatever
    else the implementor answers. *)
Theorem C107_encrypt : forall k m, typed_parts k -> wf_uint m ->
  exists c, rsa_encrypt_g k m = Ok c /\ uprec c = mp_prec (kp_params k) /\
    uval c = RSAEP (mp_val (kp_params k)) (uval (kp_e k)) (uval m mod 2 ^ mp_prec (kp_params k)).
Proof.
  intros k m (_ & _ & E & W & _) M. eexists. split; [apply encrypt_g; auto|]. split; reflexivity.
Qed.

(** Whatever the implementor answers, a released result encrypts to the input.  The input
    was below [n], and is refused otherwise. *)
Theorem C107_released : forall {R} (g : rng_ops R) fuel rng k c, typed_parts k ->
  (forall m, rsa_decrypt_and_check_g g fuel k rng c = Ok m ->
     RSAEP (mp_val (kp_params k)) (uval (kp_e k)) (uval m) = uval c /\
     uval c < uval (kp_n k) /\ uprec m = mp_prec (kp_params k)) /\
  (uval (kp_n k) <= uval c ->
     rsa_decrypt_g g fuel rng k c = Err Decryption /\
     rsa_decrypt_and_check_g g fuel k rng c = Err Decryption).
Proof.
  intros R g fuel rng k c (_ & _ & E & W & _). split; [|apply range_g].
  intros m H. destruct (check_g_out g fuel rng k c m W E H) as (A & B & _ & D & _). auto.
Qed.

(** Blinding gives no result unless [n], [n_params] and [n_bits_precision] agree: then a
    released result encrypts to the input under [n] and is below it. *)
Theorem C107_blinded : forall {R} (g : rng_ops R) fuel st k c m, typed_parts k ->
  (rsa_decrypt_g g fuel (Some st) k c = Ok m ->
     uval (kp_n k) = mp_val (kp_params k) /\ uprec (kp_n k) = mp_prec (kp_params k) /\
     kp_bits k = uprec (kp_n k) /\ uval m < uval (kp_n k)) /\
  (rsa_decrypt_and_check_g g fuel k (Some st) c = Ok m ->
     RSAEP (uval (kp_n k)) (uval (kp_e k)) (uval m) = uval c /\ uval m < uval (kp_n k)).
Proof.
  intros R g fuel st k c m (_ & _ & E & W & _).
  assert (B : rsa_decrypt_g g fuel (Some st) k c = Ok m ->
     uval (kp_n k) = mp_val (kp_params k) /\ uprec (kp_n k) = mp_prec (kp_params k) /\
     kp_bits k = uprec (kp_n k) /\ uval m < uval (kp_n k)).
  { intros H. destruct (decrypt_g_out g fuel (Some st) k c m W H) as (_ & _ & _ & X). apply X. discriminate. }
  split; [exact B|]. intros H. destruct (check_g_out g fuel (Some st) k c m W E H) as (A & _ & _ & _ & D).
  destruct (B D) as (-> & _ & _ & L). split; [exact A|exact L].
Qed.

(** An implementor that leaves out any of the CRT values, or has more than two primes, gets
    the plain power with [d]; the other CRT values do not matter.  Without blinding. *)
Theorem C107_incomplete : forall {R} (g : rng_ops R) fuel k c, typed_parts k ->
  (kp_dp k = None \/ kp_dq k = None \/ kp_qinv k = None \/ kp_p_params k = None \/
   kp_q_params k = None \/ (2 < length (kp_primes k))%nat) ->
  wf_uint c -> uval c < uval (kp_n k) ->
  rsa_decrypt_g g fuel None k c =
  if uprec c <=? uprec (kp_d k)
  then Ok (mkU (RSADP (mp_val (kp_params k)) (uval (kp_d k)) (uval c mod 2 ^ mp_prec (kp_params k)))
               (mp_prec (kp_params k)))
  else Panic.
Proof. intros R g fuel k c T N. apply incomplete_g; auto. Qed.

(** One that answers all of them but lists fewer than two primes makes decryption panic. *)
Theorem C107_few_primes : forall {R} (g : rng_ops R) fuel k c, typed_parts k -> wf_uint c ->
  uval c < uval (kp_n k) -> kp_dp k <> None -> kp_dq k <> None -> kp_qinv k <> None ->
  kp_p_params k <> None -> kp_q_params k <> None -> (length (kp_primes k) < 2)%nat ->
  rsa_decrypt_g g fuel None k c = Panic /\ rsa_decrypt_and_check_g g fuel k None c = Panic.
Proof.
  intros R g fuel k c (_ & _ & _ & _ & D & _) C L A1 A2 A3 A4 A5 S. apply few_primes_g; auto.
  intros [N|[N|[N|[N|[N|N]]]]]; congruence || lia.
Qed.

(** An implementor that answers with the numbers of a valid key, and any selection of its CRT
    values, decrypts as that key does: to c^d mod n. *)
Theorem C107_right_numbers : forall {R} (g : rng_ops R) fuel rng k' k c,
  (rng <> None -> rng_ok g) -> good_priv k -> answers_for k' k ->
  wf_uint c -> uprec c = uprec (kp_n k') -> uval c < uval (kp_n k') ->
  rsa_decrypt_g g fuel rng k' c = rsa_decrypt g fuel rng k c /\
  rsa_decrypt_and_check_g g fuel k' rng c = rsa_decrypt_and_check g fuel k rng c /\
  (blinding_succeeds g (uval (kp_n k')) rng fuel ->
   exists m, rsa_decrypt_g g fuel rng k' c = Ok m /\ rsa_decrypt_and_check_g g fuel k' rng c = Ok m /\
     uval m = RSADP (uval (kp_n k')) (uval (kp_d k')) (uval c)).
Proof.
  intros R g fuel rng k' k c Hg G A C P L.
  destruct (selection_g g fuel rng k' k c G A C) as (E1 & E2). split; [exact E1|]. split; [exact E2|].
  destruct A as (An & _ & _ & _ & Ad & _). rewrite An in *. rewrite Ad, E1, E2. intros S.
  unfold priv_n, priv_d in *. eexists.
  split; [apply (rsa_decrypt_good g fuel rng k c); auto|].
  split; [apply (rsa_decrypt_and_check_good g fuel rng k c); auto|reflexivity].
Qed.

(** The crate's own private key type is one implementor; for it the generic operations are
    those every other property speaks of. *)
Theorem C107_own_type : forall {R} (g : rng_ops R) fuel rng k c m, sane_priv k ->
  rsa_decrypt_g g fuel rng (parts_of k) c = rsa_decrypt g fuel rng k c /\
  rsa_decrypt_and_check_g g fuel (parts_of k) rng c = rsa_decrypt_and_check g fuel k rng c /\
  rsa_encrypt_g (parts_of k) m = rsa_encrypt (sk_pub k) m.
Proof.
  intros R g fuel rng k c m (_ & D & F & _ & _ & _ & C).
  destruct (own_g g fuel rng k c D F C) as (A & B). auto.
Qed.

(** "A released result encrypts to the input under [n]" fails without blinding, if [n] and
    [n_params] disagree. *)
Theorem C107_two_moduli_refuted : exists k c m, typed_parts k /\ wf_uint c /\
  rsa_decrypt_and_check_g count_rng 5 k None c = Ok m /\
  RSAEP (uval (kp_n k)) (uval (kp_e k)) (uval m) <> uval c /\
  rsa_decrypt_and_check_g count_rng 5 k (Some 3) c = Panic.
Proof.
  exists (mkParts (mkU 1001 64) (mkU 3 64) (mkMP (mkU 15 64)) 64 (mkU 3 64) [] None None None None None),
    (mkU 7 64), (mkU 13 64).
  split.
  { unfold typed_parts, wf_params, wf_uint, mp_val.
    cbn [kp_n kp_e kp_params kp_d kp_primes mp_modulus uval uprec].
    repeat split; try reflexivity; try apply Forall_nil; discriminate. }
  split; [unfold wf_uint; cbn [uval uprec]; repeat split; (reflexivity || discriminate)|].
  split; [vm_compute; reflexivity|]. split; [vm_compute; discriminate|vm_compute; reflexivity].
Qed.

(** The numbers of [key64] with one CRT value left out, with another precision, with a wrong
    exponent, and with only one prime listed. *)
Definition parts64 (bits : Z) (d : uint) (dq : option uint) (ps : list uint) : key_parts :=
  mkParts n64 e64 (mkMP n64) bits d ps (priv_dp key64) dq (priv_qinv key64)
    (priv_p_params key64) (priv_q_params key64).

Example C107_case :
  good_priv key64 /\ answers_for (parts64 64 d64 None [p64; q64]) key64 /\
  answers_for (parts64 64 d64 (priv_dq key64) [p64; q64]) key64 /\
  rsa_encrypt_g (parts64 64 d64 None [p64; q64]) (mkU 42 64) = rsa_encrypt pub64 (mkU 42 64) /\
  (let* c := rsa_encrypt pub64 (mkU 42 64) in
   rsa_decrypt_and_check_g count_rng 5 (parts64 64 d64 None [p64; q64]) (Some 3) c) = Ok (mkU 42 64) /\
  (let* c := rsa_encrypt pub64 (mkU 42 64) in
   rsa_decrypt_and_check_g count_rng 5 (parts64 64 d64 (priv_dq key64) [p64; q64]) (Some 3) c) = Ok (mkU 42 64) /\
  (let* c := rsa_encrypt pub64 (mkU 42 64) in
   rsa_decrypt_and_check_g count_rng 5 (parts64 128 d64 None [p64; q64]) (Some 3) c) = Panic /\
  (let* c := rsa_encrypt pub64 (mkU 42 64) in
   rsa_decrypt_and_check_g count_rng 5 (parts64 128 d64 None [p64; q64]) None c) = Ok (mkU 42 64) /\
  (let* c := rsa_encrypt pub64 (mkU 42 64) in
   rsa_decrypt_and_check_g count_rng 5 (parts64 64 (mkU 5 64) None [p64; q64]) None c) = Err Internal /\
  (let* c := rsa_encrypt pub64 (mkU 42 64) in
   rsa_decrypt_and_check_g count_rng 5 (parts64 64 d64 (priv_dq key64) [p64]) None c) = Panic.
Proof.
  split; [exact good64|].
  assert (E : uprec (priv_n key64) = 64 /\ priv_n key64 = n64 /\ priv_e key64 = e64 /\
              pk_params (sk_pub key64) = mkMP n64 /\ priv_d key64 = d64 /\ priv_primes key64 = [p64; q64])
    by (repeat split; vm_compute; reflexivity).
  destruct E as (E1 & E2 & E3 & E4 & E5 & E6).
  split; [unfold answers_for, parts64; cbn [kp_n kp_e kp_params kp_bits kp_d kp_primes kp_dp kp_dq kp_qinv kp_p_params kp_q_params];
          rewrite E1, E2, E3, E4, E5, E6; do 6 (split; [reflexivity|]); tauto|].
  split; [unfold answers_for, parts64; cbn [kp_n kp_e kp_params kp_bits kp_d kp_primes kp_dp kp_dq kp_qinv kp_p_params kp_q_params];
          rewrite E1, E2, E3, E4, E5, E6; do 6 (split; [reflexivity|]); tauto|].
  do 6 (split; [vm_compute; reflexivity|]). vm_compute. reflexivity.
Qed.

Print Assumptions C107_encrypt.
Print Assumptions C107_released.
Print Assumptions C107_blinded.
Print Assumptions C107_incomplete.
Print Assumptions C107_few_primes.
Print Assumptions C107_right_numbers.
Print Assumptions C107_own_type.
Print Assumptions C107_two_moduli_refuted.
