(** What an observer of the execution can tell: C66 to C71.

    [trace (l_f x)]: the conditional jumps, memory positions, buffer and copy sizes,
    overflow checks and dependency calls of a run of [f x] (MLeak.v); [result (l_f x)]:
    its answer. *)
From Coq Require Import ZArith List Bool Lia Znumtheory.
From Coq Require Import Init.Byte.
From Verif Require Import Base Bigint SpecRFC SpecKey SpecRng SpecLeak MHash MPkcs1 MOaep MPss MRsa MKey MApi
  MLeak MLeakEnc KeyDefs BytesLemmas BigintLemmas PRsa PApi PLeak PLeakRel PLeakApi PLeakEnc KeyExamples.
Import ListNotations.
Local Open Scope Z_scope.

(** Another private key for the modulus of [key91_plain]: d is larger by the least common
    multiple of the p-1, and the primes are listed in another order. *)
Definition key91_alt : privkey :=
  mkPriv pub91 (mkU 3681419383 128) [mkU 1610620981 64; mkU 805310491 64; mkU 1073747321 64] None.
Lemma good91_alt : good_priv key91_alt.
Proof.
  split; [apply wf_pub91|]. split; [unfold wf_uint; repeat split; vm_compute; congruence|].
  split; [repeat apply Forall_cons; try apply Forall_nil;
          unfold wf_uint; repeat split; vm_compute; congruence|].
  split; [|split; [vm_compute; congruence|left; reflexivity]].
  unfold valid_rsa_key. repeat split.
  - simpl; lia.
  - repeat apply Forall_cons; try apply Forall_nil;
      [apply prime_91c|apply prime_91a|apply prime_91b].
  - repeat constructor; cbn; intuition discriminate.
  - intros p [<-|[<-|[<-|[]]]]; vm_compute; reflexivity.
Qed.
Lemma shape91 : same_shape key91_plain key91_alt.
Proof. repeat split. Qed.

(** The ciphertext of the number [m] under [pub91]. *)
Definition ct91 (m : Z) : list byte := i2osp (RSAEP (uval n91) (uval e91) m) 12.
(** An encoded message 00 02 PS 00 41, as a number. *)
Definition em91 : Z := 2498762752908041373876289.

Lemma usable91 : public_usable (uval n91) (uval e91) (uprec n91).
Proof. apply (check_public_ok pub91 wf_pub91). vm_compute. reflexivity. Qed.

Lemma view91 m m' : 0 <= m < uval n91 -> 0 <= m' < uval n91 ->
  zero_octets (i2osp m 12) = zero_octets (i2osp m' 12) ->
  same_public_view key91_plain key91_alt (ct91 m) (ct91 m').
Proof.
  intros Hm Hm' Hz. unfold same_public_view, ct91. rewrite !i2osp_length.
  assert (Rg : forall x, 0 <= RSAEP (uval n91) (uval e91) x < uval n91)
    by (intros; apply Z.mod_pos_bound; reflexivity).
  assert (B : uval n91 < 256 ^ Z.of_nat 12) by (vm_compute; reflexivity).
  pose proof (Rg m) as R1. pose proof (Rg m') as R2.
  rewrite !os2ip_i2osp by (clear - R1 R2 B; lia).
  change (sk_pub key91_plain) with pub91. change (pk_n pub91) with n91.
  replace (key_size pub91) with 12%nat by (vm_compute; reflexivity).
  split; [reflexivity|]. split; [clear - R1 R2; tauto|].
  destruct good91_plain as (_ & _ & _ & V & _). destruct good91_alt as (_ & _ & _ & V' & _).
  rewrite (rsa_dec_enc _ _ _ _ _ V) by exact Hm. rewrite (rsa_dec_enc _ _ _ _ _ V') by exact Hm'.
  exact Hz.
Qed.

(** * C66: PKCS#1 v1.5 decryption *)

(** The traced program computes the same answers. *)
Theorem C66_same_program : forall {R} (g : rng_ops R) fuel rng k ct,
  result (l_pkcs1v15_decrypt g fuel rng k ct) = pkcs1v15_decrypt g fuel rng k ct.
Proof. exact @rf_pkcs1_decrypt. Qed.

(** The padding check: the trace is the same for all encoded messages of one length that
    are rejected, and for all that are accepted with messages of one length. *)
Theorem C66_padding_check : forall em em' k,
  length em = length em' -> Z.of_nat (length em) < 2 ^ 31 ->
  same_answer (pkcs1v15_encrypt_unpad em k) (pkcs1v15_encrypt_unpad em' k) ->
  trace (l_pkcs1v15_encrypt_unpad em k) = trace (l_pkcs1v15_encrypt_unpad em' k).
Proof. intros em em' k L H S. apply pkcs1_unpad_trace; auto. Qed.

(** The whole decryption: nothing beyond the public view and the shape of the answer. *)
Theorem C66_decrypt : forall {R} (g : rng_ops R) fuel rng k k' ct ct',
  (rng <> None -> rng_ok g) -> good_priv k -> good_priv k' -> same_shape k k' ->
  uprec (pk_n (sk_pub k)) < 2 ^ 32 -> same_public_view k k' ct ct' ->
  same_answer (pkcs1v15_decrypt g fuel rng k ct) (pkcs1v15_decrypt g fuel rng k' ct') ->
  trace (l_pkcs1v15_decrypt g fuel rng k ct) = trace (l_pkcs1v15_decrypt g fuel rng k' ct').
Proof. exact @pkcs1_decrypt_trace. Qed.

(** And it does show how many leading zero octets the recovered number has. *)
Theorem C66_reveals_zero_octets : forall {R} (g : rng_ops R) fuel rng k k' ct ct',
  (rng <> None -> rng_ok g) -> good_priv k -> good_priv k' -> same_shape k k' ->
  public_usable (uval (pk_n (sk_pub k))) (uval (pk_e (sk_pub k))) (uprec (pk_n (sk_pub k))) ->
  length ct = length ct' -> 8 * Z.of_nat (length ct) <= uprec (pk_n (sk_pub k)) ->
  os2ip ct < uval (pk_n (sk_pub k)) -> os2ip ct' < uval (pk_n (sk_pub k)) ->
  blinding_succeeds g (uval (pk_n (sk_pub k))) rng fuel ->
  trace (l_pkcs1v15_decrypt g fuel rng k ct) = trace (l_pkcs1v15_decrypt g fuel rng k' ct') ->
  zero_octets (i2osp (RSADP (uval (pk_n (sk_pub k))) (uval (sk_d k)) (os2ip ct)) (key_size (sk_pub k)))
  = zero_octets (i2osp (RSADP (uval (pk_n (sk_pub k))) (uval (sk_d k')) (os2ip ct')) (key_size (sk_pub k))).
Proof. exact @pkcs1_decrypt_leaks. Qed.

(** So rejected ciphertexts are not all alike. *)
Theorem C66_uniform_rejection_refuted : exists k ct ct',
  good_priv k /\ length ct = length ct' /\ length ct = key_size (sk_pub k) /\
  os2ip ct < uval (pk_n (sk_pub k)) /\ os2ip ct' < uval (pk_n (sk_pub k)) /\
  pkcs1v15_decrypt count_rng 5 None k ct = Err Decryption /\
  pkcs1v15_decrypt count_rng 5 None k ct' = Err Decryption /\
  trace (l_pkcs1v15_decrypt count_rng 5 None k ct) <> trace (l_pkcs1v15_decrypt count_rng 5 None k ct').
Proof.
  exists key91_plain, (ct91 1), (ct91 (2 ^ 88)). split; [apply good91_plain|].
  do 6 (split; [vm_compute; reflexivity|]). vm_compute. discriminate.
Qed.

(** Two different rejected plaintexts under two different descriptions of the private key. *)
Example C66_case_rejected :
  same_public_view key91_plain key91_alt (ct91 (2 ^ 88)) (ct91 (2 ^ 89 + 5)) /\
  pkcs1v15_decrypt count_rng 5 (Some 3) key91_plain (ct91 (2 ^ 88)) = Err Decryption /\
  pkcs1v15_decrypt count_rng 5 (Some 3) key91_alt (ct91 (2 ^ 89 + 5)) = Err Decryption /\
  length (trace (l_pkcs1v15_decrypt count_rng 5 (Some 3) key91_plain (ct91 (2 ^ 88)))) = 73%nat /\
  trace (l_pkcs1v15_decrypt count_rng 5 (Some 3) key91_plain (ct91 (2 ^ 88)))
  = trace (l_pkcs1v15_decrypt count_rng 5 (Some 3) key91_alt (ct91 (2 ^ 89 + 5))).
Proof. split; [apply view91; vm_compute; auto; split; congruence|].
  do 3 (split; [vm_compute; reflexivity|]). vm_compute; reflexivity. Qed.

(** Two accepted plaintexts, and the trace of a rejected one is another. *)
Example C66_case_accepted :
  same_public_view key91_plain key91_alt (ct91 em91) (ct91 (em91 + 1)) /\
  pkcs1v15_decrypt count_rng 5 None key91_plain (ct91 em91) = Ok [x41] /\
  pkcs1v15_decrypt count_rng 5 None key91_alt (ct91 (em91 + 1)) = Ok [x42] /\
  trace (l_pkcs1v15_decrypt count_rng 5 None key91_plain (ct91 em91))
  <> trace (l_pkcs1v15_decrypt count_rng 5 None key91_plain (ct91 (em91 - em91 mod 65536 + 257))).
Proof.
  split; [apply view91; vm_compute; auto; split; congruence|]. split; [vm_compute; reflexivity|].
  split; [vm_compute; reflexivity|]. vm_compute. discriminate.
Qed.

Example C66_case_reveals : good_priv key91_plain /\
  public_usable (uval n91) (uval e91) (uprec n91) /\ length (ct91 em91) = 12%nat /\
  os2ip (ct91 em91) < uval n91 /\ 8 * Z.of_nat 12 <= uprec n91 /\
  blinding_succeeds count_rng (uval n91) (Some 3) 5.
Proof.
  split; [apply good91_plain|]. split; [apply usable91|]. split; [reflexivity|].
  split; [vm_compute; reflexivity|]. split; [vm_compute; congruence|].
  exists 0%nat. split; [lia|]. eapply usable_now; [reflexivity|]. right. vm_compute. reflexivity.
Qed.

(** * C67: OAEP decryption *)

Theorem C67_same_program : forall {R} (g : rng_ops R) fuel rng k ct dg mg label,
  result (l_oaep_api_decrypt g fuel rng k ct dg mg label)
  = oaep_api_decrypt g fuel rng k ct dg mg label.
Proof. exact @rf_oaep_api. Qed.

Theorem C67_same_program_digest : forall {R} (g : rng_ops R) hd hm fuel rng k ct label,
  result (l_oaep_api_decrypt_digest g hd hm fuel rng k ct label)
  = oaep_api_decrypt_digest g hd hm fuel rng k ct label.
Proof. exact @rf_oaep_api_digest. Qed.

(** The padding check, in particular: whatever octet, hash or separator is wrong, a
    rejection leaves the same trace. *)
Theorem C67_padding_check : forall em em' dg mg label k,
  length em = length em' -> Z.of_nat (length em) < 2 ^ 31 -> Z.of_nat k < 2 ^ 31 ->
  same_answer (oaep_decrypt em dg mg label k) (oaep_decrypt em' dg mg label k) ->
  trace (l_oaep_decrypt em dg mg label k) = trace (l_oaep_decrypt em' dg mg label k).
Proof. intros em em' dg mg label k L H Hk S. apply oaep_decrypt_trace; auto. Qed.

Theorem C67_padding_check_digest : forall hd hm em em' label k,
  length em = length em' -> Z.of_nat (length em) < 2 ^ 31 -> Z.of_nat k < 2 ^ 31 ->
  same_answer (oaep_decrypt_digest hd hm em label k) (oaep_decrypt_digest hd hm em' label k) ->
  trace (l_oaep_decrypt_digest hd hm em label k) = trace (l_oaep_decrypt_digest hd hm em' label k).
Proof. intros hd hm em em' label k L H Hk S. apply oaep_decrypt_digest_trace; auto. Qed.

Theorem C67_decrypt : forall {R} (g : rng_ops R) fuel rng k k' ct ct' dg mg label,
  (rng <> None -> rng_ok g) -> good_priv k -> good_priv k' -> same_shape k k' ->
  uprec (pk_n (sk_pub k)) < 2 ^ 32 -> same_public_view k k' ct ct' ->
  same_answer (oaep_api_decrypt g fuel rng k ct dg mg label)
              (oaep_api_decrypt g fuel rng k' ct' dg mg label) ->
  trace (l_oaep_api_decrypt g fuel rng k ct dg mg label)
  = trace (l_oaep_api_decrypt g fuel rng k' ct' dg mg label).
Proof. exact @oaep_api_trace. Qed.

Theorem C67_decrypt_digest : forall {R} (g : rng_ops R) hd hm fuel rng k k' ct ct' label,
  (rng <> None -> rng_ok g) -> good_priv k -> good_priv k' -> same_shape k k' ->
  uprec (pk_n (sk_pub k)) < 2 ^ 32 -> same_public_view k k' ct ct' ->
  same_answer (oaep_api_decrypt_digest g hd hm fuel rng k ct label)
              (oaep_api_decrypt_digest g hd hm fuel rng k' ct' label) ->
  trace (l_oaep_api_decrypt_digest g hd hm fuel rng k ct label)
  = trace (l_oaep_api_decrypt_digest g hd hm fuel rng k' ct' label).
Proof. exact @oaep_api_digest_trace. Qed.

(** The number of leading zero octets shows (whether it is zero is what Manger's attack
    on OAEP needs). *)
Theorem C67_reveals_zero_octets : forall {R} (g : rng_ops R) fuel rng k k' ct ct' dg mg label,
  (rng <> None -> rng_ok g) -> good_priv k -> good_priv k' -> same_shape k k' ->
  length ct = key_size (sk_pub k) -> length ct' = key_size (sk_pub k) ->
  os2ip ct < uval (pk_n (sk_pub k)) -> os2ip ct' < uval (pk_n (sk_pub k)) ->
  blinding_succeeds g (uval (pk_n (sk_pub k))) rng fuel ->
  trace (l_oaep_api_decrypt g fuel rng k ct dg mg label)
  = trace (l_oaep_api_decrypt g fuel rng k' ct' dg mg label) ->
  zero_octets (i2osp (RSADP (uval (pk_n (sk_pub k))) (uval (sk_d k)) (os2ip ct)) (key_size (sk_pub k)))
  = zero_octets (i2osp (RSADP (uval (pk_n (sk_pub k))) (uval (sk_d k')) (os2ip ct')) (key_size (sk_pub k))).
Proof. exact @oaep_api_leaks. Qed.

Theorem C67_reveals_zero_octets_digest : forall {R} (g : rng_ops R) hd hm fuel rng k k' ct ct' label,
  (rng <> None -> rng_ok g) -> good_priv k -> good_priv k' -> same_shape k k' ->
  public_usable (uval (pk_n (sk_pub k))) (uval (pk_e (sk_pub k))) (uprec (pk_n (sk_pub k))) ->
  length ct = key_size (sk_pub k) -> length ct' = key_size (sk_pub k) ->
  os2ip ct < uval (pk_n (sk_pub k)) -> os2ip ct' < uval (pk_n (sk_pub k)) ->
  blinding_succeeds g (uval (pk_n (sk_pub k))) rng fuel ->
  trace (l_oaep_api_decrypt_digest g hd hm fuel rng k ct label)
  = trace (l_oaep_api_decrypt_digest g hd hm fuel rng k' ct' label) ->
  zero_octets (i2osp (RSADP (uval (pk_n (sk_pub k))) (uval (sk_d k)) (os2ip ct)) (key_size (sk_pub k)))
  = zero_octets (i2osp (RSADP (uval (pk_n (sk_pub k))) (uval (sk_d k')) (os2ip ct')) (key_size (sk_pub k))).
Proof. exact @oaep_api_digest_leaks. Qed.

(** A first octet that is zero and one that is not are told apart, although both
    ciphertexts are rejected. *)
Theorem C67_uniform_rejection_refuted : exists k ct ct',
  good_priv k /\ length ct = length ct' /\ length ct = key_size (sk_pub k) /\
  os2ip ct < uval (pk_n (sk_pub k)) /\ os2ip ct' < uval (pk_n (sk_pub k)) /\
  oaep_api_decrypt_digest count_rng toy_hash toy_hash 5 None k ct None = Err Decryption /\
  oaep_api_decrypt_digest count_rng toy_hash toy_hash 5 None k ct' None = Err Decryption /\
  trace (l_oaep_api_decrypt_digest count_rng toy_hash toy_hash 5 None k ct None)
  <> trace (l_oaep_api_decrypt_digest count_rng toy_hash toy_hash 5 None k ct' None).
Proof.
  exists key91_plain, (ct91 (2 ^ 87)), (ct91 (2 ^ 88)). split; [apply good91_plain|].
  do 6 (split; [vm_compute; reflexivity|]). vm_compute. discriminate.
Qed.

(** Two rejected plaintexts, one with a wrong first octet only ([oaep_ok] plus 2^88), and
    two accepted ones. *)
Definition oaep91 (seed msg : list byte) : Z :=
  os2ip (oaep_encode toy_fun 2 toy_fun 2 [] seed msg 12).
Example C67_case_rejected :
  same_public_view key91_plain key91_alt (ct91 (oaep91 [x01; x02] [x41] + 2 ^ 88)) (ct91 (2 ^ 88 + 12345)) /\
  oaep_api_decrypt_digest count_rng toy_hash toy_hash 5 (Some 3) key91_plain
    (ct91 (oaep91 [x01; x02] [x41] + 2 ^ 88)) None = Err Decryption /\
  oaep_api_decrypt_digest count_rng toy_hash toy_hash 5 (Some 3) key91_alt (ct91 (2 ^ 88 + 12345)) None
  = Err Decryption.
Proof.
  split; [apply view91; vm_compute; auto; split; congruence|].
  split; [vm_compute; reflexivity|]. vm_compute; reflexivity.
Qed.
Example C67_case_accepted :
  same_public_view key91_plain key91_alt (ct91 (oaep91 [x01; x02] [x41])) (ct91 (oaep91 [x71; x03] [x42])) /\
  oaep_api_decrypt count_rng 5 None key91_plain (ct91 (oaep91 [x01; x02] [x41]))
    (digest_new toy_hash) (digest_new toy_hash) None = Ok [x41] /\
  oaep_api_decrypt count_rng 5 None key91_alt (ct91 (oaep91 [x71; x03] [x42]))
    (digest_new toy_hash) (digest_new toy_hash) None = Ok [x42].
Proof.
  split; [apply view91; vm_compute; auto; split; congruence|].
  split; [vm_compute; reflexivity|]. vm_compute; reflexivity.
Qed.

(** * C68: the private operation *)

Theorem C68_same_program : forall {R} (g : rng_ops R) fuel rng k c,
  result (l_rsa_decrypt g fuel rng k c) = rsa_decrypt g fuel rng k c /\
  result (l_rsa_decrypt_and_check g fuel k rng c) = rsa_decrypt_and_check g fuel k rng c.
Proof. intros R g fuel rng k c. split; [apply rf_rsa_decrypt|apply rf_rsa_check]. Qed.

(** The trace can be produced without the secrets: run the same code with every secret
    number, and the ciphertext, replaced by 0.  [k] need not even be a valid key. *)
Theorem C68_simulated : forall {R} (g : rng_ops R) fuel rng k c,
  0 < uval (pk_n (sk_pub k)) -> 0 <= uval c < uval (pk_n (sk_pub k)) ->
  trace (l_rsa_decrypt g fuel rng k c) = trace (l_rsa_decrypt g fuel rng (blank_key k) (blank_uint c)).
Proof. exact @rsa_decrypt_blank. Qed.

(** With the check against faults: the same for all valid descriptions of the key and
    all ciphertexts below n. *)
Theorem C68_checked : forall {R} (g : rng_ops R) fuel rng k k' c c',
  (rng <> None -> rng_ok g) -> good_priv k -> good_priv k' -> same_shape k k' ->
  wf_uint c -> wf_uint c' ->
  uprec c = uprec (pk_n (sk_pub k)) -> uprec c' = uprec (pk_n (sk_pub k)) ->
  uval c < uval (pk_n (sk_pub k)) -> uval c' < uval (pk_n (sk_pub k)) ->
  trace (l_rsa_decrypt_and_check g fuel k rng c) = trace (l_rsa_decrypt_and_check g fuel k' rng c').
Proof. intros. eapply ag_trace. apply ag_check_good; auto. Qed.

(** A CRT key; its trace is not empty and differs from that of the key without CRT values. *)
Example C68_case :
  sk_pre key64 <> None /\ uval (sk_d (blank_key key64)) = 0 /\
  map uval (sk_primes (blank_key key64)) = [0; 0] /\
  length (trace (l_rsa_decrypt count_rng 5 (Some 3) key64 (mkU 77 64))) = 46%nat /\
  trace (l_rsa_decrypt count_rng 5 (Some 3) key64 (mkU 77 64))
  <> trace (l_rsa_decrypt count_rng 5 (Some 3) key64_plain (mkU 77 64)).
Proof.
  split; [vm_compute; discriminate|]. do 3 (split; [vm_compute; reflexivity|]). vm_compute. discriminate.
Qed.
Example C68_case_shape : good_priv key91_plain /\ good_priv key91_alt /\ same_shape key91_plain key91_alt /\
  uval (sk_d key91_plain) <> uval (sk_d key91_alt).
Proof. split; [apply good91_plain|]. split; [apply good91_alt|]. split; [apply shape91|]. vm_compute. discriminate. Qed.

(** * C69: encryption *)

Theorem C69_same_program : forall {R} (g : rng_ops R) fuel st k msg,
  result (l_pkcs1v15_encrypt g fuel st k msg) = pkcs1v15_encrypt g fuel st k msg.
Proof. exact @rf_pkcs1_encrypt. Qed.
Theorem C69_same_program_oaep : forall {R} (g : rng_ops R) st k msg dg mg label,
  result (l_oaep_api_encrypt g st k msg dg mg label) = oaep_api_encrypt g st k msg dg mg label.
Proof. exact @rf_oaep_api_encrypt. Qed.
Theorem C69_same_program_oaep_digest : forall {R} (g : rng_ops R) hd hm st k msg label,
  result (l_oaep_api_encrypt_digest g hd hm st k msg label) = oaep_api_encrypt_digest g hd hm st k msg label.
Proof. exact @rf_oaep_api_encrypt_digest. Qed.

(** The trace depends on the length of the message, the random source and (through its
    leading zero octets) the ciphertext, all of which are no secrets of the message. *)
Theorem C69_pkcs1 : forall {R} (g : rng_ops R) fuel st k msg msg',
  rng_ok g -> wf_pub k -> length msg = length msg' ->
  zeros_of (pkcs1v15_encrypt g fuel st k msg) = zeros_of (pkcs1v15_encrypt g fuel st k msg') ->
  trace (l_pkcs1v15_encrypt g fuel st k msg) = trace (l_pkcs1v15_encrypt g fuel st k msg').
Proof. exact @pkcs1_encrypt_trace. Qed.

(** OAEP: not even the random seed shows. *)
Theorem C69_oaep : forall {R} (g : rng_ops R) st st' k msg msg' dg mg label,
  rng_ok g -> wf_pub k -> length msg = length msg' -> fills_alike g st st' (digest_output_size dg) ->
  zeros_of (oaep_api_encrypt g st k msg dg mg label) = zeros_of (oaep_api_encrypt g st' k msg' dg mg label) ->
  trace (l_oaep_api_encrypt g st k msg dg mg label) = trace (l_oaep_api_encrypt g st' k msg' dg mg label).
Proof. exact @oaep_api_encrypt_trace. Qed.

Theorem C69_oaep_digest : forall {R} (g : rng_ops R) hd hm st st' k msg msg' label,
  rng_ok g -> wf_pub k -> length msg = length msg' -> fills_alike g st st' (h_size hd) ->
  zeros_of (oaep_api_encrypt_digest g hd hm st k msg label)
  = zeros_of (oaep_api_encrypt_digest g hd hm st' k msg' label) ->
  trace (l_oaep_api_encrypt_digest g hd hm st k msg label)
  = trace (l_oaep_api_encrypt_digest g hd hm st' k msg' label).
Proof. exact @oaep_api_encrypt_digest_trace. Qed.

(** PKCS#1 v1.5: the random padding does show, because zero octets are drawn again. *)
Theorem C69_pkcs1_seed_refuted : exists k st st' msg,
  wf_pub k /\ zeros_of (pkcs1v15_encrypt count_rng 5 st k msg)
              = zeros_of (pkcs1v15_encrypt count_rng 5 st' k msg) /\
  zeros_of (pkcs1v15_encrypt count_rng 5 st k msg) = Some 0%nat /\
  trace (l_pkcs1v15_encrypt count_rng 5 st k msg) <> trace (l_pkcs1v15_encrypt count_rng 5 st' k msg).
Proof.
  exists pub91, 254, 20, [x41]. split; [apply wf_pub91|]. do 2 (split; [vm_compute; reflexivity|]).
  vm_compute. discriminate.
Qed.

Example C69_case_pkcs1 :
  zeros_of (pkcs1v15_encrypt count_rng 5 254 pub91 [x41]) = Some 0%nat /\
  zeros_of (pkcs1v15_encrypt count_rng 5 254 pub91 [xff]) = Some 0%nat.
Proof. split; vm_compute; reflexivity. Qed.
Example C69_case_oaep : fills_alike count_rng 1 77 2 /\
  zeros_of (oaep_api_encrypt_digest count_rng toy_hash toy_hash 1 pub91 [x41; x42] None) = Some 0%nat /\
  zeros_of (oaep_api_encrypt_digest count_rng toy_hash toy_hash 77 pub91 [xff; xfe] None) = Some 0%nat.
Proof. split; [split; discriminate|]. split; vm_compute; reflexivity. Qed.

(** * C70: signing *)

Theorem C70_same_program : forall {R} (g : rng_ops R) fuel rng k prefix hashed,
  result (l_pkcs1v15_sign g fuel rng k prefix hashed) = pkcs1v15_sign g fuel rng k prefix hashed.
Proof. exact @rf_pkcs1_sign. Qed.
Theorem C70_same_program_pss : forall {R} (g : rng_ops R) fuel st bl k hashed sl dg,
  result (l_pss_sign g fuel st bl k hashed sl dg) = pss_sign g fuel st bl k hashed sl dg.
Proof. exact @rf_pss_sign. Qed.
Theorem C70_same_program_pss_digest : forall {R} (g : rng_ops R) hd fuel st bl k hashed sl,
  result (l_pss_sign_digest g hd fuel st bl k hashed sl) = pss_sign_digest g hd fuel st bl k hashed sl.
Proof. exact @rf_pss_sign_digest. Qed.

(** Neither the private key nor the hash shows beyond the leading zero octets of the
    signature, which is public. *)
Theorem C70_pkcs1 : forall {R} (g : rng_ops R) fuel rng k k' prefix prefix' hashed hashed',
  (rng <> None -> rng_ok g) -> good_priv k -> good_priv k' -> same_shape k k' ->
  length prefix = length prefix' -> length hashed = length hashed' ->
  zeros_of (pkcs1v15_sign g fuel rng k prefix hashed)
  = zeros_of (pkcs1v15_sign g fuel rng k' prefix' hashed') ->
  trace (l_pkcs1v15_sign g fuel rng k prefix hashed)
  = trace (l_pkcs1v15_sign g fuel rng k' prefix' hashed').
Proof. exact @pkcs1_sign_trace. Qed.

Theorem C70_pss : forall {R} (g : rng_ops R) hd fuel st bl k k' hashed hashed' sl,
  rng_ok g -> (0 < h_size hd)%nat -> good_priv k -> good_priv k' -> same_shape k k' ->
  uprec (pk_n (sk_pub k)) < 2 ^ 32 -> length hashed = length hashed' ->
  zeros_of (pss_sign g fuel st bl k hashed sl (digest_new hd))
  = zeros_of (pss_sign g fuel st bl k' hashed' sl (digest_new hd)) ->
  trace (l_pss_sign g fuel st bl k hashed sl (digest_new hd))
  = trace (l_pss_sign g fuel st bl k' hashed' sl (digest_new hd)).
Proof. exact @pss_sign_trace. Qed.

Theorem C70_pss_digest : forall {R} (g : rng_ops R) hd fuel st bl k k' hashed hashed' sl,
  rng_ok g -> (0 < h_size hd)%nat -> good_priv k -> good_priv k' -> same_shape k k' ->
  uprec (pk_n (sk_pub k)) < 2 ^ 32 -> length hashed = length hashed' ->
  zeros_of (pss_sign_digest g hd fuel st bl k hashed sl)
  = zeros_of (pss_sign_digest g hd fuel st bl k' hashed' sl) ->
  trace (l_pss_sign_digest g hd fuel st bl k hashed sl)
  = trace (l_pss_sign_digest g hd fuel st bl k' hashed' sl).
Proof. exact @pss_sign_digest_trace. Qed.

(** With the salt given: nor does the salt. *)
Theorem C70_pss_salt : forall {R} (g : rng_ops R) hd fuel rng k k' hashed hashed' salt salt',
  (rng <> None -> rng_ok g) -> (0 < h_size hd)%nat -> good_priv k -> good_priv k' -> same_shape k k' ->
  uprec (pk_n (sk_pub k)) < 2 ^ 32 -> length hashed = length hashed' -> length salt = length salt' ->
  zeros_of (sign_pss_with_salt_digest g hd fuel rng k hashed salt)
  = zeros_of (sign_pss_with_salt_digest g hd fuel rng k' hashed' salt') ->
  trace (l_sign_pss_with_salt_digest g hd fuel rng k hashed salt)
  = trace (l_sign_pss_with_salt_digest g hd fuel rng k' hashed' salt').
Proof. exact @sign_pss_digest_trace. Qed.

Example C70_case_pkcs1 :
  zeros_of (pkcs1v15_sign count_rng 5 (Some 3) key91_plain [] [x42]) = Some 0%nat /\
  zeros_of (pkcs1v15_sign count_rng 5 (Some 3) key91_alt [] [x99]) = Some 0%nat.
Proof. split; vm_compute; reflexivity. Qed.
Example C70_case_pss :
  zeros_of (pss_sign_digest count_rng toy_hash 5 40 true key91_plain [x37; x70] 2) = Some 0%nat /\
  zeros_of (pss_sign_digest count_rng toy_hash 5 40 true key91_alt [x77; x78] 2) = Some 0%nat.
Proof. split; vm_compute; reflexivity. Qed.

(** * C71: computing the CRT values *)

Theorem C71_same_program : forall k, result (l_precompute k) = precompute k.
Proof. exact rf_precompute. Qed.

(** The private exponent does not show. *)
Theorem C71_exponent : forall k k', sk_pre k = None -> sk_pre k' = None ->
  sk_primes k = sk_primes k' -> uprec (sk_d k) = uprec (sk_d k') ->
  trace (l_precompute k) = trace (l_precompute k').
Proof. exact precompute_trace_d. Qed.

(** The primes may: two valid keys with different first or second primes never have the
    same trace, because of the variable-time divisions by p-1 and q-1. *)
Theorem C71_reveals_primes : forall k k' p q rest p' q' rest',
  good_priv k -> good_priv k' -> primes_fit k -> primes_fit k' -> sk_pre k = None -> sk_pre k' = None ->
  sk_primes k = p :: q :: rest -> sk_primes k' = p' :: q' :: rest' ->
  trace (l_precompute k) = trace (l_precompute k') -> uval p = uval p' /\ uval q = uval q'.
Proof. exact precompute_leaks. Qed.

Theorem C71_oblivious_refuted : exists k k',
  good_priv k /\ good_priv k' /\ same_shape k k' /\
  trace (l_precompute k) <> trace (l_precompute k').
Proof.
  exists key91_plain, key91_alt. split; [apply good91_plain|]. split; [apply good91_alt|].
  split; [apply shape91|]. vm_compute. discriminate.
Qed.

Example C71_case_fit : primes_fit key91_plain /\ primes_fit key91_alt.
Proof. split; intros p [<-|[<-|[]]]; vm_compute; discriminate. Qed.
Example C71_case_exponent :
  let k' := mkPriv pub91 (mkU 3681419383 128) ps91 None in
  uval (sk_d k') <> uval (sk_d key91_plain) /\
  trace (l_precompute k') = trace (l_precompute key91_plain) /\
  length (trace (l_precompute k')) = 17%nat.
Proof. split; [vm_compute; discriminate|]. split; vm_compute; reflexivity. Qed.

Print Assumptions C66_same_program.
Print Assumptions C66_padding_check.
Print Assumptions C66_decrypt.
Print Assumptions C66_reveals_zero_octets.
Print Assumptions C66_uniform_rejection_refuted.
Print Assumptions C67_same_program.
Print Assumptions C67_same_program_digest.
Print Assumptions C67_padding_check.
Print Assumptions C67_padding_check_digest.
Print Assumptions C67_decrypt.
Print Assumptions C67_decrypt_digest.
Print Assumptions C67_reveals_zero_octets.
Print Assumptions C67_reveals_zero_octets_digest.
Print Assumptions C67_uniform_rejection_refuted.
Print Assumptions C68_same_program.
Print Assumptions C68_simulated.
Print Assumptions C68_checked.
Print Assumptions C69_same_program.
Print Assumptions C69_same_program_oaep.
Print Assumptions C69_same_program_oaep_digest.
Print Assumptions C69_pkcs1.
Print Assumptions C69_oaep.
Print Assumptions C69_oaep_digest.
Print Assumptions C69_pkcs1_seed_refuted.
Print Assumptions C70_same_program.
Print Assumptions C70_same_program_pss.
Print Assumptions C70_same_program_pss_digest.
Print Assumptions C70_pkcs1.
Print Assumptions C70_pss.
Print Assumptions C70_pss_digest.
Print Assumptions C70_pss_salt.
Print Assumptions C71_same_program.
Print Assumptions C71_exponent.
Print Assumptions C71_reveals_primes.
Print Assumptions C71_oblivious_refuted.
