(** Randomness: C78 (blinding hides the input), C79 (what is asked of the random source),
    C80 (no padding string, seed or salt is favoured). *)
From Coq Require Import ZArith List Bool Lia.
From Coq Require Import Init.Byte.
From Verif Require Import Base Bigint SpecRFC SpecKey SpecRng SpecBlind SpecRequests BytesLemmas BigintLemmas MHash MPkcs1
  MOaep MPss MRsa MKey MApi MWrap MLeak MLeakEnc MBlind KeyDefs.
From Verif Require Import PRsa PApi PEnc PSign PWrap PBlind PRequests PUniform PUniform2 KeyExamples PropWrap PropLeak PropMisc.
Import ListNotations.
Local Open Scope Z_scope.

(** * C78: blinding hides the ciphertext from the private exponentiation *)

(** [private_operand] is the number the private exponent is applied to and
    [private_finish] everything from there on: together they are the private-key
    operation. *)
Theorem C78_operation : forall {R} (g : rng_ops R) fuel rng k c,
  rsa_decrypt g fuel rng k c =
  if uleb (pk_n (sk_pub k)) c then Err Decryption
  else let* (x, ir) := private_operand g fuel rng k c in private_finish k x ir.
Proof. exact @private_path. Qed.

(** One draw v below n: an invertible v makes the number c * v^e mod n, 0 leaves it c, and
    any other v is drawn again. *)
Theorem C78_one_draw : forall {R} (g : rng_ops R) f st st' v k c,
  rng_ok g -> good_priv k -> wf_uint c -> uprec c = uprec (pk_n (sk_pub k)) ->
  rng_mod g st (uval (pk_n (sk_pub k))) = (Some v, st') ->
  let n := uval (pk_n (sk_pub k)) in
  let e := uval (pk_e (sk_pub k)) in
  (v = 0 -> exists ri, private_operand g (S f) (Some st) k c
            = Ok (mkU (uval c mod n) (uprec (sk_d k)), Some ri)) /\
  (Z.gcd v n = 1 -> exists ri, private_operand g (S f) (Some st) k c
            = Ok (mkU ((uval c * v ^ e) mod n) (uprec (sk_d k)), Some ri)) /\
  (v <> 0 -> Z.gcd v n <> 1 ->
   private_operand g (S f) (Some st) k c = private_operand g f (Some st') k c).
Proof. exact @operand_draw. Qed.

(** Two inputs that have the same greatest common divisor with n (in particular: two
    invertible ones) cannot be told apart by the number exponentiated: what the one gives
    with any random source, the other gives with that source multiplied by a fixed
    invertible t, which permutes the numbers below n. *)
Theorem C78_hidden : forall k c c',
  good_priv k -> wf_uint c -> wf_uint c' ->
  uprec c = uprec (pk_n (sk_pub k)) -> uprec c' = uprec (pk_n (sk_pub k)) ->
  Z.gcd (uval c) (uval (pk_n (sk_pub k))) = Z.gcd (uval c') (uval (pk_n (sk_pub k))) ->
  exists t, Z.gcd t (uval (pk_n (sk_pub k))) = 1 /\
  forall R (g : rng_ops R) fuel st, rng_ok g -> never_zero (uval (pk_n (sk_pub k))) g ->
  operand_value g fuel (Some st) k c =
  operand_value (scaled (uval (pk_n (sk_pub k))) t g) fuel (Some st) k c'.
Proof. exact hiding. Qed.

(** Counting the draws below n: every invertible number b is reached from an invertible c
    by exactly one draw, except that c itself is reached by two (1 and 0). *)
Theorem C78_counts : forall k c b,
  good_priv k -> wf_uint c -> uprec c = uprec (pk_n (sk_pub k)) ->
  let n := uval (pk_n (sk_pub k)) in
  uval c < n -> 0 <= b < n -> Z.gcd (uval c) n = 1 -> Z.gcd b n = 1 ->
  length (filter (operand_is k c b) (all_draws n)) = (if b =? uval c then 2%nat else 1%nat).
Proof. exact counting. Qed.

(** What is not hidden: the greatest common divisor with n. *)
Theorem C78_not_hidden : forall {R} (g : rng_ops R) fuel st k c x,
  rng_ok g -> good_priv k -> wf_uint c -> uprec c = uprec (pk_n (sk_pub k)) ->
  operand_value g fuel (Some st) k c = Ok x ->
  Z.gcd (uval x) (uval (pk_n (sk_pub k))) = Z.gcd (uval c) (uval (pk_n (sk_pub k))).
Proof. exact @operand_gcd. Qed.

(** So a uniform source does not make the number uniform: the input itself is twice as
    likely as any other invertible number. *)
Theorem C78_uniform_refuted : exists k c b b',
  good_priv k /\ wf_uint c /\ uprec c = uprec (pk_n (sk_pub k)) /\
  Z.gcd (uval c) (uval (pk_n (sk_pub k))) = 1 /\
  Z.gcd b (uval (pk_n (sk_pub k))) = 1 /\ Z.gcd b' (uval (pk_n (sk_pub k))) = 1 /\
  length (filter (operand_is k c b) (all_draws (uval (pk_n (sk_pub k))))) <>
  length (filter (operand_is k c b') (all_draws (uval (pk_n (sk_pub k))))).
Proof.
  exists key91_plain, (mkU 2 128), 2, 1.
  assert (W : wf_uint (mkU 2 128)) by (repeat split; vm_compute; congruence).
  assert (G2 : Z.gcd 2 (uval (pk_n (sk_pub key91_plain))) = 1) by (vm_compute; reflexivity).
  assert (G1 : Z.gcd 1 (uval (pk_n (sk_pub key91_plain))) = 1) by (vm_compute; reflexivity).
  assert (N : 2 < uval (pk_n (sk_pub key91_plain))) by (vm_compute; reflexivity).
  split; [apply good91_plain|]. split; [exact W|]. split; [reflexivity|]. split; [exact G2|].
  split; [exact G2|]. split; [exact G1|].
  rewrite !(counting key91_plain (mkU 2 128)); auto using good91_plain; cbn [uval]; try discriminate;
    clear - N; lia.
Qed.

(** And a run that blinds may exponentiate the ciphertext as it came. *)
Theorem C78_always_changed_refuted : exists k c x,
  good_priv k /\ wf_uint c /\ uprec c = uprec (pk_n (sk_pub k)) /\
  operand_value (draws 0) 1 (Some tt) k c = Ok x /\ uval x = uval c.
Proof.
  exists key91_plain, (mkU 77 128), (mkU 77 128). split; [apply good91_plain|].
  split; [repeat split; vm_compute; congruence|]. split; [reflexivity|].
  split; vm_compute; reflexivity.
Qed.

Definition n91z : Z := uval (pk_n (sk_pub key91_plain)).

Lemma draws_nonzero n v : 0 < v < n -> never_zero n (draws v).
Proof.
  intros H st st'. cbn. rewrite Z.mod_small by lia. intros E. injection E as E. lia.
Qed.

Example C78_case :
  operand_value (draws 3) 1 (Some tt) key91_plain (mkU 5 128) = Ok (mkU (5 * 3 ^ 7) 128) /\
  never_zero n91z (draws 3) /\ rng_ok (draws 3) /\
  Z.gcd 5 n91z = Z.gcd 1234567 n91z /\
  (* a multiple of a prime factor is no blinding factor *)
  operand_value (draws 1073747321) 4 (Some tt) key91_plain (mkU 5 128) = OutOfFuel /\
  (* the ciphertext 0 is exponentiated as it is *)
  operand_value (draws 3) 1 (Some tt) key91_plain (mkU 0 128) = Ok (mkU 0 128).
Proof.
  split; [vm_compute; reflexivity|]. split; [apply draws_nonzero; split; reflexivity|].
  split; [apply draws_ok|]. repeat split; vm_compute; reflexivity.
Qed.

(** * C79: what is asked of the random source *)

(** Decryption and deterministic signing: nothing without blinding; with it, draws below n
    until one is usable, and nothing else. *)
Theorem C79_blinded_operations : forall {R} (g : rng_ops R) fuel rng k,
  wf_pub (sk_pub k) -> 1 < uval (pk_n (sk_pub k)) ->
  let n := uval (pk_n (sk_pub k)) in
  let asked {A} (m : leaky A) := asks (blinding_shape fuel rng n) (blinding_exact g fuel rng n) m in
  (forall c, asked (l_rsa_decrypt_and_check g fuel k rng c)) /\
  (forall ct, asked (l_pkcs1v15_decrypt g fuel rng k ct)) /\
  (forall ct dg mg label, asked (l_oaep_api_decrypt g fuel rng k ct dg mg label)) /\
  (forall hd hm ct label, asked (l_oaep_api_decrypt_digest g hd hm fuel rng k ct label)) /\
  (forall prefix hashed, asked (l_pkcs1v15_sign g fuel rng k prefix hashed)).
Proof.
  intros R g fuel rng k W H1 n asked. split; [|split; [|split; [|split]]]; intros.
  - apply asks_check; auto.
  - apply asks_pkcs1_decrypt; auto.
  - apply asks_oaep_decrypt; auto.
  - apply asks_oaep_decrypt_digest; auto.
  - apply asks_pkcs1_sign; auto.
Qed.

(** OAEP encryption: one request, for as many octets as the digest has. *)
Theorem C79_oaep_encryption : forall {R} (g : rng_ops R) st pk msg dg mg hd hm label,
  asks (seed_shape (digest_output_size dg)) (seed_exact (digest_output_size dg))
    (l_oaep_api_encrypt g st pk msg dg mg label) /\
  asks (seed_shape (h_size hd)) (seed_exact (h_size hd))
    (l_oaep_api_encrypt_digest g hd hm st pk msg label).
Proof. intros. split; [apply asks_oaep_encrypt|apply asks_oaep_encrypt_digest]. Qed.

(** PKCS#1 v1.5 encryption: one request for the padding string, then single octets to
    replace zeros. *)
Theorem C79_pkcs1v15_encryption : forall {R} (g : rng_ops R) fuel st pk msg,
  let w := (key_size pk - length msg - 3)%nat in
  asks (padding_shape w) (padding_exact g st w) (l_pkcs1v15_encrypt g fuel st pk msg).
Proof. exact @asks_pkcs1_encrypt. Qed.

(** PSS signing: always one request for the salt first, before anything is checked; then
    blinding if it is on. *)
Theorem C79_pss_signing : forall {R} (g : rng_ops R) fuel st blind k h sl dg hd,
  wf_pub (sk_pub k) -> 1 < uval (pk_n (sk_pub k)) ->
  let n := uval (pk_n (sk_pub k)) in
  let asked (m : leaky (list byte)) :=
    asks (fun l => l = [EFill sl] \/ salt_asked g (fun r => blinding_shape fuel r n) blind st sl l)
         (salt_asked g (fun r => blinding_exact g fuel r n) blind st sl) m in
  asked (l_pss_sign g fuel st blind k h sl dg) /\ asked (l_pss_sign_digest g hd fuel st blind k h sl).
Proof.
  intros R g fuel st blind k h sl dg hd W H1 n asked. split.
  - apply asks_pss_sign; auto.
  - apply asks_pss_sign_digest; auto.
Qed.

(** "As many octets as the padding string is long" is not all PKCS#1 v1.5 encryption may ask for. *)
Theorem C79_single_request_refuted : exists pk msg (t : list byte),
  is_ok (public_encrypt tape 5 t pk PadPkcs1v15 msg) = true /\
  reqs (l_pkcs1v15_encrypt tape 5 t pk msg) = [EFill 8; EFill 1; EFill 1].
Proof.
  exists pub91, [x41], [x01;x02;x03;x00;x05;x06;x07;x08;x00;x09]. split; vm_compute; reflexivity.
Qed.

Example C79_case :
  wf_pub pub91 /\ 1 < uval (pk_n pub91) /\
  reqs (l_pkcs1v15_sign (draws 3) 5 (Some tt) key91_plain [] [x41]) = [ERandMod n91z] /\
  is_ok (result (l_pkcs1v15_sign (draws 3) 5 (Some tt) key91_plain [] [x41])) = true /\
  reqs (l_pkcs1v15_sign (draws 3) 5 None key91_plain [] [x41]) = [] /\
  reqs (l_pkcs1v15_sign (draws 1073747321) 3 (Some tt) key91_plain [] [x41])
  = [ERandMod n91z; ERandMod n91z; ERandMod n91z] /\
  reqs (l_oaep_api_encrypt (draws 3) tt pub91 [x68] (digest_new toy_hash) (digest_new toy_hash) None) = [EFill 2] /\
  reqs (l_pss_sign dead_rng 5 tt true key91_plain [] 2 (digest_new toy_hash)) = [EFill 2].
Proof. split; [apply wf_pub91|]. repeat (split; [vm_compute; reflexivity|]). vm_compute; reflexivity. Qed.

(** * C80: no padding string, seed or salt is favoured *)

(** Over all equally long inputs of octets (each taken once, as a uniform source would):
    two non-zero padding strings are used by equally many, and every one is used. *)
Theorem C80_padding : forall k f L PS PS' msg,
  good_priv k -> usable_key (sk_pub k) -> (length msg + 11 <= key_size (sk_pub k))%nat ->
  let w := (key_size (sk_pub k) - length msg - 3)%nat in
  length PS = w -> length PS' = w ->
  Forall (fun b => b <> x00) PS -> Forall (fun b => b <> x00) PS' ->
  let run t := public_encrypt tape f t (sk_pub k) PadPkcs1v15 msg in
  tapes_giving L run (pkcs1_ciphertext (sk_pub k) PS msg) =
  tapes_giving L run (pkcs1_ciphertext (sk_pub k) PS' msg) /\
  ((w <= L)%nat -> (0 < tapes_giving L run (pkcs1_ciphertext (sk_pub k) PS msg))%nat).
Proof. exact uniform_padding. Qed.

(** OAEP: every seed by the same number of them. *)
Theorem C80_seed : forall k f L hd hm label seed msg,
  good_priv k -> usable_key (sk_pub k) -> (0 < h_size hm)%nat ->
  Z.of_nat (length (label_bytes label)) < 2 ^ 61 ->
  (length msg + 2 * h_size hd + 2 <= key_size (sk_pub k))%nat -> length seed = h_size hd ->
  tapes_giving L (fun t => public_encrypt tape f t (sk_pub k) (PadOaep (oaep_of hd hm label)) msg)
    (oaep_ciphertext (sk_pub k) hd hm (label_bytes label) seed msg)
  = if (h_size hd <=? L)%nat then (256 ^ (L - h_size hd))%nat else 0%nat.
Proof. exact uniform_seed. Qed.

(** PSS: every salt by the same number of them. *)
Theorem C80_salt : forall k f L hd mh sl salt,
  good_priv k -> uprec (pk_n (sk_pub k)) < 2 ^ 32 -> (0 < h_size hd)%nat -> length mh = h_size hd ->
  (h_size hd + sl + 2 <= pss_em_len (em_bits (sk_pub k)))%nat -> length salt = sl ->
  tapes_giving L (fun t => private_sign_with_rng tape f t k (SigPss (mkPss false (digest_new hd) sl)) mh)
    (pss_signature k hd mh salt)
  = if (sl <=? L)%nat then (256 ^ (L - sl))%nat else 0%nat.
Proof. exact uniform_salt. Qed.

(** Different random strings give different results: equal ciphertexts have equal padding
    strings (seeds) and equal plaintexts, equal signatures of one digest equal salts. *)
Theorem C80_distinct : forall k hd hm,
  good_priv k -> (0 < h_size hd)%nat -> (0 < h_size hm)%nat ->
  let size := key_size (sk_pub k) in
  (forall PS PS' msg msg', (length msg + 11 <= size)%nat -> (length msg' + 11 <= size)%nat ->
    length PS = (size - length msg - 3)%nat -> length PS' = (size - length msg' - 3)%nat ->
    Forall (fun b => b <> x00) PS -> Forall (fun b => b <> x00) PS' ->
    pkcs1_ciphertext (sk_pub k) PS msg = pkcs1_ciphertext (sk_pub k) PS' msg' -> PS = PS' /\ msg = msg') /\
  (forall L L' s s' msg msg', length s = h_size hd -> length s' = h_size hd ->
    (length msg + 2 * h_size hd + 2 <= size)%nat -> (length msg' + 2 * h_size hd + 2 <= size)%nat ->
    oaep_ciphertext (sk_pub k) hd hm L s msg = oaep_ciphertext (sk_pub k) hd hm L' s' msg' ->
    s = s' /\ msg = msg' /\ h_fun hd L = h_fun hd L') /\
  (forall mh salt salt', length salt = length salt' ->
    (h_size hd + length salt + 2 <= pss_em_len (em_bits (sk_pub k)))%nat ->
    pss_signature k hd mh salt = pss_signature k hd mh salt' -> salt = salt').
Proof.
  intros k hd hm Hk Hd Hm size. split; [|split].
  - intros PS PS' msg msg' A B C D E F. apply ciphertext_inj; auto.
  - intros L L' s s' msg msg' A B C D. apply oaep_ciphertext_inj; auto.
  - intros mh salt salt' A B. apply pss_signature_inj; auto.
Qed.

(** A string with a zero octet in it is used by none. *)
Theorem C80_no_zero_octet : forall k f L PS msg,
  good_priv k -> usable_key (sk_pub k) -> (length msg + 11 <= key_size (sk_pub k))%nat ->
  length PS = (key_size (sk_pub k) - length msg - 3)%nat -> In x00 PS ->
  tapes_giving L (fun t => public_encrypt tape f t (sk_pub k) PadPkcs1v15 msg)
    (pkcs1_ciphertext (sk_pub k) PS msg) = 0%nat.
Proof. exact zero_padding. Qed.

Example C80_case :
  good_priv key91_plain /\ usable_key (sk_pub key91_plain) /\ key_size (sk_pub key91_plain) = 12%nat /\
  is_ok (public_encrypt tape 5 [x01;x02;x03;x00;x05;x06;x07;x08;x00;x09] pub91 PadPkcs1v15 [x41]) = true /\
  public_encrypt tape 5 [x01;x02;x03;x00;x05;x06;x07;x08;x00;x09] pub91 PadPkcs1v15 [x41] =
  Ok (pkcs1_ciphertext pub91 [x01;x02;x03;x09;x05;x06;x07;x08] [x41]) /\
  public_encrypt tape 5 [xaa;xbb;xcc] pub91 (PadOaep (oaep_of toy_hash toy_hash None)) [x68] =
  Ok (oaep_ciphertext pub91 toy_hash toy_hash [] [xaa;xbb] [x68]) /\
  private_sign_with_rng tape 5 [xaa;xbb;xcc] key91_plain (SigPss (mkPss false (digest_new toy_hash) 2)) [x0a;x0b]
  = Ok (pss_signature key91_plain toy_hash [x0a;x0b] [xaa;xbb]) /\
  (h_size toy_hash + 2 + 2 <= pss_em_len (em_bits (sk_pub key91_plain)))%nat.
Proof.
  assert (S : (h_size toy_hash + 2 + 2 <= pss_em_len (em_bits (sk_pub key91_plain)))%nat).
  { apply Nat.leb_le. vm_compute. reflexivity. }
  split; [apply good91_plain|]. split; [apply usable91|]. do 4 (split; [vm_compute; reflexivity|]).
  split; [|exact S]. rewrite sign_tape.
  - reflexivity.
  - apply good91_plain.
  - vm_compute. reflexivity.
  - cbn. lia.
  - reflexivity.
  - exact S.
Qed.

Print Assumptions C78_operation.
Print Assumptions C78_one_draw.
Print Assumptions C78_hidden.
Print Assumptions C78_counts.
Print Assumptions C78_not_hidden.
Print Assumptions C78_uniform_refuted.
Print Assumptions C78_always_changed_refuted.
Print Assumptions C79_blinded_operations.
Print Assumptions C79_oaep_encryption.
Print Assumptions C79_pkcs1v15_encryption.
Print Assumptions C79_pss_signing.
Print Assumptions C79_single_request_refuted.
Print Assumptions C80_padding.
Print Assumptions C80_seed.
Print Assumptions C80_salt.
Print Assumptions C80_distinct.
Print Assumptions C80_no_zero_octet.
