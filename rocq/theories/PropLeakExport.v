(** What an observer can tell of exporting and of comparing private keys: C95, C96. *)
From Coq Require Import ZArith List Bool Lia.
From Coq Require Import Init.Byte.
From Verif Require Import Base Bigint SpecRFC SpecDer SpecKey SpecExport MHash MRsa MKey MApi MDer MEncoding
  MLeak MLeakKey MLeakExport KeyDefs PLeakExport KeyExamples.
Import ListNotations.
Local Open Scope Z_scope.

(** * C95: what exporting a key shows *)

(** The traced export is the export. *)
Theorem C95_same_program : forall mx k, result (l_to_pkcs8_der mx k) = to_pkcs8_der mx k.
Proof. exact rf_export. Qed.

(** For keys stored at the same widths, two exports leave the same trace exactly if each number
    of one document takes as many octets as its counterpart, written plainly and as a DER integer:
    the sizes of the numbers show, their values do not. *)
Theorem C95_exact : forall mx k k' p q p' q' c c' doc doc',
  two_primes k p q -> two_primes k' p' q' ->
  coefficient_of (uval p) (uval q) c -> coefficient_of (uval p') (uval q') c' ->
  same_widths k k' p q p' q' ->
  to_pkcs8_der mx k = Ok doc -> to_pkcs8_der mx k' = Ok doc' ->
  (trace (l_to_pkcs8_der mx k) = trace (l_to_pkcs8_der mx k') <->
   map looks (exported k p q c) = map looks (exported k' p' q' c')).
Proof.
  intros mx k k' p q p' q' c c' doc doc' K K' C C' W E E'. split.
  - exact (export_shows mx k k' p q p' q' c c' doc doc' K K' C C' E E').
  - exact (export_hides mx k k' p q p' q' c c' doc doc' K K' C C' W E E').
Qed.

(** The numbers of a document that an observer of the export does not know: here the private
    exponent, reduced (as key generation makes it) or not. *)
Definition with_d (k : privkey) (d : Z) : privkey := mkPriv (sk_pub k) (mkU d 64) (sk_primes k) None.
Definition d64_small : Z := 1322017516220049253.
Definition d64_large : Z := 13917941331079883213.

(** So export is not oblivious, even for a known modulus and known primes: two valid private keys
    for one public key are told apart. *)
Theorem C95_oblivious_refuted : exists mx k k' doc doc',
  sk_pub k = sk_pub k' /\ sk_primes k = sk_primes k' /\ validate k = Ok tt /\ validate k' = Ok tt /\
  uprec (sk_d k) = uprec (sk_d k') /\ to_pkcs8_der mx k = Ok doc /\ to_pkcs8_der mx k' = Ok doc' /\
  trace (l_to_pkcs8_der mx k) <> trace (l_to_pkcs8_der mx k').
Proof.
  exists (2 ^ 28), key64, (with_d key64 d64_large). do 2 eexists.
  split; [reflexivity|]. split; [reflexivity|]. split; [vm_compute; reflexivity|].
  split; [vm_compute; reflexivity|]. split; [reflexivity|]. split; [vm_compute; reflexivity|].
  split; [vm_compute; reflexivity|]. vm_compute. discriminate.
Qed.

(** Two keys that are not told apart, though their private exponents differ. *)
Example C95_case :
  let k := key64 in let k' := with_d key64 d64_small in
  let p := nth 0 (sk_primes k) n91 in let q := nth 1 (sk_primes k) n91 in let c := 160503372 in
  two_primes k p q /\ two_primes k' p q /\ coefficient_of (uval p) (uval q) c /\ same_widths k k' p q p q /\
  is_ok (to_pkcs8_der (2 ^ 28) k) = true /\ is_ok (to_pkcs8_der (2 ^ 28) k') = true /\
  validate k = Ok tt /\ validate k' = Ok tt /\ uval (sk_d k) <> uval (sk_d k') /\
  map looks (exported k p q c) = map looks (exported k' p q c).
Proof.
  cbv zeta.
  assert (W : forall v, 0 <= v < 2 ^ 64 -> wf_uint (mkU v 64)) by (intros v H; split; [exact H|split; [cbn; lia|reflexivity]]).
  assert (T : forall d, 0 <= d < 2 ^ 64 -> two_primes (with_d key64 d) (mkU 3534399269 64) (mkU 3563808971 64)).
  { intros d H. split; [apply (W 12595923821958042199); lia|]. split; [apply (W 65537); lia|].
    split; [apply W; exact H|]. split; [reflexivity|]. split; apply W; lia. }
  split; [apply (T 7619979423649966233); lia|]. split; [apply (T d64_small); unfold d64_small; lia|].
  split; [split; [split; [vm_compute; discriminate|vm_compute; reflexivity]|vm_compute; reflexivity]|].
  split; [repeat (split; [reflexivity|]); reflexivity|].
  split; [vm_compute; reflexivity|]. split; [vm_compute; reflexivity|]. split; [vm_compute; reflexivity|].
  split; [vm_compute; reflexivity|]. split; [vm_compute; discriminate|]. vm_compute. reflexivity.
Qed.

(** * C96: what comparing private keys shows *)

(** The traced comparison is the comparison. *)
Theorem C96_same_program : forall a b, result (l_priv_eq a b) = Ok (priv_eqb a b).
Proof. exact rf_priv_eq. Qed.

(** For given widths a comparison shows the position of the first number in which the keys
    differ (modulus, public exponent, private exponent, primes), and nothing else. *)
Theorem C96_exact : forall a b a' b',
  alike_keys a a' -> alike_keys b b' -> length (sk_primes a) = length (sk_primes b) ->
  (trace (l_priv_eq a b) = trace (l_priv_eq a' b') <->
   first_difference (secret_values a) (secret_values b) = first_difference (secret_values a') (secret_values b')).
Proof. exact compare_iff. Qed.

(** In particular nobody can tell by how much, or in which octets, a guess of the private
    exponent is wrong. *)
Theorem C96_guesses : forall k g g',
  uprec (sk_d g) = uprec (sk_d g') -> sk_pub g = sk_pub k -> sk_pub g' = sk_pub k ->
  sk_primes g = sk_primes k -> sk_primes g' = sk_primes k ->
  uval (sk_d g) <> uval (sk_d k) -> uval (sk_d g') <> uval (sk_d k) ->
  trace (l_priv_eq g k) = trace (l_priv_eq g' k).
Proof.
  intros k g g' W P P' S S' D D'.
  assert (F : forall l : list uint, Forall2 (fun p p' => uprec p = uprec p') l l)
    by (induction l; constructor; auto).
  apply compare_iff.
  - unfold alike_keys. rewrite P, P', S, S'. auto.
  - unfold alike_keys. auto.
  - rewrite S. reflexivity.
  - unfold secret_values. rewrite P, P'. cbn [first_difference].
    rewrite !Z.eqb_refl, (proj2 (Z.eqb_neq _ _) D), (proj2 (Z.eqb_neq _ _) D'). reflexivity.
Qed.

(** But it does show that it is the private exponent in which two keys for one public key
    differ. *)
Theorem C96_constant_refuted : exists a b b',
  alike_keys b b' /\ validate a = Ok tt /\ validate b = Ok tt /\ validate b' = Ok tt /\
  sk_pub a = sk_pub b /\ sk_pub a = sk_pub b' /\ priv_eqb a b = false /\ priv_eqb a b' = false /\
  trace (l_priv_eq a b) <> trace (l_priv_eq a b').
Proof.
  exists key64, (with_d key64 d64_small), (mkPriv (sk_pub key64) (sk_d key64) (rev (sk_primes key64)) None).
  split. { split; [reflexivity|]. split; [reflexivity|]. split; [reflexivity|]. vm_compute. repeat constructor. }
  split; [vm_compute; reflexivity|]. split; [vm_compute; reflexivity|]. split; [vm_compute; reflexivity|].
  split; [reflexivity|]. split; [reflexivity|]. split; [vm_compute; reflexivity|]. split; [vm_compute; reflexivity|].
  vm_compute. discriminate.
Qed.

Example C96_case :
  let a := key64 in let b := with_d key64 d64_small in let b' := with_d key64 d64_large in
  alike_keys b b' /\ length (sk_primes a) = length (sk_primes b) /\
  first_difference (secret_values a) (secret_values b) = 2%nat /\
  first_difference (secret_values a) (secret_values b') = 2%nat /\
  first_difference (secret_values a) (secret_values a) = 5%nat /\
  priv_eqb a b = false /\ priv_eqb a a = true.
Proof.
  cbv zeta. split. { split; [reflexivity|]. split; [reflexivity|]. split; [reflexivity|]. vm_compute. repeat constructor. }
  repeat (split; [vm_compute; reflexivity|]). vm_compute. reflexivity.
Qed.

Print Assumptions C95_same_program.
Print Assumptions C95_exact.
Print Assumptions C95_oblivious_refuted.
Print Assumptions C96_same_program.
Print Assumptions C96_exact.
Print Assumptions C96_guesses.
Print Assumptions C96_constant_refuted.
