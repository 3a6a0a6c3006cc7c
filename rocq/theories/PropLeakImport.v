(** What an observer can tell of importing a private key document: C98.  [mx] is the der
    dependency's limit on lengths, [tl] which optional fields it accepts (MEncoding.v). *)
From Coq Require Import ZArith List Bool Lia.
From Coq Require Import Init.Byte.
From Verif Require Import Base Bigint SpecRFC SpecDer SpecKey SpecExport MHash MRsa MKey MApi MDer MEncoding
  MLeak MLeakKey MLeakImport KeyDefs PLeakKey PLeakImport PCodec KeyExamples PropLeakExport.
Import ListNotations.
Local Open Scope Z_scope.

(** The traced import is the import. *)
Theorem C98_same_program : forall mx tl l, result (l_from_pkcs8_der mx tl l) = from_pkcs8_der mx tl l.
Proof. exact rf_import. Qed.

(** The primes of a key can be read off the trace its import leaves, whatever the document. *)
Theorem C98_reveals_primes : exists read : list event -> list Z, forall mx tl l k,
  from_pkcs8_der mx tl l = Ok k -> read (trace (l_from_pkcs8_der mx tl l)) = map uval (sk_primes k).
Proof. exact (ex_intro _ read_primes import_reads). Qed.

(** Of the numbers that are not primes, only sizes show: for documents of one public key that are
    accepted, the traces agree exactly if the primes are the same, in the same order, and the
    private exponent and the CRT numbers take as many octets. *)
Theorem C98_exact : forall mx tl, mx < 2 ^ 32 -> forall version v optional n e d p q dp dq qi d' p' q' dp' dq' qi' k k',
  v = rsa_AlgorithmIdentifier \/ v = pss_AlgorithmIdentifier -> version = 0 \/ version = 1 ->
  tl version optional = true ->
  Forall (fun z => 0 <= z) [n; e; d; p; q; dp; dq; qi] -> Forall (fun z => 0 <= z) [d'; p'; q'; dp'; dq'; qi'] ->
  let doc := der (OneAsymmetricKey version v (der (RSAPrivateKey n e d p q dp dq qi)) optional) in
  let doc' := der (OneAsymmetricKey version v (der (RSAPrivateKey n e d' p' q' dp' dq' qi')) optional) in
  Z.of_nat (length doc) <= mx -> Z.of_nat (length doc') <= mx ->
  from_pkcs8_der mx tl doc = Ok k -> from_pkcs8_der mx tl doc' = Ok k' ->
  (trace (l_from_pkcs8_der mx tl doc) = trace (l_from_pkcs8_der mx tl doc') <->
   (p = p' /\ q = q' /\ map looks [d; dp; dq; qi] = map looks [d'; dp'; dq'; qi'])).
Proof.
  intros mx tl Hmx ver v opt n e d p q dp dq qi d' p' q' dp' dq' qi' k k' Hv Hver T P P' doc doc' F F' E E'.
  pose proof P as P0. pose proof P' as P0'. rewrite !Forall_cons_iff in P0, P0'.
  destruct P0 as (Pn & Pe & _). destruct P0' as (Pd & Pp & Pq & Pdp & Pdq & Pqi & _).
  assert (Q : Forall (fun z => 0 <= z) [n; e; d'; p'; q'; dp'; dq'; qi']) by (repeat constructor; assumption).
  assert (G : forall d p q dp dq qi k, Forall (fun z => 0 <= z) [n; e; d; p; q; dp; dq; qi] ->
     let doc := der (OneAsymmetricKey ver v (der (RSAPrivateKey n e d p q dp dq qi)) opt) in
     Z.of_nat (length doc) <= mx -> from_pkcs8_der mx tl doc = Ok k ->
     read_primes (trace (l_from_pkcs8_der mx tl doc)) = [p; q]).
  { clear - Hmx Hv Hver T. cbv zeta. intros d p q dp dq qi k P F E. rewrite (import_reads _ _ _ _ E).
    exact (import_primes mx Hmx tl ver v opt n e d p q dp dq qi k Hv Hver T P F E). }
  split.
  - intros X. pose proof (G _ _ _ _ _ _ _ P F E) as R. pose proof (G _ _ _ _ _ _ _ Q F' E') as R'. fold doc in R. fold doc' in R'.
    rewrite X in R. rewrite R in R'. injection R' as -> ->. split; [reflexivity|]. split; [reflexivity|].
    pose proof (import_shows mx Hmx tl ver v opt n e d p' q' dp dq qi n e d' p' q' dp' dq' qi' Hv Hver T P Q F F' X) as L.
    cbn [map] in *. congruence.
  - intros (-> & -> & L).
    apply (import_hides mx Hmx tl ver v opt n e d p' q' dp dq qi d' dp' dq' qi' k k' Hv Hver T P); auto.
Qed.

(** A document for the example key, with private exponent d *)
Definition doc64 (d : Z) : list byte :=
  der (OneAsymmetricKey 0 rsa_AlgorithmIdentifier
         (der (RSAPrivateKey (uval n64) (uval e64) d (uval p64) (uval q64) 1 1 160503372)) []).

(** So import is not oblivious, even for a known modulus and known primes. *)
Theorem C98_oblivious_refuted : exists mx tl d d' k k',
  from_pkcs8_der mx tl (doc64 d) = Ok k /\ from_pkcs8_der mx tl (doc64 d') = Ok k' /\
  sk_pub k = sk_pub k' /\ sk_primes k = sk_primes k' /\
  trace (l_from_pkcs8_der mx tl (doc64 d)) <> trace (l_from_pkcs8_der mx tl (doc64 d')).
Proof.
  exists (2 ^ 28), (fun _ _ => true), d64_small, d64_large. do 2 eexists.
  split; [vm_compute; reflexivity|]. split; [vm_compute; reflexivity|]. split; [reflexivity|]. split; [reflexivity|].
  vm_compute. discriminate.
Qed.

(** Two documents that are not told apart, though their private exponents differ, and two that are. *)
Example C98_case :
  let mx := 2 ^ 28 in let tl := fun (_ : Z) (_ : list byte) => true in
  (forall d, In d [uval d64; d64_small; d64_large] ->
     is_ok (from_pkcs8_der mx tl (doc64 d)) = true /\ Z.of_nat (length (doc64 d)) <= mx) /\
  uval d64 <> d64_small /\ looks (uval d64) = looks d64_small /\ looks (uval d64) <> looks d64_large /\
  read_primes (trace (l_from_pkcs8_der mx tl (doc64 d64_small))) = [uval p64; uval q64].
Proof.
  cbv zeta. split.
  { cbn [In]. intros d [<-|[<-|[<-|[]]]]; (split; [vm_compute; reflexivity|vm_compute; discriminate]). }
  split; [vm_compute; discriminate|]. split; [vm_compute; reflexivity|]. split; [vm_compute; discriminate|].
  vm_compute. reflexivity.
Qed.

Print Assumptions C98_same_program.
Print Assumptions C98_reveals_primes.
Print Assumptions C98_exact.
Print Assumptions C98_oblivious_refuted.
