(** What an observer can tell of loading a key: C81. *)
From Coq Require Import ZArith List Bool Lia Znumtheory.
From Coq Require Import Init.Byte.
From Verif Require Import Base Bigint SpecRFC SpecKey MHash MRsa MGenerate MKey MApi
  MLeak MLeakKey KeyDefs PLeakRel PLeakKey KeyExamples PropLeak.
Import ListNotations.
Local Open Scope Z_scope.

(** * C81: what loading a key shows *)

(** The traced constructors are the constructors. *)
Theorem C81_same_program :
  (forall n e d ps, result (l_from_components n e d ps) = from_components n e d ps) /\
  (forall p q e, result (l_from_p_q p q e) = from_p_q p q e) /\
  (forall ps e, result (l_from_primes ps e) = from_primes ps e) /\
  (forall k, result (l_validate k) = validate k) /\
  (forall k, result (l_crt_coefficient k) = crt_coefficient k).
Proof.
  exact (conj rf_from_components (conj rf_from_p_q (conj rf_from_primes (conj rf_validate rf_crt_coefficient)))).
Qed.

(** The primes show: one function reads all of them, in order, off the run of any
    successful constructor. *)
Theorem C81_reveals_primes : exists read : list event -> list Z,
  (forall n e d ps k,
     wf_uint n -> wf_uint e -> wf_uint d -> Forall wf_uint ps -> Z.odd (uval n) = true ->
     (2 <= length ps)%nat -> from_components n e d ps = Ok k ->
     read (trace (l_from_components n e d ps)) = map uval ps) /\
  (forall p q e k, wf_uint p -> wf_uint q -> wf_uint e -> from_p_q p q e = Ok k ->
     read (trace (l_from_p_q p q e)) = [uval p; uval q]) /\
  (forall ps e k, Forall wf_uint ps -> wf_uint e -> from_primes ps e = Ok k ->
     read (trace (l_from_primes ps e)) = map uval ps).
Proof. exact (ex_intro _ read_primes (conj load_reads (conj from_p_q_reads from_primes_reads))). Qed.

(** The private exponent does not show, beyond its precision and being right. *)
Theorem C81_exponent_hidden : forall n e d d' ps k k',
  uprec d = uprec d' -> (2 <= length ps)%nat ->
  from_components n e d ps = Ok k -> from_components n e d' ps = Ok k' ->
  trace (l_from_components n e d ps) = trace (l_from_components n e d' ps).
Proof. exact load_hides. Qed.

(** A key refused for its exponent shows at which prime the check failed. *)
Theorem C81_refusal_position : exists position : list event -> nat,
  forall n e d ps,
  wf_uint n -> wf_uint e -> wf_uint d -> Forall wf_uint ps -> Z.odd (uval n) = true ->
  (2 <= length ps)%nat -> public_usable (uval n) (uval e) (uprec n) ->
  from_components n e d ps = Err InvalidExponent ->
  exists l1 p l2, ps = l1 ++ p :: l2 /\
    Forall (fun p => (uval e * uval d) mod (uval p - 1) = 1) l1 /\
    (uval e * uval d) mod (uval p - 1) <> 1 /\
    position (trace (l_from_components n e d ps)) = length l1.
Proof. exact (ex_intro _ read_position refused_position). Qed.

(** Recovering the primes from the exponents, computing the private exponent from the
    primes, and the CRT coefficient show only the precisions when they succeed. *)
Theorem C81_computations_hidden :
  (forall n e d n' e' d' r r',
     uprec n = uprec n' -> uprec e = uprec e' -> uprec d = uprec d' ->
     recover_primes n e d = Ok r -> recover_primes n' e' d' = Ok r' ->
     trace (l_recover_primes n e d) = trace (l_recover_primes n' e' d')) /\
  (forall p q e p' q' e' d d',
     uprec p = uprec p' -> uprec q = uprec q' -> uprec e = uprec e' ->
     compute_private_exponent_carmicheal p q e = Ok d ->
     compute_private_exponent_carmicheal p' q' e' = Ok d' ->
     trace (l_carmicheal p q e) = trace (l_carmicheal p' q' e')) /\
  (forall ps e ps' e' d d',
     Forall2 (fun p p' => uprec p = uprec p') ps ps' -> uprec e = uprec e' ->
     compute_private_exponent_euler_totient ps e = Ok d ->
     compute_private_exponent_euler_totient ps' e' = Ok d' ->
     trace (l_euler_totient ps e) = trace (l_euler_totient ps' e')) /\
  (forall k k' x y,
     Forall2 (fun p p' => uprec p = uprec p') (sk_primes k) (sk_primes k') ->
     crt_coefficient k = Ok (Some x) -> crt_coefficient k' = Ok (Some y) ->
     trace (l_crt_coefficient k) = trace (l_crt_coefficient k')).
Proof.
  split; [|split; [|split]].
  - intros n e d n' e' d' r r' Hn He Hd E E'.
    apply (al_recover n e d n' e' d' Hn He Hd r r'); rewrite rf_recover; assumption.
  - intros p q e p' q' e' d d' Hp Hq He E E'.
    apply (al_carmicheal p q e p' q' e' Hp Hq He d d'); rewrite rf_carmicheal; assumption.
  - intros ps e ps' e' d d' F He E E'.
    apply (al_euler ps ps' e e' F He d d'); rewrite rf_euler; assumption.
  - exact coefficient_trace.
Qed.

(** So loading a key is not oblivious: the order of the primes alone shows. *)
Theorem C81_oblivious_refuted : exists n e d ps d' ps' k k',
  from_components n e d ps = Ok k /\ from_components n e d' ps' = Ok k' /\
  uprec d = uprec d' /\ map uprec ps = map uprec ps' /\
  trace (l_from_components n e d ps) <> trace (l_from_components n e d' ps').
Proof.
  exists n91, e91, (sk_d key91_plain), (sk_primes key91_plain), (sk_d key91_alt), (sk_primes key91_alt).
  do 2 eexists. split; [vm_compute; reflexivity|]. split; [vm_compute; reflexivity|].
  split; [reflexivity|]. split; [reflexivity|]. vm_compute. discriminate.
Qed.

Example C81_case_load :
  is_ok (from_components n91 e91 (sk_d key91_plain) ps91) = true /\
  read_primes (trace (l_from_components n91 e91 (sk_d key91_plain) ps91)) = map uval ps91 /\
  is_ok (from_components n91 e91 (mkU 3681419383 128) ps91) = true /\
  uval (sk_d key91_plain) <> 3681419383 /\ uprec (sk_d key91_plain) = 128.
Proof.
  split; [vm_compute; reflexivity|]. split; [vm_compute; reflexivity|].
  split; [vm_compute; reflexivity|]. split; [vm_compute; discriminate|reflexivity].
Qed.
(** d is right for the first prime only. *)
Example C81_case_refused :
  let d := mkU (uval (sk_d key91_plain) + (uval (nth 0 ps91 n91) - 1)) 128 in
  from_components n91 e91 d ps91 = Err InvalidExponent /\
  read_position (trace (l_from_components n91 e91 d ps91)) = 1%nat.
Proof. split; vm_compute; reflexivity. Qed.
Example C81_case_build :
  is_ok (from_p_q (mkU 1073747321 64) (mkU 1610620981 64) (mkU 7 64)) = true /\
  is_ok (from_primes ps91 (mkU 7 64)) = true.
Proof. split; vm_compute; reflexivity. Qed.

Print Assumptions C81_same_program.
Print Assumptions C81_reveals_primes.
Print Assumptions C81_exponent_hidden.
Print Assumptions C81_refusal_position.
Print Assumptions C81_computations_hidden.
Print Assumptions C81_oblivious_refuted.
