(** Properties of serialisation, of PKCS#1 documents and of signature identifiers: C61 to
    C65.  [human]: whether the format is human-readable; [mx], [tl]: see PropEncoding.v. *)
From Coq Require Import String ZArith List Bool Lia Znumtheory.
From Coq Require Import Init.Byte.
From Verif Require Import Base Bigint SpecRFC SpecKey SpecDer SpecHex SpecSerde SpecOid SpecGen MHash MPkcs1 MRsa
  MGenerate MKey MApi MWrap MDer MEncoding MSerde KeyDefs BytesLemmas BigintLemmas PSig PSign PKey PPub PEncoding PCodec PWrapEnc PWrap
  PSerde KeyExamples PropEncoding.
Import ListNotations.
Local Open Scope string_scope.
Local Open Scope list_scope.
Local Open Scope Z_scope.

(** * C61: serialised keys *)

(** Exactly which values are deserialised, and as what. *)
Theorem C61_private_accepts : forall mx tl human v k,
  de_private mx tl human v = Ok k <->
  exists doc, carries human v doc /\ from_pkcs8_der mx tl doc = Ok k.
Proof. intros mx tl human v k. apply de_via. Qed.

Theorem C61_public_accepts : forall mx human v k,
  de_public mx human v = Ok k <->
  exists doc, carries human v doc /\ from_public_key_der mx doc = Ok k.
Proof. intros mx human v k. apply de_via. Qed.

(** A text stands for at most one byte string, so a value for at most one key. *)
Theorem C61_unambiguous : forall human v b1 b2, carries human v b1 -> carries human v b2 -> b1 = b2.
Proof.
  intros human v b1 b2 H1 H2. apply de_bytes_exact in H1. apply de_bytes_exact in H2. congruence.
Qed.

Theorem C61_private_round_trip : forall mx tl human k p q, tl 0 [] = true ->
  2 ^ 21 <= mx < 2 ^ 32 -> wf_pub (sk_pub k) -> wf_uint (sk_d k) -> uprec (sk_d k) <= 2 ^ 20 ->
  sk_primes k = [p; q] -> wf_uint p -> wf_uint q ->
  validate k = Ok tt -> uprec p <= uprec (sk_d k) -> uprec q = uprec p ->
  Z.gcd (uval p) (uval q) = 1 ->
  let n := uval (pk_n (sk_pub k)) in let e := uval (pk_e (sk_pub k)) in let d := uval (sk_d k) in
  exists qi v, 0 <= qi < uval p /\ (uval q * qi) mod uval p = 1 /\
  let doc := der (PrivateKeyInfo rsa_AlgorithmIdentifier (der (RSAPrivateKey n e d (uval p) (uval q)
                   (d mod (uval p - 1)) (d mod (uval q - 1)) qi))) in
  ser_private mx human k = Ok v /\ v = (if human then SStr (hex_text lower_digits doc) else SBytes doc) /\
  (d < 256 ^ octet_size n /\ uval p < 256 ^ octet_size n /\ uval q < 256 ^ octet_size n ->
   exists k', de_private mx tl human v = Ok k' /\ priv_eqb k' k = true /\ validate k' = Ok tt) /\
  (~ (d < 256 ^ octet_size n /\ uval p < 256 ^ octet_size n /\ uval q < 256 ^ octet_size n) ->
   de_private mx tl human v = Err ErrKeyMalformed).
Proof.
  intros mx tl human k p q T Hm Wp Wd Bd EP W1 W2 V P1 P2 G. cbv zeta.
  destruct (export_round_trip mx tl k p q T Hm Wp Wd Bd EP W1 W2 V P1 P2 G) as (qi & A & B & C & D & E).
  exists qi. eexists. split; [exact A|]. split; [exact B|]. unfold ser_private. rewrite C. cbn [bind].
  split; [reflexivity|]. split; [destruct human; [apply ser_bytes_text|reflexivity]|].
  unfold de_private. rewrite de_ser_bytes. cbn [bind]. split.
  - intros X. destruct (D X) as (k' & K1 & K2 & _ & K4 & _). eauto.
  - exact E.
Qed.

Theorem C61_public_round_trip : forall mx human k, 2 ^ 21 <= mx < 2 ^ 32 -> wf_pub k ->
  uprec (pk_n k) <= 2 ^ 20 -> uprec (pk_e k) <= 2 ^ 20 ->
  let n := uval (pk_n k) in let e := uval (pk_e k) in
  let doc := der (SubjectPublicKeyInfo rsa_AlgorithmIdentifier (der (RSAPublicKey n e))) in
  exists v, ser_public mx human k = Ok v /\
  v = (if human then SStr (hex_text lower_digits doc) else SBytes doc) /\
  (public_usable n e (limb_bits n) ->
   exists k', de_public mx human v = Ok k' /\ pub_eqb k' k = true /\ wf_pub k') /\
  (~ public_usable n e (limb_bits n) -> de_public mx human v = Err ErrKeyMalformed).
Proof.
  intros mx human k Hm W B1 B2. cbv zeta.
  destruct (public_round_trip mx k Hm W B1 B2) as (A & B & C).
  eexists. unfold ser_public. rewrite A. cbn [bind]. split; [reflexivity|].
  split; [destruct human; [apply ser_bytes_text|reflexivity]|].
  unfold de_public. rewrite de_ser_bytes. cbn [bind]. split; [|exact C].
  intros X. destruct (B X) as (k' & K1 & K2 & K3 & _). eauto.
Qed.

(** Signing and verifying keys: the key survives; the salt length and the prefix are
    replaced by those of the type. *)
Theorem C61_pss_signing_key : forall mx tl hd blinded human s v k,
  ser_pssk mx human s = Ok v -> de_private mx tl human v = Ok k -> priv_eqb k (pssk_inner s) = true ->
  exists s', de_pssk mx tl human hd blinded v = Ok s' /\ pssk_salt_len s' = h_size hd /\
    (pssk_eqb s' s = true <-> pssk_salt_len s = h_size hd).
Proof.
  intros mx tl hd blinded human s v k H D E.
  destruct (ser_via human _ (from_pkcs8_der mx tl) v H) as (doc & W & -> & R).
  unfold de_private in D. rewrite R in D. unfold de_pssk. rewrite de_ser_bytes. cbn [bind].
  exact (wrap_round_pss mx hd tl blinded s doc k W D E).
Qed.

Theorem C61_pss_verifying_key : forall mx hd human s v k,
  ser_psvk mx human s = Ok v -> de_public mx human v = Ok k -> pub_eqb k (psvk_inner s) = true ->
  exists s', de_psvk mx human hd v = Ok s' /\ psvk_salt_len s' = h_size hd /\
    (psvk_eqb s' s = true <-> psvk_salt_len s = h_size hd).
Proof.
  intros mx hd human s v k H D E.
  destruct (ser_via human _ (from_public_key_der mx) v H) as (doc & W & -> & R).
  unfold de_public in D. rewrite R in D. unfold de_psvk. rewrite de_ser_bytes. cbn [bind].
  exact (wrap_round_pss_public mx hd s doc k W D E).
Qed.

Theorem C61_pkcs1v15_signing_key : forall mx tl hd oid pre human s v k, tl 0 [] = true -> mx < 2 ^ 32 ->
  pkcs1v15_generate_prefix oid (h_size hd) = Ok pre ->
  ser_p1sk mx human s = Ok v -> de_private mx tl human v = Ok k -> priv_eqb k (p1sk_inner s) = true ->
  exists s', de_p1sk mx tl human hd oid v = Ok s' /\ p1sk_prefix s' = pre /\
    (p1sk_eqb s' s = true <-> p1sk_prefix s = pre).
Proof.
  intros mx tl hd oid pre human s v k T Hm P H D E.
  destruct (ser_via human _ (from_pkcs8_der mx tl) v H) as (doc & W & -> & R).
  unfold de_private in D. rewrite R in D. unfold de_p1sk. rewrite de_ser_bytes. cbn [bind].
  exact (wrap_round_p1 mx hd tl oid pre s doc k T Hm P W D E).
Qed.

Theorem C61_pkcs1v15_verifying_key : forall mx hd oid pre human s v k, mx < 2 ^ 32 ->
  pkcs1v15_generate_prefix oid (h_size hd) = Ok pre ->
  ser_p1vk mx human s = Ok v -> de_public mx human v = Ok k -> pub_eqb k (p1vk_inner s) = true ->
  exists s', de_p1vk mx human hd oid v = Ok s' /\ p1vk_prefix s' = pre /\
    (p1vk_eqb s' s = true <-> p1vk_prefix s = pre).
Proof.
  intros mx hd oid pre human s v k Hm P H D E.
  destruct (ser_via human _ (from_public_key_der mx) v H) as (doc & W & -> & R).
  unfold de_public in D. rewrite R in D. unfold de_p1vk. rewrite de_ser_bytes. cbn [bind].
  exact (wrap_round_p1_public mx hd oid pre s doc k Hm P W D E).
Qed.

(** What the wrappers deserialise is what the keys do. *)
Theorem C61_wrappers_accept : forall mx tl hd oid human v, mx < 2 ^ 32 ->
  (forall blinded s, de_pssk mx tl human hd blinded v = Ok s <->
     exists k, de_private mx tl human v = Ok k /\ s = pssk_new hd blinded k) /\
  (forall s, de_psvk mx human hd v = Ok s <-> exists k, de_public mx human v = Ok k /\ s = psvk_new hd k) /\
  (forall s, de_p1sk mx tl human hd oid v = Ok s <->
     exists k, de_private mx tl human v = Ok k /\ p1sk_new hd oid k = Ok s /\
       exists version optional n e d p q dp dq qi,
         (version = 0 \/ version = 1) /\ tl version optional = true /\
         carries human v (der (OneAsymmetricKey version rsa_AlgorithmIdentifier (der (RSAPrivateKey n e d p q dp dq qi)) optional))) /\
  (forall s, de_p1vk mx human hd oid v = Ok s <->
     exists k, de_public mx human v = Ok k /\ p1vk_new hd oid k = Ok s /\
       exists n e, carries human v (der (SubjectPublicKeyInfo rsa_AlgorithmIdentifier (der (RSAPublicKey n e))))).
Proof.
  intros mx tl hd oid human v Hm. unfold de_pssk, de_psvk, de_p1sk, de_p1vk, de_private, de_public.
  destruct (de_bytes human v) as [doc|err| |] eqn:E; cbn [bind].
  2-4: repeat split; intros; repeat match goal with H : exists _, _ |- _ => destruct H | H : _ /\ _ |- _ => destruct H end; discriminate.
  apply de_bytes_exact in E. split; [|split; [|split]].
  - intros blinded s. rewrite wrap_pss. split.
    + intros H. apply bind_ok in H. destruct H as (k & K & H). injection H as <-. eauto.
    + intros (k & -> & ->). reflexivity.
  - intros s. rewrite wrap_pss_public. split.
    + intros H. apply bind_ok in H. destruct H as (k & K & H). injection H as <-. eauto.
    + intros (k & -> & ->). reflexivity.
  - intros s. rewrite (wrap_p1_ok mx Hm). split.
    + intros (k & K & N & ver & opt & n & e & d & p & q & dp & dq & qi & V & T & ->).
      exists k. split; [exact K|]. split; [exact N|]. do 10 eexists. eauto.
    + intros (k & K & N & ver & opt & n & e & d & p & q & dp & dq & qi & V & T & C).
      exists k. split; [exact K|]. split; [exact N|]. do 10 eexists. split; [exact V|]. split; [exact T|].
      eapply C61_unambiguous; eauto.
  - intros s. rewrite (wrap_p1_public_ok mx Hm). split.
    + intros (k & K & N & n & e & ->). eauto 10.
    + intros (k & K & N & n & e & C). exists k. split; [exact K|]. split; [exact N|].
      exists n, e. eapply C61_unambiguous; eauto.
Qed.

(** Deserialising never panics, except on documents with a prime of 1 (C52). *)
Theorem C61_total : forall mx, mx < 2 ^ 29 -> forall tl human v,
  settled (de_public mx human v) /\
  (settled (de_private mx tl human v) \/
   exists version optional a n e d p q dp dq qi,
     (a = rsa_AlgorithmIdentifier \/ a = pss_AlgorithmIdentifier) /\ (p = 1 \/ q = 1) /\
     (version = 0 \/ version = 1) /\ tl version optional = true /\
     carries human v (der (OneAsymmetricKey version a (der (RSAPrivateKey n e d p q dp dq qi)) optional))).
Proof.
  intros mx Hm tl human v. unfold de_public, de_private.
  destruct (de_bytes_settled human v) as [(doc & E)|(err & E)]; rewrite E; cbn [bind].
  - split; [apply public_total; exact Hm|]. apply de_bytes_exact in E.
    destruct (private_total mx Hm tl doc) as [X|(ver & opt & a & n & e & d & p & q & dp & dq & qi & A & B & C & D & ->)]; [auto|].
    right. do 11 eexists. eauto.
  - split; [right; eauto|left; right; eauto].
Qed.

Example C61_key64 : forall human, exists v k', ser_private mx28 human key64 = Ok v /\
  de_private mx28 opt28 human v = Ok k' /\ priv_eqb k' key64 = true.
Proof.
  intros human. destruct C33_key64 as (doc & k' & A & B & C & _).
  exists (ser_bytes human doc), k'. unfold ser_private, de_private. rewrite A. cbn [bind]. rewrite de_ser_bytes. auto.
Qed.
Example C61_pub64 : forall human, exists v k', ser_public mx28 human pub64 = Ok v /\
  de_public mx28 human v = Ok k' /\ pub_eqb k' pub64 = true.
Proof.
  intros human. destruct C33_pub64 as (doc & k' & A & B & C).
  exists (ser_bytes human doc), k'. unfold ser_public, de_public. rewrite A. cbn [bind]. rewrite de_ser_bytes. auto.
Qed.
(** Upper case is taken, an odd number of digits and the wrong kind of value are not. *)
Example C61_texts : carries true (SStr [x33; x41]) [x3a] /\ carries true (SStr [x33; x61]) [x3a] /\
  de_bytes true (SStr [x33; x61; x33]) = Err ErrSerde /\ de_bytes true (SBytes [x3a]) = Err ErrSerde /\
  de_bytes false (SStr [x33; x61]) = Err ErrSerde.
Proof. split; [|split; [|repeat split]]; apply de_bytes_exact; reflexivity. Qed.

(** * C62: serialised signatures *)

Theorem C62_round_trip : forall human s, wf_uint (sg_inner s) -> uprec (sg_inner s) < 2 ^ 32 ->
  de_signature human (ser_signature human s) = Ok s /\ carries human (ser_signature human s) (signature_to_bytes s).
Proof.
  intros human s W P. unfold de_signature, ser_signature. rewrite de_ser_bytes. cbn [bind].
  split; [apply c35_stable; auto|apply ser_carries].
Qed.

Theorem C62_accepts : forall human v s, de_signature human v = Ok s <->
  exists b, carries human v b /\ signature_try_from b = Ok s.
Proof. intros. apply de_via. Qed.

(** The X.509 bit string: no unused bits, the signature as octets, from which it can be
    read again. *)
Theorem C62_bit_string : forall mx s, wf_uint (sg_inner s) -> uprec (sg_inner s) < 2 ^ 32 ->
  uprec (sg_inner s) / 8 <= mx ->
  exists b, signature_to_bitstring mx s = Ok (0, b) /\ signature_try_from b = Ok s /\
    os2ip b = uval (sg_inner s) /\ Z.of_nat (length b) = uprec (sg_inner s) / 8.
Proof.
  intros mx s W P L. destruct (to_bytes_value s W) as (T1 & T2).
  assert (E : uprec (sg_inner s) / 8 = Z.of_nat (length (signature_to_bytes s))).
  { clear - T2. Z.div_mod_to_equations. lia. }
  rewrite E in *. unfold signature_to_bitstring. cbv zeta. unfold guard.
  destruct (Z.leb_spec (Z.of_nat (length (signature_to_bytes s))) mx); [|lia]. eexists. split; [reflexivity|].
  split; [apply c35_stable; auto|auto].
Qed.

Example C62_case : de_signature true (SStr [x32; x41]) = Ok (mkSig (u_of_u64 42)) /\
  ser_signature true (mkSig (u_of_u64 42)) = SStr (repeat x30 14 ++ [x32; x61]).
Proof. vm_compute. auto. Qed.

(** * C63: serialised encryption and decryption keys *)

(** What the fields say: each of the required ones once; the label at most once. *)
Definition label_given (vs : list sval) (l : option (list byte)) : Prop :=
  (vs = [] /\ l = None) \/ (vs = [SNone] /\ l = None) \/ exists b, vs = [SSome (SSeq b)] /\ l = Some b.
Definition unit_given (vs : list sval) : Prop := exists name, vs = [SUnitStruct name].

Lemma label_means l vs : rest_label None vs l <-> label_given vs l.
Proof.
  unfold rest_label, label_given. split.
  - intros [X|(v & -> & D)]; [auto|]. destruct v as [| | | |[| |b| | | | |]| | |]; try discriminate; cbn in D; injection D as <-; eauto.
  - intros [X|[(-> & ->)|(b & -> & ->)]]; [auto| |]; right; eexists; split; reflexivity.
Qed.
Lemma unit_means vs : rest_of de_phantom None vs tt <-> unit_given vs.
Proof.
  unfold rest_of, unit_given. split.
  - intros (v & -> & D). destruct v; try discriminate. eauto.
  - intros (name & ->). eexists. split; reflexivity.
Qed.

Lemma label_one v l : rest_label None [v] l -> de_label v = Ok l.
Proof. intros [(X & _)|(w & X & D)]; [discriminate|]. injection X as ->. exact D. Qed.
Lemma phantom_one v : rest_of de_phantom None [v] tt -> de_phantom v = Ok tt.
Proof. intros (w & X & D). injection X as ->. exact D. Qed.
Lemma visit_seq_four_exact {A} (de : sval -> outcome A) vs i l : visit_seq_four de vs = Ok (i, l) <->
  exists iv lv p m more, vs = iv :: lv :: p :: m :: more /\ de iv = Ok i /\ de_label lv = Ok l /\
    de_phantom p = Ok tt /\ de_phantom m = Ok tt.
Proof.
  split.
  - destruct vs as [|iv vs]; [discriminate|]. cbn [visit_seq_four]. intros H. apply bind_ok in H. destruct H as (i0 & A0 & H).
    destruct vs as [|lv [|p [|m more]]]; try discriminate.
    apply bind_ok in H. destruct H as (l0 & B & H). apply bind_ok in H. destruct H as ([] & C & H).
    apply bind_ok in H. destruct H as ([] & D & H). injection H as -> ->. exists iv, lv, p, m, more. auto.
  - intros (iv & lv & p & m & more & -> & A0 & B & C & D). cbn [visit_seq_four]. rewrite A0. cbn [bind].
    rewrite B. cbn [bind]. rewrite C. cbn [bind]. rewrite D. reflexivity.
Qed.

(** Fields may come in any order by name, unknown ones being skipped, or by position. *)
Theorem C63_oaep_decrypting_key : forall mx tl human v k,
  de_odk mx tl human v = Ok k <->
  (exists name fields i, v = SStruct name fields /\
    values "inner" fields = [i] /\ de_private mx tl human i = Ok (odk_inner k) /\
    label_given (values "label" fields) (odk_label k) /\
    unit_given (values "phantom" fields) /\ unit_given (values "mg_phantom" fields)) \/
  (exists i l p m more, v = STuple (i :: l :: p :: m :: more) /\ de_private mx tl human i = Ok (odk_inner k) /\
    label_given [l] (odk_label k) /\ unit_given [p] /\ unit_given [m]).
Proof.
  intros mx tl human v k. unfold de_odk. split.
  - destruct v as [| | | | | |name fields|vs]; try discriminate; intros H.
    + left. apply bind_ok in H. destruct H as ((i & l) & V & H).
      injection H as <-. apply visit_four_exact in V. destruct V as (A & B & C & D).
      cbn [seen_inner seen_label seen_phantom seen_mg] in *. cbn [rest_of] in A. destruct A as (iv & A1 & A2).
      exists name, fields, iv. cbn [odk_inner odk_label]. rewrite <- label_means, <- !unit_means. auto 12.
    + right. apply bind_ok in H. destruct H as ((i & l) & V & H). injection H as <-.
      apply visit_seq_four_exact in V. destruct V as (iv & lv & p & m & more & -> & A & B & C & D).
      exists iv, lv, p, m, more. cbn [odk_inner odk_label]. rewrite <- label_means, <- !unit_means. unfold rest_label, rest_of. eauto 12.
  - intros [(name & fields & i & -> & A1 & A2 & B & C & D)|(i & l & p & m & more & -> & A & B & C & D)];
      destruct k as [ki kl]; cbn [odk_inner odk_label] in *.
    + assert (V : visit_four (de_private mx tl human) fields (mkSeen _ None None None None) = Ok (ki, kl)).
      { apply visit_four_exact. unfold four. cbn [seen_inner seen_label seen_phantom seen_mg].
        rewrite label_means, !unit_means. split; [exists i; auto|auto 12]. }
      rewrite V. reflexivity.
    + assert (V : visit_seq_four (de_private mx tl human) (i :: l :: p :: m :: more) = Ok (ki, kl)).
      { apply visit_seq_four_exact. apply label_means in B. apply unit_means in C, D.
        exists i, l, p, m, more. split; [reflexivity|]. split; [exact A|]. apply label_one in B. apply phantom_one in C, D. auto. }
      rewrite V. reflexivity.
Qed.

Theorem C63_oaep_encrypting_key : forall mx human v k,
  de_oek mx human v = Ok k <->
  (exists name fields i, v = SStruct name fields /\
    values "inner" fields = [i] /\ de_public mx human i = Ok (oek_inner k) /\
    label_given (values "label" fields) (oek_label k) /\
    unit_given (values "phantom" fields) /\ unit_given (values "mg_phantom" fields)) \/
  (exists i l p m more, v = STuple (i :: l :: p :: m :: more) /\ de_public mx human i = Ok (oek_inner k) /\
    label_given [l] (oek_label k) /\ unit_given [p] /\ unit_given [m]).
Proof.
  intros mx human v k. unfold de_oek. split.
  - destruct v as [| | | | | |name fields|vs]; try discriminate; intros H.
    + left. apply bind_ok in H. destruct H as ((i & l) & V & H).
      injection H as <-. apply visit_four_exact in V. destruct V as (A & B & C & D).
      cbn [seen_inner seen_label seen_phantom seen_mg] in *. cbn [rest_of] in A. destruct A as (iv & A1 & A2).
      exists name, fields, iv. cbn [oek_inner oek_label]. rewrite <- label_means, <- !unit_means. auto 12.
    + right. apply bind_ok in H. destruct H as ((i & l) & V & H). injection H as <-.
      apply visit_seq_four_exact in V. destruct V as (iv & lv & p & m & more & -> & A & B & C & D).
      exists iv, lv, p, m, more. cbn [oek_inner oek_label]. rewrite <- label_means, <- !unit_means. unfold rest_label, rest_of. eauto 12.
  - intros [(name & fields & i & -> & A1 & A2 & B & C & D)|(i & l & p & m & more & -> & A & B & C & D)];
      destruct k as [ki kl]; cbn [oek_inner oek_label] in *.
    + assert (V : visit_four (de_public mx human) fields (mkSeen _ None None None None) = Ok (ki, kl)).
      { apply visit_four_exact. unfold four. cbn [seen_inner seen_label seen_phantom seen_mg].
        rewrite label_means, !unit_means. split; [exists i; auto|auto 12]. }
      rewrite V. reflexivity.
    + assert (V : visit_seq_four (de_public mx human) (i :: l :: p :: m :: more) = Ok (ki, kl)).
      { apply visit_seq_four_exact. apply label_means in B. apply unit_means in C, D.
        exists i, l, p, m, more. split; [reflexivity|]. split; [exact A|]. apply label_one in B. apply phantom_one in C, D. auto. }
      rewrite V. reflexivity.
Qed.

Theorem C63_pkcs1v15_decrypting_key : forall mx tl human v k,
  de_p1dk mx tl human v = Ok k <->
  (exists name fields i, v = SStruct name fields /\
    values "inner" fields = [i] /\ de_private mx tl human i = Ok (p1dk_inner k)) \/
  (exists i more, v = STuple (i :: more) /\ de_private mx tl human i = Ok (p1dk_inner k)).
Proof.
  intros mx tl human v k. unfold de_p1dk. split.
  - destruct v as [| | | | | |name fields|vs]; try discriminate; intros H; apply bind_ok in H; destruct H as (i & V & H);
      injection H as <-.
    + left. apply visit_one_exact in V. destruct V as (iv & A1 & A2). eauto 10.
    + right. destruct vs as [|iv more]; [discriminate|]. exists iv, more. auto.
  - intros [(name & fields & i & -> & A1 & A2)|(i & more & -> & A)]; destruct k as [ki]; cbn [p1dk_inner] in *.
    + assert (V : visit_one (de_private mx tl human) fields None = Ok ki).
      { apply visit_one_exact. cbn [rest_of]. eauto. }
      rewrite V. reflexivity.
    + cbn [visit_seq_one]. rewrite A. reflexivity.
Qed.

Theorem C63_pkcs1v15_encrypting_key : forall mx human v k,
  de_p1ek mx human v = Ok k <->
  (exists name fields i, v = SStruct name fields /\
    values "inner" fields = [i] /\ de_public mx human i = Ok (p1ek_inner k)) \/
  (exists i more, v = STuple (i :: more) /\ de_public mx human i = Ok (p1ek_inner k)).
Proof.
  intros mx human v k. unfold de_p1ek. split.
  - destruct v as [| | | | | |name fields|vs]; try discriminate; intros H; apply bind_ok in H; destruct H as (i & V & H);
      injection H as <-.
    + left. apply visit_one_exact in V. destruct V as (iv & A1 & A2). eauto 10.
    + right. destruct vs as [|iv more]; [discriminate|]. exists iv, more. auto.
  - intros [(name & fields & i & -> & A1 & A2)|(i & more & -> & A)]; destruct k as [ki]; cbn [p1ek_inner] in *.
    + assert (V : visit_one (de_public mx human) fields None = Ok ki).
      { apply visit_one_exact. cbn [rest_of]. eauto. }
      rewrite V. reflexivity.
    + cbn [visit_seq_one]. rewrite A. reflexivity.
Qed.

(** Round trips, in formats that keep the names of fields and in those that only keep
    their order: whatever the inner key gives, with the label unchanged. *)
Theorem C63_round_trips : forall mx tl human,
  (forall k i k', ser_private mx human (odk_inner k) = Ok i -> de_private mx tl human i = Ok k' ->
     exists v, ser_odk mx human k = Ok v /\ de_odk mx tl human v = Ok (mkODK k' (odk_label k)) /\
       de_odk mx tl human (positional v) = Ok (mkODK k' (odk_label k))) /\
  (forall k i k', ser_public mx human (oek_inner k) = Ok i -> de_public mx human i = Ok k' ->
     exists v, ser_oek mx human k = Ok v /\ de_oek mx human v = Ok (mkOEK k' (oek_label k)) /\
       de_oek mx human (positional v) = Ok (mkOEK k' (oek_label k))) /\
  (forall k i k', ser_private mx human (p1dk_inner k) = Ok i -> de_private mx tl human i = Ok k' ->
     exists v, ser_p1dk mx human k = Ok v /\ de_p1dk mx tl human v = Ok (mkP1DK k') /\
       de_p1dk mx tl human (positional v) = Ok (mkP1DK k')) /\
  (forall k i k', ser_public mx human (p1ek_inner k) = Ok i -> de_public mx human i = Ok k' ->
     exists v, ser_p1ek mx human k = Ok v /\ de_p1ek mx human v = Ok (mkP1EK k') /\
       de_p1ek mx human (positional v) = Ok (mkP1EK k')).
Proof.
  intros mx tl human.
  assert (L : forall l, label_given [ser_label l] l).
  { intros [b|]; cbn [ser_label]; unfold label_given; eauto. }
  assert (U : unit_given [SUnitStruct "PhantomData"]) by (eexists; reflexivity).
  split; [|split; [|split]]; intros k i k' E D.
  - unfold ser_odk. rewrite E. cbn [bind]. eexists. split; [reflexivity|]. split; apply C63_oaep_decrypting_key.
    + left. do 3 eexists. split; [reflexivity|]. split; [reflexivity|]. split; [exact D|]. split; [apply L|split; exact U].
    + right. do 5 eexists. split; [reflexivity|]. split; [exact D|]. split; [apply L|split; exact U].
  - unfold ser_oek. rewrite E. cbn [bind]. eexists. split; [reflexivity|]. split; apply C63_oaep_encrypting_key.
    + left. do 3 eexists. split; [reflexivity|]. split; [reflexivity|]. split; [exact D|]. split; [apply L|split; exact U].
    + right. do 5 eexists. split; [reflexivity|]. split; [exact D|]. split; [apply L|split; exact U].
  - unfold ser_p1dk. rewrite E. cbn [bind]. eexists. split; [reflexivity|]. split; apply C63_pkcs1v15_decrypting_key.
    + left. do 3 eexists. split; [reflexivity|]. split; [reflexivity|]. exact D.
    + right. do 2 eexists. split; [reflexivity|]. exact D.
  - unfold ser_p1ek. rewrite E. cbn [bind]. eexists. split; [reflexivity|]. split; apply C63_pkcs1v15_encrypting_key.
    + left. do 3 eexists. split; [reflexivity|]. split; [reflexivity|]. exact D.
    + right. do 2 eexists. split; [reflexivity|]. exact D.
Qed.

(** The values produced: [key_struct] (SpecSerde.v) around the document of the key. *)
Theorem C63_public_layout : forall mx human k label, 2 ^ 21 <= mx < 2 ^ 32 -> wf_pub k ->
  uprec (pk_n k) <= 2 ^ 20 -> uprec (pk_e k) <= 2 ^ 20 ->
  let doc := der (SubjectPublicKeyInfo rsa_AlgorithmIdentifier (der (RSAPublicKey (uval (pk_n k)) (uval (pk_e k))))) in
  ser_p1ek mx human (mkP1EK k) = Ok (key_struct "EncryptingKey" human doc []) /\
  ser_oek mx human (mkOEK k label) = Ok (key_struct "EncryptingKey" human doc (oaep_rest label)).
Proof.
  intros mx human k label Hm W B1 B2. cbv zeta.
  destruct (C61_public_round_trip mx human k Hm W B1 B2) as (v & A & B & _). rewrite B in A.
  unfold ser_p1ek, ser_oek. cbn [p1ek_inner oek_inner oek_label]. rewrite A. cbn [bind]. split; reflexivity.
Qed.

Theorem C63_private_layout : forall mx human k p q label,
  2 ^ 21 <= mx < 2 ^ 32 -> wf_pub (sk_pub k) -> wf_uint (sk_d k) -> uprec (sk_d k) <= 2 ^ 20 ->
  sk_primes k = [p; q] -> wf_uint p -> wf_uint q ->
  validate k = Ok tt -> uprec p <= uprec (sk_d k) -> uprec q = uprec p ->
  Z.gcd (uval p) (uval q) = 1 ->
  let n := uval (pk_n (sk_pub k)) in let e := uval (pk_e (sk_pub k)) in let d := uval (sk_d k) in
  exists qi, 0 <= qi < uval p /\ (uval q * qi) mod uval p = 1 /\
  let doc := der (PrivateKeyInfo rsa_AlgorithmIdentifier (der (RSAPrivateKey n e d (uval p) (uval q)
                   (d mod (uval p - 1)) (d mod (uval q - 1)) qi))) in
  ser_p1dk mx human (mkP1DK k) = Ok (key_struct "DecryptingKey" human doc []) /\
  ser_odk mx human (mkODK k label) = Ok (key_struct "DecryptingKey" human doc (oaep_rest label)).
Proof.
  intros mx human k p q label Hm Wp Wd Bd EP W1 W2 V P1 P2 G. cbv zeta.
  destruct (C61_private_round_trip mx (fun _ _ => true) human k p q eq_refl Hm Wp Wd Bd EP W1 W2 V P1 P2 G) as (qi & v & Q1 & Q2 & A & B & _).
  exists qi. split; [exact Q1|]. split; [exact Q2|]. cbv zeta in B. rewrite B in A.
  unfold ser_p1dk, ser_odk. cbn [p1dk_inner odk_inner odk_label]. rewrite A. cbn [bind]. split; reflexivity.
Qed.

Example C63_layout_case : ser_oek mx28 false (mkOEK pub64 (Some [x41])) =
  Ok (key_struct "EncryptingKey" false
       (der (SubjectPublicKeyInfo rsa_AlgorithmIdentifier (der (RSAPublicKey (uval (pk_n pub64)) (uval (pk_e pub64))))))
       (oaep_rest (Some [x41]))).
Proof.
  apply C63_public_layout; [unfold mx28; lia|apply wf_pub64|vm_compute; discriminate|vm_compute; discriminate].
Qed.
Example C63_case : exists v k', ser_odk mx28 true (mkODK key64 (Some [x41])) = Ok v /\
  de_odk mx28 opt28 true v = Ok (mkODK k' (Some [x41])) /\
  de_odk mx28 opt28 true (positional v) = Ok (mkODK k' (Some [x41])) /\ priv_eqb k' key64 = true.
Proof.
  destruct (C61_key64 true) as (i & k' & A & B & C).
  destruct (C63_round_trips mx28 opt28 true) as (R & _).
  destruct (R (mkODK key64 (Some [x41])) i k' A B) as (v & V1 & V2 & V3). exists v, k'. auto.
Qed.
(** A label given twice or no inner key: refused; no label: none, except by position. *)
Example C63_fields : forall i k', de_private mx28 opt28 true i = Ok k' ->
  let u := SUnitStruct "PhantomData" in
  de_odk mx28 opt28 true (SStruct "K" [("mg_phantom", u); ("phantom", u); ("other", SNone); ("inner", i)]) = Ok (mkODK k' None) /\
  de_odk mx28 opt28 true (SStruct "K" [("inner", i); ("label", SNone); ("label", SNone); ("phantom", u); ("mg_phantom", u)]) = Err ErrSerde /\
  de_odk mx28 opt28 true (SStruct "K" [("label", SNone); ("phantom", u); ("mg_phantom", u)]) = Err ErrSerde /\
  de_odk mx28 opt28 true (STuple [i; u; u]) = Err ErrSerde /\
  de_odk mx28 opt28 true (STuple [i; SNone; u; u]) = Ok (mkODK k' None).
Proof. intros i k' H. cbv zeta. unfold de_odk. cbn. rewrite H. auto 10. Qed.

(** * C64: PKCS#1 documents *)

Theorem C64_private_round_trip : forall mx tl k p q, tl 0 [] = true ->
  2 ^ 21 <= mx < 2 ^ 29 -> wf_pub (sk_pub k) -> wf_uint (sk_d k) -> uprec (sk_d k) <= 2 ^ 20 ->
  sk_primes k = [p; q] -> wf_uint p -> wf_uint q ->
  validate k = Ok tt -> uprec p <= uprec (sk_d k) -> uprec q = uprec p ->
  Z.gcd (uval p) (uval q) = 1 ->
  let n := uval (pk_n (sk_pub k)) in let e := uval (pk_e (sk_pub k)) in let d := uval (sk_d k) in
  exists qi, 0 <= qi < uval p /\ (uval q * qi) mod uval p = 1 /\
  let doc := der (RSAPrivateKey n e d (uval p) (uval q) (d mod (uval p - 1)) (d mod (uval q - 1)) qi) in
  to_pkcs1_der mx tl k = Ok doc /\
  (d < 256 ^ octet_size n /\ uval p < 256 ^ octet_size n /\ uval q < 256 ^ octet_size n ->
   exists k', from_pkcs1_der mx doc = Ok k' /\ priv_eqb k' k = true /\ validate k' = Ok tt) /\
  (~ (d < 256 ^ octet_size n /\ uval p < 256 ^ octet_size n /\ uval q < 256 ^ octet_size n) ->
   from_pkcs1_der mx doc = Err ErrKeyMalformed).
Proof.
  intros mx tl k p q T Hm Wp Wd Bd EP W1 W2 V P1 P2 G. cbv zeta.
  destruct (export_round_trip mx tl k p q T ltac:(lia) Wp Wd Bd EP W1 W2 V P1 P2 G) as (qi & A & B & C & D & E).
  exists qi. split; [exact A|]. split; [exact B|].
  assert (M : mx < 2 ^ 29) by lia. pose proof V as V0. apply validate_exact in V0; auto.
  2:{ rewrite EP. constructor; [auto|constructor; [auto|constructor]]. }
  cbv zeta in V0. destruct V0 as (_ & _ & FA). rewrite EP in FA.
  rewrite !Forall_cons_iff in FA. destruct FA as ((P3 & _ & PE) & (Q3 & _ & QE) & _).
  split.
  - apply pkcs1_export; auto. pose proof Wp as (((? & _) & _) & ((? & _) & _) & _).
    pose proof Wd as ((? & _) & _).
    repeat (apply Forall_cons; [first [assumption|apply Z.mod_pos_bound; (clear - P3 Q3; lia)|(clear - P3 Q3 A; lia)]|]). apply Forall_nil.
  - pose proof (exported_fits mx M _ _ C) as F. unfold private_doc in *.
    rewrite (pkcs1_via_pkcs8 mx M tl _ T F). split; [|exact E].
    intros X. destruct (D X) as (k' & K1 & K2 & _ & K4 & _). eauto.
Qed.

Theorem C64_public_round_trip : forall mx k, 2 ^ 21 <= mx < 2 ^ 29 -> wf_pub k ->
  uprec (pk_n k) <= 2 ^ 20 -> uprec (pk_e k) <= 2 ^ 20 ->
  let n := uval (pk_n k) in let e := uval (pk_e k) in
  to_pkcs1_public_der mx k = Ok (der (RSAPublicKey n e)) /\
  (public_usable n e (limb_bits n) ->
   exists k', from_pkcs1_public_der mx (der (RSAPublicKey n e)) = Ok k' /\ pub_eqb k' k = true /\ wf_pub k') /\
  (~ public_usable n e (limb_bits n) -> from_pkcs1_public_der mx (der (RSAPublicKey n e)) = Err ErrKeyMalformed).
Proof.
  intros mx k Hm W B1 B2. cbv zeta. assert (M : mx < 2 ^ 29) by lia.
  destruct (public_round_trip mx k ltac:(lia) W B1 B2) as (A & B & C).
  pose proof W as (((? & _) & _) & ((? & _) & _) & _).
  pose proof (exported_public_fits mx M _ _ A) as F. unfold public_doc in *.
  split; [apply pkcs1_public_export; auto|]. rewrite (pkcs1_public_via_spki mx M _ F). split; [|exact C].
  intros X. destruct (B X) as (k' & K1 & K2 & K3 & _). eauto.
Qed.

(** Exactly which documents are read, and as what: only canonical ones. *)
Theorem C64_private_accepts : forall mx, mx < 2 ^ 29 -> forall n e d p q dp dq qi,
  Forall (fun z => 0 <= z) [n; e; d; p; q; dp; dq; qi] ->
  fits mx (RSAPrivateKey n e d p q dp dq qi) ->
  let r := from_pkcs1_der mx (der (RSAPrivateKey n e d p q dp dq qi)) in
  (importable n e d p q -> exists k, r = Ok k /\ stored_as k n e d p q /\ validate k = Ok tt /\ sane_priv k /\
     (prime p -> prime q -> p <> q -> p * q = n -> good_priv k) /\
     (sk_pre k <> None <-> Z.gcd p q = 1)) /\
  (~ importable n e d p q -> p <> 1 -> q <> 1 -> r = Err ErrKeyMalformed).
Proof. exact pkcs1_import. Qed.

Theorem C64_private_only : forall mx, mx < 2 ^ 29 -> forall l k, from_pkcs1_der mx l = Ok k ->
  exists d p q dp dq qi,
  let n := uval (pk_n (sk_pub k)) in let e := uval (pk_e (sk_pub k)) in
  l = der (RSAPrivateKey n e d p q dp dq qi) /\ stored_as k n e d p q /\ importable n e d p q /\
  validate k = Ok tt /\ sane_priv k.
Proof. exact pkcs1_document. Qed.

Theorem C64_public_accepts : forall mx, mx < 2 ^ 29 -> forall n e, 0 <= n -> 0 <= e ->
  fits mx (RSAPublicKey n e) ->
  let r := from_pkcs1_public_der mx (der (RSAPublicKey n e)) in
  (public_usable n e (limb_bits n) -> exists k, r = Ok k /\ wf_pub k /\
     pk_n k = mkU n (limb_bits n) /\ pk_e k = mkU e (limb_bits e)) /\
  (~ public_usable n e (limb_bits n) -> r = Err ErrKeyMalformed).
Proof. exact pkcs1_public_import. Qed.

Theorem C64_public_only : forall mx, mx < 2 ^ 29 -> forall l k, from_pkcs1_public_der mx l = Ok k ->
  let n := uval (pk_n k) in let e := uval (pk_e k) in
  l = der (RSAPublicKey n e) /\ public_usable n e (limb_bits n) /\ wf_pub k /\
  uprec (pk_n k) = limb_bits n /\ uprec (pk_e k) = limb_bits e.
Proof. exact pkcs1_public_document. Qed.

(** The same key as from the PKCS#8 (SubjectPublicKeyInfo) document around it. *)
Theorem C64_same_as_pkcs8 : forall mx, mx < 2 ^ 29 -> forall tl l, tl 0 [] = true ->
  (fits mx (PrivateKeyInfo rsa_AlgorithmIdentifier l) ->
   from_pkcs1_der mx l = from_pkcs8_der mx tl (der (PrivateKeyInfo rsa_AlgorithmIdentifier l))) /\
  (fits mx (SubjectPublicKeyInfo rsa_AlgorithmIdentifier l) ->
   from_pkcs1_public_der mx l = from_public_key_der mx (der (SubjectPublicKeyInfo rsa_AlgorithmIdentifier l))).
Proof.
  intros mx Hm tl l T. split; intros F; [apply pkcs1_via_pkcs8|apply pkcs1_public_via_spki]; auto.
Qed.

Theorem C64_multi_prime_refused : forall mx tl k, (2 < length (sk_primes k))%nat ->
  to_pkcs1_der mx tl k = Err ErrPkcs1Version.
Proof. intros mx tl k H. apply pkcs1_export_fails, export_multi_prime, H. Qed.

Example C64_key64 : exists doc k', to_pkcs1_der mx28 opt28 key64 = Ok doc /\
  from_pkcs1_der mx28 doc = Ok k' /\ priv_eqb k' key64 = true.
Proof.
  destruct good64 as (Wp & Wd & Wpr & _).
  assert (E : sk_primes key64 = [p64; q64]) by (vm_compute; reflexivity).
  rewrite E, !Forall_cons_iff in Wpr. destruct Wpr as (W1 & W2 & _).
  assert (Ed : sk_d key64 = d64) by (vm_compute; reflexivity).
  assert (En : pk_n (sk_pub key64) = n64) by (vm_compute; reflexivity).
  destruct (C64_private_round_trip mx28 opt28 key64 p64 q64 eq_refl ltac:(unfold mx28; lia) Wp Wd
    ltac:(rewrite Ed; vm_compute; congruence) E W1 W2 validate64 ltac:(rewrite Ed; vm_compute; congruence) eq_refl gcd64)
    as (qi & _ & _ & A & B & _).
  rewrite Ed, En in B.
  destruct (B ltac:(repeat split; vm_compute; reflexivity)) as (k' & B1 & B2 & _).
  rewrite <- Ed, <- En in B1. eauto 10.
Qed.
Example C64_pub64 : exists k', to_pkcs1_public_der mx28 pub64 = Ok (der (RSAPublicKey (uval n64) (uval e64))) /\
  from_pkcs1_public_der mx28 (der (RSAPublicKey (uval n64) (uval e64))) = Ok k' /\ pub_eqb k' pub64 = true.
Proof.
  destruct (C64_public_round_trip mx28 pub64 ltac:(unfold mx28; lia) wf_pub64 ltac:(vm_compute; congruence) ltac:(vm_compute; congruence))
    as (A & B & _).
  destruct (B pub64_usable) as (k' & B1 & B2 & _). eauto 10.
Qed.
Example C64_key91 : to_pkcs1_der mx28 opt28 key91 = Err ErrPkcs1Version.
Proof. apply C64_multi_prime_refused. vm_compute. lia. Qed.

(** * C65: signature algorithm identifiers of PKCS#1 v1.5 keys *)

(** RFC 8017 A.2.4. *)
Definition rfc_signature_oid (d : rsa_digest) : list Z :=
  match d with
  | Sha1 => sha1WithRSAEncryption | Sha224 => sha224WithRSAEncryption | Sha256 => sha256WithRSAEncryption
  | Sha384 => sha384WithRSAEncryption | Sha512 => sha512WithRSAEncryption
  end.

Theorem C65_identifier : forall d,
  oid_encoding (rfc_signature_oid d) (alg_oid (p1_signature_algorithm_id d)) /\
  alg_params (p1_signature_algorithm_id d) = Some (mkAny x05 []).
Proof.
  intros d. split; [|reflexivity]. destruct d; apply oid_octets_ok; try lia; repeat constructor; lia.
Qed.

Theorem C65_distinct : forall d d',
  alg_oid (p1_signature_algorithm_id d) = alg_oid (p1_signature_algorithm_id d') -> d = d'.
Proof.
  intros d d' E. destruct (C65_identifier d) as (A & _). destruct (C65_identifier d') as (B & _). rewrite E in A.
  pose proof (oid_encoding_inj _ _ _ A B) as X. destruct d, d'; try reflexivity; discriminate X.
Qed.

(** None is a key algorithm identifier, so such a document is never taken for a key. *)
Theorem C65_not_key_identifiers : forall d, verify_algorithm_id (p1_signature_algorithm_id d) = Err ErrOidUnknown.
Proof. intros d. destruct d; reflexivity. Qed.

(** The encoder of object identifiers in general. *)
Theorem C65_oid_encoder : forall a b rest, 0 <= a <= 2 -> 0 <= b < 40 -> Forall (fun v => 0 <= v < 2 ^ 32) rest ->
  oid_encoding (a :: b :: rest) (oid_octets (a :: b :: rest)).
Proof. exact oid_octets_ok. Qed.

Example C65_sha256 : alg_oid (p1_signature_algorithm_id Sha256) = [x2a; x86; x48; x86; xf7; x0d; x01; x01; x0b].
Proof. reflexivity. Qed.

Print Assumptions C61_private_accepts.
Print Assumptions C61_public_accepts.
Print Assumptions C61_unambiguous.
Print Assumptions C61_private_round_trip.
Print Assumptions C61_public_round_trip.
Print Assumptions C61_pss_signing_key.
Print Assumptions C61_pss_verifying_key.
Print Assumptions C61_pkcs1v15_signing_key.
Print Assumptions C61_pkcs1v15_verifying_key.
Print Assumptions C61_wrappers_accept.
Print Assumptions C61_total.
Print Assumptions C62_round_trip.
Print Assumptions C62_accepts.
Print Assumptions C62_bit_string.
Print Assumptions C63_oaep_decrypting_key.
Print Assumptions C63_oaep_encrypting_key.
Print Assumptions C63_pkcs1v15_decrypting_key.
Print Assumptions C63_pkcs1v15_encrypting_key.
Print Assumptions C63_round_trips.
Print Assumptions C63_public_layout.
Print Assumptions C63_private_layout.
Print Assumptions C64_private_round_trip.
Print Assumptions C64_public_round_trip.
Print Assumptions C64_private_accepts.
Print Assumptions C64_private_only.
Print Assumptions C64_public_accepts.
Print Assumptions C64_public_only.
Print Assumptions C64_same_as_pkcs8.
Print Assumptions C64_multi_prime_refused.
Print Assumptions C65_identifier.
Print Assumptions C65_distinct.
Print Assumptions C65_not_key_identifiers.
Print Assumptions C65_oid_encoder.
