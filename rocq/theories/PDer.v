(** Proofs about the DER layer. *)
From Coq Require Import ZArith List Bool Lia.
From Coq Require Import Init.Byte.
From Verif Require Import Base Bigint BytesLemmas SpecRFC SpecDer BigintLemmas MDer.
Import ListNotations.
Local Open Scope Z_scope.

(** * Shortest octet strings *)

Lemma log2_octets z k : 0 < z -> 0 <= k -> (Z.log2 z / 8 = k <-> 256 ^ k <= z < 256 ^ (k + 1)).
Proof.
  intros Hz Hk. rewrite !pow256_2 by lia.
  rewrite Z.log2_lt_pow2, Z.log2_le_pow2 by lia.
  replace (8 * (k + 1)) with (8 * k + 8) by ring.
  pose proof (Z.log2_nonneg z). 
  split.
  - intros <-. pose proof (Z.div_mod (Z.log2 z) 8 ltac:(lia)).
    pose proof (Z.mod_pos_bound (Z.log2 z) 8 ltac:(lia)). lia.
  - intros H1. symmetry. apply Z.div_unique with (Z.log2 z - 8 * k); lia.
Qed.

(** The octets a [UintRef] holds: non-empty, no superfluous leading zero. *)
Definition canonical (l : list byte) : Prop :=
  match l with
  | [] => False
  | [_] => True
  | b :: _ => b2z b <> 0
  end.

Lemma min_octets_be z : min_octets z = be_bytes (Z.to_nat (Z.log2 z / 8 + 1)) z.
Proof. apply i2osp_be_bytes. Qed.

Lemma min_octets_value z : 0 <= z -> os2ip (min_octets z) = z.
Proof.
  intros H. rewrite min_octets_be, os2ip_be_bytes. apply Z.mod_small.
  pose proof (Z.log2_nonneg z). assert (0 <= Z.log2 z / 8) by (apply Z.div_pos; lia).
  rewrite Z2Nat.id by lia. split; [auto|].
  destruct (Z.eq_dec z 0) as [->|N]; [apply Z.pow_pos_nonneg; lia|].
  apply (log2_octets z (Z.log2 z / 8)); auto; lia.
Qed.

Lemma canonical_min l : canonical l -> l = min_octets (os2ip l).
Proof.
  intros C. rewrite min_octets_be.
  assert (E : Z.to_nat (Z.log2 (os2ip l) / 8 + 1) = length l).
  { destruct l as [|a [|b l]]; cbn [canonical] in C; [contradiction| |].
    - pose proof (os2ip_range [a]) as R. cbn [length] in R.
      change (256 ^ Z.of_nat 1) with 256 in R.
      assert (0 <= Z.log2 (os2ip [a]) < 8).
      { split; [apply Z.log2_nonneg|]. destruct (Z.eq_dec (os2ip [a]) 0) as [->|]; [simpl; lia|].
        apply Z.log2_lt_pow2; change (2 ^ 8) with 256; lia. }
      rewrite Z.div_small by lia. reflexivity.
    - set (r := b :: l) in *. pose proof (os2ip_range (a :: r)) as R.
      assert (L : 256 ^ Z.of_nat (length r) <= os2ip (a :: r)).
      { rewrite os2ip_cons. pose proof (b2z_range a). pose proof (os2ip_range r).
        pose proof (pow256_pos (length r)). nia. }
      assert (Z.log2 (os2ip (a :: r)) / 8 = Z.of_nat (length r)).
      { apply log2_octets; [pose proof (pow256_pos (length r)); lia|lia|].
        split; [auto|]. cbn [length] in R. rewrite Nat2Z.inj_succ in R.
        replace (Z.of_nat (length r) + 1) with (Z.succ (Z.of_nat (length r))) by lia. lia. }
      rewrite H. cbn [length]. lia. }
  rewrite E. symmetry. apply be_bytes_os2ip.
Qed.

Lemma min_octets_length z : 0 <= z -> length (min_octets z) = Z.to_nat (Z.log2 z / 8 + 1).
Proof. intros. rewrite min_octets_be. apply be_bytes_length. Qed.

Lemma strip_canonical l : l <> [] -> canonical (strip_zeros l) /\ os2ip (strip_zeros l) = os2ip l.
Proof.
  induction l as [|a l IH]; [congruence|]. intros _.
  destruct l as [|b l]; [cbn; auto|].
  change (strip_zeros (a :: b :: l)) with
    (if byte_eqb a x00 then strip_zeros (b :: l) else a :: b :: l).
  unfold byte_eqb. change (b2z x00) with 0.
  destruct (Z.eqb_spec (b2z a) 0) as [E|E].
  - destruct IH as (C & V); [congruence|]. split; [exact C|].
    rewrite V, (os2ip_cons a), E. ring.
  - split; [exact E|reflexivity].
Qed.

Lemma strip_min l : l <> [] -> strip_zeros l = min_octets (os2ip l).
Proof.
  intros H. destruct (strip_canonical l H) as (C & V). rewrite (canonical_min _ C), V. reflexivity.
Qed.

Lemma min_canonical z : 0 <= z -> canonical (min_octets z).
Proof.
  intros H. assert (N : min_octets z <> []).
  { intros E. pose proof (min_octets_length z H) as L. rewrite E in L. cbn in L.
    pose proof (Z.log2_nonneg z). assert (0 <= Z.log2 z / 8) by (apply Z.div_pos; lia). lia. }
  destruct (strip_canonical _ N) as (C & _). rewrite strip_min in C by auto.
  rewrite min_octets_value in C by auto. exact C.
Qed.

(** * Lengths *)

Lemma min_octets_of z l : 0 <= z -> l <> [] -> canonical l -> os2ip l = z -> min_octets z = l.
Proof. intros Hz Hl C V. rewrite <- V. symmetry. apply canonical_min. auto. Qed.

Lemma os2ip_bytes1 a : os2ip [z2b a] = a mod 256.
Proof. rewrite os2ip_cons. cbn [length os2ip]. change (256 ^ Z.of_nat 0) with 1. rewrite b2z_z2b. lia. Qed.

Lemma length_octets_be n : 0 <= n < 2 ^ 32 ->
  length_octets n =
    if n <? 128 then [z2b n]
    else let k := if n <? 256 then 1%nat else if n <? 65536 then 2%nat
                  else if n <? 16777216 then 3%nat else 4%nat in
         z2b (128 + Z.of_nat k) :: be_bytes k n.
Proof.
  intros H. unfold length_octets.
  destruct (n <? 128); [reflexivity|]. cbv zeta.
  destruct (n <? 256); [reflexivity|].
  destruct (n <? 65536); [reflexivity|].
  destruct (n <? 16777216); cbn [be_bytes app].
  - rewrite !Z.div_div by lia. reflexivity.
  - rewrite !Z.div_div by lia. reflexivity.
Qed.

Lemma length_octets_spec n : Z.of_nat n < 2 ^ 32 -> length_octets (Z.of_nat n) = der_length n.
Proof.
  intros H. rewrite length_octets_be by lia. unfold der_length.
  destruct (Z.ltb_spec (Z.of_nat n) 128) as [L|L]; destruct (Nat.ltb_spec n 128) as [L'|L']; try lia; [reflexivity|].
  cbv zeta. rewrite min_octets_length by lia. rewrite min_octets_be.
  assert (E : Z.log2 (Z.of_nat n) / 8 + 1 = Z.of_nat (if Z.of_nat n <? 256 then 1%nat else if Z.of_nat n <? 65536 then 2%nat
                  else if Z.of_nat n <? 16777216 then 3%nat else 4%nat)).
  { change (2 ^ 32) with 4294967296 in H.
    assert (X : forall k, 0 <= k -> 256 ^ k <= Z.of_nat n < 256 ^ (k + 1) -> Z.log2 (Z.of_nat n) / 8 = k)
      by (intros; apply log2_octets; lia).
    destruct (Z.ltb_spec (Z.of_nat n) 256); [rewrite (X 0); [reflexivity|lia|]; change (256 ^ 0) with 1; change (256 ^ (0 + 1)) with 256; lia|].
    destruct (Z.ltb_spec (Z.of_nat n) 65536); [rewrite (X 1); [reflexivity|lia|]; change (256 ^ 1) with 256; change (256 ^ (1 + 1)) with 65536; lia|].
    destruct (Z.ltb_spec (Z.of_nat n) 16777216); [rewrite (X 2); [reflexivity|lia|]; change (256 ^ 2) with 65536; change (256 ^ (2 + 1)) with 16777216; lia|].
    rewrite (X 3); [reflexivity|lia|]; change (256 ^ 3) with 16777216; change (256 ^ (3 + 1)) with 4294967296; lia. }
  rewrite E, Nat2Z.id. reflexivity.
Qed.

Section WithMax.
  Context (mx : Z).
  Hypothesis Hmx : mx < 2 ^ 32.

  (** [l] fits the dependency's length limit. *)
  Notation fits l := (Z.of_nat (length l) <= mx).

  Lemma encode_tlv_ok tag c : fits (der_tlv tag c) -> encode_tlv mx tag c = Ok (der_tlv tag c).
  Proof.
    intros H. assert (C : Z.of_nat (length c) < 2 ^ 32).
    { unfold der_tlv in H. cbn [length] in H. rewrite app_length in H. lia. }
    unfold encode_tlv. cbv zeta. rewrite length_octets_spec by auto. fold (der_tlv tag c).
    destruct (Z.ltb_spec mx (Z.of_nat (length (der_tlv tag c)))); [lia|reflexivity].
  Qed.

  Lemma encode_tlv_inv tag c r : encode_tlv mx tag c = Ok r -> r = der_tlv tag c /\ fits r.
  Proof.
    unfold encode_tlv. cbv zeta.
    set (o := tag :: _). destruct (Z.ltb_spec mx (Z.of_nat (length o))) as [|L]; intros Hr; [discriminate|].
    injection Hr as <-. split; [|exact L]. unfold o in *. cbn [length] in L. rewrite app_length in L.
    rewrite length_octets_spec by lia. reflexivity.
  Qed.

  Lemma encode_tlv_err tag c : (exists r, encode_tlv mx tag c = Ok r) \/ encode_tlv mx tag c = Err ErrAsn1.
  Proof. unfold encode_tlv. cbv zeta. destruct (_ <? _); eauto. Qed.

  Lemma decode_length_ok n rest : Z.of_nat n <= mx ->
    decode_length mx (der_length n ++ rest) = Ok (Z.of_nat n, rest).
  Proof.
    intros H. pose proof (length_octets_spec n ltac:(lia)) as E.
    rewrite <- E, length_octets_be by lia.
    destruct (Z.ltb_spec (Z.of_nat n) 128) as [L|L].
    - cbn [app decode_length]. rewrite b2z_z2b, Z.mod_small by lia.
      destruct (Z.ltb_spec (Z.of_nat n) 128); [|lia].
      apply Z.leb_le in H. rewrite H. reflexivity.
    - cbv zeta. set (k := if Z.of_nat n <? 256 then _ else _).
      assert (K : Z.of_nat n < 256 ^ Z.of_nat k /\ (1 <= k <= 4)%nat /\ length (length_octets (Z.of_nat n)) = S k).
      { rewrite length_octets_be by lia. destruct (Z.ltb_spec (Z.of_nat n) 128); [lia|].
        cbv zeta. fold k. cbn [length]. rewrite be_bytes_length. split; [|split; [|reflexivity]].
        - unfold k. destruct (Z.ltb_spec (Z.of_nat n) 256); [simpl; lia|].
          destruct (Z.ltb_spec (Z.of_nat n) 65536); [simpl; lia|].
          destruct (Z.ltb_spec (Z.of_nat n) 16777216); [simpl; lia|].
          change (256 ^ Z.of_nat 4) with (2 ^ 32). lia.
        - unfold k. repeat (destruct (_ <? _)); lia. }
      clearbody k. destruct K as (K1 & K2 & K3).
      assert (D : forall r, long_length mx k (be_bytes k (Z.of_nat n) ++ r) = Ok (Z.of_nat n, r)).
      { intros r. unfold long_length. rewrite app_length, be_bytes_length.
        destruct (Nat.ltb_spec (k + length r) k); [lia|]. cbv zeta.
        assert (L1 : length (be_bytes k (Z.of_nat n)) = k) by apply be_bytes_length.
        rewrite firstn_app, L1, Nat.sub_diag, firstn_O, app_nil_r.
        rewrite firstn_all2 by lia.
        rewrite be_value_os2ip, os2ip_be_bytes, Z.mod_small by lia.
        unfold guard. apply Z.leb_le in H. rewrite H. cbn [bind].
        rewrite K3.
        destruct (Z.eqb_spec (Z.of_nat (S k)) (Z.of_nat k + 1)); [|lia].
        destruct (Z.ltb_spec (Z.of_nat n) 128); [lia|]. cbn [andb negb bind].
        rewrite skipn_app, L1, Nat.sub_diag, skipn_O, skipn_all2 by lia. reflexivity. }
      cbn [app decode_length]. rewrite b2z_z2b.
      assert (C : k = 1%nat \/ k = 2%nat \/ k = 3%nat \/ k = 4%nat) by lia.
      destruct C as [C|[C|[C|C]]]; subst k; apply D.
  Qed.

  Lemma decode_tlv_ok tag c rest : Z.of_nat (length c) <= mx ->
    decode_tlv mx (der_tlv tag c ++ rest) = Ok (tag, c, rest).
  Proof.
    intros H. unfold der_tlv. cbn [app decode_tlv]. rewrite <- app_assoc.
    rewrite decode_length_ok by auto. cbn [bind]. rewrite app_length.
    destruct (Z.ltb_spec (Z.of_nat (length c + length rest)) (Z.of_nat (length c))); [lia|].
    rewrite Nat2Z.id, firstn_app, skipn_app, Nat.sub_diag, firstn_O, skipn_O, app_nil_r.
    rewrite firstn_all, skipn_all. reflexivity.
  Qed.

  Lemma byte_eqb_refl b : byte_eqb b b = true.
  Proof. unfold byte_eqb. apply Z.eqb_refl. Qed.

  Lemma decode_tagged_ok tag c rest : Z.of_nat (length c) <= mx ->
    decode_tagged mx tag (der_tlv tag c ++ rest) = Ok (c, rest).
  Proof.
    intros H. unfold decode_tagged. rewrite decode_tlv_ok by auto. cbn [bind].
    rewrite byte_eqb_refl. reflexivity.
  Qed.

  (** * Integers *)

  Lemma uint_content_spec z : 0 <= z -> uint_content (min_octets z) = int_octets z.
  Proof.
    intros H. pose proof (min_canonical z H) as C. pose proof (min_octets_length z H) as L.
    pose proof (min_octets_value z H) as V.
    unfold int_octets. rewrite i2osp_be_bytes.
    pose proof (Z.log2_nonneg z) as G.
    destruct (min_octets z) as [|b r] eqn:E; [contradiction|]. cbn [uint_content].
    rewrite os2ip_cons in V. pose proof (os2ip_range r) as R. pose proof (b2z_range b) as B.
    pose proof (pow256_pos (length r)) as P. cbn [length] in L.
    assert (A : Z.log2 z / 8 = Z.of_nat (length r)) by (assert (0 <= Z.log2 z / 8) by (apply Z.div_pos; lia); lia).
    assert (W : 256 ^ Z.of_nat (length r) = 2 ^ (8 * Z.of_nat (length r))) by (apply pow256_2; lia).
    destruct (Z.ltb_spec (b2z b) 128) as [T|T].
    - assert (Q : (Z.log2 z + 1) / 8 = Z.of_nat (length r)).
      { symmetry. apply Z.div_unique with (Z.log2 z + 1 - 8 * Z.of_nat (length r)); [|lia]. left.
        pose proof (Z.div_mod (Z.log2 z) 8 ltac:(lia)) as DM. pose proof (Z.mod_pos_bound (Z.log2 z) 8 ltac:(lia)).
        rewrite A in DM. split; [lia|].
        assert (z < 2 ^ (8 * Z.of_nat (length r) + 7)).
        { rewrite Z.pow_add_r by lia. rewrite <- W. change (2 ^ 7) with 128. nia. }
        destruct (Z.eq_dec z 0) as [->|N]; [simpl; lia|].
        rewrite Z.log2_lt_pow2 in H1 by lia. lia. }
      rewrite Q. replace (Z.to_nat (Z.of_nat (length r) + 1)) with (length (b :: r)) by (cbn [length]; lia).
      rewrite <- (be_bytes_os2ip (b :: r)) at 1. rewrite os2ip_cons, V. reflexivity.
    - assert (Q : (Z.log2 z + 1) / 8 = Z.of_nat (length r) + 1).
      { symmetry. apply Z.div_unique with 0; [lia|].
        assert (Z.log2 z = 8 * Z.of_nat (length r) + 7); [|lia].
        apply Z.log2_unique; [lia|].
        replace (Z.succ (8 * Z.of_nat (length r) + 7)) with (8 * Z.of_nat (length r) + 8) by lia.
        rewrite !Z.pow_add_r by lia. rewrite <- W. change (2 ^ 7) with 128. change (2 ^ 8) with 256. nia. }
      rewrite Q. replace (Z.to_nat (Z.of_nat (length r) + 1 + 1)) with (1 + length (b :: r))%nat by (cbn [length]; lia).
      rewrite be_bytes_app. change (x00 :: b :: r) with ([x00] ++ (b :: r)). f_equal.
      + cbn [be_bytes app]. replace (z / 256 ^ Z.of_nat (length (b :: r))) with 0; [reflexivity|].
        symmetry. apply Z.div_small. split; [lia|]. rewrite <- V, <- os2ip_cons. apply os2ip_range.
      + rewrite <- (be_bytes_os2ip (b :: r)) at 1. rewrite (os2ip_cons b r), V. reflexivity.
  Qed.

  Lemma uint_value_ok l : canonical l -> uint_value (uint_content l) = Ok l.
  Proof.
    destruct l as [|a r]; intros C; [contradiction|]. cbn [uint_content].
    destruct (Z.ltb_spec (b2z a) 128) as [T|T].
    - cbn [uint_value]. destruct r as [|b r].
      + destruct (Z.ltb_spec (b2z a) 128); [reflexivity|lia].
      + cbn [canonical] in C. unfold byte_eqb. change (b2z x00) with 0.
        destruct (Z.eqb_spec (b2z a) 0); [lia|].
        destruct (Z.ltb_spec (b2z a) 128); [reflexivity|lia].
    - cbn [uint_value]. rewrite byte_eqb_refl. destruct (Z.ltb_spec (b2z a) 128); [lia|reflexivity].
  Qed.

  Lemma encode_uint_ok z : 0 <= z -> fits (der (AInteger z)) ->
    encode_uint mx (min_octets z) = Ok (der (AInteger z)).
  Proof.
    intros H F. unfold encode_uint. rewrite uint_content_spec by auto. apply encode_tlv_ok. exact F.
  Qed.

  Lemma der_fits tag c : fits (der_tlv tag c) -> Z.of_nat (length c) <= mx.
  Proof. unfold der_tlv. cbn [length]. rewrite app_length. lia. Qed.

  Lemma decode_uint_ok z rest : 0 <= z -> fits (der (AInteger z)) ->
    decode_uint mx (der (AInteger z) ++ rest) = Ok (min_octets z, rest).
  Proof.
    intros H F. unfold decode_uint. cbn [der]. change x02 with tag_integer.
    rewrite decode_tagged_ok by (eapply der_fits; exact F). cbn [bind].
    rewrite <- uint_content_spec by auto. rewrite uint_value_ok by (apply min_canonical; auto).
    reflexivity.
  Qed.

  Lemma uint_ref_new_ok u : wf_uint u -> fits (min_octets (uval u)) ->
    uint_ref_new mx (to_be_bytes u) = Ok (min_octets (uval u)).
  Proof.
    intros W F. unfold uint_ref_new. cbv zeta.
    assert (N : to_be_bytes u <> []).
    { intros E. apply (f_equal (@length byte)) in E. unfold to_be_bytes in E.
      rewrite be_bytes_length in E. cbn [length] in E. destruct W as (_ & W & _).
      assert (8 <= uprec u / 8) by (apply Z.div_le_lower_bound; lia). lia. }
    assert (V : os2ip (to_be_bytes u) = uval u).
    { unfold to_be_bytes. rewrite os2ip_be_bytes. destruct W as (W1 & W2 & W3).
      rewrite Z2Nat.id by (apply Z.div_pos; lia). rewrite pow256_2 by (apply Z.div_pos; lia).
      replace (8 * (uprec u / 8)) with (uprec u); [apply Z.mod_small; lia|].
      assert (M : uprec u mod 8 = 0).
      { apply Z.mod_divide; [lia|]. apply Z.mod_divide in W3; [|lia]. destruct W3 as (x & ->).
        exists (x * 8). ring. }
      pose proof (Z.div_mod (uprec u) 8 ltac:(lia)). lia. }
    rewrite strip_min, V by auto.
    destruct (Z.ltb_spec mx (Z.of_nat (length (min_octets (uval u))))); [lia|reflexivity].
  Qed.

  Lemma int_octets_length z : 0 <= z -> (length (min_octets z) <= length (int_octets z))%nat.
  Proof.
    intros H. rewrite <- uint_content_spec by auto. destruct (min_octets z) as [|b r]; [auto|].
    cbn [uint_content]. destruct (_ <? _); cbn [length]; lia.
  Qed.
End WithMax.
