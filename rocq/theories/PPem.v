(** Lemmas for PropPem.v: base 64 and PEM texts. *)
From Coq Require Import String.
From Coq Require Import ZArith List Bool Lia.
From Coq Require Import Init.Byte.
From Verif Require Import Base Bigint BytesLemmas SpecRFC SpecPem MPem.
Import ListNotations.
Local Open Scope Z_scope.
Local Open Scope list_scope.
Notation length := List.length.

Lemma ind3 (P : list byte -> Prop) : P [] -> (forall a, P [a]) -> (forall a b, P [a; b]) ->
  (forall a b c r, P r -> P (a :: b :: c :: r)) -> forall l, P l.
Proof.
  intros H0 H1 H2 H3 l. enough (P l /\ (forall a, P (a :: l)) /\ (forall a b, P (a :: b :: l))) by tauto.
  induction l as [|x l (A & B & C)]; [auto|]. split; [apply B|]. split; [intros a; apply C|].
  intros a b. apply H3. exact A.
Qed.

(** ** Characters *)

Lemma enc6_char v : 0 <= v < 64 -> enc6 v = char64 v /\ dec6 (enc6 v) = Some v /\
  enc6 v <> x0a /\ enc6 v <> x0d.
Proof.
  intros H. assert (I : In (Z.to_nat v) (seq 0 64)) by (apply in_seq; lia).
  rewrite <- (Z2Nat.id v) by lia. revert I. generalize (Z.to_nat v). intros n I. cbn [seq In] in I.
  repeat (destruct I as [<-|I]; [repeat split; vm_compute; congruence|]). contradiction.
Qed.

Lemma dec6_char c v : dec6 c = Some v -> 0 <= v < 64 /\ c = enc6 v.
Proof.
  pose proof (b2z_range c) as R. unfold dec6, enc6.
  destruct (Z.leb_spec 65 (b2z c)), (Z.leb_spec (b2z c) 90), (Z.leb_spec 97 (b2z c)), (Z.leb_spec (b2z c) 122),
    (Z.leb_spec 48 (b2z c)), (Z.leb_spec (b2z c) 57), (Z.eqb_spec (b2z c) 43), (Z.eqb_spec (b2z c) 47);
    try lia; cbn [andb]; intros E; inversion E; subst v; (split; [lia|]);
    destruct (Z.ltb_spec (b2z c - 65) 26), (Z.ltb_spec (b2z c - 71) 26), (Z.ltb_spec (b2z c - 71) 52), (Z.ltb_spec (b2z c + 4) 26),
      (Z.ltb_spec (b2z c + 4) 52), (Z.ltb_spec (b2z c + 4) 62); try lia; cbn [Z.ltb Z.eqb Z.compare Pos.compare Pos.compare_cont Pos.eqb];
    rewrite <- (z2b_b2z c) at 1; f_equal; lia.
Qed.

Lemma dec6_eq : dec6 pad = None. Proof. reflexivity. Qed.

Ltac b2 := repeat match goal with b : byte |- _ =>
  lazymatch goal with H : 0 <= b2z b < 256 |- _ => fail | _ => pose proof (b2z_range b) end end.

Ltac six := match goal with |- 0 <= ?v < 64 => try (split; [Z.div_mod_to_equations; lia|Z.div_mod_to_equations; lia]) end.

Lemma dec_enc v : 0 <= v < 64 -> dec6 (enc6 v) = Some v.
Proof. intros H. apply enc6_char. exact H. Qed.

Lemma enc_c v : 0 <= v < 64 -> enc6 v = char64 v.
Proof. intros H. apply enc6_char. exact H. Qed.

Lemma back b v : v = b2z b -> z2b v = b.
Proof. intros ->. apply z2b_b2z. Qed.

Lemma decode_encode l : b64_decode (b64_encode l) = Some l.
Proof.
  induction l as [|a|a b|a b c r IH] using ind3; [reflexivity| | |]; b2; cbn [b64_encode b64_decode].
  - rewrite !dec_enc by six. rewrite dec6_eq. cbn [length].
    replace (byte_eqb pad pad) with true by reflexivity. cbn [andb Nat.eqb].
    replace (b2z a mod 4 * 16 mod 16 =? 0) with true by (symmetry; apply Z.eqb_eq; apply Z_mod_mult).
    do 2 f_equal. apply back. rewrite Z.div_mul by lia. Z.div_mod_to_equations; lia.
  - rewrite !dec_enc by six. rewrite dec6_eq. cbn [length].
    replace (byte_eqb pad pad) with true by reflexivity. cbn [andb Nat.eqb].
    replace (b2z b mod 16 * 4 mod 4 =? 0) with true by (symmetry; apply Z.eqb_eq; apply Z_mod_mult).
    f_equal. f_equal; [|f_equal]; apply back; Z.div_mod_to_equations; lia.
  - rewrite !dec_enc by six. rewrite IH.
    f_equal. f_equal; [|f_equal; [|f_equal]]; apply back; Z.div_mod_to_equations; lia.
Qed.

Lemma decode_canonical l : forall d, b64_decode l = Some d -> l = b64_encode d.
Proof.
  enough (H : forall n l d, (length l <= n)%nat -> b64_decode l = Some d -> l = b64_encode d)
    by (intros d; apply (H (length l)); lia).
  clear l. induction n as [|n IH]; intros l d L E.
  - destruct l; [|cbn in L; lia]. injection E as <-. reflexivity.
  - destruct l as [|a l]; [injection E as <-; reflexivity|].
    do 3 (destruct l as [|? l]; [discriminate|]). cbn [b64_decode] in E. cbn [length] in L.
    destruct (dec6 a) as [x|] eqn:Ex; [|discriminate]. destruct (dec6 b) as [y|] eqn:Ey; [|discriminate].
    apply dec6_char in Ex, Ey. destruct Ex as (Bx & ->), Ey as (By & ->).
    destruct (dec6 b0) as [z|] eqn:Ez; destruct (dec6 b1) as [w|] eqn:Ew; try discriminate.
    + apply dec6_char in Ez, Ew. destruct Ez as (Bz & ->), Ew as (Bw & ->).
      destruct (b64_decode l) as [s|] eqn:Es; [|discriminate]. injection E as <-.
      apply IH in Es; [|lia]. rewrite Es. cbn [b64_encode].
      rewrite !b2z_z2b_small by (Z.div_mod_to_equations; lia).
      f_equal; [f_equal; Z.div_mod_to_equations; lia|].
      f_equal; [f_equal; Z.div_mod_to_equations; lia|].
      f_equal; [f_equal; Z.div_mod_to_equations; lia|].
      f_equal; f_equal; Z.div_mod_to_equations; lia.
    + destruct (byte_eqb b1 pad && _ && _) eqn:C; [|discriminate]. injection E as <-.
      apply andb_true_iff in C. destruct C as (C & C3). apply andb_true_iff in C. destruct C as (C1 & C2).
      apply byte_eqb_eq in C1. apply Nat.eqb_eq in C2. apply Z.eqb_eq in C3. destruct l; [|discriminate]. subst b1.
      apply dec6_char in Ez. destruct Ez as (Bz & ->). cbn [b64_encode].
      rewrite !b2z_z2b_small by (Z.div_mod_to_equations; lia).
      f_equal; [f_equal; Z.div_mod_to_equations; lia|].
      f_equal; [f_equal; Z.div_mod_to_equations; lia|].
      f_equal; f_equal; Z.div_mod_to_equations; lia.
    + destruct (byte_eqb b0 pad && _ && _ && _) eqn:C; [|discriminate]. injection E as <-.
      rewrite !andb_true_iff in C. destruct C as (((C1 & C2) & C3) & C4).
      apply byte_eqb_eq in C1, C2. apply Nat.eqb_eq in C3. apply Z.eqb_eq in C4. destruct l; [|discriminate]. subst b0 b1.
      cbn [b64_encode].
      rewrite !b2z_z2b_small by (Z.div_mod_to_equations; lia).
      f_equal; [f_equal; Z.div_mod_to_equations; lia|].
      f_equal; f_equal; Z.div_mod_to_equations; lia.
Qed.

(** ** The encoder against RFC 4648 *)

Lemma digits64_length n : forall v, length (digits64 n v) = n.
Proof. induction n as [|n IH]; intros v; [reflexivity|]. cbn [digits64]. rewrite app_length, IH. cbn. lia. Qed.

Lemma digits64_app m n : forall x y, 0 <= y < 64 ^ Z.of_nat n ->
  digits64 (m + n) (x * 64 ^ Z.of_nat n + y) = digits64 m x ++ digits64 n y.
Proof.
  induction n as [|n IH]; intros x y H.
  - cbn [Z.of_nat] in *. rewrite Nat.add_0_r, app_nil_r. f_equal. rewrite Z.pow_0_r in *. lia.
  - rewrite Nat.add_succ_r. cbn [digits64]. rewrite app_assoc.
    rewrite Nat2Z.inj_succ, Z.pow_succ_r in * by lia.
    replace (x * (64 * 64 ^ Z.of_nat n) + y) with (y + (x * 64 ^ Z.of_nat n) * 64) by ring.
    rewrite Z.div_add, Z.mod_add by lia. f_equal. rewrite Z.add_comm. apply IH.
    split; [apply Z.div_pos; lia|]. apply Z.div_lt_upper_bound; lia.
Qed.

Lemma os2ip_bound l : 0 <= os2ip l < 256 ^ Z.of_nat (length l).
Proof.
  induction l as [|a l IH]; [cbn; lia|]. cbn [os2ip length]. rewrite Nat2Z.inj_succ, Z.pow_succ_r by lia.
  change (octet_val a) with (b2z a). pose proof (b2z_range a). nia.
Qed.

Lemma encode_base64 l : b64_encode l = base64 l.
Proof.
  induction l as [|a|a b|a b c r IH] using ind3; [reflexivity| | |]; b2.
  - unfold base64, missing. cbn [length Nat.modulo Nat.divmod fst snd Nat.sub Nat.add Nat.div Nat.mul repeat app].
    cbn [os2ip length]. change (octet_val a) with (b2z a). change (octet_val x00) with 0.
    set (v := _ : Z). assert (V : v = b2z a * 65536) by (unfold v; cbn [Z.of_nat]; lia). rewrite V. clear v V.
    cbn [digits64 app firstn map b64_encode].
    rewrite !enc_c by six.
    f_equal; [f_equal; Z.div_mod_to_equations; lia|]. f_equal; f_equal; Z.div_mod_to_equations; lia.
  - unfold base64, missing. cbn [length Nat.modulo Nat.divmod fst snd Nat.sub Nat.add Nat.div Nat.mul repeat app].
    cbn [os2ip length]. change (octet_val a) with (b2z a). change (octet_val b) with (b2z b). change (octet_val x00) with 0.
    set (v := _ : Z). assert (V : v = b2z a * 65536 + b2z b * 256) by (unfold v; cbn [Z.of_nat]; lia). rewrite V. clear v V.
    cbn [digits64 app firstn map b64_encode].
    rewrite !enc_c by six.
    f_equal; [f_equal; Z.div_mod_to_equations; lia|]. f_equal; [f_equal; Z.div_mod_to_equations; lia|].
    f_equal; f_equal; Z.div_mod_to_equations; lia.
  - cbn [b64_encode]. rewrite IH. unfold base64.
    assert (M : missing (a :: b :: c :: r) = missing r).
    { unfold missing. cbn [length]. replace (S (S (S (length r)))) with (length r + 1 * 3)%nat by lia.
      rewrite Nat.mod_add by lia. reflexivity. }
    rewrite M. set (m := missing r).
    assert (D : ((length r + m) mod 3 = 0)%nat /\ (m <= 2)%nat).
    { unfold m, missing. pose proof (Nat.mod_upper_bound (length r) 3 ltac:(lia)).
      pose proof (Nat.div_mod (length r) 3 ltac:(lia)) as E. remember (length r / 3)%nat as q. clear Heqq.
      destruct (length r mod 3)%nat as [|[|[|]]] eqn:X; try lia; (split; [|lia]).
      - rewrite E, Nat.mul_comm, !Nat.add_0_r. apply Nat.mod_mul. lia.
      - replace (length r + 2)%nat with ((q + 1) * 3)%nat by lia. apply Nat.mod_mul. lia.
      - replace (length r + 1)%nat with ((q + 1) * 3)%nat by lia. apply Nat.mod_mul. lia. }
    destruct D as (D & M2).
    pose proof (Nat.div_mod (length r + m) 3 ltac:(lia)) as E. rewrite D, Nat.add_0_r in E.
    set (k := ((length r + m) / 3)%nat) in *.
    replace (4 * ((length (a :: b :: c :: r) + m) / 3))%nat with (4 + 4 * k)%nat.
    2:{ cbn [length]. replace (S (S (S (length r))) + m)%nat with (length r + m + 1 * 3)%nat by lia.
        rewrite Nat.div_add by lia. fold k. lia. }
    cbn [app]. set (s := r ++ repeat x00 m).
    assert (Ls : length s = (3 * k)%nat) by (unfold s; rewrite app_length, repeat_length; lia).
    pose proof (os2ip_bound s) as Bs. rewrite Ls in Bs.
    assert (P : 256 ^ Z.of_nat (3 * k) = 64 ^ Z.of_nat (4 * k)).
    { rewrite !Nat2Z.inj_mul, !Z.pow_mul_r by lia. reflexivity. }
    assert (V : os2ip (a :: b :: c :: s) = (b2z a * 65536 + b2z b * 256 + b2z c) * 64 ^ Z.of_nat (4 * k) + os2ip s).
    { cbn [os2ip length]. change (octet_val a) with (b2z a). change (octet_val b) with (b2z b).
      change (octet_val c) with (b2z c). rewrite Ls, <- P. rewrite !Nat2Z.inj_succ, !Z.pow_succ_r by lia. ring. }
    rewrite V. rewrite P in Bs. rewrite digits64_app by exact Bs.
    destruct (Nat.eq_dec k 0) as [K|K].
    + assert (m = 0%nat) by lia. assert (length r = 0%nat) by lia. rewrite K, H2. cbn [Nat.mul Nat.sub Nat.add].
      cbn [digits64 firstn map app repeat].
      rewrite !enc_c by six. rewrite ?app_nil_r.
      f_equal; [f_equal; Z.div_mod_to_equations; lia|]. f_equal; [f_equal; Z.div_mod_to_equations; lia|].
      f_equal; [f_equal; Z.div_mod_to_equations; lia|]. f_equal; f_equal; Z.div_mod_to_equations; lia.
    + replace (4 + 4 * k - m)%nat with (4 + (4 * k - m))%nat by lia.
      remember (digits64 (4 * k) (os2ip s)) as tl eqn:Et.
      cbn [digits64 app Nat.add firstn map].
      rewrite !enc_c by six.
      f_equal; [f_equal; Z.div_mod_to_equations; lia|]. f_equal; [f_equal; Z.div_mod_to_equations; lia|].
      f_equal; [f_equal; Z.div_mod_to_equations; lia|]. f_equal; f_equal; Z.div_mod_to_equations; lia.
Qed.

(** ** Prefixes, suffixes and line endings *)

Definition plain (c : byte) : Prop := is_eol_char c = false.

Lemma plain_neq c : plain c <-> c <> x0a /\ c <> x0d.
Proof. unfold plain. destruct c; cbn; intuition congruence. Qed.

Lemma encode_plain l : Forall plain (b64_encode l).
Proof.
  assert (P : plain pad) by reflexivity.
  assert (C : forall v, 0 <= v < 64 -> plain (enc6 v)) by (intros v H; apply plain_neq; split; apply enc6_char; auto).
  induction l as [|a|a b|a b c r IH] using ind3; b2; cbn [b64_encode]; [constructor| | |];
    repeat (apply Forall_cons; [first [exact P|apply C; six]|]); [constructor|constructor|exact IH].
Qed.

Lemma strip_prefix_app p l : strip_prefix p (p ++ l) = Some l.
Proof. induction p as [|a p IH]; [reflexivity|]. cbn [strip_prefix app]. rewrite byte_eqb_refl. exact IH. Qed.

Lemma strip_prefix_inv p : forall l r, strip_prefix p l = Some r -> l = p ++ r.
Proof.
  induction p as [|a p IH]; intros l r; cbn [strip_prefix]; [intros E; injection E as <-; reflexivity|].
  destruct l as [|b l]; [discriminate|]. destruct (byte_eqb_spec a b) as [->|]; [|discriminate].
  intros E. apply IH in E. subst. reflexivity.
Qed.

Lemma strip_suffix_app p l : strip_suffix p (l ++ p) = Some l.
Proof. unfold strip_suffix. rewrite rev_app_distr, strip_prefix_app. cbn [option_map]. rewrite rev_involutive. reflexivity. Qed.

Lemma strip_suffix_inv p l r : strip_suffix p l = Some r -> l = r ++ p.
Proof.
  unfold strip_suffix. destruct (strip_prefix (rev p) (rev l)) as [s|] eqn:E; [|discriminate].
  cbn [option_map]. intros H. injection H as <-. apply strip_prefix_inv in E.
  rewrite <- (rev_involutive l), E, rev_app_distr, rev_involutive. reflexivity.
Qed.

Lemma leading_eol e c l : is_eol e -> plain c -> strip_leading_eol (e ++ c :: l) = Some (c :: l).
Proof.
  intros E P. apply plain_neq in P. destruct P as (P & _). destruct E as [->|[->| ->]]; cbn [app strip_leading_eol]; try reflexivity.
  destruct c; congruence || reflexivity.
Qed.

Lemma leading_eol_inv l r : strip_leading_eol l = Some r -> exists e, is_eol e /\ l = e ++ r.
Proof.
  unfold is_eol. destruct l as [|c l]; [discriminate|]. destruct c; try discriminate; cbn [strip_leading_eol].
  - intros E. injection E as <-. exists [x0a]. auto.
  - destruct l as [|c l]; [intros E; injection E as <-; exists [x0d]; auto|].
    destruct (byte_eqb_spec c x0a) as [->|N].
    + intros E. injection E as <-. exists [x0d; x0a]. auto.
    + intros E. exists [x0d]. split; [auto|]. destruct c; try congruence; injection E as <-; reflexivity.
Qed.

Lemma trailing_eol e c l : is_eol e -> plain c -> strip_trailing_eol (l ++ [c] ++ e) = Some (l ++ [c]).
Proof.
  intros E P. apply plain_neq in P. destruct P as (_ & P). unfold strip_trailing_eol.
  rewrite app_assoc, rev_app_distr.
  replace (l ++ [c]) with (rev (rev (l ++ [c]))) at 2 by apply rev_involutive.
  destruct E as [->|[->| ->]]; cbn [app rev]; try reflexivity.
  rewrite rev_app_distr. cbn [rev app]. destruct c; congruence || reflexivity.
Qed.

Lemma trailing_none c l : plain c -> strip_trailing_eol (l ++ [c]) = None.
Proof.
  intros P. apply plain_neq in P. destruct P as (P1 & P2). unfold strip_trailing_eol. rewrite rev_app_distr. cbn [rev app].
  destruct c; congruence || reflexivity.
Qed.

Lemma trailing_eol_inv l r : strip_trailing_eol l = Some r -> exists e, is_eol e /\ l = r ++ e.
Proof.
  unfold is_eol, strip_trailing_eol. intros H.
  assert (L : forall s, rev l = s -> l = rev s) by (intros s <-; symmetry; apply rev_involutive).
  destruct (rev l) as [|c s]; [discriminate|]. specialize (L _ eq_refl).
  destruct c; try discriminate.
  - destruct s as [|c s]; [injection H as <-; exists [x0a]; auto|].
    destruct (byte_eqb_spec c x0d) as [->|N].
    + injection H as <-. exists [x0d; x0a]. split; [auto|]. rewrite L. cbn [rev]. rewrite <- app_assoc. reflexivity.
    + exists [x0a]. split; [auto|]. rewrite L. destruct c; try congruence; injection H as <-; reflexivity.
  - injection H as <-. exists [x0d]. split; [auto|]. rewrite L. reflexivity.
Qed.

(** ** Lines *)

Lemma lines_ends chars t : lines is_eol chars t -> Forall plain chars ->
  (exists c t', t = c :: t' /\ plain c) /\ (exists c t', t = t' ++ [c] /\ plain c).
Proof.
  induction 1 as [l L|l e r t L E H IH]; intros F.
  - destruct l as [|c l]; [cbn in L; lia|]. split; [exists c, l; inversion F; auto|].
    destruct (exists_last (l := c :: l)) as (l' & c' & X); [discriminate|]. rewrite X in *. exists c', l'. split; [reflexivity|].
    apply Forall_app in F. destruct F as (_ & F). inversion F. assumption.
  - apply Forall_app in F. destruct F as (F1 & F2). destruct (IH F2) as (_ & (c & t' & X & P)). split.
    + destruct l as [|c0 l]; [discriminate|]. exists c0, (l ++ e ++ t). inversion F1. auto.
    + exists c, (l ++ e ++ t'). rewrite X, <- !app_assoc. auto.
Qed.

Lemma unwrap_lines chars t : lines is_eol chars t -> Forall plain chars -> forall fuel, (length t < fuel)%nat ->
  unwrap fuel t = Some chars.
Proof.
  induction 1 as [l L|l e r t L E H IH]; intros F fuel B; (destruct fuel as [|fuel]; [lia|]); cbn [unwrap].
  - replace (length l <=? line_width)%nat with true by (symmetry; apply Nat.leb_le; unfold line_width; lia).
    destruct (lines_ends l l (last_line _ l L) F) as (_ & (c & t' & X & P)). rewrite X, trailing_none by exact P. reflexivity.
  - apply Forall_app in F. destruct F as (F1 & F2).
    destruct (lines_ends r t H F2) as ((c & t' & X & P) & _).
    rewrite !app_length in *. assert (1 <= length t)%nat by (rewrite X; cbn; lia).
    replace (length l + (length e + length t) <=? line_width)%nat with false by (symmetry; apply Nat.leb_gt; unfold line_width; lia).
    replace (skipn line_width (l ++ e ++ t)) with (e ++ t).
    2:{ unfold line_width. rewrite <- L, skipn_app, skipn_all, Nat.sub_diag. reflexivity. }
    rewrite X, leading_eol by auto. rewrite <- X. rewrite IH by (auto; lia).
    unfold line_width. rewrite <- L, firstn_app, firstn_all, Nat.sub_diag. cbn [firstn]. rewrite app_nil_r. reflexivity.
Qed.

Lemma wrap_short e l : forall pos, (pos + length l <= line_width)%nat -> wrap e pos l = l.
Proof.
  induction l as [|c r IH]; intros pos H; [reflexivity|]. cbn [wrap length] in *.
  replace (pos =? line_width)%nat with false by (symmetry; apply Nat.eqb_neq; lia). rewrite IH by lia. reflexivity.
Qed.

Lemma wrap_long e l c r : forall pos, (pos + length l = line_width)%nat ->
  wrap e pos (l ++ c :: r) = l ++ eol e ++ wrap e 0 (c :: r).
Proof.
  induction l as [|x l IH]; intros pos H; cbn [app wrap length] in *.
  - replace (pos =? line_width)%nat with true by (symmetry; apply Nat.eqb_eq; lia). reflexivity.
  - replace (pos =? line_width)%nat with false by (symmetry; apply Nat.eqb_neq; lia). rewrite IH by lia. reflexivity.
Qed.

Lemma eol_is e : is_eol (eol e).
Proof. unfold is_eol. destruct e; cbn; auto. Qed.

Lemma wrap_lines e l : l <> [] -> lines (eq (eol e)) l (wrap e 0 l).
Proof.
  enough (H : forall n l, (length l <= n)%nat -> l <> [] -> lines (eq (eol e)) l (wrap e 0 l)) by (apply (H (length l)); lia).
  clear l. induction n as [|n IH]; intros l L N; [destruct l; [congruence|cbn in L; lia]|].
  destruct (Nat.le_gt_cases (length l) 64) as [S|S].
  - rewrite wrap_short by (unfold line_width; lia). constructor. destruct l; [congruence|cbn in *; lia].
  - rewrite <- (firstn_skipn 64 l). set (a := firstn 64 l). set (b := skipn 64 l).
    assert (La : length a = 64%nat) by (unfold a; rewrite firstn_length; lia).
    assert (Lb : length b = (length l - 64)%nat) by (unfold b; apply skipn_length).
    destruct b as [|c r]; [cbn in Lb; lia|]. rewrite wrap_long by (unfold line_width; lia).
    apply next_line; [exact La|reflexivity|]. apply IH; [lia|discriminate].
Qed.

Lemma eol_chars e : is_eol e -> Forall (fun c => is_eol_char c = true) e.
Proof. intros [->|[->| ->]]; repeat constructor. Qed.

Lemma unwrap_inv fuel : forall t chars, unwrap fuel t = Some chars ->
  exists b blank, t = b ++ blank /\ Forall (fun c => is_eol_char c = true) blank /\
    (lines is_eol chars b \/ chars = [] /\ b = []).
Proof.
  induction fuel as [|fuel IH]; intros t chars; cbn [unwrap]; [discriminate|].
  destruct (Nat.leb_spec (length t) line_width) as [L|L]; unfold line_width in *.
  - intros E. injection E as <-.
    assert (K : forall b blank, t = b ++ blank -> lines is_eol b b \/ b = [] /\ b = []).
    { intros b blank ->. rewrite app_length in L. destruct b as [|c b]; [auto|]. left. constructor. cbn [length] in *. lia. }
    destruct (strip_trailing_eol t) as [r|] eqn:E; cbn [or_same].
    + apply trailing_eol_inv in E. destruct E as (e & E & X). exists r, e. split; [exact X|].
      split; [apply eol_chars; exact E|exact (K _ _ X)].
    + exists t, []. rewrite app_nil_r. split; [reflexivity|]. split; [constructor|].
      apply (K t []). rewrite app_nil_r. reflexivity.
  - destruct (strip_leading_eol _) as [rest|] eqn:E; [|discriminate].
    destruct (unwrap fuel rest) as [r|] eqn:U; [|discriminate]. intros X. injection X as <-.
    apply leading_eol_inv in E. destruct E as (e & E & S).
    pose proof (firstn_skipn 64 t) as T. rewrite S in T.
    assert (L64 : length (firstn 64 t) = 64%nat) by (rewrite firstn_length; lia).
    destruct (IH _ _ U) as (b & blank & -> & B & H). destruct H as [H|(-> & ->)].
    + exists (firstn 64 t ++ e ++ b), blank. rewrite <- !app_assoc. split; [symmetry; exact T|]. split; [exact B|].
      left. apply next_line; auto.
    + exists (firstn 64 t), (e ++ blank). split; [symmetry; exact T|].
      split; [apply Forall_app; split; [apply eol_chars; exact E|exact B]|]. left. rewrite app_nil_r. constructor. lia.
Qed.

(** ** Texts *)

Lemma not_mark c l : c <> x2d -> strip_prefix begin_mark (c :: l) = None.
Proof. intros N. cbn. destruct (byte_eqb_spec x2d c) as [X|]; [congruence|reflexivity]. Qed.

Lemma skip_text e r : is_eol e -> forall l, ~ In x00 l -> ~ In x2d l ->
  skip_preamble (l ++ e ++ begin_mark ++ r) = Some r.
Proof.
  intros E. induction l as [|c l IH]; intros N0 N1.
  - destruct E as [->|[->| ->]]; cbn [app skip_preamble].
    + replace (byte_eqb x0d x00) with false by reflexivity. replace (byte_eqb x0d x0a || byte_eqb x0d x0d) with true by reflexivity.
      rewrite strip_prefix_app. reflexivity.
    + replace (byte_eqb x0a x00) with false by reflexivity. replace (byte_eqb x0a x0a || byte_eqb x0a x0d) with true by reflexivity.
      rewrite strip_prefix_app. reflexivity.
    + replace (byte_eqb x0d x00) with false by reflexivity. replace (byte_eqb x0d x0a || byte_eqb x0d x0d) with true by reflexivity.
      rewrite not_mark by discriminate.
      replace (byte_eqb x0a x00) with false by reflexivity. replace (byte_eqb x0a x0a || byte_eqb x0a x0d) with true by reflexivity.
      rewrite strip_prefix_app. reflexivity.
  - cbn [app skip_preamble]. destruct (byte_eqb_spec c x00) as [->|]; [exfalso; apply N0; left; reflexivity|].
    assert (I : skip_preamble (l ++ e ++ begin_mark ++ r) = Some r) by (apply IH; intros I; [apply N0|apply N1]; right; exact I).
    rewrite I. destruct (byte_eqb c x0a || byte_eqb c x0d); [|reflexivity].
    assert (H : strip_prefix begin_mark (l ++ e ++ begin_mark ++ r) = None).
    { destruct l as [|c' l]; [destruct E as [->|[->| ->]]; cbn [app]; apply not_mark; discriminate|].
      cbn [app]. apply not_mark. intros ->. apply N1. right. left. reflexivity. }
    rewrite H. reflexivity.
Qed.

Lemma strip_preamble_app pre r : preamble pre -> strip_preamble (pre ++ begin_mark ++ r) = Some r.
Proof.
  unfold strip_preamble. intros [->|(l & e & -> & N0 & N1 & E)].
  - cbn [app]. rewrite strip_prefix_app. reflexivity.
  - rewrite <- app_assoc.
    assert (H : strip_prefix begin_mark (l ++ e ++ begin_mark ++ r) = None).
    { destruct l as [|c' l]; [destruct E as [->|[->| ->]]; cbn [app]; apply not_mark; discriminate|].
      cbn [app]. apply not_mark. intros ->. apply N1. left. reflexivity. }
    rewrite H. apply skip_text; auto.
Qed.

Lemma skip_preamble_inv l : forall r, skip_preamble l = Some r -> exists pre, l = pre ++ begin_mark ++ r.
Proof.
  induction l as [|c l IH]; intros r; cbn [skip_preamble]; [discriminate|].
  destruct (byte_eqb c x00); [discriminate|].
  assert (K : skip_preamble l = Some r -> exists pre, c :: l = pre ++ begin_mark ++ r).
  { intros E. destruct (IH r E) as (pre & ->). exists (c :: pre). reflexivity. }
  destruct (byte_eqb c x0a || byte_eqb c x0d); [|exact K].
  destruct (strip_prefix begin_mark l) as [s|] eqn:E; [|exact K]. intros X. injection X as <-.
  apply strip_prefix_inv in E. rewrite E. exists [c]. reflexivity.
Qed.

Lemma strip_preamble_inv l r : strip_preamble l = Some r -> exists pre, l = pre ++ begin_mark ++ r.
Proof.
  unfold strip_preamble. destruct (strip_prefix begin_mark l) as [s|] eqn:E; [|apply skip_preamble_inv].
  intros X. injection X as <-. apply strip_prefix_inv in E. exists []. exact E.
Qed.

Lemma split_label_app d r : split_label (label d ++ dashes ++ r) = Some (label d, r).
Proof. destruct d; reflexivity. Qed.

Lemma scan_label_inv l : forall f w a b, scan_label f w l = Some (a, b) -> l = a ++ b.
Proof.
  induction l as [|c l IH]; intros f w a b; cbn [scan_label]; [intros E; injection E as <- <-; reflexivity|].
  destruct (is_labelchar c).
  - destruct (scan_label false false l) as [(a', b')|] eqn:E; [|discriminate]. intros X. injection X as <- <-.
    apply IH in E. rewrite E. reflexivity.
  - destruct (byte_eqb c x2d); [intros E; injection E as <- <-; reflexivity|].
    destruct (negb f && is_wsp c && negb w); [|discriminate].
    destruct (scan_label false true l) as [(a', b')|] eqn:E; [|discriminate]. intros X. injection X as <- <-.
    apply IH in E. rewrite E. reflexivity.
Qed.

Lemma split_label_inv l a r : split_label l = Some (a, r) -> l = a ++ dashes ++ r.
Proof.
  unfold split_label. destruct (scan_label true false l) as [(x, y)|] eqn:E; [|discriminate].
  destruct (strip_prefix dashes y) as [s|] eqn:E2; [|discriminate]. intros X. injection X as <- <-.
  apply scan_label_inv in E. apply strip_prefix_inv in E2. subst. reflexivity.
Qed.

Lemma dashes_last : exists d0, dashes = d0 ++ [x2d].
Proof. exists (text "----"). reflexivity. Qed.

(** Every laid-out text is read. *)
Lemma decode_text d der pre t : der <> [] -> preamble pre -> free_pem_text (label d) der t ->
  pem_decode (pre ++ t) = Some (label d, der).
Proof.
  intros N HP (body & e1 & e2 & e3 & L & E1 & E2 & E3 & ->). unfold pem_decode.
  change (list_byte_of_string "-----BEGIN ") with begin_mark. change (list_byte_of_string "-----") with dashes.
  change (list_byte_of_string "-----END ") with end_mark.
  rewrite strip_preamble_app by exact HP. rewrite split_label_app.
  rewrite <- encode_base64 in L. pose proof (encode_plain der) as F.
  destruct (lines_ends _ _ L F) as ((c & t' & X & P) & (c2 & t2 & X2 & P2)).
  assert (EQ : forall Y, strip_leading_eol (e1 ++ body ++ Y) = Some (body ++ Y))
    by (intros Y; rewrite X; cbn [app]; apply leading_eol; auto).
  rewrite EQ.
  assert (TR : or_same (strip_trailing_eol (body ++ e2 ++ end_mark ++ label d ++ dashes ++ e3))
                       (body ++ e2 ++ end_mark ++ label d ++ dashes ++ e3)
               = (((body ++ e2) ++ end_mark) ++ label d) ++ dashes).
  { destruct dashes_last as (d0 & D). destruct E3 as [->|E3].
    - rewrite app_nil_r.
      replace (body ++ e2 ++ end_mark ++ label d ++ dashes) with ((body ++ e2 ++ end_mark ++ label d ++ d0) ++ [x2d])
        by (rewrite D, <- !app_assoc; reflexivity).
      rewrite trailing_none by reflexivity. cbn [or_same]. rewrite D, <- !app_assoc. reflexivity.
    - replace (body ++ e2 ++ end_mark ++ label d ++ dashes ++ e3) with ((body ++ e2 ++ end_mark ++ label d ++ d0) ++ [x2d] ++ e3)
        by (rewrite D, <- !app_assoc; reflexivity).
      rewrite trailing_eol by (auto; reflexivity). cbn [or_same]. rewrite D, <- !app_assoc. reflexivity. }
  rewrite TR, !strip_suffix_app.
  assert (BO : strip_trailing_eol (body ++ e2) = Some body).
  { rewrite X2, <- app_assoc. apply trailing_eol; auto. }
  rewrite BO. rewrite (unwrap_lines _ _ L F) by lia. rewrite decode_encode. reflexivity.
Qed.

Lemma decode_inv t lab der : pem_decode t = Some (lab, der) ->
  exists pre body e1 e2 e3, is_eol e1 /\ is_eol e2 /\ (e3 = [] \/ is_eol e3) /\
  (exists b blank, body = b ++ blank /\ Forall (fun c => is_eol_char c = true) blank /\
     (lines is_eol (base64 der) b \/ der = [] /\ b = [])) /\
  t = pre ++ begin_mark ++ lab ++ dashes ++ e1 ++ body ++ e2 ++ end_mark ++ lab ++ dashes ++ e3.
Proof.
  unfold pem_decode. destruct (strip_preamble t) as [l|] eqn:A0; [|discriminate].
  destruct (split_label l) as [(la, l1)|] eqn:A1; [|discriminate].
  destruct (strip_leading_eol l1) as [l2|] eqn:A2; [|discriminate].
  destruct (strip_suffix dashes _) as [l3|] eqn:A3; [|discriminate].
  destruct (strip_suffix la l3) as [l4|] eqn:A4; [|discriminate].
  destruct (strip_suffix end_mark l4) as [l5|] eqn:A5; [|discriminate].
  destruct (strip_trailing_eol l5) as [body|] eqn:A6; [|discriminate].
  destruct (unwrap _ body) as [chars|] eqn:A7; [|discriminate].
  destruct (b64_decode chars) as [dr|] eqn:A8; [|discriminate]. intros X. injection X as <- <-.
  apply strip_preamble_inv in A0. destruct A0 as (pre & ->). apply split_label_inv in A1. subst l.
  apply leading_eol_inv in A2. destruct A2 as (e1 & E1 & ->).
  apply strip_suffix_inv in A3, A4, A5. apply trailing_eol_inv in A6. destruct A6 as (e2 & E2 & ->).
  apply unwrap_inv in A7. pose proof (decode_canonical _ _ A8) as A9. rewrite encode_base64 in A9.
  assert (A10 : exists b blank, body = b ++ blank /\ Forall (fun c => is_eol_char c = true) blank /\
     (lines is_eol (base64 dr) b \/ dr = [] /\ b = [])).
  { destruct A7 as (b & blank & X1 & X2 & X3). exists b, blank. split; [exact X1|]. split; [exact X2|].
    destruct X3 as [X3|(X3 & X4)]; [left; rewrite <- A9; exact X3|right].
    split; [|exact X4]. rewrite X3 in A8. cbn [b64_decode] in A8. congruence. }
  assert (T : exists e3, (e3 = [] \/ is_eol e3) /\ l2 = or_same (strip_trailing_eol l2) l2 ++ e3).
  { destruct (strip_trailing_eol l2) as [r|] eqn:S; cbn [or_same].
    - apply trailing_eol_inv in S. destruct S as (e & E & ->). exists e. auto.
    - exists []. rewrite app_nil_r. auto. }
  destruct T as (e3 & E3 & T). rewrite A3, A4, A5 in T.
  exists pre, body, e1, e2, e3. split; [exact E1|]. split; [exact E2|]. split; [exact E3|]. split; [exact A10|].
  rewrite T, <- !app_assoc. reflexivity.
Qed.

Lemma encode_text d e der : der <> [] -> uniform_pem_text (eol e) (label d) der (pem_encode d e der).
Proof.
  intros N. exists (wrap e 0 (b64_encode der)), (eol e), (eol e), (eol e). rewrite <- encode_base64.
  split; [apply wrap_lines; destruct der as [|a [|b [|c r]]]; [congruence|discriminate|discriminate|discriminate]|].
  repeat split.
Qed.

Lemma lines_weaken (ok ok' : list byte -> Prop) : (forall e, ok e -> ok' e) -> forall l t, lines ok l t -> lines ok' l t.
Proof. intros H l t. induction 1; [apply last_line; assumption|apply next_line; auto]. Qed.

Lemma uniform_free e lab der t : is_eol e -> uniform_pem_text e lab der t -> free_pem_text lab der t.
Proof.
  intros E (body & e1 & e2 & e3 & L & <- & <- & <- & ->). exists body, e, e, e.
  split; [apply (lines_weaken (eq e)); [intros x <-; exact E|exact L]|]. repeat split; auto.
Qed.

Lemma label_inj d d' : label d = label d' -> d = d'.
Proof. destruct d, d'; vm_compute; congruence. Qed.
