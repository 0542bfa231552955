(** Lemmas about fixed-point formatting: reading back, order, error. *)
From Coq Require Import String List Ascii ZArith QArith Qround Qabs Bool Lia Lqa DecimalString Qfield.
From Verif Require Import PyBase Num L_Num Text L_Text Fixed.
Import ListNotations.
Local Open Scope Z_scope.

Lemma floor_unique (q : Q) n : (inject_Z n <= q)%Q -> (q < inject_Z (n + 1))%Q -> Qfloor q = n.
Proof.
  intros H1 H2. pose proof (Qfloor_le q). pose proof (Qlt_floor q).
  assert (inject_Z n < inject_Z (Qfloor q + 1))%Q by (eapply Qle_lt_trans; eauto).
  assert (inject_Z (Qfloor q) < inject_Z (n + 1))%Q by (eapply Qle_lt_trans; eauto).
  rewrite <- Zlt_Qlt in *. lia.
Qed.

(** The integer nearest to [q] (ties to even) in terms of distances. *)
Lemma round_even_cases q :
  (inject_Z (round_even q) - (1 # 2) <= q <= inject_Z (round_even q) + (1 # 2))%Q.
Proof.
  unfold round_even. pose proof (Qfloor_le q) as H1. pose proof (Qlt_floor q) as H2.
  rewrite inject_Z_plus in H2.
  destruct (Qltb (q - inject_Z (Qfloor q)) (1 # 2)) eqn:E.
  { apply Qltb_true in E. lra. }
  apply Qltb_false in E.
  destruct (Qltb (1 # 2) (q - inject_Z (Qfloor q))) eqn:E2.
  { apply Qltb_true in E2. rewrite inject_Z_plus. change (inject_Z 1) with 1%Q in *. lra. }
  apply Qltb_false in E2.
  destruct (Z.even _); rewrite ?inject_Z_plus; change (inject_Z 1) with 1%Q in *; lra.
Qed.

Lemma round_even_error q : (Qabs (q - inject_Z (round_even q)) <= 1 # 2)%Q.
Proof. pose proof (round_even_cases q). apply Qabs_Qle_condition. lra. Qed.

Lemma round_even_unique q n : (inject_Z n - (1 # 2) < q < inject_Z n + (1 # 2))%Q -> round_even q = n.
Proof.
  intro H. pose proof (round_even_cases q) as H1.
  assert (inject_Z n < inject_Z (round_even q + 1))%Q.
  { rewrite inject_Z_plus. change (inject_Z 1) with 1%Q. lra. }
  assert (inject_Z (round_even q) < inject_Z (n + 1))%Q.
  { rewrite inject_Z_plus. change (inject_Z 1) with 1%Q. lra. }
  rewrite <- Zlt_Qlt in *. lia.
Qed.

Lemma round_even_int n : round_even (inject_Z n) = n.
Proof. apply round_even_unique. lra. Qed.

Global Instance Qltb_proper : Proper (Qeq ==> Qeq ==> eq) Qltb.
Proof.
  intros a b H c d H'. destruct (Qltb a c) eqn:E; destruct (Qltb b d) eqn:E'; auto;
    rewrite ?Qltb_true, ?Qltb_false in *; exfalso; lra.
Qed.

Global Instance round_even_proper : Proper (Qeq ==> eq) round_even.
Proof.
  intros a b H. unfold round_even. rewrite (Qfloor_comp a b H).
  set (f := Qfloor b). cbv zeta.
  assert (E : (a - inject_Z f == b - inject_Z f)%Q) by lra.
  rewrite (Qltb_proper _ _ E (1 # 2) (1 # 2) (Qeq_refl _)), (Qltb_proper (1 # 2) (1 # 2) (Qeq_refl _) _ _ E).
  reflexivity.
Qed.

(** Ties: exactly half way, the even neighbour is taken. *)
Lemma round_even_tie n : round_even (inject_Z n + (1 # 2)) = if Z.even n then n else n + 1.
Proof.
  assert (F : Qfloor (inject_Z n + (1 # 2)) = n).
  { apply floor_unique; rewrite ?inject_Z_plus; change (inject_Z 1) with 1%Q; lra. }
  unfold round_even. rewrite F.
  assert (E : (inject_Z n + (1 # 2) - inject_Z n == 1 # 2)%Q) by lra.
  rewrite (Qltb_proper _ _ E (1 # 2) (1 # 2) (Qeq_refl _)), (Qltb_proper (1 # 2) (1 # 2) (Qeq_refl _) _ _ E).
  reflexivity.
Qed.

Lemma round_even_mono a b : (a <= b)%Q -> round_even a <= round_even b.
Proof.
  intro H. apply Z.nlt_ge. intro L.
  pose proof (round_even_cases a) as A. pose proof (round_even_cases b) as B.
  assert (H1 : (inject_Z (round_even b + 1) <= inject_Z (round_even a))%Q).
  { rewrite <- Zle_Qle. lia. }
  rewrite inject_Z_plus in H1. change (inject_Z 1) with 1%Q in H1.
  assert (E : (a == b)%Q) by lra. rewrite (round_even_proper _ _ E) in L. lia.
Qed.

(** Numbers more than one unit apart round to different integers (one unit is
    not enough: 3/2 and 5/2 both round to 2). *)
Lemma round_even_apart a b : (a + 1 < b)%Q -> round_even a < round_even b.
Proof.
  intro H. pose proof (round_even_cases a). pose proof (round_even_cases b).
  rewrite Zlt_Qlt. lra.
Qed.

Lemma round_even_opp q : round_even (- q) = - round_even q.
Proof.
  destruct (Qeq_dec (q - inject_Z (Qfloor q)) (1 # 2)) as [E|E].
  - set (f := Qfloor q) in *. assert (A : (q == inject_Z f + (1 # 2))%Q) by lra.
    assert (B : (- q == inject_Z (- f - 1) + (1 # 2))%Q).
    { unfold Z.sub. rewrite inject_Z_plus, inject_Z_opp. change (inject_Z (-(1))) with (-1)%Q. lra. }
    rewrite A at 2. rewrite B, !round_even_tie.
    replace (- f - 1) with (- Z.succ f) by lia. rewrite Z.even_opp, Z.even_succ, <- Z.negb_even.
    destruct (Z.even f); simpl; lia.
  - pose proof (round_even_cases q) as B. apply round_even_unique. rewrite inject_Z_opp.
    assert (N1 : ~ (q == inject_Z (round_even q) + (1 # 2))%Q).
    { intro X. apply E. assert (Qfloor q = round_even q) as ->.
      { apply floor_unique; rewrite ?inject_Z_plus; change (inject_Z 1) with 1%Q; lra. }
      lra. }
    assert (N2 : ~ (q == inject_Z (round_even q) - (1 # 2))%Q).
    { intro X. apply E. assert (Qfloor q = round_even q - 1) as ->.
      { apply floor_unique; unfold Z.sub; rewrite ?inject_Z_plus;
          change (inject_Z 1) with 1%Q; change (inject_Z (-(1))) with (-1)%Q; lra. }
      unfold Z.sub. rewrite inject_Z_plus. change (inject_Z (-(1))) with (-1)%Q. lra. }
    split.
    + destruct (Qlt_le_dec q (inject_Z (round_even q) + (1 # 2))); [lra|exfalso; apply N1; lra].
    + destruct (Qlt_le_dec (inject_Z (round_even q) - (1 # 2)) q); [lra|exfalso; apply N2; lra].
Qed.

Lemma round_even_sign q : (0 <= q)%Q -> 0 <= round_even q.
Proof.
  intro H. change 0 with (round_even (inject_Z 0)). apply round_even_mono. exact H.
Qed.

(** ** Powers of ten *)

Lemma pow10_pos d : 0 < pow10 d.
Proof. unfold pow10. apply Z.pow_pos_nonneg; lia. Qed.
Lemma pow10_S d : pow10 (S d) = 10 * pow10 d.
Proof. unfold pow10. rewrite Nat2Z.inj_succ, Z.pow_succ_r; lia. Qed.
Lemma pow10_Qpos d : (0 < inject_Z (pow10 d))%Q.
Proof. change 0%Q with (inject_Z 0). rewrite <- Zlt_Qlt. apply pow10_pos. Qed.

(** ** Scaled values *)

Global Instance scaled_proper d : Proper (Qeq ==> eq) (scaled d).
Proof. intros a b H. unfold scaled. rewrite H. auto. Qed.

Lemma scaled_mono d a b : (a <= b)%Q -> scaled d a <= scaled d b.
Proof. intro H. apply round_even_mono. pose proof (pow10_Qpos d). apply Qmult_le_compat_r; lra. Qed.

Lemma scaled_apart d a b : (a + 1 / inject_Z (pow10 d) < b)%Q -> scaled d a < scaled d b.
Proof.
  intro H. apply round_even_apart. pose proof (pow10_Qpos d) as P.
  assert ((a + 1 / inject_Z (pow10 d)) * inject_Z (pow10 d) < b * inject_Z (pow10 d))%Q
    by (apply Qmult_lt_compat_r; lra).
  assert (((a + 1 / inject_Z (pow10 d)) * inject_Z (pow10 d) == a * inject_Z (pow10 d) + 1)%Q)
    by (field; lra).
  lra.
Qed.

Lemma rounded_mono d a b : (a <= b)%Q -> (rounded d a <= rounded d b)%Q.
Proof.
  intro H. apply (scaled_mono d) in H. unfold rounded, Qdiv.
  apply Qmult_le_compat_r; [rewrite <- Zle_Qle; auto|].
  apply Qlt_le_weak, Qinv_lt_0_compat, pow10_Qpos.
Qed.

Lemma rounded_lt d a b : scaled d a < scaled d b -> (rounded d a < rounded d b)%Q.
Proof.
  intro H. unfold rounded, Qdiv. apply Qmult_lt_compat_r; [apply Qinv_lt_0_compat, pow10_Qpos|].
  rewrite <- Zlt_Qlt. auto.
Qed.

Lemma rounded_apart d a b : (a + 1 / inject_Z (pow10 d) < b)%Q -> (rounded d a < rounded d b)%Q.
Proof. intro H. apply rounded_lt, scaled_apart, H. Qed.

(** At most half a unit of the last decimal off. *)
Lemma rounded_error d q : (Qabs (rounded d q - q) <= (1 # 2) / inject_Z (pow10 d))%Q.
Proof.
  pose proof (pow10_Qpos d) as P. pose proof (round_even_cases (q * inject_Z (pow10 d))) as H.
  fold (scaled d q) in H. unfold rounded.
  apply Qabs_Qle_condition.
  assert (E : (inject_Z (scaled d q) / inject_Z (pow10 d) - q ==
           (inject_Z (scaled d q) - q * inject_Z (pow10 d)) / inject_Z (pow10 d))%Q) by (field; lra).
  rewrite E. split.
  - assert (X : (- ((1 # 2) / inject_Z (pow10 d)) == (-(1 # 2)) / inject_Z (pow10 d))%Q) by (field; lra).
    rewrite X. unfold Qdiv. apply Qmult_le_compat_r; [lra|]. apply Qlt_le_weak, Qinv_lt_0_compat; lra.
  - unfold Qdiv. apply Qmult_le_compat_r; [lra|]. apply Qlt_le_weak, Qinv_lt_0_compat; lra.
Qed.

(** Numbers with at most [d] decimals are printed exactly. *)
Lemma rounded_exact d n : (rounded d (inject_Z n / inject_Z (pow10 d)) == inject_Z n / inject_Z (pow10 d))%Q.
Proof.
  pose proof (pow10_Qpos d) as P. unfold rounded, scaled.
  assert (E : (inject_Z n / inject_Z (pow10 d) * inject_Z (pow10 d) == inject_Z n)%Q) by (field; lra).
  rewrite E, round_even_int. reflexivity.
Qed.

(** ** Digits *)

Lemma digit_cases k : 0 <= k < 10 ->
  k = 0 \/ k = 1 \/ k = 2 \/ k = 3 \/ k = 4 \/ k = 5 \/ k = 6 \/ k = 7 \/ k = 8 \/ k = 9.
Proof. lia. Qed.

Lemma digit_val_digit k : 0 <= k < 10 -> digit_val (digit k) = Some k.
Proof.
  intro H. apply digit_cases in H.
  destruct H as [->|[->|[->|[->|[->|[->|[->|[->|[->| ->]]]]]]]]]; reflexivity.
Qed.
Lemma digit_digit_char k : 0 <= k < 10 -> digit_char (digit k).
Proof.
  intro H. apply digit_cases in H.
  destruct H as [->|[->|[->|[->|[->|[->|[->|[->|[->| ->]]]]]]]]]; vm_compute; tauto.
Qed.

Lemma digits_length d : forall n, length (digits d n) = d.
Proof. induction d; intro n; simpl; auto. rewrite app_length, IHd. simpl. lia. Qed.

Lemma digits_chars d : forall n, Forall digit_char (digits d n).
Proof.
  induction d; intro n; simpl; auto. apply Forall_app. split; auto.
  constructor; auto. apply digit_digit_char. apply Z.mod_pos_bound. lia.
Qed.

Lemma digits_val_app a : forall acc b,
  digits_val acc (a ++ b) = match digits_val acc a with Some v => digits_val v b | None => None end.
Proof.
  induction a as [|c a IH]; intros acc b; simpl; auto. destruct (digit_val c); auto.
Qed.

Lemma digits_val_digits d : forall n acc, 0 <= n ->
  digits_val acc (digits d n) = Some (acc * pow10 d + n mod pow10 d).
Proof.
  induction d; intros n acc H; cbn [digits].
  - simpl. unfold pow10. simpl. rewrite Z.mod_1_r. f_equal. lia.
  - rewrite digits_val_app, IHd by (apply Z.div_pos; lia). cbn [digits_val].
    rewrite digit_val_digit by (apply Z.mod_pos_bound; lia). f_equal.
    rewrite pow10_S. pose proof (pow10_pos d).
    rewrite (Z.rem_mul_r n 10 (pow10 d)) by lia. lia.
Qed.

Lemma digits_val_uint u : forall p,
  digits_val (Zpos p) (T (NilEmpty.string_of_uint u)) = Some (Zpos (Pos.of_uint_acc u p)).
Proof.
  induction u; intro p; [reflexivity|..];
    unfold T in *; cbn [NilEmpty.string_of_uint list_ascii_of_string digits_val Pos.of_uint_acc];
    (match goal with |- context [digit_val ?c] =>
       let v := eval vm_compute in (digit_val c) in change (digit_val c) with v end);
    cbv iota; rewrite <- IHu; f_equal; lia.
Qed.
Lemma digits_val_uint0 u : digits_val 0 (T (NilEmpty.string_of_uint u)) = Some (Z.of_uint u).
Proof.
  induction u; [reflexivity|..];
    unfold T in *; cbn [NilEmpty.string_of_uint list_ascii_of_string digits_val];
    match goal with |- context [digit_val ?c] => let v := eval vm_compute in (digit_val c) in change (digit_val c) with v end;
    cbv iota.
  - change (10 * 0 + 0) with 0. rewrite IHu. reflexivity.
  - apply (digits_val_uint u 1).
  - apply (digits_val_uint u 2).
  - apply (digits_val_uint u 3).
  - apply (digits_val_uint u 4).
  - apply (digits_val_uint u 5).
  - apply (digits_val_uint u 6).
  - apply (digits_val_uint u 7).
  - apply (digits_val_uint u 8).
  - apply (digits_val_uint u 9).
Qed.

Lemma digits_val_show_Z z : 0 <= z -> digits_val 0 (show_Z z) = Some z.
Proof.
  intro H. unfold show_Z.
  assert (E : exists u, Z.to_int z = Decimal.Pos u /\ u <> Decimal.Nil /\ Z.of_uint u = z).
  { destruct z as [|p|p]; [| |lia].
    - exists (Decimal.D0 Decimal.Nil). split; [reflexivity|]. split; [discriminate|reflexivity].
    - exists (Pos.to_uint p). split; [reflexivity|]. split.
      + apply DecimalPos.Unsigned.to_uint_nonnil.
      + unfold Z.of_uint. rewrite DecimalPos.Unsigned.of_to. reflexivity. }
  destruct E as (u & E & Hu & Hz). rewrite E. unfold NilZero.string_of_int, NilZero.string_of_uint.
  destruct u; [congruence|..]; rewrite <- Hz; apply digits_val_uint0.
Qed.

Lemma show_Z_digits z : 0 <= z -> Forall digit_char (show_Z z).
Proof.
  intro H. destruct z as [|p|p]; [| |lia]; unfold show_Z; cbn [Z.to_int NilZero.string_of_int];
    apply nilzero_digits.
Qed.

(** ** Texts *)

Lemma digit_char_not c d : digit_char c -> ~ digit_char d -> c <> d.
Proof. intros H H' ->. auto. Qed.

Definition fixed_char (c : ascii) : Prop := digit_char c \/ c = "-"%char \/ c = "."%char.

Lemma show_fixed_chars d q : Forall fixed_char (show_fixed d q).
Proof.
  unfold show_fixed. apply Forall_app. split.
  { destruct (Qltb q 0); constructor; [right; left; reflexivity|constructor]. }
  apply Forall_app. split.
  { eapply Forall_impl; [|apply show_Z_digits].
    - intros c H. left. exact H.
    - apply Z.div_pos; [lia|apply pow10_pos]. }
  constructor; [right; right; reflexivity|].
  eapply Forall_impl; [|apply digits_chars]. intros c H. left. exact H.
Qed.

Lemma show_fixed_free c d q : ~ fixed_char c -> free c (show_fixed d q).
Proof.
  intros H. unfold free. intro I. pose proof (show_fixed_chars d q) as F.
  rewrite Forall_forall in F. apply H. apply F. exact I.
Qed.

Lemma fixed_char_not_space c : fixed_char c -> is_space c = false.
Proof.
  intros [H|[->| ->]]; [apply digit_not_space; auto|reflexivity|reflexivity].
Qed.

Lemma show_fixed_trimmed d q : trimmed (show_fixed d q).
Proof.
  apply Forall_trimmed. eapply Forall_impl; [|apply show_fixed_chars].
  apply fixed_char_not_space.
Qed.

Lemma digit_free_point t : Forall digit_char t -> free "."%char t.
Proof.
  intros H I. unfold free in *. rewrite Forall_forall in H. apply H in I.
  revert I. vm_compute. discriminate.
Qed.

(** Reading back a printed number gives the number rounded to its decimals. *)
Lemma read_show_fixed_pad l r d q : d <> O ->
  Forall (fun c => is_space c = true) l -> Forall (fun c => is_space c = true) r ->
  exists v, read_decimal (l ++ show_fixed d q ++ r) = Some v /\ (v == rounded d q)%Q.
Proof.
  intros Hd Hl Hr. unfold read_decimal. rewrite strip_pad; auto using show_fixed_trimmed.
  unfold show_fixed. set (n := Z.abs (scaled d q)). pose proof (pow10_pos d) as P.
  assert (Hn : 0 <= n) by (unfold n; lia).
  assert (Hi : 0 <= n / pow10 d) by (apply Z.div_pos; lia).
  set (body := show_Z (n / pow10 d) ++ "."%char :: digits d n).
  assert (B : unsigned_decimal body = Some (inject_Z n / inject_Z (pow10 d))%Q).
  { unfold unsigned_decimal, body.
    rewrite split_on_app by (apply digit_free_point, show_Z_digits; auto).
    rewrite split_on_free by (apply digit_free_point, digits_chars).
    destruct (show_Z (n / pow10 d)) as [|c i] eqn:Ei; [destruct (show_Z_nonempty _ Ei)|].
    destruct (digits d n) as [|c' f] eqn:Ef.
    { exfalso. pose proof (digits_length d n) as L. rewrite Ef in L. simpl in L. lia. }
    rewrite <- Ei, <- Ef, digits_length, digits_val_app, digits_val_show_Z, digits_val_digits by auto.
    cbn [option_map]. f_equal. f_equal. f_equal.
    rewrite Z.mul_comm. symmetry. apply Z.div_mod. lia. }
  assert (Hs : forall c t, body = c :: t -> c <> "-"%char /\ c <> "+"%char).
  { intros c t E. unfold body in E. pose proof (show_Z_digits _ Hi) as D.
    destruct (show_Z (n / pow10 d)) as [|c' i] eqn:Ei; [destruct (show_Z_nonempty _ Ei)|].
    simpl in E. inversion E; subst. inversion D; subst.
    split; intros ->; revert H1; vm_compute; discriminate. }
  pose proof (pow10_Qpos d) as PQ.
  destruct (Qltb q 0) eqn:Eq.
  - cbn [app]. rewrite B. cbn [option_map]. eexists. split; [reflexivity|].
    apply Qltb_true in Eq.
    assert (S : scaled d q <= 0).
    { unfold scaled. rewrite <- (Z.opp_involutive (round_even _)), <- round_even_opp.
      enough (0 <= round_even (- (q * inject_Z (pow10 d)))) by lia.
      apply round_even_sign.
      assert (0 <= (- q) * inject_Z (pow10 d))%Q by (apply Qmult_le_0_compat; lra). lra. }
    unfold rounded, n. rewrite Z.abs_neq by auto. rewrite inject_Z_opp. field. lra.
  - cbn [app]. apply Qltb_false in Eq.
    assert (S : 0 <= scaled d q).
    { apply round_even_sign. apply Qmult_le_0_compat; lra. }
    exists (inject_Z n / inject_Z (pow10 d))%Q. split.
    + destruct body as [|c t] eqn:Eb; [exact B|].
      destruct (Hs c t eq_refl) as [H1 H2].
      destruct c as [[] [] [] [] [] [] [] []]; try exact B; exfalso; auto.
    + unfold rounded, n. rewrite Z.abs_eq by auto. reflexivity.
Qed.

Lemma read_show_fixed d q : d <> O -> exists v, read_decimal (show_fixed d q) = Some v /\ (v == rounded d q)%Q.
Proof.
  intro H. destruct (read_show_fixed_pad [] [] d q) as (v & E & Hv); auto.
  exists v. rewrite app_nil_r in E. simpl in E. auto.
Qed.
