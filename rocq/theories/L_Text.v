(** Lemmas about text. *)
From Coq Require Import String List Ascii ZArith Bool Lia DecimalString DecimalZ DecimalPos.
From Verif Require Import Text.
Import ListNotations.

Lemma teqb_eq a : forall b, teqb a b = true <-> a = b.
Proof.
  induction a as [|x a IH]; intros [|y b]; simpl; split; intros H; try discriminate; auto.
  - apply andb_true_iff in H. destruct H as [H1 H2]. apply Ascii.eqb_eq in H1. apply IH in H2. congruence.
  - inversion H; subst. rewrite Ascii.eqb_refl. simpl. apply IH. auto.
Qed.

Lemma teqb_refl a : teqb a a = true.
Proof. apply teqb_eq. auto. Qed.

Lemma teqb_spec a b : reflect (a = b) (teqb a b).
Proof.
  destruct (teqb a b) eqn:E; constructor; [apply teqb_eq; auto|].
  intros H. apply teqb_eq in H. congruence.
Qed.

Definition text_dec (a b : text) : {a = b} + {a <> b} := list_eq_dec ascii_dec a b.

Lemma lower_char_idem c : lower_char (lower_char c) = lower_char c.
Proof. destruct c as [[] [] [] [] [] [] [] []]; reflexivity. Qed.

Lemma lower_idem t : lower (lower t) = lower t.
Proof. unfold lower. rewrite map_map. apply map_ext. apply lower_char_idem. Qed.

Lemma lower_length t : length (lower t) = length t.
Proof. apply map_length. Qed.

Lemma lower_app a b : lower (a ++ b) = lower a ++ lower b.
Proof. apply map_app. Qed.

(** ** split *)

Definition free (c : ascii) (t : text) : Prop := ~ In c t.

Lemma split_on_free c t : free c t -> split_on c t = [t].
Proof.
  induction t as [|x t IH]; intros H; simpl; auto.
  destruct (Ascii.eqb_spec x c) as [->|]; [exfalso; apply H; left; auto|].
  rewrite IH; auto. intros H'. apply H. right; auto.
Qed.

Lemma split_on_app c a b : free c a -> split_on c (a ++ c :: b) = a :: split_on c b.
Proof.
  induction a as [|x a IH]; intros H; simpl.
  - rewrite Ascii.eqb_refl. auto.
  - destruct (Ascii.eqb_spec x c) as [->|]; [exfalso; apply H; left; auto|].
    rewrite IH; auto. intros H'. apply H. right; auto.
Qed.

Lemma split_on_nonempty c t : split_on c t <> [].
Proof. destruct t; simpl; try discriminate. destruct (Ascii.eqb a c); try discriminate. destruct (split_on c t); discriminate. Qed.

Lemma split_on_first c a b : free c a -> hd [] (split_on c (a ++ c :: b)) = a.
Proof. intros. rewrite split_on_app; auto. Qed.

(** Lines of a text made of lines that each end with a newline. *)
Lemma file_lines_concat ls : Forall (free newline) ls ->
  file_lines (concat (map (fun l => l ++ [newline]) ls)) = ls.
Proof.
  intros H.
  assert (E : split_on newline (concat (map (fun l => l ++ [newline]) ls)) = ls ++ [[]]).
  { induction H as [|l ls Hl _ IH]; simpl; auto. rewrite <- app_assoc. simpl. rewrite split_on_app by auto.
    rewrite IH. auto. }
  unfold file_lines. rewrite E, rev_app_distr. simpl. apply rev_involutive.
Qed.

Lemma split_join c ts : ts <> [] -> Forall (free c) ts -> split_on c (join [c] ts) = ts.
Proof.
  induction ts as [|t ts IH]; intros Hne H; [congruence|]. inversion H; subst.
  destruct ts as [|u ts]; [simpl; apply split_on_free; auto|].
  change (join [c] (t :: u :: ts)) with (t ++ c :: join [c] (u :: ts)).
  rewrite split_on_app by auto. rewrite IH; auto. discriminate.
Qed.

(** ** strip *)

Lemma dropwhile_all p t u : Forall (fun c => p c = true) t -> dropwhile p (t ++ u) = dropwhile p u.
Proof. induction 1; simpl; auto. rewrite H. auto. Qed.

Lemma dropwhile_hd p t : (forall c, hd_error t = Some c -> p c = false) -> dropwhile p t = t.
Proof. destruct t; simpl; auto. intros H. rewrite (H a); auto. Qed.

Lemma dropwhile_hd_inv p t c : hd_error (dropwhile p t) = Some c -> p c = false.
Proof. induction t; simpl; [discriminate|]. destruct (p a) eqn:E; auto. simpl. intros [= <-]. auto. Qed.

Lemma rstrip_by_all p t u : Forall (fun c => p c = true) u -> rstrip_by p (t ++ u) = rstrip_by p t.
Proof.
  intros H. unfold rstrip_by. rewrite rev_app_distr, dropwhile_all; auto. apply Forall_rev; auto.
Qed.

Lemma dropwhile_suffix p t : exists u, t = u ++ dropwhile p t.
Proof.
  induction t as [|a t [u IH]]; simpl; [exists []; auto|].
  destruct (p a); [exists (a :: u); simpl; congruence | exists []; auto].
Qed.

Lemma rstrip_by_id p t : (forall c t', t = t' ++ [c] -> p c = false) -> rstrip_by p t = t.
Proof.
  intros H. unfold rstrip_by. destruct (rev t) as [|c r] eqn:E.
  - simpl. apply (f_equal (@rev _)) in E. rewrite rev_involutive in E. auto.
  - assert (E' : t = rev r ++ [c]) by (rewrite <- (rev_involutive t), E; auto).
    simpl. rewrite (H c (rev r) E'). simpl. auto.
Qed.

(** No surrounding characters with [p]. *)
Definition trimmed_by (p : ascii -> bool) (t : text) : Prop :=
  (forall c t', t = c :: t' -> p c = false) /\ (forall c t', t = t' ++ [c] -> p c = false).
Definition trimmed : text -> Prop := trimmed_by is_space.

Lemma strip_by_id p t : trimmed_by p t -> strip_by p t = t.
Proof.
  intros [H1 H2]. unfold strip_by. rewrite dropwhile_hd.
  - apply rstrip_by_id; auto.
  - intros c. destruct t; simpl; [discriminate|]. intros [= <-]. eapply H1; eauto.
Qed.

Lemma strip_by_trimmed p t : trimmed_by p (strip_by p t).
Proof.
  unfold strip_by, rstrip_by. split.
  - intros c t' E.
    destruct (dropwhile p t) as [|d u] eqn:Eu; [discriminate|].
    assert (Hd : p d = false) by (apply (dropwhile_hd_inv p t); rewrite Eu; auto).
    destruct (dropwhile_suffix p (rev (d :: u))) as [w Hw].
    (* the result is a prefix of d :: u, hence starts with d *)
    apply (f_equal (@rev _)) in Hw. rewrite rev_involutive, rev_app_distr in Hw.
    rewrite E in Hw. simpl in Hw. inversion Hw; subst. auto.
  - intros c t' E. apply (f_equal (@rev _)) in E. rewrite rev_involutive, rev_app_distr in E. simpl in E.
    apply (dropwhile_hd_inv p (rev (dropwhile p t))). rewrite E. auto.
Qed.

Lemma strip_id t : trimmed t -> strip t = t.
Proof. apply strip_by_id. Qed.

Lemma strip_trimmed t : trimmed (strip t).
Proof. apply strip_by_trimmed. Qed.

Lemma trimmed_strip t : trimmed t <-> strip t = t.
Proof. split; [apply strip_id|]. intros <-. apply strip_trimmed. Qed.

Lemma strip_idem t : strip (strip t) = strip t.
Proof. apply strip_id, strip_trimmed. Qed.

Lemma all_space_repeat n : Forall (fun c => is_space c = true) (repeat " "%char n).
Proof. induction n; simpl; constructor; auto. Qed.

Lemma strip_pad l t r : Forall (fun c => is_space c = true) l -> Forall (fun c => is_space c = true) r ->
  trimmed t -> strip (l ++ t ++ r) = t.
Proof.
  intros Hl Hr [H1 H2]. unfold strip, strip_by. rewrite dropwhile_all by auto.
  destruct t as [|c t].
  - simpl. assert (E : dropwhile is_space r = []).
    { clear - Hr. induction Hr; simpl; auto. rewrite H. auto. }
    rewrite E. reflexivity.
  - rewrite dropwhile_hd; [|simpl; intros d [= <-]; eapply H1; eauto].
    rewrite rstrip_by_all by auto. apply rstrip_by_id. auto.
Qed.

Lemma strip_rpad t r : Forall (fun c => is_space c = true) r -> trimmed t -> strip (t ++ r) = t.
Proof. intros. apply (strip_pad [] t r); auto. Qed.

Lemma strip_lpad l t : Forall (fun c => is_space c = true) l -> trimmed t -> strip (l ++ t) = t.
Proof. intros. rewrite <- (List.app_nil_r t) at 1. apply (strip_pad l t []); auto. Qed.

Lemma free_app c a b : free c a -> free c b -> free c (a ++ b).
Proof. unfold free. rewrite in_app_iff. tauto. Qed.

Lemma free_repeat c d n : c <> d -> free c (repeat d n).
Proof. intros H Hin. apply repeat_spec in Hin. auto. Qed.

Lemma free_cons c d t : c <> d -> free c t -> free c (d :: t).
Proof. unfold free. simpl. intuition. Qed.

Definition freeb (c : ascii) (t : text) : bool := negb (existsb (Ascii.eqb c) t).

Lemma freeb_free c t : freeb c t = true <-> free c t.
Proof.
  unfold freeb, free. rewrite negb_true_iff. split.
  - intros H Hin. assert (existsb (Ascii.eqb c) t = true); [|congruence].
    apply existsb_exists. exists c. split; auto. apply Ascii.eqb_refl.
  - intros H. destruct (existsb (Ascii.eqb c) t) eqn:E; auto. apply existsb_exists in E.
    destruct E as (x & Hx & Ex). apply Ascii.eqb_eq in Ex. subst. contradiction.
Qed.

Definition trimmedb (t : text) : bool := teqb (strip t) t.
Lemma trimmedb_trimmed t : trimmedb t = true <-> trimmed t.
Proof. unfold trimmedb. rewrite teqb_eq, trimmed_strip. tauto. Qed.

(** ** numbers *)

Definition digit_char (c : ascii) : Prop := between 48 57 c = true.

Lemma T_app a b : T (a ++ b)%string = T a ++ T b.
Proof. unfold T. induction a; simpl; congruence. Qed.

Lemma T_inv t : T (string_of_list_ascii t) = t.
Proof. apply list_ascii_of_string_of_list_ascii. Qed.

Lemma string_T s : string_of_list_ascii (T s) = s.
Proof. apply string_of_list_ascii_of_string. Qed.

Lemma uint_digits d : Forall digit_char (T (NilEmpty.string_of_uint d)).
Proof. unfold T. induction d; simpl; constructor; auto; reflexivity. Qed.

Lemma nilzero_digits d : Forall digit_char (T (NilZero.string_of_uint d)).
Proof.
  unfold NilZero.string_of_uint. destruct d; try apply uint_digits. repeat constructor.
Qed.

Lemma nilzero_nonempty d : T (NilZero.string_of_uint d) <> [].
Proof. destruct d; simpl; discriminate. Qed.

Lemma digit_not_space c : digit_char c -> is_space c = false.
Proof. destruct c as [[] [] [] [] [] [] [] []]; intros H; try reflexivity; discriminate. Qed.

Lemma unsigned_show u : u <> Decimal.Nil ->
  unsigned (T (NilZero.string_of_uint u)) = Some (Z.of_int (Decimal.Pos u)).
Proof.
  intros H. unfold unsigned. rewrite string_T, NilZero.usu by auto. reflexivity.
Qed.

Lemma show_Z_cases z :
  (0 <= z)%Z /\ (exists u, show_Z z = T (NilZero.string_of_uint u) /\ u <> Decimal.Nil /\ Z.of_int (Decimal.Pos u) = z) \/
  (z < 0)%Z /\ (exists u, show_Z z = "-"%char :: T (NilZero.string_of_uint u) /\ u <> Decimal.Nil /\ Z.of_int (Decimal.Pos u) = (- z)%Z).
Proof.
  unfold show_Z. destruct z as [|p|p].
  - left. split; [lia|]. exists (Decimal.D0 Decimal.Nil). repeat split. discriminate.
  - left. split; [lia|]. exists (Pos.to_uint p). split; [reflexivity|]. split.
    + intros E. apply (DecimalPos.Unsigned.to_uint_nonnil p E).
    + exact (DecimalZ.of_to (Z.pos p)).
  - right. split; [lia|]. exists (Pos.to_uint p). split; [reflexivity|]. split.
    + intros E. apply (DecimalPos.Unsigned.to_uint_nonnil p E).
    + exact (DecimalZ.of_to (Z.pos p)).
Qed.

(** Characters of a printed integer. *)
Definition int_char (c : ascii) : Prop := digit_char c \/ c = "-"%char.

Lemma show_Z_chars z : Forall int_char (show_Z z).
Proof.
  destruct (show_Z_cases z) as [[_ (u & -> & _)]|[_ (u & -> & _)]].
  - eapply Forall_impl; [|apply nilzero_digits]. left; auto.
  - constructor; [right; auto|]. eapply Forall_impl; [|apply nilzero_digits]. left; auto.
Qed.

Lemma show_Z_nonempty z : show_Z z <> [].
Proof.
  destruct (show_Z_cases z) as [[_ (u & -> & _)]|[_ (u & -> & _)]]; [apply nilzero_nonempty|discriminate].
Qed.

Lemma int_char_not_space c : int_char c -> is_space c = false.
Proof. intros [H| ->]; [apply digit_not_space; auto|reflexivity]. Qed.

Lemma Forall_trimmed p t : Forall (fun c => p c = false) t -> trimmed_by p t.
Proof.
  intros H. rewrite Forall_forall in H. split.
  - intros c t' ->. apply H. left; auto.
  - intros c t' ->. apply H. apply in_or_app. right; left; auto.
Qed.

Lemma show_Z_trimmed z : trimmed (show_Z z).
Proof.
  apply Forall_trimmed. eapply Forall_impl; [|apply show_Z_chars]. apply int_char_not_space.
Qed.

Lemma parse_show_Z z : parse_Z (show_Z z) = Some z.
Proof.
  unfold parse_Z. rewrite strip_id by apply show_Z_trimmed.
  destruct (show_Z_cases z) as [[Hz (u & -> & Hu & E)]|[Hz (u & -> & Hu & E)]].
  - assert (Hd := nilzero_digits u). destruct (T (NilZero.string_of_uint u)) as [|c t] eqn:Et.
    + exfalso. apply (nilzero_nonempty u); auto.
    + assert (Hc : digit_char c) by (inversion Hd; auto).
      assert (Hgoal : unsigned (c :: t) = Some z) by (rewrite <- Et, unsigned_show; congruence).
      destruct c as [[] [] [] [] [] [] [] []]; try discriminate Hc; exact Hgoal.
  - rewrite unsigned_show by auto. cbn [option_map]. rewrite E. f_equal. lia.
Qed.

Lemma parse_Z_pad l r z : Forall (fun c => is_space c = true) l -> Forall (fun c => is_space c = true) r ->
  parse_Z (l ++ show_Z z ++ r) = Some z.
Proof.
  intros Hl Hr. unfold parse_Z. rewrite strip_pad; auto using show_Z_trimmed.
  pose proof (parse_show_Z z) as H. unfold parse_Z in H. rewrite strip_id in H by apply show_Z_trimmed. exact H.
Qed.

Lemma show_Z_free c z : ~ int_char c -> free c (show_Z z).
Proof. intros H Hin. apply H. pose proof (show_Z_chars z) as F. rewrite Forall_forall in F. auto. Qed.
