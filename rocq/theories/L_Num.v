(** Basic lemmas: numbers, lists, masks. *)
From Coq Require Import String List ZArith QArith Qabs Qround Bool Lia Lqa.
From Verif Require Import PyBase Num Spec.
Import ListNotations.
Local Open Scope Q_scope.

Lemma Qltb_true a b : Qltb a b = true <-> a < b.
Proof.
  unfold Qltb. rewrite negb_true_iff. split; intros H.
  - destruct (Qlt_le_dec a b); auto.
    apply Qle_bool_iff in q. congruence.
  - destruct (Qle_bool b a) eqn:E; auto.
    apply Qle_bool_iff in E. lra.
Qed.

Lemma Qltb_false a b : Qltb a b = false <-> b <= a.
Proof.
  unfold Qltb. rewrite negb_false_iff. apply Qle_bool_iff.
Qed.

Lemma Qle_bool_true a b : Qle_bool a b = true <-> a <= b.
Proof. apply Qle_bool_iff. Qed.

Lemma Qle_bool_false a b : Qle_bool a b = false <-> b < a.
Proof.
  destruct (Qle_bool a b) eqn:E.
  - apply Qle_bool_iff in E. split; intros; [discriminate | lra].
  - split; auto. intros _. destruct (Qlt_le_dec b a); auto.
    apply Qle_bool_iff in q. congruence.
Qed.

Lemma Qeq_bool_true a b : Qeq_bool a b = true <-> a == b.
Proof. apply Qeq_bool_iff. Qed.

Lemma Qeq_bool_false a b : Qeq_bool a b = false <-> ~ a == b.
Proof.
  destruct (Qeq_bool a b) eqn:E.
  - apply Qeq_bool_iff in E. split; [discriminate | tauto].
  - split; auto. intros _ H. apply Qeq_bool_iff in H. congruence.
Qed.

(** Turn the boolean comparisons in the context into inequalities. *)
Ltac qb :=
  repeat match goal with
  | H : Qltb _ _ = true |- _ => apply Qltb_true in H
  | H : Qltb _ _ = false |- _ => apply Qltb_false in H
  | H : Qle_bool _ _ = true |- _ => apply Qle_bool_true in H
  | H : Qle_bool _ _ = false |- _ => apply Qle_bool_false in H
  | H : Qeq_bool _ _ = true |- _ => apply Qeq_bool_true in H
  | H : Qeq_bool _ _ = false |- _ => apply Qeq_bool_false in H
  | |- Qltb _ _ = true => apply Qltb_true
  | |- Qltb _ _ = false => apply Qltb_false
  | |- Qle_bool _ _ = true => apply Qle_bool_true
  | |- Qle_bool _ _ = false => apply Qle_bool_false
  | |- Qeq_bool _ _ = true => apply Qeq_bool_true
  | |- Qeq_bool _ _ = false => apply Qeq_bool_false
  end.

(** ** Finite values *)

Definition is_fin (x : num) : Prop := exists q, x = Fin q.

Lemma all_fin_map l : Forall is_fin l -> exists qs, l = map Fin qs.
Proof.
  induction 1 as [|x l [q ->] _ [qs ->]].
  - exists []; auto.
  - exists (q :: qs); auto.
Qed.

Lemma map_Fin_inj l m : map Fin l = map Fin m -> l = m.
Proof.
  revert m; induction l as [|x l IH]; intros [|y m]; simpl; intros H; try discriminate; auto.
  inversion H; subst. f_equal; auto.
Qed.

(** ** Order notions as recursive predicates *)

Fixpoint chain (R : Q -> Q -> Prop) (a : Q) (l : list Q) : Prop :=
  match l with [] => True | b :: l' => R a b /\ chain R b l' end.

Definition sorted (R : Q -> Q -> Prop) (l : list Q) : Prop :=
  match l with [] => True | a :: l' => chain R a l' end.

Lemma chain_nth (R : Q -> Q -> Prop) (HT : forall a b c, R a b -> R b c -> R a c) l :
  forall a i b, chain R a l -> nth_error l i = Some b -> R a b.
Proof.
  induction l as [|x l IH]; intros a i b Hc Hn.
  - destruct i; discriminate.
  - destruct Hc as [H1 H2]. destruct i; simpl in Hn.
    + inversion Hn; subst; auto.
    + eapply HT; [apply H1|]. eapply IH; eauto.
Qed.

Lemma sorted_nth (R : Q -> Q -> Prop) (HT : forall a b c, R a b -> R b c -> R a c) l :
  sorted R l ->
  forall i j a b, (i < j)%nat -> nth_error l i = Some a -> nth_error l j = Some b -> R a b.
Proof.
  induction l as [|x l IH]; intros Hs i j a b Hij Hi Hj.
  - destruct i; discriminate.
  - destruct j; [lia|]. simpl in Hj. destruct i; simpl in Hi.
    + inversion Hi; subst. eapply chain_nth; eauto.
    + apply IH with (i := i) (j := j); auto; [|lia].
      destruct l; simpl in *; tauto.
Qed.

Lemma sorted_strict l : sorted Qlt l -> strictly_increasing l.
Proof.
  intros H i j a b. apply sorted_nth; auto. intros; lra.
Qed.

Lemma sorted_nondec l : sorted Qle l -> nondecreasing l.
Proof.
  intros H i j a b Hij Hi Hj.
  destruct (Nat.eq_dec i j) as [->|Hne].
  - rewrite Hi in Hj. inversion Hj; subst. apply Qle_refl.
  - apply (sorted_nth Qle) with (l := l) (i := i) (j := j); auto; [intros; lra | lia].
Qed.

Lemma strict_sorted l : strictly_increasing l -> sorted Qlt l.
Proof.
  intros H. destruct l as [|x l]; simpl; auto.
  revert x H; induction l as [|y l IH]; intros x H; simpl; auto.
  split.
  - apply (H 0 1)%nat; auto.
  - apply IH. intros i j a b Hij Hi Hj. apply (H (S i) (S j)); auto. lia.
Qed.

Lemma nondec_sorted l : nondecreasing l -> sorted Qle l.
Proof.
  intros H. destruct l as [|x l]; simpl; auto.
  revert x H; induction l as [|y l IH]; intros x H; simpl; auto.
  split.
  - apply (H 0 1)%nat; auto.
  - apply IH. intros i j a b Hij Hi Hj. apply (H (S i) (S j)); auto. lia.
Qed.

Lemma strictly_increasing_nondecreasing l : strictly_increasing l -> nondecreasing l.
Proof.
  intros H i j a b Hij Hi Hj. destruct (Nat.eq_dec i j) as [->|Hne].
  - rewrite Hi in Hj. inversion Hj; subst. apply Qle_refl.
  - apply Qlt_le_weak. apply (H i j); auto. lia.
Qed.

(** ** Masks and subsequences *)

Lemma select_subsequence {A} (mask : list bool) (l : list A) :
  subsequence (select mask l) l.
Proof.
  revert mask; induction l as [|x l IH]; intros [|[|] m]; simpl; try constructor; auto.
  - assert (H : forall l : list A, subsequence [] l) by (induction l0; constructor; auto). apply H.
Qed.

Lemma subsequence_refl {A} (l : list A) : subsequence l l.
Proof. induction l; constructor; auto. Qed.

Lemma subsequence_length {A} (l m : list A) : subsequence l m -> (length l <= length m)%nat.
Proof. induction 1; simpl; lia. Qed.

Lemma subsequence_In {A} (l m : list A) x : subsequence l m -> In x l -> In x m.
Proof. induction 1; simpl; intuition. Qed.

Lemma subsequence_strict l m :
  subsequence l m -> strictly_increasing m -> strictly_increasing l.
Proof.
  intros Hs Hm. apply sorted_strict. apply strict_sorted in Hm.
  assert (Hc : forall a l m, subsequence l m -> chain Qlt a m -> chain Qlt a l).
  { clear. intros a l m Hs; revert a. induction Hs; intros a Hc; simpl in *; auto.
    - destruct Hc; split; auto.
    - apply IHHs. destruct Hc as [H1 H2]. destruct m; simpl in *; auto.
      destruct H2; split; auto; lra. }
  revert Hm. induction Hs; simpl; auto.
  - intros. eapply Hc; eauto.
  - intros H. apply IHHs. destruct m; simpl in *; tauto.
Qed.

Lemma map_select {A B} (f : A -> B) mask l : map f (select mask l) = select mask (map f l).
Proof.
  revert mask; induction l as [|x l IH]; intros [|[|] m]; simpl; auto.
  f_equal; auto.
Qed.

Lemma select_all_true {A} n (l : list A) : (length l <= n)%nat -> select (repeat true n) l = l.
Proof.
  revert l; induction n as [|n IH]; intros [|x l] H; simpl in *; auto; try lia.
  f_equal. apply IH. lia.
Qed.

Lemma rowwise_select {A B} (R : A -> B -> Prop) mask l m :
  rowwise R l m -> rowwise R (select mask l) (select mask m).
Proof.
  unfold rowwise. intros H; revert mask. induction H; intros [|[|] mk]; simpl; auto.
Qed.

Lemma select_length {A} mask (l : list A) :
  length mask = length l -> length (select mask l) = length (filter (fun b : bool => b) mask).
Proof.
  revert mask; induction l as [|x l IH]; intros [|[|] m] H; simpl in *; auto; try discriminate.
Qed.

Lemma map2_length {A B C} (f : A -> B -> C) l m :
  length (map2 f l m) = Nat.min (length l) (length m).
Proof. revert m; induction l; intros [|y m]; simpl; auto. Qed.

Lemma nth_error_map2 {A B C} (f : A -> B -> C) l m i :
  nth_error (map2 f l m) i =
  match nth_error l i, nth_error m i with Some a, Some b => Some (f a b) | _, _ => None end.
Proof.
  revert m i; induction l as [|x l IH]; intros [|y m] [|i]; simpl; auto.
  destruct (nth_error l i); auto.
Qed.

Lemma Forall2_nth {A B} (R : A -> B -> Prop) l m :
  Forall2 R l m <->
  length l = length m /\
  (forall i a b, nth_error l i = Some a -> nth_error m i = Some b -> R a b).
Proof.
  split.
  - induction 1; simpl.
    + split; auto. intros [|i]; discriminate.
    + destruct IHForall2 as [Hl Hn]. split; [lia|].
      intros [|i] a b; simpl; intros Ha Hb.
      * inversion Ha; inversion Hb; subst; auto.
      * eauto.
  - revert m; induction l as [|x l IH]; intros [|y m] [Hl Hn]; try discriminate.
    + constructor.
    + constructor; [apply (Hn O); auto|]. apply IH. split; [simpl in *; lia|].
      intros i a b Ha Hb. apply (Hn (S i)); auto.
Qed.

(** ** npmin, npmax on finite values *)
Definition Qmin2 (a b : Q) : Q := if Qltb b a then b else a.
Definition Qmax2 (a b : Q) : Q := if Qltb a b then b else a.

Lemma npmin_fin a b : npmin (Fin a) (Fin b) = Fin (Qmin2 a b).
Proof. unfold npmin, Qmin2; simpl. destruct (Qltb b a); auto. Qed.
Lemma npmax_fin a b : npmax (Fin a) (Fin b) = Fin (Qmax2 a b).
Proof. unfold npmax, Qmax2; simpl. destruct (Qltb a b); auto. Qed.

Lemma Qmin2_le_l a b : Qmin2 a b <= a.
Proof. unfold Qmin2. destruct (Qltb b a) eqn:E; qb; lra. Qed.
Lemma Qmin2_le_r a b : Qmin2 a b <= b.
Proof. unfold Qmin2. destruct (Qltb b a) eqn:E; qb; lra. Qed.
Lemma Qmin2_glb a b c : c <= a -> c <= b -> c <= Qmin2 a b.
Proof. unfold Qmin2. destruct (Qltb b a) eqn:E; qb; lra. Qed.
Lemma Qmax2_ge_l a b : a <= Qmax2 a b.
Proof. unfold Qmax2. destruct (Qltb a b) eqn:E; qb; lra. Qed.
Lemma Qmax2_ge_r a b : b <= Qmax2 a b.
Proof. unfold Qmax2. destruct (Qltb a b) eqn:E; qb; lra. Qed.

(** ** Sums *)
Lemma Qsum_app l m : Qsum (l ++ m) == Qsum l + Qsum m.
Proof. induction l; simpl; lra. Qed.

Lemma fold_nadd_fin qs : forall a, exists s,
  fold_left nadd (map Fin qs) (Fin a) = Fin s /\ s == a + Qsum qs.
Proof.
  induction qs as [|q qs IH]; intros a; simpl.
  - exists a; split; auto; lra.
  - destruct (IH (a + q)) as [s [Hs He]]. exists s; split; auto. lra.
Qed.

Lemma npsum_fin qs : exists s, npsum (map Fin qs) = Fin s /\ s == Qsum qs.
Proof.
  destruct (fold_nadd_fin qs 0) as [s [H1 H2]]. exists s; split; auto. lra.
Qed.

Lemma filter_notnan_fin qs :
  filter (fun x => negb (isnan x)) (map Fin qs) = map Fin qs.
Proof. induction qs; simpl; auto. f_equal; auto. Qed.

Lemma nansum_fin qs : exists s, nansum (map Fin qs) = Fin s /\ s == Qsum qs.
Proof. unfold nansum. rewrite filter_notnan_fin. apply npsum_fin. Qed.

Lemma Qsum_nonneg l : Forall (fun q => 0 <= q) l -> 0 <= Qsum l.
Proof. induction 1; simpl; lra. Qed.

Lemma Forall2_Qle_trans l : forall m r,
  Forall2 Qle l m -> Forall2 Qle m r -> Forall2 Qle l r.
Proof.
  induction l as [|x l IH]; intros m r H1 H2.
  - inversion H1; subst. inversion H2; subst. constructor.
  - inversion H1; subst. inversion H2; subst. constructor; [lra|]. eauto.
Qed.
