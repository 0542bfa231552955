(** Generic facts on lists and Python indexing. *)
From Coq Require Import String List ZArith Bool Lia.
From Verif Require Import PyBase.
Import ListNotations.

Lemma nth_error_update_eq {A} (l : list A) i v :
  (i < length l)%nat -> nth_error (update_nth i v l) i = Some v.
Proof. revert i; induction l; intros [|i] H; simpl in *; try lia; auto. apply IHl; lia. Qed.

Lemma nth_error_update_ne {A} (l : list A) i j v :
  i <> j -> nth_error (update_nth i v l) j = nth_error l j.
Proof. revert i j; induction l; intros [|i] [|j] H; simpl in *; try congruence; auto. Qed.

Lemma update_nth_length {A} (l : list A) i v : length (update_nth i v l) = length l.
Proof. revert i; induction l; intros [|i]; simpl; auto. Qed.

Lemma nth_error_remove_lt {A} (l : list A) i j :
  (j < i)%nat -> nth_error (remove_nth i l) j = nth_error l j.
Proof.
  revert i j; induction l; intros [|i] [|j] H; simpl in *; try lia; auto.
  apply IHl; lia.
Qed.

Lemma nth_error_remove_ge {A} (l : list A) i j :
  (i <= j)%nat -> nth_error (remove_nth i l) j = nth_error l (S j).
Proof.
  revert i j; induction l; intros [|i] [|j] H; simpl in *; try lia; auto.
  apply IHl; lia.
Qed.

Lemma remove_nth_length {A} (l : list A) i :
  (i < length l)%nat -> length (remove_nth i l) = (length l - 1)%nat.
Proof.
  revert i; induction l; intros [|i] H; simpl in *; try lia.
  rewrite IHl by lia. lia.
Qed.

Lemma remove_nth_length_ge {A} (l : list A) i :
  (length l <= i)%nat -> remove_nth i l = l.
Proof. revert i; induction l; intros [|i] H; simpl in *; auto; try lia. f_equal. apply IHl. lia. Qed.

Lemma remove_nth_split {A} (l : list A) i x :
  nth_error l i = Some x -> l = firstn i l ++ x :: skipn (S i) l /\
                            remove_nth i l = firstn i l ++ skipn (S i) l.
Proof.
  revert i; induction l; intros [|i] H; simpl in *; try discriminate.
  - inversion H; subst; auto.
  - destruct (IHl _ H) as [H1 H2]. split; f_equal; auto.
Qed.

Lemma remove_nth_NoDup {A} (l : list A) i : NoDup l -> NoDup (remove_nth i l).
Proof.
  intros H. destruct (nth_error l i) as [x|] eqn:E.
  - destruct (remove_nth_split _ _ _ E) as [H1 H2]. rewrite H2. rewrite H1 in H.
    eapply NoDup_remove_1; eauto.
  - rewrite remove_nth_length_ge; auto. apply nth_error_None; auto.
Qed.

Lemma py_index_nat {A} (l : list A) k x :
  nth_error l k = Some x -> py_index l (Z.of_nat k) = Ok x.
Proof.
  intros H. unfold py_index. destruct (Z.ltb_spec (Z.of_nat k) 0); [lia|].
  destruct (Z.ltb_spec (Z.of_nat k) 0); [lia|]. rewrite Nat2Z.id, H. auto.
Qed.

Lemma py_index_nat_out {A} (l : list A) k :
  nth_error l k = None -> py_index l (Z.of_nat k) = Raise IndexError.
Proof.
  intros H. unfold py_index. destruct (Z.ltb_spec (Z.of_nat k) 0); [lia|].
  destruct (Z.ltb_spec (Z.of_nat k) 0); [lia|]. rewrite Nat2Z.id, H. auto.
Qed.

Lemma nth_error_last {A} (l : list A) d :
  l <> [] -> nth_error l (length l - 1) = Some (last l d).
Proof.
  induction l as [|x [|y l] IH]; intros H; [congruence| reflexivity |].
  replace (length (x :: y :: l) - 1)%nat with (S (length (y :: l) - 1)) by (simpl; lia).
  cbn [nth_error]. rewrite IH by congruence. reflexivity.
Qed.

Lemma nth_error_repeat {A} (x : A) n i : (i < n)%nat -> nth_error (repeat x n) i = Some x.
Proof. revert i; induction n; intros [|i] H; simpl; auto; try lia. apply IHn; lia. Qed.

Lemma nth_error_ext' {A} (l m : list A) :
  (forall i, nth_error l i = nth_error m i) -> l = m.
Proof.
  revert m; induction l; intros [|y m] H; auto.
  - specialize (H O); discriminate.
  - specialize (H O); discriminate.
  - pose proof (H O) as H0; simpl in H0; inversion H0; subst. f_equal.
    apply IHl. intros i. exact (H (S i)).
Qed.

Lemma nth_error_seq n s i : (i < n)%nat -> nth_error (seq s n) i = Some (s + i)%nat.
Proof.
  revert s i; induction n; intros s [|i] H; simpl; try lia.
  - f_equal; lia.
  - rewrite IHn by lia. f_equal; lia.
Qed.
