(** Lemmas for the branch rules. *)
From Coq Require Import String List Ascii ZArith QArith Bool Lia Lqa Sorted.
From Verif Require Import PyBase Num Spec L_Num Text L_Text Fixed M_Network.
Import ListNotations.
Local Open Scope Q_scope.

(** Rows of a column at the given positions. *)
Definition at_rows {A} (d : A) (idx : list nat) (l : list A) : list A := map (fun i => nth i l d) idx.

Lemma sum_acc l : forall a, fold_left Qplus l a == a + Qsum l.
Proof.
  induction l as [|x l IH]; intro a; cbn [fold_left].
  - unfold Qsum. cbn. lra.
  - rewrite IH. unfold Qsum at 2. cbn [fold_right]. fold (Qsum l). lra.
Qed.
Lemma sum_Qsum l : sum l == Qsum l.
Proof. unfold sum. rewrite sum_acc. lra. Qed.
Lemma Qsum_cons x l : Qsum (x :: l) == x + Qsum l.
Proof. unfold Qsum. cbn. reflexivity. Qed.
Lemma Qsum_nil : Qsum [] == 0.
Proof. reflexivity. Qed.

Lemma firstn_rows {A} (d : A) l : forall k, (k <= length l)%nat -> firstn k l = at_rows d (seq 0 k) l.
Proof.
  induction l as [|x l IH]; intros [|k] H; cbn in *; try lia; auto. f_equal.
  rewrite IH by lia. unfold at_rows. rewrite <- seq_shift, map_map. auto.
Qed.

Lemma slice_rows {A} (d : A) l : forall k m, (k + m <= length l)%nat ->
  firstn m (skipn k l) = at_rows d (seq k m) l.
Proof.
  induction l as [|x l IH]; intros k m H.
  - cbn in H. assert (k = 0)%nat by lia. assert (m = 0)%nat by lia. subst. auto.
  - destruct k.
    + cbn [skipn]. apply firstn_rows. lia.
    + cbn [skipn]. rewrite IH by (cbn in H; lia). unfold at_rows.
      rewrite <- (seq_shift m k), map_map. auto.
Qed.

Lemma all_rows {A} (d : A) l : l = at_rows d (seq 0 (length l)) l.
Proof. rewrite <- firstn_rows by lia. symmetry. apply firstn_all. Qed.

Lemma skipn_add {A} (l : list A) : forall a b, skipn a (skipn b l) = skipn (b + a) l.
Proof.
  intros a b. revert l. induction b; intro l; cbn [skipn Nat.add]; auto.
  destruct l; auto. apply skipn_nil.
Qed.

(** The positions a rule keeps in a branch of [n] points. *)
Definition kept (rule : text) (n : nat) : list nat :=
  if teqb rule (T "onlyedges") then [0%nat; (n - 1)%nat]
  else if teqb rule (T "ignoreedges") then seq 1 (n - 2)
  else if teqb rule (T "ignorelast") then seq 0 (n - 1)
  else if teqb rule (T "ignorefirst") then seq 1 (n - 1)
  else if teqb rule (T "onlyfirst") then [0%nat]
  else if teqb rule (T "onlylast") then [(n - 1)%nat]
  else seq 0 n.

Definition rule_names : list text :=
  [T "norule"; T "onlyedges"; T "ignoreedges"; T "ignorelast"; T "ignorefirst"; T "onlyfirst"; T "onlylast"].

Lemma py_index_last {A} (d : A) l : l <> [] -> py_index l (-1) = Ok (nth (length l - 1) l d).
Proof.
  intro H. unfold py_index. cbn [Z.ltb Z.compare].
  assert (L : (0 < length l)%nat) by (destruct l; cbn; [congruence|lia]).
  assert (E : (-1 + Z.of_nat (length l) <? 0)%Z = false) by (apply Z.ltb_ge; lia).
  rewrite E. replace (Z.to_nat (-1 + Z.of_nat (length l))) with (length l - 1)%nat by lia.
  rewrite (nth_error_nth' l d) by lia. auto.
Qed.
Lemma py_index_first {A} (d : A) l : l <> [] -> py_index l 0 = Ok (nth 0 l d).
Proof. destruct l; [congruence|reflexivity]. Qed.
Lemma py_index_nat {A} (l : list A) k x : nth_error l k = Some x -> py_index l (Z.of_nat k) = Ok x.
Proof.
  intro H. unfold py_index. replace (Z.of_nat k <? 0)%Z with false by (symmetry; apply Z.ltb_ge; lia).
  cbv zeta. replace (Z.of_nat k <? 0)%Z with false by (symmetry; apply Z.ltb_ge; lia).
  rewrite Nat2Z.id, H. auto.
Qed.

Lemma slice_bound_pos n k : (0 <= k)%Z -> slice_bound n k = Nat.min n (Z.to_nat k).
Proof. intro H. unfold slice_bound. destruct (Z.ltb_spec k 0); [lia|auto]. Qed.
Lemma slice_bound_neg n k : (0 < k)%Z -> slice_bound n (- k) = (n - Z.to_nat k)%nat.
Proof.
  intro H. unfold slice_bound. destruct (Z.ltb_spec (- k) 0); [|lia].
  destruct (Z_le_gt_dec (Z.of_nat n) k).
  - replace (Z.to_nat (- k + Z.of_nat n)) with 0%nat by lia. lia.
  - lia.
Qed.

Ltac same_name :=
  repeat match goal with
  | |- context [teqb (T ?a) (T ?b)] =>
      let v := eval vm_compute in (teqb (T a) (T b)) in change (teqb (T a) (T b)) with v
  | H : context [teqb (T ?a) (T ?b)] |- _ =>
      let v := eval vm_compute in (teqb (T a) (T b)) in change (teqb (T a) (T b)) with v in H
  end; cbv iota in *.

Ltac on_rules H :=
  destruct H as [<-|[<-|[<-|[<-|[<-|[<-|[<-|[]]]]]]]].

Lemma keep_points_rows {A} (d : A) rule (l : list A) : In rule rule_names -> (2 <= length l)%nat ->
  keep_points rule l = Some (Ok (at_rows d (kept rule (length l)) l)).
Proof.
  intros H L. assert (N : l <> []) by (destruct l; cbn in L; [lia|congruence]).
  on_rules H; unfold keep_points, kept; same_name.
  - f_equal. f_equal. apply all_rows.
  - rewrite (py_index_first d l N), (py_index_last d l N). reflexivity.
  - unfold py_slice. change (-1)%Z with (- (1))%Z. rewrite slice_bound_neg, slice_bound_pos by lia.
    change (Z.to_nat 1) with 1%nat. rewrite Nat.min_r by lia.
    replace (length l - 1 - 1)%nat with (length l - 2)%nat by lia.
    rewrite (slice_rows d) by lia. auto.
  - unfold slice_to. change (-1)%Z with (- (1))%Z. rewrite slice_bound_neg by lia.
    change (Z.to_nat 1) with 1%nat. rewrite (firstn_rows d) by lia. auto.
  - unfold slice_from. rewrite slice_bound_pos by lia. change (Z.to_nat 1) with 1%nat.
    rewrite Nat.min_r by lia. rewrite <- (slice_rows d l 1 (length l - 1)) by lia.
    rewrite firstn_all2 by (rewrite skipn_length; lia). auto.
  - rewrite (py_index_first d l N). reflexivity.
  - rewrite (py_index_last d l N). reflexivity.
Qed.

Lemma Qsum_firstn_skipn k l : Qsum (firstn k l) + Qsum (skipn k l) == Qsum l.
Proof. rewrite <- Qsum_app, firstn_skipn. reflexivity. Qed.

(** The lengths after a rule: as many as points are kept, with the same total. *)
Lemma keep_lengths_sum rule l ls : In rule rule_names -> (2 <= length l)%nat ->
  keep_lengths rule l = Some ls -> length ls = length (kept rule (length l)) -> Qsum ls == Qsum l.
Proof.
  intros H L E EL.
  on_rules H; unfold keep_lengths, kept in *; same_name;
    injection E as <-.
  - reflexivity.
  - rewrite !Qsum_cons, Qsum_nil, sum_Qsum. field.
  - unfold slice_to, slice_from, py_slice in *. change (-2)%Z with (- (2))%Z in *.
    rewrite !slice_bound_neg, !slice_bound_pos in * by lia. change (Z.to_nat 2) with 2%nat in *.
    rewrite seq_length in EL. cbn [length] in EL. rewrite app_length, firstn_length, skipn_length in EL.
    cbn [length] in EL.
    assert (4 <= length l)%nat by lia. rewrite Nat.min_r by lia.
    rewrite !Qsum_cons, Qsum_app, Qsum_cons, Qsum_nil, !sum_Qsum.
    rewrite <- (Qsum_firstn_skipn 2 l).
    assert (E2 : skipn 2 l = firstn (length l - 2 - 2) (skipn 2 l) ++ skipn (length l - 2) l).
    { rewrite <- (firstn_skipn (length l - 2 - 2) (skipn 2 l)) at 1. f_equal.
      rewrite skipn_add. f_equal. lia. }
    assert (E3 : Qsum (skipn 2 l) == Qsum (firstn (length l - 2 - 2) (skipn 2 l)) + Qsum (skipn (length l - 2) l)).
    { rewrite <- Qsum_app, <- E2. reflexivity. }
    rewrite E3. lra.
  - unfold slice_to, slice_from in *. change (-2)%Z with (- (2))%Z in *.
    rewrite !slice_bound_neg by lia. change (Z.to_nat 2) with 2%nat in *.
    rewrite Qsum_app, Qsum_cons, Qsum_nil, sum_Qsum, Qplus_0_r. apply Qsum_firstn_skipn.
  - unfold slice_to, slice_from in *. rewrite !slice_bound_pos by lia. change (Z.to_nat 2) with 2%nat in *.
    rewrite Nat.min_r by lia. rewrite Qsum_cons, sum_Qsum. apply Qsum_firstn_skipn.
  - rewrite Qsum_cons, Qsum_nil, sum_Qsum. lra.
  - rewrite Qsum_cons, Qsum_nil, sum_Qsum. lra.
Qed.

Lemma keep_lengths_long rule l : In rule rule_names -> (4 <= length l)%nat ->
  exists ls, keep_lengths rule l = Some ls /\ length ls = length (kept rule (length l)).
Proof.
  intros H L.
  on_rules H; unfold keep_lengths, kept in *; same_name;
    eexists; (split; [reflexivity|]); rewrite ?seq_length; auto.
  - unfold slice_to, slice_from, py_slice in *. change (-2)%Z with (- (2))%Z in *.
    rewrite !slice_bound_neg, !slice_bound_pos in * by lia. change (Z.to_nat 2) with 2%nat in *.
    cbn [length]. rewrite app_length, firstn_length, skipn_length. cbn [length]. lia.
  - unfold slice_to, slice_from in *. change (-2)%Z with (- (2))%Z in *.
    rewrite !slice_bound_neg by lia. change (Z.to_nat 2) with 2%nat in *.
    rewrite app_length, firstn_length. cbn [length]. lia.
  - unfold slice_to, slice_from in *. rewrite !slice_bound_pos by lia. change (Z.to_nat 2) with 2%nat in *.
    rewrite Nat.min_r by lia. cbn [length]. rewrite skipn_length. lia.
Qed.

Lemma kept_increasing rule n : In rule rule_names -> (2 <= n)%nat ->
  StronglySorted lt (kept rule n) /\ Forall (fun i => (i < n)%nat) (kept rule n).
Proof.
  assert (S : forall k m, StronglySorted lt (seq k m)).
  { intros k m. revert k. induction m; intro k; cbn; constructor; auto.
    apply Forall_forall. intros x I. apply in_seq in I. lia. }
  assert (F : forall k m, (k + m <= n)%nat -> Forall (fun i => (i < n)%nat) (seq k m)).
  { intros k m L. apply Forall_forall. intros x I. apply in_seq in I. lia. }
  intros H L. on_rules H; unfold kept; same_name;
    split; auto; try (apply F; lia); repeat constructor; lia.
Qed.

Lemma keep_points_unknown {A} rule (l : list A) : ~ In rule rule_names -> keep_points rule l = None.
Proof.
  intro H. unfold keep_points. unfold rule_names in H. cbn [In] in H.
  destruct (teqb_spec rule (T "norule")); [subst; tauto|].
  destruct (teqb_spec rule (T "onlyedges")); [subst; tauto|].
  destruct (teqb_spec rule (T "ignoreedges")); [subst; tauto|].
  destruct (teqb_spec rule (T "ignorelast")); [subst; tauto|].
  destruct (teqb_spec rule (T "ignorefirst")); [subst; tauto|].
  destruct (teqb_spec rule (T "onlyfirst")); [subst; tauto|].
  destruct (teqb_spec rule (T "onlylast")); [subst; tauto|]. auto.
Qed.
