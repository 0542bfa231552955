(** Theorems for C52 (branch exceptions) and C65 (end points). *)
From Coq Require Import String List Ascii ZArith QArith Bool Lia Lqa Sorted Permutation.
From Verif Require Import PyBase Num Spec L_Num L_List Text L_Text Fixed M_Ini M_Friction T_Friction
  M_Network L_Network T_Rules.
Import ListNotations.
Local Open Scope Q_scope.

(** [b'] is [b] without point [k]; lengths apart. *)
Definition without (k : nat) (b b' : branch) : Prop :=
  b_x b' = remove_nth k (b_x b) /\ b_y b' = remove_nth k (b_y b) /\ b_cid b' = remove_nth k (b_cid b) /\
  b_bid b' = remove_nth k (b_bid b) /\ b_coff b' = remove_nth k (b_coff b).

Lemma remove_first_rows {A} (d : A) l : l <> [] -> at_rows d (seq 1 (length l - 1)) l = remove_nth 0 l.
Proof.
  intro H. assert (1 <= length l)%nat by (destruct l; cbn; [congruence|lia]).
  rewrite <- (slice_rows d l 1) by lia.
  destruct l; [congruence|]. cbn [skipn remove_nth]. apply firstn_all2. cbn. lia.
Qed.
Lemma remove_last_rows {A} (d : A) l : l <> [] ->
  at_rows d (seq 0 (length l - 1)) l = remove_nth (length l - 1) l.
Proof.
  intro H. rewrite <- firstn_rows by lia. clear d.
  induction l as [|x [|y l] IH]; [congruence|reflexivity|].
  cbn [length] in *. replace (S (S (length l)) - 1)%nat with (S (S (length l) - 1)) by lia.
  cbn [firstn remove_nth]. f_equal. apply IH. discriminate.
Qed.

Lemma remove_nth_at {A} (l1 l2 : list A) x : remove_nth (length l1) (l1 ++ x :: l2) = l1 ++ l2.
Proof. induction l1; cbn; auto. f_equal. auto. Qed.
Lemma update_nth_at {A} (l1 l2 : list A) x v : update_nth (length l1) v (l1 ++ x :: l2) = l1 ++ v :: l2.
Proof. induction l1; cbn; auto. f_equal. auto. Qed.
Lemma nth_error_at {A} (l1 l2 : list A) x : nth_error (l1 ++ x :: l2) (length l1) = Some x.
Proof. induction l1; cbn; auto. Qed.

Lemma split_at {A} (l : list A) k : (k < length l)%nat ->
  exists l1 x l2, l = l1 ++ x :: l2 /\ length l1 = k.
Proof.
  intro H. destruct (nth_error l k) eqn:E; [|apply nth_error_None in E; lia].
  apply nth_error_split in E. destruct E as (l1 & l2 & -> & L). eauto.
Qed.

Lemma pop_ok {A} k (l : list A) : (k < length l)%nat -> pop k l = Ok (remove_nth k l).
Proof. intro H. unfold pop. destruct (Nat.ltb_spec k (length l)); [auto|lia]. Qed.

(** An inner point: half of its length goes to each neighbour. *)
Lemma remove_inner b n k l1 x y z l2 : aligned b n ->
  b_cdis b = l1 ++ x :: y :: z :: l2 -> k = S (length l1) ->
  exists b', remove_point b k = Ok b' /\ without k b b' /\
    b_cdis b' = l1 ++ (x + y / 2) :: (z + y / 2) :: l2.
Proof.
  intros (A1 & A2 & A3 & A4 & A5 & A6) E K.
  assert (N : (n = length l1 + 3 + length l2)%nat) by (rewrite <- A4, E, app_length; cbn; lia).
  unfold remove_point. subst k. change (Nat.eqb (S (length l1)) 0) with false. cbv iota.
  destruct (Nat.eqb_spec (S (S (length l1))) (length (b_x b))) as [X|_]; [lia|].
  assert (I : nth_error (l1 ++ x :: y :: z :: l2) (S (length l1)) = Some y).
  { change (x :: y :: z :: l2) with ([x] ++ y :: z :: l2). rewrite app_assoc.
    replace (S (length l1)) with (length (l1 ++ [x])) by (rewrite app_length; cbn; lia). apply nth_error_at. }
  rewrite E. rewrite (L_List.py_index_nat _ _ _ I). cbn [bind].
  replace (S (length l1) - 1)%nat with (length l1) by lia.
  unfold add_at at 1. rewrite nth_error_at, update_nth_at. cbn [bind].
  assert (I' : nth_error (l1 ++ (x + y / 2) :: y :: z :: l2) (S (length l1)) = Some y).
  { change ((x + y / 2) :: y :: z :: l2) with ([x + y / 2] ++ y :: z :: l2). rewrite app_assoc.
    replace (S (length l1)) with (length (l1 ++ [x + y / 2])) by (rewrite app_length; cbn; lia). apply nth_error_at. }
  rewrite (L_List.py_index_nat _ _ _ I'). cbn [bind].
  replace (S (length l1) + 1)%nat with (length (l1 ++ [x + y / 2; y])) by (rewrite app_length; cbn; lia).
  replace (l1 ++ (x + y / 2) :: y :: z :: l2) with ((l1 ++ [x + y / 2; y]) ++ z :: l2)
    by (rewrite <- app_assoc; reflexivity).
  unfold add_at. rewrite nth_error_at, update_nth_at. cbn [bind].
  rewrite !pop_ok by (rewrite ?app_length; cbn; lia). cbn [bind].
  eexists. split; [reflexivity|]. split; [repeat split|]. cbn [b_cdis].
  replace ((l1 ++ [x + y / 2; y]) ++ (z + y / 2) :: l2)
    with ((l1 ++ [x + y / 2]) ++ y :: (z + y / 2) :: l2) by (rewrite <- !app_assoc; reflexivity).
  replace (S (length l1)) with (length (l1 ++ [x + y / 2])) by (rewrite app_length; cbn; lia).
  rewrite remove_nth_at, <- app_assoc. reflexivity.
Qed.

Lemma without_lengths b b' n k : aligned b n -> without k b b' -> (k < n)%nat ->
  length (b_cdis b') = (n - 1)%nat -> aligned b' (n - 1).
Proof.
  intros (A1 & A2 & A3 & A4 & A5 & A6) (E1 & E2 & E3 & E4 & E5) K L. unfold aligned.
  rewrite E1, E2, E3, E4, E5, !remove_nth_length by lia. repeat split; lia.
Qed.

Lemma remove_end rule b n : aligned b n -> (2 <= n)%nat ->
  (rule = T "ignorefirst" \/ rule = T "ignorelast") ->
  exists b', rules_unpacked rule b = Ok b' /\ points_at (kept rule n) b b' /\
    length (b_cdis b') = (n - 1)%nat /\ Qsum (b_cdis b') == Qsum (b_cdis b).
Proof.
  intros A Hn Hr. pose proof A as (_ & _ & _ & A4 & _).
  assert (S : strip (lower rule) = rule) by (destruct Hr; subst; vm_compute; reflexivity).
  assert (I : In rule rule_names) by (destruct Hr; subst; unfold rule_names; cbn [In]; tauto).
  assert (HL : exists ls, keep_lengths rule (b_cdis b) = Some ls /\ length ls = length (kept rule n)).
  { destruct Hr; subst rule; unfold keep_lengths, kept; same_name; eexists; (split; [reflexivity|]);
      rewrite seq_length; unfold slice_to, slice_from; change (-2)%Z with (- (2))%Z;
      rewrite ?slice_bound_neg, ?slice_bound_pos by lia; change (Z.to_nat 2) with 2%nat;
      rewrite ?app_length, ?firstn_length; cbn [length]; rewrite ?skipn_length; lia. }
  destruct HL as (ls & HL & EL).
  pose proof (apply_branch_rules_ok rule b n ls) as Q. cbv zeta in Q. rewrite S in Q.
  destruct (Q I A Hn HL) as (b' & E & P & D). exists b'.
  unfold rules_unpacked. rewrite E. cbn [bind]. split; auto. split; auto. rewrite D. split.
  - rewrite EL. destruct Hr; subst rule; unfold kept; same_name; apply seq_length.
  - apply (keep_lengths_sum rule); auto; [lia|congruence].
Qed.

Lemma remove_point_ok b n k : aligned b n -> (2 <= n)%nat -> (k < n)%nat ->
  exists b', remove_point b k = Ok b' /\ without k b b' /\ aligned b' (n - 1) /\
    Qsum (b_cdis b') == Qsum (b_cdis b).
Proof.
  intros A Hn Hk. pose proof A as (A1 & A2 & A3 & A4 & A5 & A6).
  assert (NE : forall T (l : list T), length l = n -> l <> []) by (intros T l L ->; cbn in L; lia).
  destruct (Nat.eq_dec k 0) as [K0|K0]; [|destruct (Nat.eq_dec (S k) n) as [Kn|Kn]].
  - destruct (remove_end (T "ignorefirst") b n A Hn) as (b' & E & P & L & SQ); auto.
    exists b'. unfold remove_point. subst k. cbn [Nat.eqb]. split; auto.
    assert (W : without 0 b b').
    { unfold kept in P. same_name. destruct P as (P1 & P2 & P3 & P4 & P5).
      unfold without. rewrite P1, P2, P3, P4, P5.
      rewrite <- A1 at 1. rewrite <- A2 at 1. rewrite <- A3 at 1. rewrite <- A5 at 1. rewrite <- A6 at 1.
      rewrite !remove_first_rows; auto 10. }
    split; auto. split; auto. apply (without_lengths b b' n 0); auto.
  - destruct (remove_end (T "ignorelast") b n A Hn) as (b' & E & P & L & SQ); auto.
    exists b'. unfold remove_point. destruct (Nat.eqb_spec k 0); [lia|].
    rewrite A1. destruct (Nat.eqb_spec (S k) n); [|lia]. split; auto.
    assert (W : without k b b').
    { unfold kept in P. same_name. destruct P as (P1 & P2 & P3 & P4 & P5).
      assert (R : forall T (d : T) l, length l = n -> at_rows d (seq 0 (n - 1)) l = remove_nth k l).
      { intros T d l Ll. rewrite <- Ll. rewrite remove_last_rows by auto. f_equal. lia. }
      unfold without. rewrite P1, P2, P3, P4, P5. rewrite !R; auto 10. }
    split; auto. split; auto. apply (without_lengths b b' n k); auto.
  - destruct (split_at (b_cdis b) (k - 1)) as (l1 & x & l2 & E & L1); [lia|].
    assert (LL : (length l1 + 1 + length l2 = n)%nat) by (rewrite <- A4, E, app_length; cbn; lia).
    destruct l2 as [|y [|z l2]]; [cbn in LL; lia|cbn in LL; lia|].
    destruct (remove_inner b n k l1 x y z l2 A E ltac:(lia)) as (b' & R & W & D).
    exists b'. split; auto. split; auto.
    assert (Ld : length (b_cdis b') = (n - 1)%nat) by (rewrite D, app_length; cbn in *; lia).
    split; [apply (without_lengths b b' n k); auto; lia|].
    rewrite D, E, !Qsum_app, !Qsum_cons. field.
Qed.

(** ** Several points *)

Definition memb (i : nat) (l : list nat) : bool := existsb (Nat.eqb i) l.
Lemma memb_true i l : memb i l = true <-> In i l.
Proof.
  unfold memb. rewrite existsb_exists. split.
  - intros (x & I & E). apply Nat.eqb_eq in E. subst. auto.
  - intro I. exists i. split; auto. apply Nat.eqb_refl.
Qed.

Definition other_rows (P : list nat) (n : nat) : list nat := filter (fun i => negb (memb i P)) (seq 0 n).

Lemma filter_all {A} (p : A -> bool) l : (forall x, In x l -> p x = true) -> filter p l = l.
Proof.
  induction l; intro H; cbn; auto. rewrite (H a) by (left; auto). f_equal. apply IHl. intros; apply H; right; auto.
Qed.

Lemma at_rows_app {A} (d : A) i j l : at_rows d (i ++ j) l = at_rows d i l ++ at_rows d j l.
Proof. apply map_app. Qed.

(** Removal of the largest position first leaves the other positions in place. *)
Lemma other_rows_step {A} (d : A) p P l : (p < length l)%nat -> Forall (fun i => (i < p)%nat) P ->
  at_rows d (other_rows P (length l - 1)) (remove_nth p l) = at_rows d (other_rows (p :: P) (length l)) l.
Proof.
  intros Hp F. destruct (split_at l p Hp) as (l1 & x & l2 & -> & L1). subst p.
  rewrite remove_nth_at. rewrite app_length. cbn [length].
  replace (length l1 + S (length l2) - 1)%nat with (length l1 + length l2)%nat by lia.
  unfold other_rows. rewrite !seq_app, !filter_app, !at_rows_app. cbn [seq Nat.add filter].
  assert (M : memb (length l1) (length l1 :: P) = true) by (apply memb_true; left; auto).
  rewrite M. cbn [negb]. f_equal.
  - assert (E : filter (fun i => negb (memb i (length l1 :: P))) (seq 0 (length l1)) =
                filter (fun i => negb (memb i P)) (seq 0 (length l1))).
    { apply filter_ext_in. intros i Hi. apply in_seq in Hi. f_equal. unfold memb. cbn [existsb].
      destruct (Nat.eqb_spec i (length l1)); [lia|auto]. }
    rewrite E. unfold at_rows. apply map_ext_in. intros i Hi. apply filter_In in Hi.
    destruct Hi as [Hi _]. apply in_seq in Hi. rewrite !app_nth1 by lia. auto.
  - rewrite Forall_forall in F.
    rewrite !filter_all.
    + unfold at_rows. rewrite <- seq_shift, map_map. apply map_ext_in. intros i Hi. apply in_seq in Hi.
      rewrite !app_nth2 by lia. replace (S i - length l1)%nat with (S (i - length l1)) by lia. auto.
    + intros i Hi. apply in_seq in Hi. destruct (memb i (length l1 :: P)) eqn:Em; auto.
      apply memb_true in Em. destruct Em as [|Em]; [lia|]. apply F in Em. lia.
    + intros i Hi. apply in_seq in Hi. destruct (memb i P) eqn:Em; auto.
      apply memb_true in Em. apply F in Em. lia.
Qed.

Lemma other_rows_nil {A} (d : A) l : at_rows d (other_rows [] (length l)) l = l.
Proof. unfold other_rows. rewrite filter_all by auto. symmetry. apply all_rows. Qed.

Lemma remove_points_ok P : forall b n, aligned b n -> StronglySorted gt P ->
  Forall (fun i => (i < n)%nat) P -> (length P < n)%nat ->
  exists b', fold_res remove_point P b = Ok b' /\ points_at (other_rows P n) b b' /\
    aligned b' (n - length P) /\ Qsum (b_cdis b') == Qsum (b_cdis b).
Proof.
  induction P as [|p P IH]; intros b n A SS F L.
  - exists b. pose proof A as (A1 & A2 & A3 & A4 & A5 & A6). cbn [fold_res length]. split; auto.
    split; [|split; [rewrite Nat.sub_0_r; auto|reflexivity]]. unfold points_at.
    pose proof (other_rows_nil 0 (b_x b)) as E1. pose proof (other_rows_nil 0 (b_y b)) as E2.
    pose proof (other_rows_nil ([] : text) (b_cid b)) as E3. pose proof (other_rows_nil ([] : text) (b_bid b)) as E4.
    pose proof (other_rows_nil 0 (b_coff b)) as E5.
    rewrite A1 in E1. rewrite A2 in E2. rewrite A3 in E3. rewrite A5 in E4. rewrite A6 in E5. auto 10.
  - cbn [length] in L. apply StronglySorted_inv in SS. destruct SS as [SS FP].
    apply Forall_inv in F as Fp. cbn beta in Fp.
    destruct (remove_point_ok b n p A ltac:(lia) Fp) as (b1 & E1 & W & A' & S1).
    assert (FP' : Forall (fun i => (i < p)%nat) P) by (eapply Forall_impl; [|exact FP]; cbn; intros; lia).
    destruct (IH b1 (n - 1)%nat A' SS) as (b' & E & P' & A'' & S'); [|lia|].
    { eapply Forall_impl; [|exact FP']. cbn. intros. lia. }
    exists b'. cbn [fold_res]. rewrite E1. split; auto.
    split; [|split; [cbn [length]; replace (n - S (length P))%nat with (n - 1 - length P)%nat by lia; auto|
                     rewrite S'; auto]].
    pose proof A as (A1 & A2 & A3 & A4 & A5 & A6).
    destruct P' as (P1 & P2 & P3 & P4 & P5). destruct W as (W1 & W2 & W3 & W4 & W5).
    unfold points_at. rewrite P1, P2, P3, P4, P5, W1, W2, W3, W4, W5.
    assert (R : forall T (d : T) l, length l = n ->
      at_rows d (other_rows P (n - 1)) (remove_nth p l) = at_rows d (other_rows (p :: P) n) l).
    { intros T d l Ll. rewrite <- Ll. apply other_rows_step; auto. lia. }
    rewrite !R; auto 10.
Qed.

(** ** Positions of the exceptions *)

Lemma index_of_spec c l : (exists k, index_of c l = Ok k /\ nth_error l k = Some c /\ ~ In c (firstn k l)) \/
  (index_of c l = Raise ValueError /\ ~ In c l).
Proof.
  induction l as [|x l IH]; cbn [index_of]; [right; auto|].
  destruct (teqb_spec x c) as [->|N].
  - left. exists 0%nat. split; auto.
  - destruct IH as [(k & -> & E & NI)|[-> NI]]; cbn [bind].
    + left. exists (S k). split; auto. split; auto. cbn [firstn]. intros [|]; auto.
    + right. split; auto. intros [|]; auto.
Qed.

Lemma index_of_in c l : In c l -> exists k, index_of c l = Ok k /\ nth_error l k = Some c.
Proof. intro H. destruct (index_of_spec c l) as [(k & E & N & _)|[_ N]]; [eauto|tauto]. Qed.

Lemma insert_down_perm x l : Permutation (insert_down x l) (x :: l).
Proof.
  induction l as [|y l IH]; cbn [insert_down]; auto.
  destruct (Nat.leb x y); auto. rewrite IH. apply perm_swap.
Qed.
Lemma sorted_down_perm l : Permutation (sorted_down l) l.
Proof. induction l as [|x l IH]; cbn; auto. fold (sorted_down l). rewrite insert_down_perm. auto. Qed.
Lemma insert_down_sorted x l : StronglySorted ge l -> StronglySorted ge (insert_down x l).
Proof.
  induction l as [|y l IH]; intro S; cbn [insert_down]; [repeat constructor|].
  apply StronglySorted_inv in S as S'. destruct S' as [S' F].
  destruct (Nat.leb_spec x y) as [H|H].
  - constructor; auto. rewrite Forall_forall in *. intros z Hz.
    apply (Permutation_in z (insert_down_perm x l)) in Hz. destruct Hz as [<-|Hz]; [lia|auto].
  - constructor; auto. rewrite Forall_forall in *. intros z [<-|Hz]; [lia|]. specialize (F z Hz). lia.
Qed.
Lemma sorted_down_sorted l : StronglySorted ge (sorted_down l).
Proof. induction l; cbn; [constructor|]. apply insert_down_sorted. auto. Qed.
Lemma sorted_strict l : StronglySorted ge l -> NoDup l -> StronglySorted gt l.
Proof.
  induction 1 as [|x l S IH F]; intro N; constructor; inversion N; subst; auto.
  rewrite Forall_forall in *. intros y Hy. specialize (F y Hy). assert (x <> y) by congruence. lia.
Qed.

Lemma map_res_ok {A B} (f : A -> res B) l : (forall x, In x l -> exists y, f x = Ok y) ->
  exists ys, map_res f l = Ok ys /\ Forall2 (fun x y => f x = Ok y) l ys.
Proof.
  induction l as [|x l IH]; intro H; [exists []; auto|].
  destruct (H x (or_introl eq_refl)) as (y & E). destruct IH as (ys & E' & F); [intros; apply H; right; auto|].
  exists (y :: ys). cbn [map_res]. rewrite E. cbn [bind]. rewrite E'. cbn [bind]. auto.
Qed.

Lemma Forall2_len {A B} (P : A -> B -> Prop) l m : Forall2 P l m -> length l = length m.
Proof. induction 1; cbn; auto. Qed.

(** The rows whose id is not an exception. *)
Definition not_excepted (ex cid : list text) (n : nat) : list nat :=
  filter (fun i => negb (existsb (teqb (nth i cid [])) ex)) (seq 0 n).

(** C52: distinct known exceptions on a branch with distinct ids. *)
Theorem C52_exceptions_conserve_length : forall ex b n,
  aligned b n -> NoDup (b_cid b) -> NoDup ex -> incl ex (b_cid b) -> (length ex < n)%nat ->
  exists b', apply_branch_exceptions ex b = Ok b' /\
    points_at (not_excepted ex (b_cid b) n) b b' /\
    aligned b' (n - length ex) /\ Qsum (b_cdis b') == Qsum (b_cdis b).
Proof.
  intros ex b n A ND NE IN L. pose proof A as (_ & _ & A3 & _).
  destruct (map_res_ok (fun e => index_of e (b_cid b)) ex) as (ps & E & F2).
  { intros x Hx. apply IN in Hx. destruct (index_of_in x (b_cid b) Hx) as (k & -> & _). eauto. }
  assert (F2' : Forall2 (fun x k => nth_error (b_cid b) k = Some x) ex ps).
  { eapply Forall2_imp; [|exact F2]. cbn. intros x k Hk.
    destruct (index_of_spec x (b_cid b)) as [(k' & E' & N & _)|[E' _]]; congruence. }
  assert (Lp : length ps = length ex) by (symmetry; eapply Forall2_len; eauto).
  assert (NP : NoDup ps).
  { clear - F2' NE. induction F2' as [|x k ex ps Hk F IH]; constructor; inversion NE; subst; auto.
    intro I. apply H1. clear - F I Hk.
    induction F as [|x' k' ex ps Hk' F IH]; [destruct I|]. destruct I as [->|I]; [left; congruence|right; auto]. }
  assert (Fb : Forall (fun i => (i < n)%nat) ps).
  { clear - F2' A3. induction F2' as [|x k ex ps Hk F IH]; constructor; auto.
    rewrite <- A3. apply nth_error_Some. congruence. }
  assert (M : forall i, (i < n)%nat -> memb i (sorted_down ps) = existsb (teqb (nth i (b_cid b) [])) ex).
  { intros i Hi. apply Bool.eq_true_iff_eq. rewrite memb_true, existsb_exists. split.
    - intro I. apply (Permutation_in _ (sorted_down_perm ps)) in I.
      clear - F2' I. induction F2' as [|x k ex ps Hk F IH]; [destruct I|]. destruct I as [->|I].
      + exists x. split; [left; auto|]. apply teqb_eq. apply nth_error_nth. auto.
      + destruct (IH I) as (x' & I' & E'). exists x'. split; [right|]; auto.
    - intros (x & I & Ex). apply teqb_eq in Ex.
      assert (Hi' : nth_error (b_cid b) i = Some x).
      { rewrite <- Ex. apply nth_error_nth'. lia. }
      apply (Permutation_in _ (Permutation_sym (sorted_down_perm ps))).
      clear - F2' I Hi' ND. induction F2' as [|x' k ex ps Hk F IH]; [destruct I|].
      destruct I as [->|I]; [left|right; auto].
      apply (NoDup_nth_error (b_cid b)); auto; [apply nth_error_Some; congruence|congruence]. }
  destruct (remove_points_ok (sorted_down ps) b n A) as (b' & E' & P & A' & S).
  - apply sorted_strict; [apply sorted_down_sorted|].
    apply (Permutation_NoDup (Permutation_sym (sorted_down_perm ps))). auto.
  - apply (Permutation_Forall (Permutation_sym (sorted_down_perm ps))). auto.
  - rewrite (Permutation_length (sorted_down_perm ps)). lia.
  - exists b'. unfold apply_branch_exceptions. rewrite E. cbn [bind]. split; auto.
    rewrite (Permutation_length (sorted_down_perm ps)), Lp in A'.
    split; [|split; auto].
    replace (not_excepted ex (b_cid b) n) with (other_rows (sorted_down ps) n); auto.
    unfold other_rows, not_excepted. apply filter_ext_in. intros i Hi. apply in_seq in Hi. f_equal. apply M. lia.
Qed.
Print Assumptions C52_exceptions_conserve_length.

(** One inner exception: half its length to each neighbour. *)
Theorem C52_one_inner_exception : forall b n c l1 x y z l2,
  aligned b n -> b_cdis b = l1 ++ x :: y :: z :: l2 ->
  nth_error (b_cid b) (S (length l1)) = Some c -> ~ In c (firstn (S (length l1)) (b_cid b)) ->
  exists b', apply_branch_exceptions [c] b = Ok b' /\ without (S (length l1)) b b' /\
    b_cdis b' = l1 ++ (x + y / 2) :: (z + y / 2) :: l2.
Proof.
  intros b n c l1 x y z l2 A D Hc NI.
  assert (E : index_of c (b_cid b) = Ok (S (length l1))).
  { destruct (index_of_spec c (b_cid b)) as [(k & E & N & NI')|[_ N]].
    - destruct (Nat.lt_trichotomy k (S (length l1))) as [H|[->|H]]; auto.
      + destruct NI. rewrite <- (firstn_skipn k (firstn _ _)). apply in_or_app. right.
        apply (nth_error_In _ 0%nat).
        destruct (nth_error_split _ _ N) as (a & r & Eq & La). rewrite Eq.
        rewrite firstn_app. rewrite firstn_all2 by lia. subst k.
        replace (S (length l1) - length a)%nat with (S (length l1 - length a)) by lia.
        cbn [firstn]. rewrite skipn_app, skipn_all2, Nat.sub_diag by lia. reflexivity.
      + destruct NI'. destruct (nth_error_split _ _ Hc) as (a & r & Eq & La). rewrite Eq, <- La in *.
        rewrite firstn_app, firstn_all2 by lia. apply in_or_app. right.
        replace (k - length a)%nat with (S (k - length a - 1)) by lia. left. auto.
    - destruct N. eapply nth_error_In; eauto. }
  destruct (remove_inner b n (S (length l1)) l1 x y z l2 A D eq_refl) as (b' & R & W & D').
  exists b'. split; [|auto]. unfold apply_branch_exceptions. cbn [map_res]. rewrite E. cbn [bind sorted_down fold_right insert_down fold_res].
  rewrite R. reflexivity.
Qed.
Print Assumptions C52_one_inner_exception.

(** An unknown exception is logged and then raises. *)
Theorem C52_unknown_exception_raises : forall ex b c,
  In c ex -> ~ In c (b_cid b) -> apply_branch_exceptions ex b = Raise ValueError.
Proof.
  intros ex b c I N. unfold apply_branch_exceptions.
  enough (E : map_res (fun e => index_of e (b_cid b)) ex = Raise ValueError) by (rewrite E; auto).
  induction ex as [|x ex IH]; [destruct I|]. cbn [map_res].
  destruct (index_of_spec x (b_cid b)) as [(k & E & _)|[E Nx]]; rewrite E; cbn [bind]; auto.
  destruct I as [->|I].
  - destruct (index_of_spec c (b_cid b)) as [(k' & E' & Nn & _)|[E' _]]; [|congruence].
    destruct N. eapply nth_error_In; eauto.
  - rewrite IH; auto.
Qed.
Print Assumptions C52_unknown_exception_raises.

(** An exception that is listed twice also removes its neighbour. *)
Theorem C52_duplicate_exception_refuted : exists b b',
  aligned b 4 /\ NoDup (b_cid b) /\
  apply_branch_exceptions [T "b"; T "b"] b = Ok b' /\ b_cid b' = [T "a"; T "d"].
Proof.
  exists (mk_branch [0; 1; 2; 3] [0; 1; 2; 3] [T "a"; T "b"; T "c"; T "d"] [1; 1; 1; 1]
            [T "r"; T "r"; T "r"; T "r"] [0; 1; 2; 3]).
  eexists. split; [repeat split|]. split.
  - repeat constructor; cbn; intuition discriminate.
  - split; vm_compute; reflexivity.
Qed.
Print Assumptions C52_duplicate_exception_refuted.

Example C52_example :
  option_map (fun b => (b_cid b, map Qred (b_cdis b)))
    (match apply_branch_exceptions [T "b"; T "d"]
      (mk_branch [0; 1; 2; 3] [0; 1; 2; 3] [T "a"; T "b"; T "c"; T "d"] [1; 2; 3; 4]
            [T "r"; T "r"; T "r"; T "r"] [0; 1; 2; 3]) with Ok b => Some b | _ => None end)
  = Some ([T "a"; T "c"], [2; 8]).
Proof. vm_compute. reflexivity. Qed.
