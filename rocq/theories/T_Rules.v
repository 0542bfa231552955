(** Theorems for C51 (branch rules) and C53 (lengths of a branch). *)
From Coq Require Import String List Ascii ZArith QArith Bool Lia Lqa Sorted.
From Verif Require Import PyBase Num Spec L_Num L_List Text L_Text Fixed M_Ini M_Friction M_Network L_Network.
Import ListNotations.
Local Open Scope Q_scope.

(** All six columns have [n] rows. *)
Definition aligned (b : branch) (n : nat) : Prop :=
  length (b_x b) = n /\ length (b_y b) = n /\ length (b_cid b) = n /\
  length (b_cdis b) = n /\ length (b_bid b) = n /\ length (b_coff b) = n.

(** The points of [b'] are the rows [idx] of [b], in all columns but the length. *)
Definition points_at (idx : list nat) (b b' : branch) : Prop :=
  b_x b' = at_rows 0 idx (b_x b) /\ b_y b' = at_rows 0 idx (b_y b) /\
  b_cid b' = at_rows ([] : text) idx (b_cid b) /\ b_bid b' = at_rows ([] : text) idx (b_bid b) /\
  b_coff b' = at_rows 0 idx (b_coff b).

Lemma apply_branch_rules_ok rule b n ls : let r := strip (lower rule) in
  In r rule_names -> aligned b n -> (2 <= n)%nat -> keep_lengths r (b_cdis b) = Some ls ->
  exists b', apply_branch_rules rule b = Ok (Some b') /\ points_at (kept r n) b b' /\ b_cdis b' = ls.
Proof.
  intros r Hr (A1 & A2 & A3 & A4 & A5 & A6) Hn HL.
  exists (mk_branch (at_rows 0 (kept r n) (b_x b)) (at_rows 0 (kept r n) (b_y b))
                    (at_rows ([] : text) (kept r n) (b_cid b)) ls (at_rows ([] : text) (kept r n) (b_bid b))
                    (at_rows 0 (kept r n) (b_coff b))).
  unfold apply_branch_rules. fold r. cbv zeta.
  rewrite (keep_points_rows 0 r (b_x b)), (keep_points_rows 0 r (b_y b)), (@keep_points_rows text [] r (b_cid b)),
    HL, (@keep_points_rows text [] r (b_bid b)), (keep_points_rows 0 r (b_coff b)) by (auto; lia).
  cbn [bind]. rewrite A1, A2, A3, A5, A6. split; [reflexivity|].
  split; [|reflexivity]. repeat split.
Qed.

Lemma at_rows_length {A} (d : A) idx l : length (at_rows d idx l) = length idx.
Proof. apply map_length. Qed.

Lemma keep_lengths_known rule l : In rule rule_names -> exists ls, keep_lengths rule l = Some ls.
Proof. intro H. on_rules H; unfold keep_lengths; same_name; eexists; reflexivity. Qed.

(** C51: on a branch of four or more points every rule succeeds. *)
Theorem C51_rules_conserve_length : forall rule b n,
  let r := strip (lower rule) in
  In r rule_names -> aligned b n -> (4 <= n)%nat ->
  exists b', apply_branch_rules rule b = Ok (Some b') /\
    points_at (kept r n) b b' /\
    StronglySorted lt (kept r n) /\ Forall (fun i => (i < n)%nat) (kept r n) /\
    aligned b' (length (kept r n)) /\
    Qsum (b_cdis b') == Qsum (b_cdis b).
Proof.
  intros rule b n r Hr A Hn. pose proof A as (A1 & A2 & A3 & A4 & A5 & A6).
  destruct (keep_lengths_long r (b_cdis b) Hr ltac:(lia)) as (ls & HL & EL).
  destruct (apply_branch_rules_ok rule b n ls Hr A ltac:(lia) HL) as (b' & E & P & D).
  exists b'. split; auto. split; auto. destruct (kept_increasing r n Hr ltac:(lia)). split; auto. split; auto.
  rewrite A4 in EL. split.
  - destruct P as (P1 & P2 & P3 & P4 & P5). unfold aligned. rewrite P1, P2, P3, P4, P5, D, !at_rows_length. fold r. auto 10.
  - rewrite D. apply (keep_lengths_sum r); auto; [lia|]. congruence.
Qed.
Print Assumptions C51_rules_conserve_length.

(** An unknown rule raises in the caller. *)
Theorem C51_unknown_rule : forall rule b,
  ~ In (strip (lower rule)) rule_names -> rules_unpacked rule b = Raise TypeError.
Proof.
  intros rule b H. unfold rules_unpacked, apply_branch_rules. rewrite (keep_points_unknown _ (b_x b) H).
  reflexivity.
Qed.
Print Assumptions C51_unknown_rule.

(** The lengths of the points after a rule. *)
Definition lengths_after (r : text) (a b : Q) (m : list Q) (c d : Q) : list Q :=
  if teqb r (T "onlyedges") then [Qsum (a :: b :: m ++ [c; d]) / 2; Qsum (a :: b :: m ++ [c; d]) / 2]
  else if teqb r (T "ignoreedges") then a + b :: m ++ [c + d]
  else if teqb r (T "ignorelast") then a :: b :: m ++ [c + d]
  else if teqb r (T "ignorefirst") then a + b :: m ++ [c; d]
  else if teqb r (T "onlyfirst") then [Qsum (a :: b :: m ++ [c; d])]
  else if teqb r (T "onlylast") then [Qsum (a :: b :: m ++ [c; d])]
  else a :: b :: m ++ [c; d].

Lemma Forall2_Qeq_refl l : Forall2 Qeq l l.
Proof. induction l; constructor; auto; reflexivity. Qed.

Theorem C51_lengths_after_a_rule : forall rule b n x y m z w,
  let r := strip (lower rule) in
  In r rule_names -> aligned b n -> b_cdis b = x :: y :: m ++ [z; w] ->
  exists b', apply_branch_rules rule b = Ok (Some b') /\
    Forall2 Qeq (b_cdis b') (lengths_after r x y m z w).
Proof.
  intros rule b n x y m z w r Hr A E. pose proof A as (_ & _ & _ & A4 & _).
  assert (Hn : (4 <= n)%nat) by (rewrite <- A4, E; cbn; rewrite app_length; cbn; lia).
  destruct (keep_lengths_known r (b_cdis b) Hr) as (ls & HL).
  destruct (apply_branch_rules_ok rule b n ls Hr A ltac:(lia) HL) as (b' & E' & _ & D).
  exists b'. split; auto. rewrite D. rewrite E in HL. clear - Hr HL. clearbody r.
  set (l := x :: y :: m ++ [z; w]) in *.
  assert (L : length l = (4 + length m)%nat) by (unfold l; cbn; rewrite app_length; cbn; lia).
  assert (F2 : firstn 2 l = [x; y]) by reflexivity.
  assert (S2 : skipn 2 l = m ++ [z; w]) by reflexivity.
  assert (SN : skipn (length l - 2) l = [z; w]).
  { replace l with ((x :: y :: m) ++ [z; w]) by reflexivity. rewrite skipn_app.
    rewrite skipn_all2 by (cbn; rewrite app_length; cbn; lia).
    replace (length ((x :: y :: m) ++ [z; w]) - 2 - length (x :: y :: m))%nat with 0%nat
      by (rewrite app_length; cbn; lia). reflexivity. }
  assert (FN : firstn (length l - 2) l = x :: y :: m).
  { replace l with ((x :: y :: m) ++ [z; w]) by reflexivity.
    replace (length ((x :: y :: m) ++ [z; w]) - 2)%nat with (length (x :: y :: m) + 0)%nat
      by (rewrite app_length; cbn; lia).
    rewrite firstn_app_2. cbn [firstn]. apply app_nil_r. }
  assert (FM : firstn (length l - 2 - 2) (skipn 2 l) = m).
  { rewrite S2, L. replace (4 + length m - 2 - 2)%nat with (length m + 0)%nat by lia.
    rewrite firstn_app_2. cbn. apply app_nil_r. }
  assert (s2 : forall p q, sum [p; q] == p + q) by (intros; unfold sum; cbn; lra).
  on_rules Hr; unfold keep_lengths, lengths_after in *; same_name; injection HL as <-;
    unfold slice_to, slice_from, py_slice; change (-2)%Z with (- (2))%Z;
    rewrite ?slice_bound_neg, ?slice_bound_pos by lia; change (Z.to_nat 2) with 2%nat;
    rewrite ?(Nat.min_r (length l) 2) by lia; rewrite ?F2, ?FM, ?SN, ?FN, ?S2.
  - apply Forall2_Qeq_refl.
  - unfold l. repeat constructor; rewrite sum_Qsum; reflexivity.
  - constructor; auto. apply Forall2_app; [apply Forall2_Qeq_refl|repeat constructor; auto].
  - constructor; [reflexivity|]. constructor; [reflexivity|].
    apply Forall2_app; [apply Forall2_Qeq_refl|repeat constructor; auto].
  - constructor; auto. apply Forall2_Qeq_refl.
  - unfold l. repeat constructor; rewrite sum_Qsum; reflexivity.
  - unfold l. repeat constructor; rewrite sum_Qsum; reflexivity.
Qed.
Print Assumptions C51_lengths_after_a_rule.

(** A branch of two or three points: the columns pass the check with the same
    total, or the check raises. *)
Theorem C51_short_branches_conserve_or_raise : forall br id rule b n,
  let r := strip (lower rule) in
  In r rule_names -> rule <> [] -> aligned b n -> (2 <= n)%nat -> tassoc br id = Some (rule, []) ->
  (exists b', apply_rules br id b = Ok b' /\ points_at (kept r n) b b' /\
     aligned b' (length (kept r n)) /\ Qsum (b_cdis b') == Qsum (b_cdis b)) \/
  (apply_rules br id b = Raise ValueError /\ (n <= 3)%nat /\ r = T "ignoreedges").
Proof.
  intros br id rule b n r Hr Hne A Hn Hbr. pose proof A as (A1 & A2 & A3 & A4 & A5 & A6).
  destruct (keep_lengths_known r (b_cdis b) Hr) as (ls & HL).
  destruct (apply_branch_rules_ok rule b n ls Hr A ltac:(lia) HL) as (b' & E & P & D).
  assert (AP : apply_rules br id b =
    if Nat.eqb (length ls) (length (kept r n)) then Ok b' else Raise ValueError).
  { unfold apply_rules. rewrite Hbr. destruct rule; [congruence|]. cbn [nonempty nonempty_list].
    unfold rules_unpacked. rewrite E. cbn [bind].
    destruct P as (P1 & P2 & P3 & P4 & P5). rewrite P1, P2, P3, P4, P5, D, !at_rows_length.
    fold r. rewrite !Nat.eqb_refl, !andb_true_r. reflexivity. }
  destruct (Nat.eqb_spec (length ls) (length (kept r n))) as [EL|NE].
  - left. exists b'. split; auto. split; auto. split.
    + destruct P as (P1 & P2 & P3 & P4 & P5). unfold aligned. rewrite P1, P2, P3, P4, P5, D, !at_rows_length. fold r. auto 10.
    + rewrite D. apply (keep_lengths_sum r); auto; [lia|]. congruence.
  - right. split; [exact AP|].
    assert (B : (n <= 3)%nat).
    { destruct (le_gt_dec n 3) as [|G]; auto.
      destruct (keep_lengths_long r (b_cdis b) Hr ltac:(lia)) as (ls' & HL' & EL').
      rewrite HL in HL'. injection HL' as <-. congruence. }
    split; auto. clear AP E P D b'.
    set (l := b_cdis b) in *. clearbody l r.
    on_rules Hr; try reflexivity; exfalso; unfold keep_lengths, kept in *; same_name; injection HL as <-;
      unfold slice_to, slice_from in NE; change (-2)%Z with (- (2))%Z in NE;
      rewrite ?slice_bound_neg, ?slice_bound_pos, ?seq_length in NE by lia;
      rewrite ?app_length, ?firstn_length in NE; cbn [length] in NE; rewrite ?skipn_length in NE;
      change (Z.to_nat 2) with 2%nat in NE; lia.
Qed.
Print Assumptions C51_short_branches_conserve_or_raise.

(** A branch of a single point: [onlyedges] gives the point twice. *)
Theorem C51_single_point_refuted : exists b, aligned b 1 /\
  exists b', apply_rules [(T "a", (T "onlyedges", []))] (T "a") b = Ok b' /\
    b_cid b' = b_cid b ++ b_cid b.
Proof.
  exists (mk_branch [1] [1] [T "p"] [10] [T "a"] [0]). split; [repeat split|].
  eexists. split; vm_compute; reflexivity.
Qed.
Print Assumptions C51_single_point_refuted.

Example C51_example :
  rules_unpacked (T " IgnoreEdges ")
    (mk_branch [0; 1; 2; 3; 4] [5; 6; 7; 8; 9] [T "a"; T "b"; T "c"; T "d"; T "e"] [1; 2; 2; 2; 1]
       [T "r"; T "r"; T "r"; T "r"; T "r"] [0; 2; 4; 6; 8])
  = Ok (mk_branch [1; 2; 3] [6; 7; 8] [T "b"; T "c"; T "d"] [3; 2; 3] [T "r"; T "r"; T "r"] [2; 4; 6]).
Proof. vm_compute. reflexivity. Qed.

(** * C53 *)

Lemma diff_length l : length (diff l) = (length l - 1)%nat.
Proof.
  induction l as [|a [|b l] IH]; auto. change (diff (a :: b :: l)) with ((b - a) :: diff (b :: l)).
  cbn [length] in *. rewrite IH. lia.
Qed.
Lemma diff_nth l : forall i, (S i < length l)%nat -> nth i (diff l) 0 = nth (S i) l 0 - nth i l 0.
Proof.
  induction l as [|a [|b l] IH]; intros i H; cbn [length] in H; try lia.
  change (diff (a :: b :: l)) with ((b - a) :: diff (b :: l)). destruct i; auto.
  change (nth (S i) ((b - a) :: diff (b :: l)) 0) with (nth i (diff (b :: l)) 0).
  rewrite IH by (cbn [length]; lia). reflexivity.
Qed.

Lemma map2_nth (l m : list Q) : forall i, (i < length l)%nat -> (i < length m)%nat ->
  nth i (map2 Qplus l m) 0 = nth i l 0 + nth i m 0.
Proof. revert m. induction l; intros [|y m] [|i] H1 H2; cbn in *; try lia; auto. apply IHl; lia. Qed.
Lemma map2_len (l m : list Q) : length l = length m -> length (map2 Qplus l m) = length l.
Proof. revert m. induction l; intros [|y m] H; cbn in *; try lia; auto. Qed.
Lemma map2_sum (l m : list Q) : length l = length m -> Qsum (map2 Qplus l m) == Qsum l + Qsum m.
Proof.
  revert m. induction l; intros [|y m] H; cbn in H; try lia; [unfold Qsum; cbn; lra|].
  cbn [map2]. rewrite !Qsum_cons, IHl by lia. lra.
Qed.
Lemma half_sum l : Qsum (map (fun d => d / 2) l) == Qsum l / 2.
Proof.
  induction l; cbn [map]; [reflexivity|]. rewrite !Qsum_cons, IHl. field.
Qed.
Lemma diff_sum a l : Qsum (diff (a :: l)) == last (a :: l) 0 - a.
Proof.
  revert a. induction l as [|b l IH]; intro a; [unfold Qsum; cbn; lra|].
  change (diff (a :: b :: l)) with ((b - a) :: diff (b :: l)). rewrite Qsum_cons, IH.
  change (last (a :: b :: l) 0) with (last (b :: l) 0). lra.
Qed.

(** Half the distance to the neighbours on both sides. *)
Definition half_to_neighbours (off : list Q) (i : nat) : Q :=
  (if Nat.eqb (S i) (length off) then 0 else (nth (S i) off 0 - nth i off 0) / 2) +
  (match i with O => 0 | S j => (nth i off 0 - nth j off 0) / 2 end).

Theorem C53_lengths_partition_the_branch : forall a off, let l := a :: off in
  length (half_distances l) = length l /\
  (forall i, (i < length l)%nat -> nth i (half_distances l) 0 == half_to_neighbours l i) /\
  Qsum (half_distances l) == last l 0 - a /\
  ((forall i, (S i < length l)%nat -> nth i l 0 <= nth (S i) l 0) ->
   forall i, (i < length l)%nat -> 0 <= nth i (half_distances l) 0).
Proof.
  intros a off l. unfold half_distances.
  set (h := map (fun d => d / 2) (diff l)).
  assert (Lh : length h = (length l - 1)%nat) by (unfold h; rewrite map_length, diff_length; auto).
  assert (L0 : length l = S (length off)) by reflexivity.
  assert (LL : length (h ++ [0]) = length (0 :: h)) by (rewrite app_length; cbn; lia).
  assert (La : length (h ++ [0]) = length l) by (rewrite app_length; cbn [length]; lia).
  assert (Hh : forall i, (S i < length l)%nat -> nth i h 0 == (nth (S i) l 0 - nth i l 0) / 2).
  { intros i Hi. unfold h. rewrite (nth_indep _ 0 ((fun d => d / 2) 0)) by (rewrite map_length, diff_length; lia).
    rewrite (map_nth (fun d => d / 2)), diff_nth by auto. reflexivity. }
  assert (N : forall i, (i < length l)%nat -> nth i (map2 Qplus (h ++ [0]) (0 :: h)) 0 == half_to_neighbours l i).
  { intros i Hi. rewrite map2_nth by lia. unfold half_to_neighbours.
    destruct (Nat.eqb_spec (S i) (length l)) as [E|NE].
    - rewrite app_nth2 by lia. replace (i - length h)%nat with 0%nat by lia. cbn [nth].
      destruct i; [reflexivity|]. rewrite Hh by lia. reflexivity.
    - rewrite app_nth1, Hh by lia. destruct i; [reflexivity|]. cbn [nth]. rewrite Hh by lia. reflexivity. }
  split; [rewrite map2_len; auto|]. split; [exact N|]. split.
  - rewrite map2_sum by auto. rewrite Qsum_app, !Qsum_cons, Qsum_nil. unfold h. rewrite half_sum.
    unfold l at 1 2. rewrite diff_sum. fold l. field.
  - intros M i Hi. rewrite N by auto. unfold half_to_neighbours.
    assert (P : forall u v, u <= v -> 0 <= (v - u) / 2) by (intros; apply Qle_shift_div_l; lra).
    destruct (Nat.eqb_spec (S i) (length l)); destruct i.
    + lra.
    + pose proof (P _ _ (M i ltac:(lia))). lra.
    + pose proof (P _ _ (M 0%nat ltac:(lia))). lra.
    + pose proof (P _ _ (M i ltac:(lia))). pose proof (P _ _ (M (S i) ltac:(lia))). lra.
Qed.
Print Assumptions C53_lengths_partition_the_branch.

Example C53_example : map Qred (half_distances [0; 10; 30; 40]) = [5; 15; 15; 5].
Proof. vm_compute. reflexivity. Qed.
