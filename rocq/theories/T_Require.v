(** Theorems for C01, C02, C03: the requirement check of a generated
    cross-section and the selection of rising water levels. *)
From Coq Require Import String List ZArith QArith Qabs Bool Lia Lqa.
From Verif Require Import PyBase Num Spec L_Num M_Geometry L_Require.
Import ListNotations.
Local Open Scope Q_scope.

(** C01.  Any table of finite numbers with at least one non-zero total width
    comes out as a valid 1D table of the same size. *)
Theorem C01_requirements_establish_valid_table :
  forall (minwidth : Q) (z tw fw : list Q),
    length tw = length z -> length fw = length z ->
    (exists w, In w tw /\ ~ w == 0) ->
    exists z' tw' fw',
      check_requirements (Fin minwidth) (map Fin z) (map Fin tw) (map Fin fw)
        = Ok (map Fin z', map Fin tw', map Fin fw') /\
      strictly_increasing z' /\ strictly_increasing tw' /\ strictly_increasing fw' /\
      Forall (fun w => minwidth <= w) tw' /\ Forall (fun w => minwidth <= w) fw' /\
      rowwise Qle fw' tw' /\
      length z' = length z /\ length tw' = length z /\ length fw' = length z.
Proof.
  intros m z tw fw Ht Hf Hw.
  eexists _, _, _. split; [apply check_requirements_fin; auto|].
  assert (Hlen : length (qincreasing (qclamp m tw)) = length (qincreasing (qclamp m fw))).
  { rewrite !qincreasing_length. unfold qclamp. rewrite !map_length. lia. }
  repeat split.
  - apply sorted_strict, qincreasing_sorted.
  - apply sorted_strict, qincreasing_sorted.
  - apply sorted_strict, qcap_sorted; apply qincreasing_sorted.
  - apply qincreasing_Forall_ge, qclamp_ge.
  - apply qcap_ge; apply qincreasing_Forall_ge, qclamp_ge.
  - apply qcap_le; auto.
  - apply qincreasing_length.
  - rewrite qincreasing_length. unfold qclamp. rewrite map_length. auto.
  - rewrite qcap_length by auto. rewrite qincreasing_length. unfold qclamp. rewrite map_length. auto.
Qed.
Print Assumptions C01_requirements_establish_valid_table.

Example C01_case :
  check_requirements (Fin (1#2)) (map Fin [1; 1; 1 # 2]) (map Fin [0; 3; 2]) (map Fin [0; 5; 1])
  = Ok (map Fin [1; 1001 # 1000; 1002000 # 1000000],
        map Fin [1 # 2; 3; 3001 # 1000], map Fin [1 # 2; 3; 3001 # 1000]).
Proof. vm_compute. reflexivity. Qed.

(** C01.  A table that already satisfies all requirements is not changed. *)
Theorem C01_valid_table_is_unchanged :
  forall (minwidth : Q) (z tw fw : list Q),
    (exists w, In w tw /\ ~ w == 0) ->
    strictly_increasing z -> strictly_increasing tw -> strictly_increasing fw ->
    Forall (fun w => minwidth <= w) tw -> Forall (fun w => minwidth <= w) fw ->
    rowwise Qle fw tw ->
    check_requirements (Fin minwidth) (map Fin z) (map Fin tw) (map Fin fw)
      = Ok (map Fin z, map Fin tw, map Fin fw).
Proof.
  intros m z tw fw Hw Hz Ht Hf Mt Mf Hle.
  rewrite check_requirements_fin by auto.
  rewrite (qclamp_id m tw), (qclamp_id m fw) by auto.
  rewrite (qincreasing_id z), (qincreasing_id tw), (qincreasing_id fw) by (apply strict_sorted; auto).
  rewrite qcap_id by auto. reflexivity.
Qed.
Print Assumptions C01_valid_table_is_unchanged.

Example C01_valid_case :
  check_requirements (Fin (1#2)) (map Fin [1; 2]) (map Fin [1; 3]) (map Fin [1; 2])
  = Ok (map Fin [1; 2], map Fin [1; 3], map Fin [1; 2]).
Proof. vm_compute. reflexivity. Qed.

(** C01.  Widths only change upwards (total) and flow width is cut only where
    it exceeds the repaired total width: row by row the result is the
    repaired flow width or the repaired total width. *)
Theorem C01_widths_change_minimally :
  forall (minwidth : Q) (z tw fw z' tw' fw' : list Q),
    check_requirements (Fin minwidth) (map Fin z) (map Fin tw) (map Fin fw)
      = Ok (map Fin z', map Fin tw', map Fin fw') ->
    length fw = length tw ->
    rowwise Qle tw tw' /\ rowwise Qle z z' /\
    (forall i w w', nth_error tw i = Some w -> nth_error tw' i = Some w' ->
       w' == w \/ w' == minwidth \/
       exists k p, (k < i)%nat /\ nth_error tw k = Some p /\
                   (w' == p + (1 # 1000) * inject_Z (Z.of_nat (i - k)) \/
                    w' == minwidth + (1 # 1000) * inject_Z (Z.of_nat (i - k)))).
Proof.
  intros m z tw fw z' tw' fw' H Hl.
  assert (Hw : exists w, In w tw /\ ~ w == 0).
  { unfold check_requirements, check_remove_duplicate_zeroes in H.
    destruct (find_index _ (map Fin tw)) as [i|] eqn:E; [|discriminate].
    apply find_index_Some in E. destruct E as [[x [Hx Hne]] _].
    rewrite nth_error_map in Hx. destruct (nth_error tw i) as [w|] eqn:Ew; [|discriminate].
    inversion Hx; subst. exists w. split; [eapply nth_error_In; eauto|].
    simpl in Hne. apply negb_true_iff in Hne. qb. auto. }
  rewrite check_requirements_fin in H by auto. inversion H as [[H1 H2 H3]].
  apply map_Fin_inj in H1, H2, H3. subst. clear H.
  split; [|split].
  - assert (Hc : Forall2 Qle tw (qclamp m tw)).
    { clear. induction tw; simpl; constructor; auto. destruct (Qltb a m) eqn:E; qb; lra. }
    eapply Forall2_Qle_trans; [exact Hc | apply qincreasing_ge].
  - apply qincreasing_ge.
  - intros i w w' Hi Hi'. apply qincreasing_bound in Hi'.
    destruct Hi' as (k & x & Hk & Hx & He).
    unfold qclamp in Hx. rewrite nth_error_map in Hx.
    destruct (nth_error tw k) as [p|] eqn:Ep; [|discriminate]. simpl in Hx.
    destruct (Nat.eq_dec k i) as [->|Hne].
    + rewrite Hi in Ep. inversion Ep; subst p.
      rewrite Nat.sub_diag in He. change (inject_Z (Z.of_nat 0)) with 0 in He.
      destruct (Qltb w m); inversion Hx; subst x; [right; left; lra | left; lra].
    + right; right. exists k, p. split; [lia|]. split; auto.
      destruct (Qltb p m); inversion Hx; subst x; [right | left]; exact He.
Qed.
Print Assumptions C01_widths_change_minimally.

(** C01, edge.  If every total width is zero the check raises IndexError
    instead of repairing the table (the caller does not catch it, so the whole
    run stops). *)
Theorem C01_all_zero_widths_raise :
  forall minwidth z (tw : list Q) fw,
    Forall (fun w => w == 0) tw ->
    check_requirements minwidth z (map Fin tw) fw = Raise IndexError.
Proof. exact check_requirements_zero. Qed.
Print Assumptions C01_all_zero_widths_raise.

(** C02.  The repair of one column. *)
Theorem C02_repair_is_small :
  forall l : list Q, exists r : list Q,
    check_increasing_order (map Fin l) = map Fin r /\
    length r = length l /\
    hd_error r = hd_error l /\
    rowwise Qle l r /\
    strictly_increasing r /\
    (strictly_increasing l -> r = l) /\
    check_increasing_order (map Fin r) = map Fin r /\
    (forall i ri, nth_error r i = Some ri ->
       exists k lk, (k <= i)%nat /\ nth_error l k = Some lk /\
                    ri == lk + (1 # 1000) * inject_Z (Z.of_nat (i - k))).
Proof.
  intros l. exists (qincreasing l). repeat split.
  - apply check_increasing_order_fin.
  - apply qincreasing_length.
  - destruct l; auto.
  - apply qincreasing_ge.
  - apply sorted_strict, qincreasing_sorted.
  - intros. apply qincreasing_id, strict_sorted; auto.
  - rewrite check_increasing_order_fin. f_equal. apply qincreasing_id, qincreasing_sorted.
  - apply qincreasing_bound.
Qed.
Print Assumptions C02_repair_is_small.

Example C02_case :
  check_increasing_order (map Fin [2; 2; 1; 3]) = map Fin [2; 2001 # 1000; 2002000 # 1000000; 3].
Proof. vm_compute. reflexivity. Qed.

(** C03.  The mask marks exactly the record highs. *)
Theorem C03_mask_is_record_highs :
  forall l : list Q, l <> [] ->
    let mask := check_monotonicity (map Fin l) in
    length mask = length l /\
    (forall i x, nth_error l i = Some x ->
       (nth i mask false = true <->
        forall k y, (k < i)%nat -> nth_error l k = Some y -> y < x)) /\
    (exists sel, select mask (map Fin l) = map Fin sel /\ strictly_increasing sel /\
                 hd_error sel = hd_error l).
Proof.
  intros [|a l] H; [congruence|]. cbv zeta. rewrite check_monotonicity_records.
  split; [simpl; f_equal; apply records_from_length|]. split.
  - intros [|i] x Hx.
    + simpl in *. inversion Hx; subst. split; auto. intros _ k y Hk; lia.
    + simpl in Hx. cbn [nth].
      assert (Hi : (i < length l)%nat) by (apply nth_error_Some; congruence).
      rewrite records_from_spec by auto. split.
      * intros (w & Hw & Hlt & Hall) k y Hk Hy. rewrite Hx in Hw. inversion Hw; subst w.
        destruct k; simpl in Hy; [inversion Hy; subst; auto|]. apply (Hall k); auto. lia.
      * intros Hall. exists x. split; auto. split; [apply (Hall O a); auto; lia|].
        intros k y Hk Hy. apply (Hall (S k)); auto. lia.
  - exists (a :: select (records_from a l) l). split.
    + simpl. f_equal. rewrite map_select. auto.
    + split; auto. apply sorted_strict. simpl. apply records_from_chain.
Qed.
Print Assumptions C03_mask_is_record_highs.

(** Which time steps are used depends on the order of the levels only: another
    datum or unit (any map that keeps the strict order) gives the same mask. *)
Theorem C03_order_only :
  forall (l : list Q) (f : Q -> Q), (forall x y, x < y <-> f x < f y) ->
    check_monotonicity (map Fin (map f l)) = check_monotonicity (map Fin l).
Proof.
  intros l f F. destruct l as [|a l]; [reflexivity|]. change (map f (a :: l)) with (f a :: map f l). rewrite !check_monotonicity_records. f_equal.
  revert a. induction l as [|x l IH]; intro a; cbn [records_from map]; [reflexivity|].
  assert (E : Qltb (f a) (f x) = Qltb a x).
  { destruct (Qltb a x) eqn:E.
    - apply Qltb_true in E. apply Qltb_true. apply (proj1 (F a x)). exact E.
    - destruct (Qltb (f a) (f x)) eqn:E'; [|reflexivity]. apply Qltb_true in E'. apply (proj2 (F a x)) in E'. apply Qltb_true in E'. congruence. }
  rewrite E. destruct (Qltb a x); f_equal; apply IH.
Qed.
Print Assumptions C03_order_only.

(** More time steps at the end do not change the choice among the earlier ones. *)
Theorem C03_longer_series :
  forall l m : list Q, l <> [] ->
    firstn (length l) (check_monotonicity (map Fin (l ++ m))) = check_monotonicity (map Fin l).
Proof.
  intros [|a l] m H; [congruence|]. cbn [app]. rewrite !check_monotonicity_records. cbn [length firstn]. f_equal. clear H.
  revert a. induction l as [|x l IH]; intro a; cbn [app records_from length firstn]; [reflexivity|].
  destruct (Qltb a x); cbn [firstn]; f_equal; apply IH.
Qed.
Print Assumptions C03_longer_series.

(** Series with unknown levels (when nothing is known in the nearest cell the gaps
    are not filled): an unknown level is never used, unless it is the first one,
    and then it is the only one. *)
Fixpoint used_from (best : num) (l : list num) : list bool :=
  match l with
  | [] => []
  | x :: l' => if nltb best x then true :: used_from x l' else false :: used_from best l'
  end.
Lemma used_loop arr : forall rest pre mask best,
  arr = pre ++ rest -> length mask = length pre -> nth_error arr (last_true mask) = Some best ->
  fold_left (monotonicity_step arr) (seq (length pre) (length rest)) mask = mask ++ used_from best rest.
Proof.
  induction rest as [|x rest IH]; intros pre mask best Harr Hlen Hbest; cbn [length seq fold_left used_from].
  - rewrite app_nil_r. reflexivity.
  - assert (Hx : nth_error arr (length pre) = Some x) by (rewrite Harr, nth_error_app2, Nat.sub_diag; auto).
    unfold monotonicity_step at 2. rewrite (nth_error_nth arr (last_true mask) NaN Hbest), (nth_error_nth arr (length pre) NaN Hx).
    replace (S (length pre)) with (length (pre ++ [x])) by (rewrite app_length; cbn; lia).
    destruct (nltb best x).
    + rewrite (IH (pre ++ [x]) (mask ++ [true]) x); rewrite <- ?app_assoc; auto.
      * rewrite !app_length, Hlen. reflexivity.
      * rewrite last_true_app_true, Hlen. exact Hx.
    + rewrite (IH (pre ++ [x]) (mask ++ [false]) best); rewrite <- ?app_assoc; auto.
      * rewrite !app_length, Hlen. reflexivity.
      * rewrite last_true_app_false. exact Hbest.
Qed.
Lemma used_eq a l : check_monotonicity (a :: l) = true :: used_from a l.
Proof.
  unfold check_monotonicity. cbn [length]. replace (S (length l) - 1)%nat with (length l) by lia.
  apply (used_loop (a :: l) l [a] [true] a); reflexivity.
Qed.
Theorem C03_unknown_levels :
  (forall (a : Q) (l : list num), Forall (fun x => x = NaN \/ exists q, x = Fin q) l ->
     let mask := check_monotonicity (Fin a :: l) in
     length mask = S (length l) /\ nth 0 mask false = true /\
     (forall i, nth_error l i = Some NaN -> nth (S i) mask false = false) /\
     (forall i x, nth_error l i = Some (Fin x) ->
        (nth (S i) mask false = true <->
         a < x /\ forall k y, (k < i)%nat -> nth_error l k = Some (Fin y) -> y < x))) /\
  (forall l : list num, check_monotonicity (NaN :: l) = true :: repeat false (length l)).
Proof.
  split.
  - intros a l H. cbv zeta. rewrite used_eq. cbn [length nth].
    split; [f_equal; clear H; generalize (Fin a); induction l as [|x l IH]; intro b; [reflexivity|]; cbn [used_from]; destruct (nltb b x); cbn [length]; f_equal; apply IH|].
    split; [reflexivity|]. revert a. induction H as [|x l [->|[q ->]] _ IH]; intro a.
    + split; intros [|i]; discriminate.
    + cbn [used_from nltb]. destruct (IH a) as [IH1 IH2]. split.
      * intros [|i] E; [reflexivity|]. cbn [nth_error] in E. cbn [nth]. apply IH1. exact E.
      * intros [|i] x E; [discriminate|]. cbn [nth_error] in E. cbn [nth]. rewrite (IH2 i x E). split; intros [A B]; split; auto.
        -- intros [|k] y K; [discriminate|]. cbn [nth_error]. apply B. lia.
        -- intros k y K Y. apply (B (S k)); [lia|exact Y].
    + cbn [used_from]. change (nltb (Fin a) (Fin q)) with (Qltb a q). destruct (Qltb a q) eqn:E.
      * apply Qltb_true in E. destruct (IH q) as [IH1 IH2]. split.
        -- intros [|i] N; [discriminate|]. cbn [nth]. apply IH1. exact N.
        -- intros [|i] x X; cbn [nth_error] in X; cbn [nth].
           ++ injection X as <-. split; [intros _; split; [exact E|intros k y K; lia]|reflexivity].
           ++ rewrite (IH2 i x X). split.
              ** intros [A B]. split; [lra|]. intros [|k] y K Y; cbn [nth_error] in Y; [injection Y as <-; exact A|]. apply (B k); [lia|exact Y].
              ** intros [A B]. split; [apply (B 0%nat); [lia|reflexivity]|]. intros k y K Y. apply (B (S k)); [lia|exact Y].
      * assert (E' : q <= a) by (destruct (Qlt_le_dec a q) as [L|L]; [apply Qltb_true in L; congruence|exact L]).
        destruct (IH a) as [IH1 IH2]. split.
        -- intros [|i] N; [discriminate|]. cbn [nth]. apply IH1. exact N.
        -- intros [|i] x X; cbn [nth_error] in X; cbn [nth].
           ++ injection X as <-. split; [discriminate|]. intros [A _]. exfalso. lra.
           ++ rewrite (IH2 i x X). split; intros [A B]; split; auto.
              ** intros [|k] y K Y; cbn [nth_error] in Y; [injection Y as <-; lra|]. apply (B k); [lia|exact Y].
              ** intros k y K Y. apply (B (S k)); [lia|exact Y].
  - intro l. rewrite used_eq. f_equal. induction l as [|x l IH]; [reflexivity|]. cbn [used_from nltb length repeat].
    destruct x; cbn; f_equal; exact IH.
Qed.
Print Assumptions C03_unknown_levels.

Example C03_case :
  check_monotonicity (map Fin [1; 3; 2; 3; 4]) = [true; true; false; false; true].
Proof. vm_compute. reflexivity. Qed.
