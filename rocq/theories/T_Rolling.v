(** C10 for the legacy conveyance method with the smoothing of pandas
    (M_Rolling.v) in place of an oracle. *)
From Coq Require Import List ZArith QArith Bool Lia Lqa Arith.
From Verif Require Import PyBase Num Text Spec L_Num L_List L_Cells M_Compare T_Stats M_Geometry T_Geometry T_Cells T_Centre M_Rolling.
Import ListNotations.
Local Open Scope Q_scope.

(** The velocities at map [t] of face [i], the five faces before it and the
    four faces after it in the file. *)
Definition neighbours (vel : list (list num)) (i t : nat) : list num :=
  map (fun j => nth t (nth j vel []) NaN) (seq (i - 5) (Nat.min (i + 5) (length vel) - (i - 5))).

Lemma window_seq {A} (d : A) (l : list A) a k :
  firstn k (skipn a l) = map (fun j => nth j l d) (seq a (Nat.min k (length l - a))).
Proof.
  revert k l. induction a as [|a IH]; intros k l.
  - rewrite Nat.sub_0_r. cbn [skipn]. revert k. induction l as [|x l IHl]; intros [|k]; try reflexivity.
    cbn [firstn length Nat.min seq map nth]. f_equal. rewrite IHl, <- seq_shift, map_map. reflexivity.
  - destruct l as [|x l].
    + cbn [skipn length]. rewrite firstn_nil. replace (Nat.min k (0 - S a)) with 0%nat by lia. reflexivity.
    + cbn [skipn length]. rewrite IH, <- seq_shift, map_map. reflexivity.
Qed.

Lemma nth_map_default {A B} (f : A -> B) (l : list A) j da db :
  f da = db -> nth j (map f l) db = f (nth j l da).
Proof. intros <-. apply map_nth. Qed.

Lemma window_neighbours vel i t :
  firstn (i + 5 - (i - 5)) (skipn (i - 5) (column NaN t vel)) = neighbours vel i t.
Proof.
  rewrite (window_seq NaN). unfold neighbours, column. rewrite map_length.
  replace (Nat.min (i + 5 - (i - 5)) (length vel - (i - 5))) with (Nat.min (i + 5) (length vel) - (i - 5))%nat by lia.
  apply map_ext. intros j. apply (nth_map_default (fun row : list num => nth t row NaN)). destruct t; reflexivity.
Qed.

Lemma prepared_no_inf l : no_inf (map prepared l).
Proof. unfold no_inf. rewrite Forall_map. apply Forall_forall. intros [q| | |] _; cbn; split; discriminate. Qed.

Lemma prepared_numbers l : numbers (map prepared l) = numbers l.
Proof.
  induction l as [|x l IH]; [reflexivity|]. unfold numbers in *. cbn [map flat_map]. rewrite IH. destruct x; reflexivity.
Qed.

Lemma nth_map_seq {A} (f : nat -> A) n i d : (i < n)%nat -> nth i (map f (seq 0 n)) d = f i.
Proof.
  intros H. rewrite nth_indep with (d' := f 0%nat) by (rewrite map_length, seq_length; exact H).
  rewrite (map_nth f), seq_nth by exact H. reflexivity.
Qed.

Definition smoothed (vel : list (list num)) (i t : nat) : num := nth t (nth i (rolling_rows vel) []) NaN.

Lemma smoothed_mean vel i t : (i < length vel)%nat -> (t < length (hd [] vel))%nat ->
  smoothed vel i t = nanmean (map prepared (neighbours vel i t)).
Proof.
  intros Hi Ht. unfold smoothed, rolling_rows. cbv zeta. rewrite nth_map_seq by exact Hi. rewrite nth_map_seq by exact Ht.
  unfold rolling_mean. rewrite nth_map_seq by (unfold column; rewrite map_length; exact Hi).
  rewrite window_neighbours. reflexivity.
Qed.

(** The smoothed velocity is the mean of the known velocities of the ten
    neighbours, and lies between the lowest and the highest of them; it is
    missing if none is known.  An infinite velocity is not known. *)
Theorem C10_smoothed_velocity vel i t :
  (i < length vel)%nat -> (t < length (hd [] vel))%nat ->
  let w := numbers (neighbours vel i t) in
  (w = [] /\ smoothed vel i t = NaN) \/
  (w <> [] /\ exists s, smoothed vel i t = Fin s /\ s == qmean w /\
     forall lo hi, (forall v, In v w -> lo <= v <= hi) -> lo <= s <= hi).
Proof.
  intros Hi Ht w. rewrite (smoothed_mean vel i t Hi Ht).
  destruct (nanmean_numbers _ (prepared_no_inf (neighbours vel i t))) as [(N & E)|(N & m & E & M)];
    rewrite prepared_numbers in N; [left; auto|right; split; [exact N|]].
  rewrite prepared_numbers in M. exists m. split; [exact E|]. split; [exact M|].
  intros lo hi B. fold w in N, M. split.
  - rewrite M. apply qmean_bound_le; [exact N|]. intros v I. apply B, I.
  - rewrite M. apply qmean_bound_ge; [exact N|]. intros v I. apply B, I.
Qed.
Print Assumptions C10_smoothed_velocity.

Lemma rolling_rows_shape vel : length (rolling_rows vel) = length vel /\
  (forall row, In row (rolling_rows vel) -> length row = length (hd [] vel)).
Proof.
  unfold rolling_rows. cbv zeta. split; [rewrite map_length, seq_length; reflexivity|].
  intros row I. apply in_map_iff in I. destruct I as (i & <- & _). rewrite map_length, seq_length. reflexivity.
Qed.

(** All smoothed velocities of all maps *)
Definition all_smoothed (vel : list (list num)) : list Q := numbers (concat (rolling_rows vel)).

Lemma smoothed_no_inf vel : no_inf (concat (rolling_rows vel)).
Proof.
  unfold no_inf. apply Forall_forall. intros x I. apply in_concat in I. destruct I as (row & R & I).
  unfold rolling_rows in R. cbv zeta in R. apply in_map_iff in R. destruct R as (i & <- & _).
  apply in_map_iff in I. destruct I as (t & <- & _).
  unfold rolling_mean. set (l := seq 0 _). set (f := fun j => _).
  destruct (nth_in_or_default i (map f l) NaN) as [J| ->]; [|split; discriminate].
  apply in_map_iff in J. destruct J as (j & <- & _). unfold f.
  destruct (nanmean_numbers _ (prepared_no_inf (firstn (j + 5 - (j - 5)) (skipn (j - 5) (column NaN t vel))))) as [(_ & ->)|(_ & m & -> & _)];
    split; discriminate.
Qed.

(** Wet, faster than the absolute threshold, and faster than the relative
    threshold times the mean of all smoothed velocities; where the smoothed
    velocity is missing there is no conveyance. *)
Theorem C10_mean_method_closed_rule depth vel nt (abs_thr rel_thr : Q) i t drow :
  nth_error depth i = Some drow -> (i < length vel)%nat -> (t < nt)%nat -> length (hd [] vel) = nt ->
  exists row,
    nth_error (distinguish_conveyance rolling_rows overall_mean 0 (Fin abs_thr) (Fin rel_thr) nt depth vel) i = Some row /\
    length row = nt /\
    (nth t row false = true <->
       positive (nth t drow NaN) /\
       exists s, smoothed vel i t = Fin s /\ abs_thr < s /\ rel_thr * qmean (all_smoothed vel) < s).
Proof.
  intros Hd Hi Ht Hl. unfold distinguish_conveyance. cbn [Z.eqb]. unfold mean_velocity_method. cbv zeta.
  destruct (nth_error (rolling_rows vel) i) as [vrow|] eqn:Ev.
  2:{ apply nth_error_None in Ev. rewrite (proj1 (rolling_rows_shape vel)) in Ev. lia. }
  rewrite nth_error_map2, Hd, Ev. eexists. split; [reflexivity|]. split; [rewrite map_length, seq_length; reflexivity|].
  rewrite nth_map_seq by exact Ht.
  assert (S : nth t vrow NaN = smoothed vel i t).
  { unfold smoothed. rewrite (nth_error_nth _ _ [] Ev). reflexivity. }
  rewrite S. rewrite !andb_true_iff, positive_nltb.
  destruct (C10_smoothed_velocity vel i t Hi ltac:(lia)) as [(_ & E)|(_ & s & E & _)]; cbv zeta in *; rewrite E.
  - split; [intros ((_ & F) & _); discriminate F|]. intros (_ & s & F & _). discriminate F.
  - assert (In s (all_smoothed vel)).
    { unfold all_smoothed, numbers. apply in_flat_map. exists (Fin s). split; [|left; reflexivity].
      apply in_concat. exists vrow. split; [eapply nth_error_In, Ev|]. rewrite <- E, <- S. apply nth_In.
      assert (L := proj2 (rolling_rows_shape vel) vrow (nth_error_In _ _ Ev)). lia. }
    unfold overall_mean. destruct (nanmean_numbers _ (smoothed_no_inf vel)) as [(N & _)|(N & m & -> & M)].
    + exfalso. unfold all_smoothed in H. rewrite N in H. destruct H.
    + cbn [nmul nltb]. rewrite !Qltb_true. fold (all_smoothed vel) in M. rewrite M.
      split; [intros ((P & A) & R); split; [exact P|]; exists s; auto|].
      intros (P & s' & X & A & R). injection X as <-. auto.
Qed.
Print Assumptions C10_mean_method_closed_rule.

(** The fastest place conveys if it is wet, moves, is faster than the absolute
    threshold and the relative threshold is below one. *)
Theorem C10_mean_method_fastest_conveys depth vel nt (abs_thr rel_thr : Q) i t drow s :
  nth_error depth i = Some drow -> (i < length vel)%nat -> (t < nt)%nat -> length (hd [] vel) = nt ->
  smoothed vel i t = Fin s -> (forall v, In v (all_smoothed vel) -> v <= s) ->
  positive (nth t drow NaN) -> abs_thr < s -> 0 < s -> 0 <= rel_thr -> rel_thr < 1 ->
  exists row,
    nth_error (distinguish_conveyance rolling_rows overall_mean 0 (Fin abs_thr) (Fin rel_thr) nt depth vel) i = Some row /\
    nth t row false = true.
Proof.
  intros Hd Hi Ht Hl Hs Hmax Hp Ha H0 R0 R1.
  destruct (C10_mean_method_closed_rule depth vel nt abs_thr rel_thr i t drow Hd Hi Ht Hl) as (row & E & _ & C).
  exists row. split; [exact E|]. apply C. split; [exact Hp|]. exists s. split; [exact Hs|]. split; [exact Ha|].
  destruct (all_smoothed vel) as [|v vs] eqn:A.
  - change (qmean []) with (0 / 0). assert (Z0 : 0 / 0 == 0) by reflexivity. rewrite Z0. lra.
  - assert (M : qmean (v :: vs) <= s) by (apply qmean_bound_ge; [discriminate|exact Hmax]).
    destruct (Qlt_le_dec (qmean (v :: vs)) 0) as [L|L]; nra.
Qed.
Print Assumptions C10_mean_method_fastest_conveys.

(** Six faces, one of them with an infinite and one with a missing velocity. *)
Theorem C10_mean_method_case :
  smoothed [[Fin 1]; [PInf]; [Fin 3]; [NaN]; [Fin 2]; [Fin 0]; [Fin 9]] 0 0 = Fin (6 # 3) /\
  smoothed [[Fin 1]; [PInf]; [Fin 3]; [NaN]; [Fin 2]; [Fin 0]; [Fin 9]] 6 0 = Fin (14 # 4) /\
  smoothed [[NaN]; [PInf]] 0 0 = NaN.
Proof. vm_compute. auto. Qed.
Print Assumptions C10_mean_method_case.
