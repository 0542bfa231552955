(** Theorems for C64 (water levels at the centre of a cross-section) and the
    decision rule of conveyance method 0 (C10). *)
From Coq Require Import String List ZArith QArith Bool Lia Lqa.
From Verif Require Import PyBase Num Spec L_Num M_Geometry L_Profile L_Cells T_Profile T_Cells.
Import ListNotations.
Local Open Scope Q_scope.

(** A possibly missing number. *)
Definition onum (x : option Q) : num := match x with Some q => Fin q | None => NaN end.

(** The least element of a list of rationals. *)
Definition least (m : Q) (l : list Q) : Prop := In m l /\ forall x, In x l -> m <= x.

Lemma fold_npmin_least l : forall a, exists m,
  fold_left npmin (map Fin l) (Fin a) = Fin m /\ least m (a :: l).
Proof.
  induction l as [|b l IH]; intro a; cbn [map fold_left].
  - exists a. split; auto. split; [left; auto|]. intros x [->|[]]. lra.
  - rewrite npmin_fin. destruct (IH (Qmin2 a b)) as (m & E & Hin & Hle).
    exists m. split; auto. split.
    + destruct Hin as [<-|H]; [|right; right; auto].
      unfold Qmin2. destruct (Qltb b a); [right; left|left]; auto.
    + intros x [<-|[<-|Hx]].
      * apply Qle_trans with (Qmin2 a b); [apply Hle; left; auto|apply Qmin2_le_l].
      * apply Qle_trans with (Qmin2 a b); [apply Hle; left; auto|apply Qmin2_le_r].
      * apply Hle. right; auto.
Qed.

(** The bed levels that can be computed: level minus depth where the level is known. *)
Fixpoint known_beds (level : list (option Q)) (depth : list Q) : list Q :=
  match level, depth with
  | Some v :: level', d :: depth' => (v + - d) :: known_beds level' depth'
  | None :: level', _ :: depth' => known_beds level' depth'
  | _, _ => []
  end.

Lemma known_beds_filter level : forall depth,
  filter (fun x => negb (isnan x)) (map2 nsub (map onum level) (map Fin depth))
  = map Fin (known_beds level depth).
Proof.
  induction level as [|[v|] level IH]; intros [|d depth]; cbn; auto.
  rewrite IH. auto.
Qed.

Lemma known_beds_nil level : forall depth, length depth = length level ->
  (known_beds level depth = [] <-> forall t v, nth_error level t <> Some (Some v)).
Proof.
  induction level as [|[v|] level IH]; intros [|d depth] Hl; cbn in *; try discriminate.
  - split; auto. intros _ [|t] v; discriminate.
  - split; [discriminate|]. intro H. destruct (H 0%nat v). auto.
  - rewrite IH by lia. split; intros H t w.
    + destruct t; cbn; [discriminate|]. apply H.
    + apply (H (S t)).
Qed.

Lemma known_beds_in level : forall depth b, In b (known_beds level depth) <->
  exists t v d, nth_error level t = Some (Some v) /\ nth_error depth t = Some d /\ b = v + - d.
Proof.
  induction level as [|[v|] level IH]; intros [|d depth] b; cbn.
  1, 2, 3, 5: split; [intros []|]; intros (t & v' & d' & H1 & H2 & _); destruct t; discriminate.
  - rewrite IH. split.
    + intros [<-|(t & v' & d' & H)].
      * exists 0%nat, v, d. auto.
      * exists (S t), v', d'. auto.
    + intros (t & v' & d' & H1 & H2 & H3). destruct t; cbn in *.
      * left. congruence.
      * right. exists t, v', d'. auto.
  - rewrite IH. split.
    + intros (t & v' & d' & H). exists (S t), v', d'. auto.
    + intros (t & v' & d' & H1 & H2 & H3). destruct t; cbn in *; [discriminate|].
      exists t, v', d'. auto.
Qed.

(** * C64 *)

(** With water depths known and at least one level known, the centre levels
    have no gaps: known levels are kept and every missing one becomes the
    lowest bed level (level minus depth) observed in that cell. *)
Theorem C64_centre_levels_have_no_gaps :
  forall (level : list (option Q)) (depth : list Q),
    length depth = length level ->
    (exists t v, nth_error level t = Some (Some v)) ->
    exists (out : list Q) (bed : Q),
      fill_centre_level (map Fin depth) (map onum level) = Ok (map Fin out) /\
      length out = length level /\
      (forall t v, nth_error level t = Some (Some v) -> nth_error out t = Some v) /\
      (forall t, nth_error level t = Some None -> nth_error out t = Some bed) /\
      (exists t v d, nth_error level t = Some (Some v) /\ nth_error depth t = Some d /\
                     bed == v - d) /\
      (forall t v d, nth_error level t = Some (Some v) -> nth_error depth t = Some d ->
                     bed <= v - d).
Proof.
  intros level depth Hl (t0 & v0 & H0).
  destruct (known_beds level depth) as [|b0 bs] eqn:E.
  { destruct (proj1 (known_beds_nil level depth Hl) E t0 v0). auto. }
  destruct (fold_npmin_least bs b0) as (bed & Em & Hin & Hle).
  exists (map (fun x => match x with Some v => v | None => bed end) level), bed.
  split; [|split; [|split; [|split; [|split]]]].
  - unfold fill_centre_level. destruct level as [|x level]; [destruct t0; discriminate|].
    cbn [map]. unfold nanmin.
    change (onum x :: map onum level) with (map onum (x :: level)).
    rewrite known_beds_filter, E. cbn [map]. rewrite Em.
    f_equal. change (Fin match x with Some v => v | None => bed end ::
      map Fin (map (fun x0 => match x0 with Some v => v | None => bed end) level))
      with (map Fin (map (fun x0 => match x0 with Some v => v | None => bed end) (x :: level))).
    change ((if isnan (onum x) then Fin bed else onum x)
     :: map (fun v => if isnan v then Fin bed else v) (map onum level))
     with (map (fun v => if isnan v then Fin bed else v) (map onum (x :: level))).
    rewrite !map_map. apply map_ext. intros [v|]; auto.
  - apply map_length.
  - intros t v H. rewrite nth_error_map, H. auto.
  - intros t H. rewrite nth_error_map, H. auto.
  - rewrite <- E in Hin. apply known_beds_in in Hin. destruct Hin as (t & v & d & H1 & H2 & ->).
    exists t, v, d. split; auto. split; auto. lra.
  - intros t v d H1 H2. apply Hle. rewrite <- E. apply known_beds_in. exists t, v, d. auto.
Qed.
Print Assumptions C64_centre_levels_have_no_gaps.

(** Without any known level the gaps remain, and a series without time steps
    is refused. *)
Theorem C64_nothing_known_nothing_filled :
  forall (depth : list Q) n, length depth = S n ->
    fill_centre_level (map Fin depth) (repeat NaN (S n)) = Ok (repeat NaN (S n)) /\
    forall d, fill_centre_level d [] = Raise ValueError.
Proof.
  intros depth n Hl. split; auto.
  assert (E : known_beds (repeat None (S n)) depth = []).
  { apply (proj2 (known_beds_nil _ depth (eq_trans Hl (eq_sym (repeat_length _ _))))). intros t v H.
    apply nth_error_In, repeat_spec in H. discriminate. }
  assert (R : forall k, repeat NaN k = map onum (repeat None k)).
  { induction k; cbn; congruence. }
  rewrite R. unfold fill_centre_level, nanmin. rewrite known_beds_filter, E. cbn. f_equal. f_equal.
  rewrite <- R. clear. induction n; cbn; congruence.
Qed.
Print Assumptions C64_nothing_known_nothing_filled.

Example C64_example :
  fill_centre_level [Fin 0; Fin 2; Fin 1; Fin 0] [NaN; Fin 5; Fin (9#2); NaN]
  = Ok [Fin 3; Fin 5; Fin (9#2); Fin 3].
Proof. vm_compute. reflexivity. Qed.

(** * C10, method 0 *)

(** Wet, faster than the absolute threshold and faster than the relative
    threshold times the mean of the smoothed velocities. *)
Theorem C10_mean_method_decision_rule :
  forall smooth mean (abs_thr rel_thr : Q) (nt t : nat)
         (depth vel : list (list num)) i drow (vrow : list Q) (m : Q),
    (t < nt)%nat -> length vrow = nt ->
    nth_error depth i = Some drow ->
    nth_error (smooth vel) i = Some (map Fin vrow) ->
    mean (smooth vel) t = Fin m ->
    exists row,
      nth_error (distinguish_conveyance smooth mean 0 (Fin abs_thr) (Fin rel_thr) nt depth vel) i
        = Some row /\
      length row = nt /\
      (nth t row false = true <->
         positive (nth t drow NaN) /\ abs_thr < nth t vrow 0 /\ rel_thr * m < nth t vrow 0).
Proof.
  intros smooth mean a r nt t depth vel i drow vrow m Ht Hl Hd Hv Hm.
  unfold distinguish_conveyance. cbn [Z.eqb]. unfold mean_velocity_method. cbv zeta.
  rewrite nth_error_map2, Hd, Hv. eexists. split; [reflexivity|].
  split; [rewrite map_length, seq_length; auto|].
  match goal with |- context [map ?f (seq 0 nt)] =>
    rewrite nth_indep with (d' := f 0%nat) by (rewrite map_length, seq_length; auto);
    rewrite (map_nth f), seq_nth by auto end.
  cbn [plus]. rewrite Hm, nth_map_Fin by lia. cbn [nmul].
  rewrite !andb_true_iff, positive_nltb. cbn [nltb]. rewrite !Qltb_true. tauto.
Qed.
Print Assumptions C10_mean_method_decision_rule.
