(** C125: the unit of the velocities does not matter. *)
From Coq Require Import String List Ascii ZArith Znumtheory QArith Qminmax Bool Lia Lqa.
From Coq Require Qcanon.
From Verif Require Import PyBase Num Text L_Num L_List L_Same M_Geometry M_Sections M_Friction M_Simplify M_Import M_Data M_Pipeline T_Pipeline T_Mesh T_Skip T_Elsewhere T_Parts T_Settings T_Threshold.
Import ListNotations.
Local Open Scope Q_scope.

(** ** Specification *)

(** A velocity that is not there, or [k] times as large. *)
Definition scaled (k : Q) (x y : num) : Prop := (x = NaN /\ y = NaN) \/ exists a b, x = Fin a /\ y = Fin b /\ b == k * a.
(** The smoothing and the mean of method 0 follow the unit. *)
Definition homogeneous (smooth : list (list num) -> list (list num)) (mean : list (list num) -> nat -> num) : Prop :=
  forall k v v', 0 < k -> Forall2 (Forall2 (scaled k)) v v' ->
    Forall2 (Forall2 (scaled k)) (smooth v) (smooth v') /\ forall t, scaled k (mean (smooth v) t) (mean (smooth v') t).
(** The settings with another absolute threshold. *)
Definition with_absolute (ab : num) (st : settings) : settings :=
  set_conveyance (gp_method (st_geometry st)) ab (gp_rel (st_geometry st)) (gp_extrapolate (st_geometry st)) st.

(** ** Masks *)

Section Scale.
  Variable k : Q.
  Hypothesis K : 0 < k.

  Lemma ltb_scale x y x' y' : x' == k * x -> y' == k * y -> Qltb x' y' = Qltb x y.
  Proof.
    intros X Y. destruct (Qltb x y) eqn:E1, (Qltb x' y') eqn:E2; try reflexivity; exfalso; qb.
    - rewrite X, Y in E2. assert (k * x < k * y) by (apply Qmult_lt_l; assumption). lra.
    - rewrite X, Y in E2. apply Qmult_lt_l in E2; [lra|exact K].
  Qed.
  Lemma nltb_scale x y x' y' : scaled k x x' -> scaled k y y' -> nltb x' y' = nltb x y.
  Proof.
    intros [[-> ->]|(a & b & -> & -> & E)] [[-> ->]|(a' & b' & -> & -> & E')]; try reflexivity. cbn [nltb]. apply ltb_scale; assumption.
  Qed.
  Lemma nleb_scale x y x' y' : scaled k x x' -> scaled k y y' -> nleb x' y' = nleb x y.
  Proof.
    intros [[-> ->]|(a & b & -> & -> & E)] [[-> ->]|(a' & b' & -> & -> & E')]; try reflexivity. cbn [nleb].
    pose proof (ltb_scale a' a b' b E' E) as L. destruct (Qle_bool b b') eqn:E1, (Qle_bool a a') eqn:E2; try reflexivity; exfalso; qb.
    - assert (X : Qltb a' a = true) by (destruct (Qltb a' a) eqn:Z; [reflexivity|qb; lra]). rewrite X in L. qb. lra.
    - assert (X : Qltb b' b = true) by (destruct (Qltb b' b) eqn:Z; [reflexivity|qb; lra]). rewrite X in L. symmetry in L. qb. lra.
  Qed.
  Lemma scaled_isnan x y : scaled k x y -> isnan y = isnan x.
  Proof. intros [[-> ->]|(a & b & -> & -> & _)]; reflexivity. Qed.
  Lemma insert_scale x y l m : scaled k x y -> Forall2 (scaled k) l m -> Forall2 (scaled k) (insert_num x l) (insert_num y m).
  Proof.
    intros X F. induction F as [|u v l m U F IH]; cbn [insert_num]; [constructor; [exact X|constructor]|].
    assert (E : sort_le y v = sort_le x u) by (unfold sort_le; rewrite (scaled_isnan _ _ U), (nleb_scale _ _ _ _ X U); reflexivity).
    rewrite E. destruct (sort_le x u); constructor; auto.
  Qed.
  Lemma sort_scale l m : Forall2 (scaled k) l m -> Forall2 (scaled k) (sort_values l) (sort_values m).
  Proof. intro F. induction F; [constructor|]. cbn [sort_values fold_right]. apply insert_scale; assumption. Qed.
  Lemma skip_scale n : forall l m, Forall2 (scaled k) l m -> Forall2 (scaled k) (skipn n l) (skipn n m).
  Proof. induction n as [|n IH]; intros l m F; [exact F|]. destruct F; [constructor|]. cbn [skipn]. apply IH. assumption. Qed.
  Lemma slice_scale n l m : Forall2 (scaled k) l m -> Forall2 (scaled k) (slice_from n l) (slice_from n m).
  Proof. intro F. unfold slice_from. rewrite (F2_length _ _ _ F). apply skip_scale, F. Qed.
  Lemma mean_scale l m : Forall2 (scaled k) l m -> scaled k (nanmean l) (nanmean m).
  Proof.
    intro F. unfold nanmean.
    assert (G : Forall2 (fun x y => exists a b, x = Fin a /\ y = Fin b /\ b == k * a) (filter (fun x => negb (isnan x)) l) (filter (fun x => negb (isnan x)) m)).
    { induction F as [|x y l m [[-> ->]|(a & b & -> & -> & E)] F IH]; [constructor|exact IH|]. cbn [filter isnan negb]. constructor; [exists a, b; auto|exact IH]. }
    set (l' := filter _ l) in *. set (m' := filter _ m) in *. clearbody l' m'.
    assert (S1 : forall a b, b == k * a -> scaled k (fold_left nadd l' (Fin a)) (fold_left nadd m' (Fin b))).
    { induction G as [|x y l1 m1 (a & b & -> & -> & E) G IH]; intros p q PQ; cbn [fold_left]; [right; exists p, q; auto|].
      cbn [nadd]. apply IH. rewrite PQ, E. lra. }
    assert (LE : length l' = length m') by (apply (F2_length _ _ _ G)).
    destruct G as [|x y l1 m1 _ G]; [left; auto|]. rewrite LE. unfold npsum.
    assert (Z : 0 == k * 0) by lra. specialize (S1 0 0 Z). destruct S1 as [[-> ->]|(a & b & -> & -> & E)]; [left; auto|].
    unfold nofnat. cbn [ndiv]. destruct (Qeq_bool _ 0) eqn:N; [|right; eexists; eexists; split; [reflexivity|]; split; [reflexivity|]].
    - exfalso. apply Qeq_bool_iff in N. unfold Qeq in N. cbn in N. lia.
    - rewrite E. unfold Qdiv. lra.
  Qed.
  Lemma nth_scale l m : Forall2 (scaled k) l m -> forall t, scaled k (nth t l NaN) (nth t m NaN).
  Proof. intro F. induction F as [|x y l m X F IH]; intros [|t]; cbn [nth]; auto; left; auto. Qed.
  Lemma column_scale v v' t : Forall2 (Forall2 (scaled k)) v v' -> Forall2 (scaled k) (M_Geometry.column NaN t v) (M_Geometry.column NaN t v').
  Proof. intro F. unfold M_Geometry.column. induction F; cbn [map]; constructor; auto. apply nth_scale. assumption. Qed.

  Lemma product_scale r x y : scaled k x y -> scaled k (nmul x (Fin r)) (nmul y (Fin r)) /\ scaled k (nmul (Fin r) x) (nmul (Fin r) y).
  Proof.
    intros [[-> ->]|(a & b & -> & -> & E)]; [split; left; auto|]. cbn [nmul].
    split; right; eexists; eexists; (split; [reflexivity|]); (split; [reflexivity|]); rewrite E; lra.
  Qed.
  Lemma fixed_scale a : scaled k (Fin a) (Fin (k * a)).
  Proof. right. exists a, (k * a). repeat split. Qed.
  Lemma masks_scale smooth mean method ab re nt depth vel vel' : homogeneous smooth mean -> Forall2 (Forall2 (scaled k)) vel vel' ->
    distinguish_conveyance smooth mean method (Fin (k * ab)) (Fin re) nt depth vel' = distinguish_conveyance smooth mean method (Fin ab) (Fin re) nt depth vel.
  Proof.
    intros HO V. unfold distinguish_conveyance.
    assert (M1 : max_velocity_method (Fin (k * ab)) (Fin re) nt depth vel' = max_velocity_method (Fin ab) (Fin re) nt depth vel).
    { assert (TOP : forall t, scaled k (top3_mean (M_Geometry.column NaN t vel)) (top3_mean (M_Geometry.column NaN t vel'))).
      { intro t. unfold top3_mean. apply mean_scale, slice_scale, sort_scale, column_scale, V. }
      unfold max_velocity_method. set (top := fun t => top3_mean (M_Geometry.column NaN t vel)). set (top' := fun t => top3_mean (M_Geometry.column NaN t vel')).
      change (forall t, scaled k (top t) (top' t)) in TOP.
      change (map2 (fun drow vrow => map (fun t => conveys (Fin (k * ab)) (Fin re) (top' t) (nth t drow NaN) (nth t vrow NaN)) (seq 0 nt)) depth vel' =
              map2 (fun drow vrow => map (fun t => conveys (Fin ab) (Fin re) (top t) (nth t drow NaN) (nth t vrow NaN)) (seq 0 nt)) depth vel).
      clearbody top top'. revert depth. induction V as [|v v' vel vel' W V IH]; intros [|d depth]; [reflexivity..|]. cbn [map2]. f_equal; [|apply IH].
      apply map_ext. intro t. unfold conveys. f_equal.
      rewrite (nltb_scale _ _ _ _ (proj1 (product_scale re _ _ (TOP t))) (nth_scale _ _ W t)), (nltb_scale _ _ _ _ (fixed_scale ab) (nth_scale _ _ W t)). reflexivity. }
    destruct (Z.eqb method 0); [|destruct (Z.eqb method 1); exact M1]. clear M1.
    destruct (HO k vel vel' K V) as [SV SM]. unfold mean_velocity_method. cbv zeta.
    set (top := fun t => mean (smooth vel) t). set (top' := fun t => mean (smooth vel') t).
    change (forall t, scaled k (top t) (top' t)) in SM.
    change (map2 (fun drow vrow => map (fun t => nltb (Fin 0) (nth t drow NaN) && nltb (Fin (k * ab)) (nth t vrow NaN) && nltb (nmul (Fin re) (top' t)) (nth t vrow NaN)) (seq 0 nt)) depth (smooth vel') =
            map2 (fun drow vrow => map (fun t => nltb (Fin 0) (nth t drow NaN) && nltb (Fin ab) (nth t vrow NaN) && nltb (nmul (Fin re) (top t)) (nth t vrow NaN)) (seq 0 nt)) depth (smooth vel)).
    clearbody top top'. revert depth. induction SV as [|v v' l l' W SV IH]; intros [|d depth]; [reflexivity..|]. cbn [map2]. f_equal; [|apply IH].
    apply map_ext. intro t.
    rewrite (nltb_scale _ _ _ _ (proj2 (product_scale re _ _ (SM t))) (nth_scale _ _ W t)), (nltb_scale _ _ _ _ (fixed_scale ab) (nth_scale _ _ W t)). reflexivity.
  Qed.

  (** ** The geometry *)

  Lemma series_scale skip l m : Forall speed l -> Forall2 (scaled k) l m -> Forall2 (scaled k) (get_timeseries skip l) (get_timeseries skip m).
  Proof.
    intros P F. unfold get_timeseries. pose proof (slice_speed skip l P) as P'. pose proof (slice_scale skip l m F) as F'.
    revert P'. induction F' as [|x y l1 m1 X F' IH]; intro P'; [constructor|]. inversion P' as [|? ? Sx P'']; subst. cbn [map]. constructor; [|apply IH; exact P''].
    destruct X as [[-> ->]|(a & b & -> & -> & E)]; [left; auto|]. destruct Sx as [Sx|(q & Sx & Q)]; [discriminate|]. injection Sx as <-.
    assert (KA : 0 <= k * a) by (apply Qmult_le_0_compat; lra).
    assert (N : forall c, 0 <= c -> neqb (Fin c) M_Geometry.NODATA = false).
    { intros c C. unfold M_Geometry.NODATA. cbn [neqb]. destruct (Qeq_bool c (-999)) eqn:Z; [apply Qeq_bool_iff in Z; exfalso; rewrite Z in C; revert C; unfold Qle; cbn; lia|reflexivity]. }
    rewrite !N by lra. right. exists a, b. auto.
  Qed.
  Lemma geometry_scale smooth mean p ab re len centre cells cells' : homogeneous smooth mean -> Forall2 alike cells cells' ->
    Forall2 (fun c c' => Forall speed (c_vel c) /\ Forall2 (scaled k) (c_vel c) (c_vel c')) cells cells' -> gp_abs p = Fin ab -> gp_rel p = Fin re ->
    build_geometry smooth mean (with_thresholds (Fin (k * ab)) (Fin re) p) len centre cells' = build_geometry smooth mean p len centre cells.
  Proof.
    intros HO F V A R. symmetry. unfold build_geometry. cbn [with_thresholds gp_skip gp_lake gp_method gp_abs gp_rel gp_extrapolate]. rewrite A, R.
    rewrite (alike_map (fun c => get_timeseries (gp_skip p) (c_level c)) cells cells') by (auto; intros c c' (_ & _ & _ & ->); reflexivity).
    rewrite (alike_map (fun c => get_timeseries (gp_skip p) (c_depth c)) cells cells') by (auto; intros c c' (_ & _ & -> & _); reflexivity).
    assert (W : Forall2 (Forall2 (scaled k)) (map (fun c => get_timeseries (gp_skip p) (c_vel c)) cells) (map (fun c => get_timeseries (gp_skip p) (c_vel c)) cells')).
    { clear - V K. induction V as [|c c' l l' [P X] V IH]; cbn [map]; constructor; auto. apply series_scale; assumption. }
    set (level := map (fun c => get_timeseries (gp_skip p) (c_level c)) cells').
    set (depth := map (fun c => get_timeseries (gp_skip p) (c_depth c)) cells').
    set (vel := map (fun c => get_timeseries (gp_skip p) (c_vel c)) cells) in *.
    set (vel' := map (fun c => get_timeseries (gp_skip p) (c_vel c)) cells') in *. clearbody level depth vel vel'. cbv zeta.
    rewrite (masks_scale smooth mean (gp_method p) ab re (length (nth centre depth [])) depth vel vel' HO W).
    destruct (fill_centre_level _ _) as [cl0|]; [|reflexivity]. cbn [bind].
    destruct (identify_lakes _ _) as [[[lakes wet] corr]|]; [|reflexivity]. cbn [bind].
    rewrite !(map_ext _ _ (fun t => alike_area cells cells' _ t F)), !(map_ext _ _ (fun t => alike_volume cells cells' _ _ t F)).
    destruct (mask_index _ cl0) as [cl|]; [|reflexivity]. cbn [bind].
    destruct (mask_index _ _) as [tv|]; [|reflexivity]. cbn [bind].
    destruct (mask_index _ _) as [fv|]; [|reflexivity]. cbn [bind].
    destruct (mask_index _ _) as [w|]; [|reflexivity]. cbn [bind].
    destruct (mask_index _ _) as [fl|]; [|reflexivity]. cbn [bind].
    unfold extend_css_below_z0.
    rewrite (below_alike _ _ _ _ _ _ _ (fun dz => alike_below cells cells' _ _ dz F)). reflexivity.
  Qed.
End Scale.

Lemma cells_scale k s v : Forall (Forall speed) (s_vel s) -> Forall2 (Forall2 (scaled k)) (s_vel s) v ->
  Forall2 (fun c c' => Forall speed (c_vel c) /\ Forall2 (scaled k) (c_vel c) (c_vel c'))
    (M_Pipeline.cells_of s) (M_Pipeline.cells_of (selection_with_velocities v s)).
Proof.
  intros P F. unfold M_Pipeline.cells_of. cbn [selection_with_velocities s_area s_bed s_depth s_level s_vel s_section].
  generalize (seq 0 (length (s_area s))). intro is. induction is as [|i is IH]; [constructor|]. cbn [map]. constructor; [|exact IH]. cbn [c_vel].
  clear IH. revert i P. induction F as [|x y l m X F IH]; intros [|i] P; cbn [nth]; auto; inversion P; subst; auto.
Qed.

(** ** C125 *)

(** Multiply all velocities and AbsoluteVelocityThreshold by the same positive
    number: the cross-section is the same, or the same exception is raised.
    RelativeVelocityThreshold has no unit and stays as it is. *)
Theorem C125_unit_of_velocity :
  forall smooth mean correction clean st ab re id len centre nt s k v, homogeneous smooth mean -> 0 < k ->
    gp_abs (st_geometry st) = Fin ab -> gp_rel (st_geometry st) = Fin re ->
    Forall (Forall speed) (s_vel s) -> Forall2 (Forall2 (scaled k)) (s_vel s) v ->
    generate_cross_section smooth mean correction clean (with_absolute (Fin (k * ab)) st) id len centre nt (selection_with_velocities v s) =
    generate_cross_section smooth mean correction clean st id len centre nt s.
Proof.
  intros smooth mean correction clean st ab re id len centre nt s k v HO K A R P F. unfold generate_cross_section.
  change (links_of nt (selection_with_velocities v s)) with (links_of nt s).
  change (face_output_list clean id (selection_with_velocities v s)) with (face_output_list clean id s).
  change (edge_output_list clean id (selection_with_velocities v s)) with (edge_output_list clean id s).
  unfold build_cross_section_geometry.
  assert (G : build_geometry smooth mean (st_geometry (with_absolute (Fin (k * ab)) st)) len centre (M_Pipeline.cells_of (selection_with_velocities v s)) =
              build_geometry smooth mean (st_geometry st) len centre (M_Pipeline.cells_of s)).
  { rewrite <- (geometry_scale k K smooth mean (st_geometry st) ab re len centre _ _ HO
      (cells_alike s (selection_with_velocities v s) eq_refl eq_refl eq_refl eq_refl) (cells_scale k s v P F) A R).
    f_equal. unfold with_absolute, set_conveyance, with_thresholds. cbn [st_geometry]. rewrite R. reflexivity. }
  rewrite G. reflexivity.
Qed.
Print Assumptions C125_unit_of_velocity.

(** ** From the map file *)

Definition scaled_matrix (k : Q) (m m' : matrix) : Prop :=
  m_points m' = m_points m /\ Forall2 (Forall2 (scaled k)) (m_steps m) (m_steps m').
(** What a square root does with [k * k] times a number. *)
Definition root (k : Q) (sqrt : num -> num) : Prop :=
  sqrt NaN = NaN /\ (forall x, 0 <= x -> speed (sqrt (Fin x))) /\
  forall x y, 0 <= x -> y == k * k * x -> scaled k (sqrt (Fin x)) (sqrt (Fin y)).

Lemma transpose_scale k m m' : scaled_matrix k m m' -> Forall2 (Forall2 (scaled k)) (transpose m) (transpose m').
Proof.
  intros [P F]. unfold transpose. rewrite P. generalize (seq 0 (m_points m)). intro is. induction is as [|i is IH]; [constructor|]. cbn [map]. constructor; [|exact IH].
  clear IH P. induction F as [|x y l l' X F IH]; cbn [map]; constructor; auto. apply nth_scale, X.
Qed.
Lemma frame_scale k f m m' r r' : scaled_matrix k m m' -> import_frame f (Some m) = Ok r -> import_frame f (Some m') = Ok r' -> Forall2 (Forall2 (scaled k)) r r'.
Proof.
  unfold import_frame, frame. cbn [variable of_option bind]. intros S H H'. destruct (variable (v_time f)) as [t|]; [|discriminate]. cbn [bind] in H, H'.
  destruct (Nat.eqb (length (m_steps m)) _); [|discriminate]. destruct (Nat.eqb (length (m_steps m')) _); [|discriminate].
  injection H as <-. injection H' as <-. apply transpose_scale, S.
Qed.
Lemma select_scale k mask : forall l l', Forall2 (Forall2 (scaled k)) l l' -> Forall2 (Forall2 (scaled k)) (select mask l) (select mask l').
Proof.
  induction mask as [|b mask IH]; intros l l' F; [constructor|]. destruct F; [destruct b; constructor|]. cbn [select]. destruct b; [constructor|]; auto.
Qed.
Lemma magnitude_scale k sqrt : 0 < k -> root k sqrt -> forall x x' y y', Forall2 (scaled k) x x' -> Forall2 (scaled k) y y' ->
  Forall speed (magnitude sqrt x y) /\ Forall2 (scaled k) (magnitude sqrt x y) (magnitude sqrt x' y').
Proof.
  intros K (RN & RS & RK) x x' y y' X. revert y y'. unfold magnitude. induction X as [|a a' x x' A X IH]; intros y y' Y; [split; constructor|].
  destruct Y as [|b b' y y' B Y]; [split; constructor|]. cbn [map2]. destruct (IH y y' Y) as [I1 I2].
  assert (E : speed (sqrt (nadd (nmul a a) (nmul b b))) /\ scaled k (sqrt (nadd (nmul a a) (nmul b b))) (sqrt (nadd (nmul a' a') (nmul b' b')))).
  { destruct A as [[-> ->]|(p & q & -> & -> & E)]; [cbn [nmul nadd]; rewrite RN; split; left; auto|].
    destruct B as [[-> ->]|(p' & q' & -> & -> & E')]; [cbn [nmul nadd]; rewrite RN; split; left; auto|]. cbn [nmul nadd].
    assert (P : 0 <= p * p + p' * p') by nra. split; [apply RS, P|]. apply RK; [exact P|]. rewrite E, E'. lra. }
  split; constructor; tauto.
Qed.
Lemma speeds_scale k sqrt : 0 < k -> root k sqrt -> forall x x' y y', Forall2 (Forall2 (scaled k)) x x' -> Forall2 (Forall2 (scaled k)) y y' ->
  Forall (Forall speed) (map2 (magnitude sqrt) x y) /\ Forall2 (Forall2 (scaled k)) (map2 (magnitude sqrt) x y) (map2 (magnitude sqrt) x' y').
Proof.
  intros K R x x' y y' X. revert y y'. induction X as [|a a' x x' A X IH]; intros y y' Y; [split; constructor|].
  destruct Y as [|b b' y y' B Y]; [split; constructor|]. cbn [map2]. destruct (IH y y' Y) as [I1 I2].
  destruct (magnitude_scale k sqrt K R _ _ _ _ A B). split; constructor; auto.
Qed.
Lemma mask_selected {A} mask (l r : list A) : mask_index mask l = Ok r -> r = select mask l.
Proof. unfold mask_index. destruct (Nat.eqb _ _); [|discriminate]. intro H. injection H as <-. reflexivity. Qed.
Lemma selected_speeds sqrt m id s : get_selection sqrt m id = Ok s ->
  s_vel s = map2 (magnitude sqrt) (select (map (fun c => teqb c id) (f_class m)) (f_vx m)) (select (map (fun c => teqb c id) (f_class m)) (f_vy m)).
Proof.
  unfold get_selection. cbv zeta. intro G.
  repeat (match type of G with bind ?e _ = _ => destruct e eqn:?; [|discriminate G] end; cbn [bind] in G). injection G as <-. cbn [s_vel].
  repeat match goal with H : mask_index _ _ = Ok _ |- _ => apply mask_selected in H end. congruence.
Qed.
Lemma imported_speeds f ux uy ux' uy' u1 k t l td t' l' td' : v_ucx f = Some ux -> v_ucy f = Some uy -> scaled_matrix k ux ux' -> scaled_matrix k uy uy' ->
  import_dflow2d f = Ok (t, l, td) -> import_dflow2d (with_velocities (Some ux') (Some uy') u1 f) = Ok (t', l', td') ->
  Forall2 (Forall2 (scaled k)) (d_vx td) (d_vx td') /\ Forall2 (Forall2 (scaled k)) (d_vy td) (d_vy td').
Proof.
  intros X Y SX SY H H'. set (f' := with_velocities (Some ux') (Some uy') u1 f) in *. unfold import_dflow2d in H, H'.
  change (import_faces f') with (import_faces f) in H'. change (v_edge_type f') with (v_edge_type f) in H'.
  destruct (import_faces f) as [t0|]; [|discriminate]. cbn [bind] in H, H'.
  destruct (variable (v_edge_type f)) as [ty|]; [|discriminate]. cbn [bind] in H, H'.
  change (import_edges f') with (import_edges f) in H'. change (import_nodes f') with (import_nodes f) in H'.
  destruct (import_edges f _) as [l0|]; [|discriminate]. cbn [bind] in H, H'.
  destruct (import_nodes f) as [n0|]; [|discriminate]. cbn [bind] in H, H'.
  destruct (import_results f _) as [r|] eqn:R; [|discriminate]. destruct (import_results f' _) as [r'|] eqn:R'; [|discriminate].
  cbn [bind] in H, H'. injection H as <- <- <-. injection H' as <- <- <-. unfold import_results in R, R'.
  change (import_frame f') with (import_frame f) in R'. change (import_chezy f') with (import_chezy f) in R'.
  subst f'. cbn [with_velocities v_waterdepth v_s1 v_czs v_ucx v_ucy v_u1] in R'. rewrite X, Y in R.
  destruct (import_frame f (v_waterdepth f)); [|discriminate]. cbn [bind] in R, R'.
  destruct (import_frame f (v_s1 f)); [|discriminate]. cbn [bind] in R, R'.
  destruct (import_frame f (v_czs f)); [|discriminate]. cbn [bind] in R, R'.
  destruct (import_chezy f _); [|discriminate]. cbn [bind] in R, R'.
  destruct (import_frame f (Some ux)) eqn:E1; [|discriminate]. destruct (import_frame f (Some ux')) eqn:E2; [|discriminate]. cbn [bind] in R, R'.
  destruct (import_frame f (Some uy)) eqn:E3; [|discriminate]. destruct (import_frame f (Some uy')) eqn:E4; [|discriminate]. cbn [bind] in R, R'.
  destruct (import_frame f (v_u1 f)); [|discriminate]. destruct (import_frame f u1); [|discriminate]. cbn [bind] in R, R'.
  injection R as <-. injection R' as <-. cbn [d_vx d_vy].
  split; [exact (frame_scale k f ux ux' _ _ SX E1 E2)|exact (frame_scale k f uy uy' _ _ SY E3 E4)].
Qed.

(** The same for the velocities in the map file, which are components. *)
Theorem C125_unit_of_velocity_in_the_map_file :
  forall nearest within inside sqrt smooth mean correction clean c file mt css dr ds regions sections st ab re id len centre nt f ux uy ux' uy' u1 k cs cs',
    homogeneous smooth mean -> 0 < k -> root k sqrt -> gp_abs (st_geometry st) = Fin ab -> gp_rel (st_geometry st) = Fin re ->
    v_ucx f = Some ux -> v_ucy f = Some uy -> scaled_matrix k ux ux' -> scaled_matrix k uy uy' ->
    cross_section_of nearest within inside sqrt smooth mean correction clean c file mt css dr ds regions sections st id len centre nt f = Ok cs ->
    cross_section_of nearest within inside sqrt smooth mean correction clean c file mt css dr ds regions sections (with_absolute (Fin (k * ab)) st) id len centre nt
      (with_velocities (Some ux') (Some uy') u1 f) = Ok cs' ->
    cs' = cs.
Proof.
  intros nearest within inside sqrt smooth mean correction clean c file mt css dr ds regions sections st ab re id len centre nt f ux uy ux' uy' u1 k cs cs'
    HO P RT A R X Y SX SY H H'.
  unfold cross_section_of in H, H'.
  destruct (snd (set_fm_model_data nearest within inside c file mt f css dr ds regions sections)) as [m|] eqn:E; [|discriminate].
  destruct (snd (set_fm_model_data _ _ _ _ _ _ (with_velocities _ _ _ f) _ _ _ _ _)) as [m'|] eqn:E'; [|discriminate]. cbn [bind] in H, H'.
  destruct (data_import _ _ _ _ _ _ _ _ _ _ _ _ _ E) as (t & l & td & I). destruct (data_import _ _ _ _ _ _ _ _ _ _ _ _ _ E') as (t' & l' & td' & I').
  destruct (imported_speeds f ux uy ux' uy' u1 k _ _ _ _ _ _ X Y SX SY I I') as [VX VY].
  destruct (import_velocities f _ _ u1 t l td t' l' td' I I') as (-> & -> & D1 & D2 & D3 & D4).
  assert (LC : last_chezy td' = last_chezy td) by (unfold last_chezy; rewrite D3, D4; reflexivity).
  destruct (model_data_elsewhere nearest within inside c file mt f (with_velocities (Some ux') (Some uy') u1 f) css dr ds regions sections t t l l td td' I I'
    ltac:(repeat split) (or_intror LC)) as [RR K].
  destruct (K m E) as (K1 & K2 & K3 & K4 & K5 & K6 & K7). clear K.
  apply (f_equal snd) in RR. cbn [snd] in RR. rewrite E, E' in RR. cbn [res_map] in RR. injection RR as RR. clear E E'.
  destruct (get_selection sqrt m id) as [s|] eqn:G; [|discriminate]. destruct (get_selection sqrt m' id) as [s'|] eqn:G'; [|discriminate].
  cbn [bind] in H, H'. pose proof (selected_speeds _ _ _ _ G) as V. pose proof (selected_speeds _ _ _ _ G') as V'.
  assert (W : s' = selection_with_velocities (s_vel s') s).
  { unfold get_selection in G, G'. cbv zeta in G, G'. subst m'. unfold with_results in G'.
    cbn [f_x f_y f_area f_bed f_region f_islake f_section f_class f_depth f_level f_vx f_vy e_x e_y e_section e_class e_faces e_chezy] in G'.
    rewrite D1, D2, D4 in G'. rewrite K1, K2, K3, K4, K7 in G. clear V V'.
    repeat (match type of G with bind ?e _ = _ => destruct e; [|discriminate G] end; cbn [bind] in G, G').
    repeat (match type of G' with bind (Ok _) _ = _ => cbn [bind] in G' | bind ?e _ = _ => destruct e; [|discriminate G'] end; cbn [bind] in G').
    injection G as <-. injection G' as <-. reflexivity. }
  assert (FX : f_vx m' = d_vx td' /\ f_vy m' = d_vy td' /\ f_class m' = f_class m) by (subst m'; repeat split). destruct FX as (FX & FY & FC).
  rewrite FX, FY, FC in V'. rewrite K5, K6 in V.
  destruct (speeds_scale k sqrt P RT _ _ _ _ (select_scale k (map (fun c => teqb c id) (f_class m)) _ _ VX) (select_scale k (map (fun c => teqb c id) (f_class m)) _ _ VY)) as [S1 S2].
  rewrite <- V in S1, S2. rewrite <- V' in S2. rewrite W in H'.
  rewrite (C125_unit_of_velocity smooth mean correction clean st ab re id len centre nt s k (s_vel s') HO P A R S1 S2) in H'. congruence.
Qed.
Print Assumptions C125_unit_of_velocity_in_the_map_file.

(** There is such a square root: exact for squares, undefined for others. *)
Definition exact_root (x : num) : num :=
  match x with
  | Fin q => let r := Qred q in let n := Z.sqrt (Qnum r) in let d := Z.sqrt (Zpos (Qden r)) in
             if Z.eqb (n * n) (Qnum r) && Z.eqb (d * d) (Zpos (Qden r)) then Fin (n # Z.to_pos d) else NaN
  | _ => NaN
  end.
Lemma exact_root_sound x : exact_root (Fin x) = NaN \/ exists a, exact_root (Fin x) = Fin a /\ 0 <= a /\ a * a == x.
Proof.
  unfold exact_root. cbv zeta. destruct (Z.eqb _ _ && _) eqn:E; [|left; reflexivity]. right. apply andb_prop in E. destruct E as [E1 E2].
  apply Z.eqb_eq in E1, E2. pose proof (Qred_correct x) as RX. destruct (Qred x) as [n d]. cbn [Qnum Qden] in *.
  pose proof (Z.sqrt_nonneg n). pose proof (Z.sqrt_nonneg (Zpos d)). set (u := Z.sqrt n) in *. set (v := Z.sqrt (Zpos d)) in *. clearbody u v.
  assert (0 < v)%Z by (destruct (Z.eq_dec v 0) as [->|]; lia).
  exists (u # Z.to_pos v). split; [reflexivity|]. split; [unfold Qle; cbn; lia|]. rewrite <- RX.
  unfold Qeq, Qmult. cbn [Qnum Qden]. rewrite Pos2Z.inj_mul, Z2Pos.id by assumption. rewrite E1, E2. reflexivity.
Qed.
Lemma exact_root_complete a x : 0 <= a -> x == a * a -> exists b, exact_root (Fin x) = Fin b /\ b == a.
Proof.
  intros A X. pose proof (Qred_correct a) as RA.
  assert (GC : Z.gcd (Qnum (Qred a)) (Zpos (Qden (Qred a))) = 1%Z).
  { apply Qcanon.Qred_iff. apply Qcanon.Qred_involutive. }
  destruct (Qred a) as [n d]. cbn [Qnum Qden] in GC.
  assert (N : (0 <= n)%Z) by (rewrite <- RA in A; unfold Qle in A; cbn in A; lia).
  assert (E : Qred x = (n * n # d * d)).
  { rewrite (Qred_complete x ((n # d) * (n # d))) by (rewrite X, RA; reflexivity). cbn [Qmult Qnum Qden]. apply Qcanon.Qred_iff. cbn [Qnum Qden].
    rewrite Pos2Z.inj_mul. apply Zgcd_1_rel_prime in GC. apply Zgcd_1_rel_prime.
    assert (M : rel_prime n (Zpos d * Zpos d)) by (apply rel_prime_mult; assumption).
    apply rel_prime_sym. apply rel_prime_mult; apply rel_prime_sym; assumption. }
  unfold exact_root. cbv zeta. rewrite E. cbn [Qnum Qden]. rewrite Pos2Z.inj_mul, !Z.sqrt_square by lia. rewrite !Z.eqb_refl. cbn [andb].
  exists (n # d). split; [reflexivity|exact RA].
Qed.
Theorem C125_square_root : forall k, 0 < k -> root k exact_root.
Proof.
  intros k K. split; [reflexivity|]. split.
  - intros x X. destruct (exact_root_sound x) as [->|(a & -> & A & _)]; [left; reflexivity|right; exists a; auto].
  - intros x y X Y. destruct (exact_root_sound x) as [N|(a & -> & A & E)].
    + left. split; [exact N|]. destruct (exact_root_sound y) as [M|(b & M & B & E)]; [exact M|]. exfalso.
      destruct (exact_root_complete (b / k) x) as (c & C & _); [| |congruence].
      * apply Qle_shift_div_l; [exact K|lra].
      * assert (Z : b * b == k * k * x) by (rewrite E; exact Y). unfold Qdiv.
        transitivity (b * b * (/ k * / k)); [|ring]. rewrite Z. field. lra.
    + destruct (exact_root_complete (k * a) y) as (c & -> & C); [apply Qmult_le_0_compat; lra|rewrite Y, <- E; ring|]. right. exists a, c. auto.
Qed.
Print Assumptions C125_square_root.

(** ** A case *)

(** A mean over the faces follows the unit. *)
Theorem C125_mean_over_faces : homogeneous (fun v => v) (fun v t => nanmean (M_Geometry.column NaN t v)).
Proof. intros k v v' K F. split; [exact F|]. intro t. apply mean_scale, column_scale, F. Qed.
Print Assumptions C125_mean_over_faces.

(** The faces of C122 with velocities in centimetres per second: with the
    threshold in the same unit nothing changes; with the threshold left as it is
    the slow face counts. *)
Definition hundredfold (rows : list (list num)) : list (list num) := map (map (nmul (Fin 100))) rows.
Definition speed_css (st : settings) : res (option M_Pipeline.css) :=
  generate_cross_section (fun v => v) (fun v t => nanmean (M_Geometry.column NaN t v)) (fun _ => Raise ValueError) (fun x => x) st (T "css") (Fin 10) 0 3
    (selection_with_velocities (hundredfold (s_vel (mesh_selection (threshold_faces 50)))) (mesh_selection (threshold_faces 50))).
Theorem C125_case :
  neqb (last_width (threshold_css 50 high_settings)) (Fin (20001 # 1000)) = true /\
  neqb (last_width (speed_css (with_absolute (Fin 50) high_settings))) (Fin (20001 # 1000)) = true /\
  neqb (last_width (speed_css high_settings)) (Fin 25) = true.
Proof. repeat split; vm_compute; reflexivity. Qed.
Print Assumptions C125_case.
