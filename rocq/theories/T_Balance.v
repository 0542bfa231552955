(** C123: the storage widths of all cross-sections together make up the area of
    the 2D mesh that is under water. *)
From Coq Require Import String List Ascii ZArith QArith Qminmax Bool Lia Lqa.
From Verif Require Import PyBase Num Text L_Text L_List L_Num M_Log M_Run M_Geometry M_Sections M_Friction M_Simplify M_Import M_Classify M_Polygon M_Cli
  M_Pipeline M_Data T_Pipeline T_Select T_Neighbour T_Data T_Whole T_Skip T_Parts.
Import ListNotations.
Local Open Scope Q_scope.

(** ** Specification *)

(** A face with these depths is under water at step [t] and not a lake that is
    still on its own. *)
Definition active (p : geom_params) (depth : list num) (t : nat) : bool :=
  let row := get_timeseries (gp_skip p) depth in
  match is_lake (gp_lake p) row with Ok lake => nth t (wet_not_lake lake row) false | Raise _ => false end.
(** The row of a cross-section that is for step [t]: ten rows are below the
    first level and one is there for every step with a higher level than
    before. *)
Definition count (m : list bool) : nat := length (filter (fun b => b) m).
Definition step_row (g : M_Geometry.geometry) (t : nat) : option nat :=
  let mask := check_monotonicity (g_z_roughness g) in
  if nth t mask false then Some (10 + count (firstn t mask))%nat else None.
(** The total width in that row. *)
Definition width_at (g : M_Geometry.geometry) (t : nat) : option Q :=
  match step_row g t with
  | Some j => match nth_error (k_tw (g_cols g)) j with Some (Fin w) => Some w | _ => None end
  | None => None
  end.
Definition value (x : num) : Q := match x with Fin q => q | _ => 0 end.

(** ** One cross-section *)

Lemma nth_select {A} (mask : list bool) (l : list A) : forall t, length mask = length l -> nth t mask false = true ->
  nth_error (select mask l) (count (firstn t mask)) = nth_error l t.
Proof.
  revert l. induction mask as [|b mask IH]; intros [|x l] t L N; try discriminate; [destruct t; discriminate|].
  injection L as L. destruct t as [|t]; cbn [nth] in N.
  - subst b. reflexivity.
  - cbn [firstn nth_error]. unfold count in *. destruct b; cbn [filter length select nth_error]; apply IH; assumption.
Qed.
Lemma below_width ex len c0 fa cells l : forall k,
  exists pre, length pre = length l /\ k_tw (fold_left (below_z0_step ex len c0 fa cells) l k) = pre ++ k_tw k.
Proof.
  induction l as [|dz l IH]; intro k; [exists []; auto|]. cbn [fold_left].
  destruct (IH (below_z0_step ex len c0 fa cells k dz)) as (pre & L & E). rewrite E. cbn [below_z0_step k_tw].
  exists (pre ++ [ndiv (wet_area_below cells dz) len]). split; [rewrite app_length; cbn [length]; lia|]. rewrite <- app_assoc. reflexivity.
Qed.
Lemma finish_width ex len c0 cells cl0 k0 j : nth_error (k_tw (g_cols (finish ex len c0 cells cl0 k0))) (10 + j) = nth_error (k_tw k0) j.
Proof.
  unfold finish, extend_css_below_z0. cbn [g_cols].
  destruct (below_width ex len (hd NaN (k_z k0)) (hd NaN (k_flow k0)) cells (linspace10 (nsub (hd NaN (k_z k0)) (nsub (hd NaN (k_z k0)) c0))) k0) as (pre & L & E).
  rewrite E. assert (T10 : length pre = 10%nat) by (rewrite L; unfold linspace10; rewrite map_length; apply seq_length).
  rewrite nth_error_app2 by lia. f_equal. lia.
Qed.
Lemma area_sum p cells : Forall (fun c => exists a, c_area c = Fin a) cells -> forall lakes t,
  map_res (is_lake (gp_lake p)) (map (fun c => get_timeseries (gp_skip p) (c_depth c)) cells) = Ok lakes ->
  exists a, masked_area cells (map2 wet_not_lake lakes (map (fun c => get_timeseries (gp_skip p) (c_depth c)) cells)) t = Fin a /\
    a == qsum (map (fun c => if active p (c_depth c) t then value (c_area c) else 0) cells).
Proof.
  intros F lakes t H. unfold masked_area, nansum.
  assert (G : forall acc, exists a, fold_left nadd (filter (fun x => negb (isnan x))
    (map2 (fun c (m : list bool) => if nth t m false then c_area c else NaN) cells
       (map2 wet_not_lake lakes (map (fun c => get_timeseries (gp_skip p) (c_depth c)) cells)))) (Fin acc) = Fin a /\
    a == acc + qsum (map (fun c => if active p (c_depth c) t then value (c_area c) else 0) cells)).
  { revert lakes H. induction F as [|c cells (q & Q) F IH]; intros lakes H acc; cbn [map map_res] in H.
    - injection H as <-. exists acc. split; [reflexivity|]. cbn. lra.
    - assert (AC : active p (c_depth c) t = match is_lake (gp_lake p) (get_timeseries (gp_skip p) (c_depth c)) with
                     | Ok lake => nth t (wet_not_lake lake (get_timeseries (gp_skip p) (c_depth c))) false | Raise _ => false end) by reflexivity.
      destruct (is_lake (gp_lake p) (get_timeseries (gp_skip p) (c_depth c))) as [lake|] eqn:E; [|discriminate]. cbn [bind] in H.
      destruct (map_res _ _) as [rest|]; [|discriminate]. cbn [bind] in H. injection H as <-. specialize (IH rest eq_refl).
      cbn [map map2]. rewrite AC, Q. cbn [value].
      destruct (nth t (wet_not_lake lake (get_timeseries (gp_skip p) (c_depth c))) false); cbn [filter isnan negb fold_left nadd].
      + destruct (IH (acc + q)) as (a & A1 & A2). exists a. split; [exact A1|]. rewrite A2. unfold qsum. cbn [fold_right]. lra.
      + destruct (IH acc) as (a & A1 & A2). exists a. split; [exact A1|]. rewrite A2. unfold qsum. cbn [fold_right]. lra. }
  destruct (G 0) as (a & A1 & A2). exists a. split; [exact A1|]. rewrite A2. lra.
Qed.

(** What a geometry says about the total widths. *)
Definition holds_area (p : geom_params) (len : Q) (cells : list cell) (g : M_Geometry.geometry) : Prop :=
  forall t, step_row g t <> None -> exists w, width_at g t = Some w /\
    len * w == qsum (map (fun c => if active p (c_depth c) t then value (c_area c) else 0) cells).
Lemma finish_area p ex len c0 cells cells0 cl0 w fl tv fv : 0 < len ->
  (forall t, step_row (finish ex (Fin len) c0 cells0 cl0 (compute_css_above_z0 (Fin len) cl0 w fl tv fv)) t <> None ->
     exists a, nth_error w (count (firstn t (check_monotonicity cl0))) = Some (Fin a) /\
       a == qsum (map (fun c => if active p (c_depth c) t then value (c_area c) else 0) cells)) ->
  forall cl, holds_area p len cells (finish ex (Fin len) c0 cells0 cl0 (compute_css_above_z0 (Fin len) cl w fl tv fv)).
Proof.
  intros LP W cl t N. unfold width_at. unfold step_row in *. cbn [finish g_z_roughness] in *.
  specialize (W t). cbn [finish g_z_roughness] in W.
  destruct (nth t (check_monotonicity cl0) false); [|contradiction N; reflexivity]. destruct (W ltac:(discriminate)) as (a & A1 & A2).
  rewrite finish_width. cbn [compute_css_above_z0 k_tw]. rewrite nth_error_map, A1. cbn [option_map ndiv].
  destruct (Qeq_bool len 0) eqn:E; [apply Qeq_bool_iff in E; lra|]. exists (a / len). split; [reflexivity|]. rewrite <- A2. field. lra.
Qed.
Lemma geometry_area smooth mean p len centre cells g : 0 < len -> Forall (fun c => exists a, c_area c = Fin a) cells ->
  build_geometry smooth mean p (Fin len) centre cells = Ok g -> holds_area p len cells g.
Proof.
  intros LP F. pose proof (area_sum p cells F) as AS.
  assert (GOAL : match build_geometry smooth mean p (Fin len) centre cells with Ok g => holds_area p len cells g | Raise _ => True end);
    [|intro H; rewrite H in GOAL; exact GOAL].
  unfold build_geometry.
  set (level := map (fun c => get_timeseries (gp_skip p) (c_level c)) cells).
  set (depth := map (fun c => get_timeseries (gp_skip p) (c_depth c)) cells) in *.
  set (vel := map (fun c => get_timeseries (gp_skip p) (c_vel c)) cells). clearbody level depth vel. cbv zeta.
  destruct (fill_centre_level _ _) as [cl0|]; [|exact Logic.I]. cbn [bind]. unfold identify_lakes.
  destruct (map_res _ depth) as [lakes|]; [|exact Logic.I]. cbn [bind]. specialize (fun t => AS lakes t eq_refl).
  set (wet := map2 wet_not_lake lakes depth) in *. clearbody wet. set (corr := map2 lake_depth_correction lakes depth). clearbody corr.
  destruct (mask_index _ cl0) as [cl|]; [|exact Logic.I]. cbn [bind].
  destruct (mask_index _ _) as [tv|]; [|exact Logic.I]. cbn [bind].
  destruct (mask_index _ _) as [fv|]; [|exact Logic.I]. cbn [bind].
  destruct (mask_index _ _) as [w|] eqn:EW; [|exact Logic.I]. cbn [bind].
  match goal with |- context [bind (mask_index ?a ?b) _] => destruct (mask_index a b) as [fl|] end; [|exact Logic.I]. cbn [bind].
  refine (finish_area p _ len _ cells _ _ w fl tv fv LP _ cl).
  intros t N. unfold step_row in N. cbn [finish g_z_roughness] in N. destruct (nth t (check_monotonicity cl0) false) eqn:M; [|contradiction N; reflexivity].
  unfold mask_index in EW. rewrite map_length, seq_length in EW. destruct (Nat.eqb_spec (length (check_monotonicity cl0)) (length (nth centre depth []))) as [L|]; [|discriminate].
  injection EW as <-. rewrite nth_select; [|rewrite map_length, seq_length; exact L|exact M].
  assert (TL : (t < length (nth centre depth []))%nat).
  { rewrite <- L. destruct (Nat.ltb_spec t (length (check_monotonicity cl0))); [assumption|]. rewrite nth_overflow in M by lia. discriminate. }
  destruct (AS t) as (a & A1 & A2). exists a. split; [|exact A2].
  rewrite nth_error_map. rewrite (nth_error_nth' _ 0%nat) by (rewrite seq_length; exact TL). rewrite seq_nth by exact TL. cbn [option_map Nat.add]. rewrite A1. reflexivity.
Qed.

(** ** All of them *)

Lemma cells_of_faces sqrt f s fi ei areas (h : list num -> Q -> Q) : reports sqrt f s fi ei -> v_face_area f = Some (map Fin areas) ->
  (forall i, In i fi -> (i < length areas)%nat) ->
  Forall (fun c => exists a, c_area c = Fin a) (M_Pipeline.cells_of s) /\
  map (fun c => h (c_depth c) (value (c_area c))) (M_Pipeline.cells_of s) = map (fun i => h (series (v_waterdepth f) i) (nth i areas 0)) fi.
Proof.
  intros (_ & _ & EA & _ & ED & _) VA R.
  assert (VV : forall i, In i fi -> value_at (v_face_area f) i = Fin (nth i areas 0)).
  { intros i I. unfold value_at. rewrite VA. rewrite nth_indep with (d' := Fin 0) by (rewrite map_length; auto). apply (map_nth Fin). }
  unfold M_Pipeline.cells_of. rewrite EA, map_length, ED.
  assert (NA : forall k, (k < length fi)%nat -> nth k (map (value_at (v_face_area f)) fi) NaN = Fin (nth (nth k fi 0%nat) areas 0)).
  { intros k K. rewrite nth_indep with (d' := value_at (v_face_area f) 0%nat) by (rewrite map_length; exact K). rewrite (map_nth (value_at (v_face_area f))).
    apply VV, nth_In, K. }
  assert (ND : forall k, (k < length fi)%nat -> nth k (map (series (v_waterdepth f)) fi) [] = series (v_waterdepth f) (nth k fi 0%nat)).
  { intros k K. rewrite nth_indep with (d' := series (v_waterdepth f) 0%nat) by (rewrite map_length; exact K). apply (map_nth (series (v_waterdepth f))). }
  split.
  - apply Forall_forall. intros c I. apply in_map_iff in I. destruct I as (k & <- & I). apply in_seq in I. cbn [c_area]. rewrite NA by lia. eauto.
  - rewrite map_map. cbn [c_depth c_area].
    transitivity (map (fun k => h (series (v_waterdepth f) (nth k fi 0%nat)) (nth (nth k fi 0%nat) areas 0)) (seq 0 (length fi))).
    + apply map_ext_in. intros k I. apply in_seq in I. rewrite NA, ND by lia. reflexivity.
    + rewrite <- (map_map (fun k => nth k fi 0%nat) (fun i => h (series (v_waterdepth f) i) (nth i areas 0))).
      f_equal. clear. induction fi as [|i fi IH]; [reflexivity|]. cbn [length seq map nth]. f_equal. rewrite <- seq_shift, map_map. exact IH.
Qed.

(** C123: at a step in which the level of every cross-section is higher than
    before, the total widths times the lengths of the control volumes add up to
    the area of the faces that are active.  The widths are those before they
    are repaired. *)
Theorem C123_widths_add_up_to_the_mesh_partial :
  forall nearest within inside sqrt c file mt f d dr ds sections c' m nf ne nn nt areas,
    is_nearest nearest -> dims f nf ne nn nt -> fits c nf (length (internal_of f)) ->
    length (c_id d) = length (c_xy d) -> NoDup (c_id d) -> v_face_area f = Some (map Fin areas) ->
    set_fm_model_data nearest within inside c file mt f (Ok d) dr ds None sections = (c', Ok m) ->
    forall smooth mean p (len : text -> Q) (centre : text -> nat) (g : text -> M_Geometry.geometry) t,
      (forall id, In id (c_id d) -> 0 < len id /\ step_row (g id) t <> None /\
         exists s, get_selection sqrt m id = Ok s /\
           build_geometry smooth mean p (Fin (len id)) (centre id) (M_Pipeline.cells_of s) = Ok (g id)) ->
      exists w : text -> Q, (forall id, In id (c_id d) -> width_at (g id) t = Some (w id)) /\
        qsum (map (fun id => len id * w id) (c_id d)) ==
        qsum (map (fun i => if active p (series (v_waterdepth f) i) t then nth i areas 0 else 0) (seq 0 nf)).
Proof.
  intros nearest within inside sqrt c file mt f d dr ds sections c' m nf ne nn nt areas N D F L ND VA H smooth mean p len centre g t A.
  destruct (cover_the_mesh_once nearest within inside sqrt c file mt f d dr ds sections c' m nf ne nn nt N D F L ND H)
    as (fi & ei & P1 & _ & _ & _ & _ & P5 & P6).
  assert (LA : length areas = nf).
  { destruct D as (_ & _ & Fa & _). specialize (Fa _ VA). rewrite map_length in Fa. auto. }
  set (h := fun i => if active p (series (v_waterdepth f) i) t then nth i areas 0 else 0).
  assert (ONE : forall id, In id (c_id d) -> exists w, width_at (g id) t = Some w /\ len id * w == qsum (map h (fi id))).
  { intros id I. destruct (A id I) as (LP & SR & s & GS & BG). destruct (P1 id) as (s' & GS' & R). rewrite GS in GS'. injection GS' as <-.
    destruct (cells_of_faces sqrt f s (fi id) (ei id) areas (fun d a => if active p d t then a else 0) R VA) as [FA SUM]; [intros i Ii; rewrite LA; exact (P5 id i Ii)|].
    destruct (geometry_area smooth mean p (len id) (centre id) _ (g id) LP FA BG t SR) as (w & W1 & W2). exists w. split; [exact W1|].
    rewrite W2, SUM. apply Qeq_refl. }
  exists (fun id => match width_at (g id) t with Some w => w | None => 0 end). split.
  - intros id I. destruct (ONE id I) as (w & -> & _). reflexivity.
  - specialize (P6 (map h (seq 0 nf)) ltac:(rewrite map_length, seq_length; reflexivity)). rewrite <- P6. clear P6.
    assert (HH : forall id, map (fun i => nth i (map h (seq 0 nf)) 0) (fi id) = map h (fi id)).
    { intro id. apply map_ext_in. intros i I. pose proof (P5 id i I) as B. rewrite nth_indep with (d' := h 0%nat) by (rewrite map_length, seq_length; exact B).
      rewrite (map_nth h), seq_nth by exact B. reflexivity. }
    clear - ONE HH. revert ONE. generalize (c_id d). intro ids. induction ids as [|id ids IH]; intro ONE; [apply Qeq_refl|].
    cbn [map]. unfold qsum in *. cbn [fold_right]. rewrite IH by (intros; apply ONE; right; assumption). rewrite HH.
    destruct (ONE id (or_introl eq_refl)) as (w & -> & E). rewrite E. apply Qeq_refl.
Qed.
Print Assumptions C123_widths_add_up_to_the_mesh_partial.

(** ** A case *)

(** Ten faces of 20 m2 at the location "a" and [n] faces of 30 m2 at the location
    "b", 1000 m away; the water rises by 4 m from step to step. *)
Definition two_rows (n : nat) : map_file :=
  let i_of i := if Nat.ltb i 10 then qn i else qn (i - 10) in
  mk_map_file (Some (map qn (seq 0 10) ++ map (fun i => 1000 + qn i) (seq 0 n))) (Some (repeat 0 (10 + n)))
    (Some (map Fin (repeat 20 10 ++ repeat 30 n)))
    (Some (map (fun i => Fin (i_of i)) (seq 0 (10 + n)))) (Some (repeat (1, [1; 2; 2])%Z (10 + n))) (Some [1; 1]%Z)
    (Some [0; 1000]) (Some [0; 0]) (Some [[1; 2]; [11; 12]]%nat) (Some [(1, 2)%Z; (1, 2)%Z]) (Some [0; 1]) (Some [0; 0])
    (Some [Fin 0; Fin 60; Fin 120])
    (row_matrix (10 + n) (fun t i => Qmax 0 (qn t * 4 + 1 - i_of i)))
    (row_matrix (10 + n) (fun t i => Qmax (i_of i) (qn t * 4 + 1)))
    (row_matrix (10 + n) (fun t i => 30 + i_of i / 2)) (row_matrix 2 (fun t i => 40)) None
    (row_matrix (10 + n) (fun t i => 1)) (row_matrix (10 + n) (fun t i => 0)) (row_matrix 2 (fun t i => 1)).
Definition rows_data (n : nat) : res mesh :=
  snd (set_fm_model_data first_nearest (fun _ _ => false) (fun _ _ => false) (fun _ => None) (T "map.nc") (0, 0)%Z (two_rows n)
    (Ok (mk_columns [(0, 0); (1000, 0)] [T "a"; T "b"] [T "r"; T "r"] [1; 1] [0; 0])) VNull (VStr (T "main")) None None).
Definition row_selection (n : nat) (id : text) : res selection :=
  match rows_data n with Ok m => M_Import.get_selection (fun x => x) m id | Raise e => Raise e end.
Definition row_width (n : nat) (id : text) (len : Q) (t : nat) : option Q :=
  match row_selection n id with
  | Ok s => match build_geometry (fun x => x) (fun _ _ => Fin 0) (st_geometry example_settings) (Fin len) 0 (M_Pipeline.cells_of s) with
            | Ok g => width_at g t | Raise _ => None end
  | Raise _ => None
  end.
Definition active_area (n t : nat) : Q :=
  qsum (map (fun i => if active (st_geometry example_settings) (series (v_waterdepth (two_rows n)) i) t
                      then nth i (repeat 20 10 ++ repeat 30 n) 0 else 0) (seq 0 (10 + n))).
Definition qopt (x : option Q) : Q := match x with Some q => q | None => -1 end.
(** In the last step nine faces of either location are under water. *)
Theorem C123_case :
  qopt (row_width 10 (T "a") 10 2) == 18 /\ qopt (row_width 10 (T "b") 15 2) == 18 /\ active_area 10 2 == 10 * 18 + 15 * 18 /\
  qopt (row_width 10 (T "a") 10 0) == 2 /\ qopt (row_width 10 (T "b") 15 0) == 2 /\ active_area 10 0 == 10 * 2 + 15 * 2.
Proof. repeat split; vm_compute; reflexivity. Qed.
Print Assumptions C123_case.

(** With nine faces at "b" there is no cross-section there, and the area of its
    faces is in no cross-section. *)
Theorem C123_few_faces_refuted :
  exists s, row_selection 9 (T "b") = Ok s /\
    generate_cross_section (fun x => x) (fun _ _ => Fin 0) (fun _ => Raise ValueError) (fun x => x) example_settings (T "b") (Fin 15) 0 3 s = Ok None /\
    10 * qopt (row_width 9 (T "a") 10 2) == 180 /\ active_area 9 2 == 450.
Proof. eexists. split; [vm_compute; reflexivity|]. split; [vm_compute; reflexivity|]. split; vm_compute; reflexivity. Qed.
Print Assumptions C123_few_faces_refuted.
