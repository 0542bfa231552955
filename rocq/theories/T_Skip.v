(** C114: maps that are skipped with SkipMaps are as good as maps that are not in
    the file. *)
From Coq Require Import String List Ascii ZArith QArith Bool Lia.
From Verif Require Import PyBase Num Text L_List M_Log M_Run M_Geometry M_Sections M_Friction M_Simplify M_Import M_Classify M_Polygon M_Cli
  M_Pipeline M_Data L_Rows T_Pipeline T_Neighbour T_Data T_Whole.
Import ListNotations.

(** ** Specification *)

Definition cut (k : nat) (v : matrix) : matrix := mk_matrix (m_points v) (skipn k (m_steps v)).
(** The map file without its first [k] maps. *)
Definition without_first (k : nat) (f : map_file) : map_file :=
  mk_map_file (v_face_x f) (v_face_y f) (v_face_area f) (v_face_bed f) (v_face_nodes f) (v_edge_type f)
    (v_edge_x f) (v_edge_y f) (v_edge_faces f) (v_edge_nodes f) (v_node_x f) (v_node_y f)
    (option_map (skipn k) (v_time f)) (option_map (cut k) (v_waterdepth f)) (option_map (cut k) (v_s1 f))
    (option_map (cut k) (v_czs f)) (option_map (cut k) (v_czu f)) (option_map (cut k) (v_cftrt f))
    (option_map (cut k) (v_ucx f)) (option_map (cut k) (v_ucy f)) (option_map (cut k) (v_u1 f)).
(** The settings with SkipMaps [j]. *)
Definition skipping (j : Z) (st : settings) : settings :=
  let p := st_geometry st in
  mk_settings (mkParams j (gp_lake p) (gp_method p) (gp_abs p) (gp_rel p) (gp_extrapolate p))
    (st_minwidth st) (st_points st) (st_correction st) (st_base st) (st_weighing st).

(** The cross-section of one location, from the map file. *)
Definition cross_section_of nearest within inside sqrt smooth mean correction clean c file mt css dr ds regions sections
    (st : settings) (id : text) (len : num) (centre nt : nat) (f : map_file) : res (option M_Pipeline.css) :=
  m <- snd (set_fm_model_data nearest within inside c file mt f css dr ds regions sections) ;;
  s <- get_selection sqrt m id ;;
  generate_cross_section smooth mean correction clean st id len centre nt s.

(** ** The model data *)

Definition mesh_cut (k : nat) (m : mesh) : mesh :=
  mk_mesh (f_x m) (f_y m) (f_area m) (f_bed m) (f_region m) (f_islake m) (f_section m) (f_class m)
    (map (skipn k) (f_depth m)) (map (skipn k) (f_level m)) (map (skipn k) (f_vx m)) (map (skipn k) (f_vy m))
    (e_x m) (e_y m) (e_section m) (e_class m) (e_faces m) (map (skipn k) (e_chezy m)).

Lemma last_skipn k (r : list num) d : (k < length r)%nat -> last (skipn k r) d = last r d.
Proof.
  revert r. induction k as [|j IH]; intros r H; [reflexivity|]. destruct r as [|x r]; [cbn in H; lia|].
  cbn [length] in H. cbn [skipn]. rewrite IH by lia. destruct r; [cbn in H; lia|reflexivity].
Qed.
(** The model data of the shorter file are those of the whole file, with the
    results of the remaining maps: the same classes, regions and sections. *)
Lemma model_data_cut nearest within inside c file mt f css dr ds regions sections k :
  (forall time, v_time f = Some time -> (k < length time)%nat) ->
  set_fm_model_data nearest within inside c file mt (without_first k f) css dr ds regions sections =
  (fst (set_fm_model_data nearest within inside c file mt f css dr ds regions sections),
   res_map (mesh_cut k) (snd (set_fm_model_data nearest within inside c file mt f css dr ds regions sections))).
Proof.
  intro L. refine (model_data_maps nearest within inside c file mt f css dr ds regions sections (fun A => skipn k) _ _).
  - intros A B g l. apply skipn_map.
  - intros time T. apply L in T. rewrite skipn_length. split; [|split].
    + intro l. rewrite skipn_length.
      destruct (Nat.eqb_spec (length l - k) (length time - k)), (Nat.eqb_spec (length l) (length time)); auto; lia.
    + destruct (Nat.eqb_spec (length time - k) 0), (Nat.eqb_spec (length time) 0); auto; lia.
    + intros l E. apply last_skipn. lia.
Qed.

(** ** The selection and the cross-section *)

Definition selection_cut (k : nat) (s : selection) : selection :=
  mk_selection (s_x s) (s_y s) (s_area s) (s_bed s) (map (skipn k) (s_depth s)) (map (skipn k) (s_level s))
    (map (skipn k) (s_vel s)) (s_section s) (map (skipn k) (s_chezy s)) (s_region s) (s_islake s) (s_edge_faces s)
    (s_edge_x s) (s_edge_y s) (s_edge_section s).

Lemma map2_map_both {A B C A' B' C'} (g : A -> B -> C) (g' : A' -> B' -> C') (a : A -> A') (b : B -> B') (h : C -> C') l m :
  (forall x y, g' (a x) (b y) = h (g x y)) -> map2 g' (map a l) (map b m) = map h (map2 g l m).
Proof. intro H. revert m. induction l as [|x l IH]; intros [|y m]; cbn; auto. rewrite H, IH. reflexivity. Qed.
Lemma skipn_map2 {A B C} (g : A -> B -> C) k : forall l m, skipn k (map2 g l m) = map2 g (skipn k l) (skipn k m).
Proof.
  induction k as [|k IH]; intros l m; [reflexivity|]. destruct l as [|x l]; [destruct m; reflexivity|].
  destruct m as [|y m]; cbn [map2 skipn]; [destruct (skipn k l); reflexivity|apply IH].
Qed.
Lemma selection_of_cut sqrt m name k : get_selection sqrt (mesh_cut k m) name = res_map (selection_cut k) (get_selection sqrt m name).
Proof.
  unfold get_selection. cbv zeta.
  cbn [mesh_cut f_x f_y f_area f_bed f_region f_islake f_section f_class f_depth f_level f_vx f_vy e_x e_y e_section e_class e_faces e_chezy].
  rewrite !mask_index_map.
  repeat (match goal with |- bind (mask_index ?a ?b) _ = _ => destruct (mask_index a b); [|reflexivity] end; cbn [bind res_map]);
  repeat (match goal with |- bind (res_map _ (mask_index ?a ?b)) _ = _ => destruct (mask_index a b); [|reflexivity] end; cbn [bind res_map]).
  repeat (match goal with |- bind (mask_index ?a ?b) _ = _ => destruct (mask_index a b); [|reflexivity] end; cbn [bind res_map]).
  repeat (match goal with |- bind (res_map _ (mask_index ?a ?b)) _ = _ => destruct (mask_index a b); [|reflexivity] end; cbn [bind res_map]).
  match goal with |- bind ?x _ = res_map _ (bind ?x _) => destruct x; [|reflexivity] end. cbn [bind].
  repeat (match goal with |- bind (mask_index ?a ?b) _ = _ => destruct (mask_index a b); [|reflexivity] end; cbn [bind res_map]).
  unfold selection_cut. cbn [s_x s_y s_area s_bed s_depth s_level s_vel s_section s_chezy s_region s_islake s_edge_faces s_edge_x s_edge_y s_edge_section].
  f_equal. f_equal.
  - apply map2_map_both. intros x y. symmetry. apply skipn_map2.
  - apply map2_map_both. intros x y. symmetry. apply skipn_map2.
Qed.

Definition cell_cut (k : nat) (c : cell) : cell :=
  mkCell (c_area c) (c_bed c) (skipn k (c_depth c)) (skipn k (c_level c)) (skipn k (c_vel c)) (c_section c).
Lemma cells_of_cut k s : cells_of (selection_cut k s) = map (cell_cut k) (cells_of s).
Proof.
  unfold cells_of. rewrite map_map. cbn [selection_cut s_area s_bed s_depth s_level s_vel s_section].
  apply map_ext. intro i. unfold cell_cut. cbn [c_area c_bed c_depth c_level c_vel c_section].
  assert (N : forall rows : list (list num), nth i (map (skipn k) rows) [] = skipn k (nth i rows [])).
  { intro rows. rewrite <- (map_nth (skipn k) rows [] i). f_equal. symmetry. apply skipn_nil. }
  rewrite !N. reflexivity.
Qed.
Lemma skipn_min {A} k (l : list A) : skipn (Nat.min (length l) k) l = skipn k l.
Proof.
  destruct (Nat.le_ge_cases k (length l)) as [H|H]; [rewrite Nat.min_r by exact H; reflexivity|].
  rewrite Nat.min_l by exact H. rewrite !skipn_all2 by lia. reflexivity.
Qed.
Lemma skip_twice {A} k j (l : list A) : slice_from (Z.of_nat j) (skipn k l) = slice_from (Z.of_nat (k + j)) l.
Proof.
  assert (S : forall (m : list A) i, slice_from (Z.of_nat i) m = skipn i m).
  { intros m i. unfold slice_from, slice_bound. destruct (Z.ltb_spec (Z.of_nat i) 0); [lia|]. rewrite Nat2Z.id. apply skipn_min. }
  rewrite !S. clear S. revert l. induction k as [|i IH]; intro l; [reflexivity|]. destruct l as [|x l]; cbn [skipn plus]; [apply skipn_nil|apply IH].
Qed.
Lemma timeseries_cut k j row : get_timeseries (Z.of_nat j) (skipn k row) = get_timeseries (Z.of_nat (k + j)) row.
Proof. unfold get_timeseries. rewrite skip_twice. reflexivity. Qed.

Lemma geometry_cut smooth mean k j p len i cells :
  build_geometry smooth mean (mkParams (Z.of_nat j) (gp_lake p) (gp_method p) (gp_abs p) (gp_rel p) (gp_extrapolate p)) len i (map (cell_cut k) cells) =
  build_geometry smooth mean (mkParams (Z.of_nat (k + j)) (gp_lake p) (gp_method p) (gp_abs p) (gp_rel p) (gp_extrapolate p)) len i cells.
Proof.
  assert (L : map (fun c => get_timeseries (Z.of_nat j) (c_level c)) (map (cell_cut k) cells) =
              map (fun c => get_timeseries (Z.of_nat (k + j)) (c_level c)) cells)
    by (rewrite map_map; apply map_ext; intro; apply timeseries_cut).
  assert (D : map (fun c => get_timeseries (Z.of_nat j) (c_depth c)) (map (cell_cut k) cells) =
              map (fun c => get_timeseries (Z.of_nat (k + j)) (c_depth c)) cells)
    by (rewrite map_map; apply map_ext; intro; apply timeseries_cut).
  assert (V : map (fun c => get_timeseries (Z.of_nat j) (c_vel c)) (map (cell_cut k) cells) =
              map (fun c => get_timeseries (Z.of_nat (k + j)) (c_vel c)) cells)
    by (rewrite map_map; apply map_ext; intro; apply timeseries_cut).
  assert (MA : forall mk t, masked_area (map (cell_cut k) cells) mk t = masked_area cells mk t).
  { intros mk t. unfold masked_area. clear. f_equal. revert mk.
    induction cells as [|c cells IH]; intros [|b mk]; cbn; auto. f_equal. auto. }
  assert (MV : forall ds mk t, masked_volume (map (cell_cut k) cells) ds mk t = masked_volume cells ds mk t).
  { intros ds mk t. unfold masked_volume. clear. f_equal.
    revert ds mk. induction cells as [|c cells IH]; intros ds mk; destruct ds, mk; cbn; auto.
    f_equal. apply IH. }
  assert (WB : forall lv wm dz,
    wet_area_below (combine (combine (map (cell_cut k) cells) lv) wm) dz = wet_area_below (combine (combine cells lv) wm) dz).
  { intros lv wm dz. unfold wet_area_below. clear. f_equal.
    revert lv wm. induction cells as [|c cells IH]; intros [|l lv] [|b wm]; auto.
    cbn [map combine filter fst snd].
    change (depth_at_t0 (cell_cut k c) l) with (depth_at_t0 c l).
    destruct (_ && b)%bool; cbn [map fst]; [f_equal|]; apply IH. }
  assert (EX : forall e l a d lv wm kk,
    extend_css_below_z0 e l a d (combine (combine (map (cell_cut k) cells) lv) wm) kk =
    extend_css_below_z0 e l a d (combine (combine cells lv) wm) kk).
  { intros e l a d lv wm kk. unfold extend_css_below_z0. cbv zeta.
    generalize (linspace10 (nsub a (nsub a d))). intro steps.
    generalize (hd NaN (k_flow kk)). intro fa. revert kk.
    induction steps as [|x steps IH]; intro kk; [reflexivity|]. cbn [fold_left].
    unfold below_z0_step at 2 4. rewrite WB. apply IH. }
  unfold build_geometry. cbn [gp_skip gp_lake gp_method gp_abs gp_rel gp_extrapolate]. rewrite L, D, V. cbv zeta.
  destruct (fill_centre_level _ _); [|reflexivity]. cbn [bind].
  destruct (identify_lakes _ _) as [[[lk wm] cr]|]; [|reflexivity]. cbn [bind].
  rewrite (map_ext _ _ (MA wm)), (map_ext _ _ (MV _ wm)).
  match goal with |- context [masked_volume (map (cell_cut k) cells) ?d ?f] =>
    rewrite (map_ext _ _ (MV d f)), (map_ext _ _ (MA f)) end.
  repeat (match goal with |- (bind ?m _) = _ => destruct m; [|reflexivity] end; cbn [bind]).
  rewrite EX. reflexivity.
Qed.

Lemma column_cut k t rows : M_Friction.column t (map (skipn k) rows) = M_Friction.column (k + t) rows.
Proof.
  unfold M_Friction.column. rewrite map_map. apply map_ext. intro r.
  revert t r. induction k as [|j IH]; intros t r; [reflexivity|]. destruct r as [|x r]; cbn; [destruct t; reflexivity|apply IH].
Qed.
Lemma steps_cut k j nt : slice_from (Z.of_nat (k + j)) (seq 0 nt) = map (Nat.add k) (slice_from (Z.of_nat j) (seq 0 (nt - k))).
Proof.
  rewrite <- skip_twice.
  assert (E : skipn k (seq 0 nt) = map (Nat.add k) (seq 0 (nt - k))).
  { assert (G : forall n a b, skipn b (seq a n) = seq (a + b) (n - b)).
    { induction n as [|n IH]; intros a b; [cbn; destruct b; reflexivity|]. destruct b as [|b]; [cbn; f_equal; [|f_equal]; lia|].
      cbn [seq skipn]. rewrite IH. f_equal; lia. }
    rewrite G. cbn [plus]. generalize (nt - k)%nat. intro n. clear. replace (map (Nat.add k) (seq 0 n)) with (map (Nat.add k) (seq 0 n)) by auto.
    rewrite <- (Nat.add_0_r k) at 1. generalize 0%nat. induction n as [|n IH]; intro a; cbn; [reflexivity|]. f_equal.
    rewrite <- IH. f_equal. lia. }
  rewrite E. generalize (seq 0 (nt - k)). intro l. unfold slice_from, slice_bound. rewrite map_length. apply skipn_map.
Qed.
Lemma tables_cut {A} w k j nt s (z : list A) :
  build_roughness_tables w (Z.of_nat j) z (links_of (nt - k) (selection_cut k s)) =
  build_roughness_tables w (Z.of_nat (k + j)) z (links_of nt s).
Proof.
  unfold build_roughness_tables.
  change (edge_section (links_of (nt - k) (selection_cut k s))) with (edge_section (links_of nt s)).
  generalize (np_unique (edge_section (links_of nt s))), (@nil (string * table A)). intro names.
  induction names as [|x names IH]; intro tabs; [reflexivity|]. cbn [fold_res].
  assert (B : build_table w (Z.of_nat j) z (links_of (nt - k) (selection_cut k s)) x =
              build_table w (Z.of_nat (k + j)) z (links_of nt s) x).
  { unfold build_table. change (section_is x (links_of (nt - k) (selection_cut k s))) with (section_is x (links_of nt s)).
    cbn [links_of selection_cut chezy nsteps area_full edge_faces s_chezy s_edge_faces]. fold (links_of nt s).
    rewrite mask_index_map. destruct (mask_index _ (s_chezy s)) as [rows|]; [|reflexivity]. cbn [res_map bind]. rewrite steps_cut.
    destruct (Z.eqb w 0).
    - unfold friction_simple. rewrite map_map. cbn [bind]. f_equal. apply map_ext. intro t. rewrite column_cut. reflexivity.
    - destruct (Z.eqb w 1); [|reflexivity]. destruct (mask_index _ _) as [efs|]; [|reflexivity]. cbn [bind].
      unfold friction_area. destruct efs; [|reflexivity]. rewrite map_map. reflexivity. }
  rewrite B. destruct (build_table _ _ z (links_of nt s) x); [|reflexivity]. cbn [bind]. apply IH.
Qed.

Section CrossSection.
  Variable smooth : list (list num) -> list (list num).
  Variable mean : list (list num) -> nat -> num.
  Variable correction : M_Geometry.geometry -> res (num * num * num).
  Variable clean : num -> num.

  Lemma cross_section_cut st name len centre nt s k j :
    generate_cross_section smooth mean correction clean (skipping (Z.of_nat j) st) name len centre (nt - k) (selection_cut k s) =
    generate_cross_section smooth mean correction clean (skipping (Z.of_nat (k + j)) st) name len centre nt s.
  Proof.
    unfold generate_cross_section.
    change (s_x (selection_cut k s)) with (s_x s). destruct (Nat.ltb _ _); [reflexivity|].
    assert (G : build_cross_section_geometry smooth mean correction (skipping (Z.of_nat j) st) len centre (cells_of (selection_cut k s)) =
                build_cross_section_geometry smooth mean correction (skipping (Z.of_nat (k + j)) st) len centre (cells_of s)).
    { unfold build_cross_section_geometry. rewrite cells_of_cut. cbn [skipping st_geometry st_minwidth st_points st_correction].
      rewrite geometry_cut. reflexivity. }
    rewrite G. clear G. destruct (build_cross_section_geometry _ _ _ _ _ _ _) as [[[[g [[crest total] flow]] [[z tw] fw]] [[z' tw'] fw']]|]; [|reflexivity].
    cbn [bind]. cbn [skipping st_geometry st_weighing st_base gp_skip].
    rewrite tables_cut. reflexivity.
  Qed.
End CrossSection.

(** C114: skipping [k + j] maps gives the same caches and the same
    cross-sections, or the same exception, as skipping [j] maps of the file from
    which the first [k] are left out. *)
Theorem C114_skipping_is_leaving_out :
  forall nearest within inside sqrt smooth mean correction clean c file mt css dr ds regions sections st id len centre f time k j,
    v_time f = Some time -> (k < length time)%nat ->
    fst (set_fm_model_data nearest within inside c file mt (without_first k f) css dr ds regions sections) =
    fst (set_fm_model_data nearest within inside c file mt f css dr ds regions sections) /\
    cross_section_of nearest within inside sqrt smooth mean correction clean c file mt css dr ds regions sections
      (skipping (Z.of_nat j) st) id len centre (length time - k) (without_first k f) =
    cross_section_of nearest within inside sqrt smooth mean correction clean c file mt css dr ds regions sections
      (skipping (Z.of_nat (k + j)) st) id len centre (length time) f.
Proof.
  intros nearest within inside sqrt smooth mean correction clean c file mt css dr ds regions sections st id len centre f time k j T L.
  assert (R : forall time', v_time f = Some time' -> (k < length time')%nat) by (intros time' T'; congruence).
  unfold cross_section_of. rewrite (model_data_cut nearest within inside c file mt f css dr ds regions sections k R).
  cbn [fst snd]. split; [reflexivity|].
  destruct (snd (set_fm_model_data nearest within inside c file mt f css dr ds regions sections)) as [m|]; [|reflexivity].
  cbn [res_map bind]. rewrite selection_of_cut. destruct (get_selection sqrt m id) as [s|]; [|reflexivity]. cbn [res_map bind].
  apply cross_section_cut.
Qed.
Print Assumptions C114_skipping_is_leaving_out.

(** What the skipped maps contain does not matter, nor how many there are: files
    that agree after the skipped maps give the same cross-sections. *)
Theorem C114_skipped_maps_do_not_matter :
  forall nearest within inside sqrt smooth mean correction clean c file mt css dr ds regions sections st id len centre
         f g timef timeg k l,
    v_time f = Some timef -> v_time g = Some timeg -> (k < length timef)%nat -> (l < length timeg)%nat ->
    without_first k f = without_first l g ->
    cross_section_of nearest within inside sqrt smooth mean correction clean c file mt css dr ds regions sections
      (skipping (Z.of_nat k) st) id len centre (length timef) f =
    cross_section_of nearest within inside sqrt smooth mean correction clean c file mt css dr ds regions sections
      (skipping (Z.of_nat l) st) id len centre (length timeg) g.
Proof.
  intros nearest within inside sqrt smooth mean correction clean c file mt css dr ds regions sections st id len centre
    f g timef timeg k l TF TG LF LG E.
  assert (N : (length timef - k = length timeg - l)%nat).
  { assert (X : option_map (skipn k) (v_time f) = option_map (skipn l) (v_time g)).
    { change (v_time (without_first k f) = v_time (without_first l g)). rewrite E. reflexivity. }
    rewrite TF, TG in X. cbn [option_map] in X. injection X as X.
    rewrite <- !skipn_length, X. reflexivity. }
  destruct (C114_skipping_is_leaving_out nearest within inside sqrt smooth mean correction clean c file mt css dr ds regions sections
    st id len centre f timef k 0 TF LF) as [_ F].
  destruct (C114_skipping_is_leaving_out nearest within inside sqrt smooth mean correction clean c file mt css dr ds regions sections
    st id len centre g timeg l 0 TG LG) as [_ G].
  rewrite Nat.add_0_r in F, G. rewrite <- F, <- G, E, N. reflexivity.
Qed.
Print Assumptions C114_skipped_maps_do_not_matter.

(** The settings are accepted for the shorter file just when they are for the
    whole file; a warning for the whole file may be absent. *)
Theorem C114_settings_are_accepted_alike :
  forall k j n no_edge_faces w, (k < n)%nat ->
    fst (validate (Z.of_nat j) (n - k) no_edge_faces w) = fst (validate (Z.of_nat (k + j)) n no_edge_faces w) /\
    (length (snd (validate (Z.of_nat j) (n - k) no_edge_faces w)) <= length (snd (validate (Z.of_nat (k + j)) n no_edge_faces w)))%nat.
Proof.
  intros k j n e w H. unfold validate. cbv zeta. cbn [fst snd].
  destruct (Z.leb_spec (Z.of_nat (n - k)) (Z.of_nat j)), (Z.leb_spec (Z.of_nat n) (Z.of_nat (k + j))); try lia;
    [split; [reflexivity|apply Nat.le_refl]|].
  destruct (Z.ltb_spec (Z.of_nat (n - k)) (2 * Z.of_nat j)), (Z.ltb_spec (Z.of_nat n) (2 * Z.of_nat (k + j))); try lia;
    (split; [reflexivity|]); destruct (_ && _)%bool; cbn; lia.
Qed.
Print Assumptions C114_settings_are_accepted_alike.

(** A case: a first map that is all no-data is skipped or left out; without
    skipping it the cross-section is another one. *)
Definition spoiled (v : option matrix) : option matrix :=
  option_map (fun v => mk_matrix (m_points v) (repeat (Fin (-999)) (m_points v) :: m_steps v)) v.
Definition spoiled_file : map_file :=
  let f := ten_faces in
  mk_map_file (v_face_x f) (v_face_y f) (v_face_area f) (v_face_bed f) (v_face_nodes f) (v_edge_type f)
    (v_edge_x f) (v_edge_y f) (v_edge_faces f) (v_edge_nodes f) (v_node_x f) (v_node_y f)
    (option_map (cons (Fin (-60))) (v_time f)) (spoiled (v_waterdepth f)) (spoiled (v_s1 f))
    (spoiled (v_czs f)) (spoiled (v_czu f)) (spoiled (v_cftrt f))
    (spoiled (v_ucx f)) (spoiled (v_ucy f)) (spoiled (v_u1 f)).
Definition ten_faces_with (skip : Z) (nt : nat) (f : map_file) : res (option M_Pipeline.css) :=
  cross_section_of first_nearest (fun _ _ => false) (fun _ _ => false) (fun x => x) (fun x => x) (fun _ _ => Fin 0)
    (fun _ => Raise ValueError) (fun x => x) (fun _ => None) (T "map.nc") (0, 0)%Z
    (Ok (mk_columns [(0, 0)] [T "a"] [T "r"] [1] [0])) VNull VNull None None
    (skipping skip example_settings) (T "a") (Fin 10) 0 nt f.
Theorem C114_case :
  without_first 1 spoiled_file = ten_faces /\
  ten_faces_with 1 4 spoiled_file = ten_faces_with 0 3 ten_faces /\
  (exists cs, ten_faces_with 0 3 ten_faces = Ok (Some cs)) /\
  ten_faces_with 0 4 spoiled_file <> ten_faces_with 0 3 ten_faces.
Proof.
  split; [reflexivity|]. split; [|split].
  - vm_compute. reflexivity.
  - vm_compute. eexists. reflexivity.
  - vm_compute. discriminate.
Qed.
Print Assumptions C114_case.
