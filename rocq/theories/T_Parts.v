(** C119 and C120: which 2D results the parts of a cross-section depend on. *)
From Coq Require Import String List Ascii ZArith QArith Qminmax Bool Lia.
From Verif Require Import PyBase Num Text L_Text L_List M_Log M_Run M_Geometry M_Sections M_Friction M_Simplify M_Import M_Classify M_Polygon M_Cli
  M_Pipeline M_Data L_Rows T_Pipeline T_Neighbour T_Data T_Whole T_Skip T_Elsewhere.
Import ListNotations.

(** ** Specification *)

(** A map file with other Chezy values, and one with other velocities. *)
Definition with_chezy (czs czu cftrt : option matrix) (f : map_file) : map_file :=
  mk_map_file (v_face_x f) (v_face_y f) (v_face_area f) (v_face_bed f) (v_face_nodes f) (v_edge_type f) (v_edge_x f) (v_edge_y f)
    (v_edge_faces f) (v_edge_nodes f) (v_node_x f) (v_node_y f) (v_time f) (v_waterdepth f) (v_s1 f) czs czu cftrt
    (v_ucx f) (v_ucy f) (v_u1 f).
Definition with_velocities (ucx ucy u1 : option matrix) (f : map_file) : map_file :=
  mk_map_file (v_face_x f) (v_face_y f) (v_face_area f) (v_face_bed f) (v_face_nodes f) (v_edge_type f) (v_edge_x f) (v_edge_y f)
    (v_edge_faces f) (v_edge_nodes f) (v_node_x f) (v_node_y f) (v_time f) (v_waterdepth f) (v_s1 f) (v_czs f) (v_czu f) (v_cftrt f)
    ucx ucy u1.

(** The levels, widths and extra areas of two cross-sections. *)
Definition same_geometry (a b : M_Pipeline.css) : Prop :=
  s_z a = s_z b /\ s_tw a = s_tw b /\ s_fw a = s_fw b /\ s_css_z a = s_css_z b /\ s_css_tw a = s_css_tw b /\
  s_css_fw a = s_css_fw b /\ s_crest a = s_crest b /\ s_extra_total a = s_extra_total b /\ s_extra_flow a = s_extra_flow b.

(** All parts of a cross-section that are not about conveyance. *)
Definition same_storage (a b : M_Pipeline.css) : Prop :=
  s_z a = s_z b /\ s_tw a = s_tw b /\ s_css_z a = s_css_z b /\ s_css_tw a = s_css_tw b /\
  s_crest a = s_crest b /\ s_extra_total a = s_extra_total b /\ s_tables a = s_tables b /\ s_base a = s_base b /\
  s_faces a = s_faces b /\ s_links a = s_links b.

(** Two geometries with the same levels, total widths and total volumes. *)
Definition storage_cols (a b : css_cols) : Prop :=
  k_z a = k_z b /\ k_tw a = k_tw b /\ k_wet a = k_wet b /\ k_tvol a = k_tvol b /\
  length (k_fw a) = length (k_fw b) /\ length (k_flow a) = length (k_flow b) /\ length (k_fvol a) = length (k_fvol b).
Definition storage_part (a b : M_Geometry.geometry) : Prop :=
  storage_cols (g_cols a) (g_cols b) /\ g_tvol1d a = g_tvol1d b /\ length (g_fvol1d a) = length (g_fvol1d b) /\
  g_z_roughness a = g_z_roughness b.

(** The search for the dike looks at the total volumes only, for the crest and
    the extra total volume. *)
Definition total_first (correction : M_Geometry.geometry -> res (num * num * num)) : Prop :=
  forall a b, storage_part a b ->
    res_map (fun x => fst x) (correction a) = res_map (fun x => fst x) (correction b).

(** ** Geometry *)

Definition alike (c c' : cell) : Prop :=
  c_area c = c_area c' /\ c_bed c = c_bed c' /\ c_depth c = c_depth c' /\ c_level c = c_level c'.

Lemma alike_map {A} (g : cell -> A) cells cells' : (forall c c', alike c c' -> g c = g c') ->
  Forall2 alike cells cells' -> map g cells = map g cells'.
Proof. intros E F. induction F as [|c c' l l' H F IH]; [reflexivity|]. cbn [map]. rewrite IH, (E c c' H). reflexivity. Qed.
Lemma alike_area cells cells' masks t : Forall2 alike cells cells' -> masked_area cells masks t = masked_area cells' masks t.
Proof.
  intro F. unfold masked_area. f_equal. revert masks. induction F as [|c c' l l' H F IH]; intros [|m masks]; try reflexivity.
  cbn [map2]. rewrite IH. destruct H as (-> & _). reflexivity.
Qed.
Lemma alike_volume cells cells' depth masks t : Forall2 alike cells cells' ->
  masked_volume cells depth masks t = masked_volume cells' depth masks t.
Proof.
  intro F. unfold masked_volume. f_equal. revert depth masks. induction F as [|c c' l l' H F IH]; intros [|d depth] [|m masks]; try reflexivity.
  cbn [combine map2 fst snd]. rewrite IH. destruct H as (-> & _). reflexivity.
Qed.
Lemma alike_below cells cells' x y dz : Forall2 alike cells cells' ->
  wet_area_below (combine (combine cells x) y) dz = wet_area_below (combine (combine cells' x) y) dz.
Proof.
  intro F. unfold wet_area_below. f_equal. revert x y. induction F as [|c c' l l' H F IH]; intros [|a x] [|b y]; try reflexivity.
  cbn [combine filter fst snd]. specialize (IH x y). destruct H as (A & B & _). unfold depth_at_t0 at 1 3. rewrite B.
  destruct (_ && _); [|exact IH]. cbn [map fst snd]. rewrite IH, A. reflexivity.
Qed.

Lemma below_alike ex len c0 fa cells cells' l : (forall dz, wet_area_below cells dz = wet_area_below cells' dz) -> forall k,
  fold_left (below_z0_step ex len c0 fa cells) l k = fold_left (below_z0_step ex len c0 fa cells') l k.
Proof.
  intro W. induction l as [|dz l IH]; intro k; [reflexivity|]. cbn [fold_left]. rewrite IH. f_equal. unfold below_z0_step. rewrite W. reflexivity.
Qed.
Lemma below_storage ex len c0 fa fa' cells l : forall k k', storage_cols k k' ->
  storage_cols (fold_left (below_z0_step ex len c0 fa cells) l k) (fold_left (below_z0_step ex len c0 fa' cells) l k').
Proof.
  induction l as [|dz l IH]; intros k k' H; [exact H|]. cbn [fold_left]. apply IH. unfold storage_cols, below_z0_step in *.
  cbn [k_z k_tw k_fw k_wet k_flow k_fvol k_tvol length]. destruct H as (-> & -> & -> & -> & -> & -> & ->). repeat split.
Qed.
Lemma envelope_length l : length (flow_width_envelope l) = length l.
Proof.
  induction l as [|x l IH]; [reflexivity|]. cbn [flow_width_envelope length]. rewrite <- IH.
  destruct (flow_width_envelope l); reflexivity.
Qed.
Lemma cumtrapz_length y y' x acc acc' : length y = length y' -> length (cumtrapz_from acc y x) = length (cumtrapz_from acc' y' x).
Proof.
  revert y' x acc acc'. induction y as [|a y IH]; intros [|a' y'] x acc acc' L; try discriminate; [reflexivity|].
  injection L as L. destruct y as [|b y], y' as [|b' y']; try discriminate; [reflexivity|].
  destruct x as [|p [|q x]]; [reflexivity|reflexivity|].
  change (S (length (cumtrapz_from (nadd acc (ndiv (nmul (nsub q p) (nadd b a)) (Fin 2))) (b :: y) (q :: x))) =
          S (length (cumtrapz_from (nadd acc' (ndiv (nmul (nsub q p) (nadd b' a')) (Fin 2))) (b' :: y') (q :: x)))).
  f_equal. apply IH. exact L.
Qed.
Lemma mask_ok_length {A B} m (a : list A) (b : list B) : length a = length b ->
  match mask_index m a, mask_index m b with
  | Ok x, Ok y => length x = length y | Raise e, Raise e' => e = e' | _, _ => False end.
Proof.
  intro L. unfold mask_index. rewrite L. destruct (Nat.eqb _ _); [|reflexivity].
  revert m b L. induction a as [|x a IH]; intros [|[] m] [|y b] L; try discriminate; try reflexivity;
    injection L as L; cbn [select length]; [f_equal|]; apply IH; exact L.
Qed.

(** Sections do not matter for the geometry. *)
Lemma geometry_without_sections smooth mean p len centre cells cells' :
  Forall2 alike cells cells' -> map c_vel cells = map c_vel cells' ->
  build_geometry smooth mean p len centre cells = build_geometry smooth mean p len centre cells'.
Proof.
  intros F V. unfold build_geometry.
  rewrite (alike_map (fun c => get_timeseries (gp_skip p) (c_level c)) cells cells') by (auto; intros c c' (_ & _ & _ & ->); reflexivity).
  rewrite (alike_map (fun c => get_timeseries (gp_skip p) (c_depth c)) cells cells') by (auto; intros c c' (_ & _ & -> & _); reflexivity).
  replace (map (fun c => get_timeseries (gp_skip p) (c_vel c)) cells) with (map (fun c => get_timeseries (gp_skip p) (c_vel c)) cells')
    by (rewrite <- !(map_map c_vel), V; reflexivity).
  set (level := map (fun c => get_timeseries (gp_skip p) (c_level c)) cells').
  set (depth := map (fun c => get_timeseries (gp_skip p) (c_depth c)) cells').
  set (vel := map (fun c => get_timeseries (gp_skip p) (c_vel c)) cells'). clearbody level depth vel. cbv zeta.
  destruct (fill_centre_level _ _) as [cl0|]; [|reflexivity]. cbn [bind].
  destruct (identify_lakes _ _) as [[[lakes wet] corr]|]; [|reflexivity]. cbn [bind].
  rewrite !(map_ext _ _ (fun t => alike_area cells cells' _ t F)), !(map_ext _ _ (fun t => alike_volume cells cells' _ _ t F)).
  destruct (mask_index _ cl0) as [cl|]; [|reflexivity]. cbn [bind].
  destruct (mask_index _ _) as [tv|]; [|reflexivity]. cbn [bind].
  destruct (mask_index _ _) as [fv|]; [|reflexivity]. cbn [bind].
  destruct (mask_index _ _) as [w|]; [|reflexivity]. cbn [bind].
  destruct (mask_index _ _) as [fl|]; [|reflexivity]. cbn [bind].
  unfold extend_css_below_z0.
  rewrite (below_alike _ _ _ _ _ _ _ (fun dz => alike_below cells cells' _ _ dz F)). reflexivity.
Qed.

(** The end of build_geometry. *)
Definition finish (ex : bool) (len c0 : num) (cells : list (cell * num * bool)) (cl0 : list num) (k0 : css_cols) : M_Geometry.geometry :=
  let k1 := extend_css_below_z0 ex len (hd NaN (k_z k0)) c0 cells k0 in
  mkGeometry k1 (css_volume len (k_tw k1) (k_z k1)) (css_volume len (k_fw k1) (k_z k1)) cl0.
Lemma finish_storage ex len c0 cells cells' cl0 cl w tv fl fl' fv fv' :
  (forall dz, wet_area_below cells dz = wet_area_below cells' dz) -> length fv = length fv' -> length fl = length fl' ->
  storage_part (finish ex len c0 cells cl0 (compute_css_above_z0 len cl w fl tv fv))
               (finish ex len c0 cells' cl0 (compute_css_above_z0 len cl w fl' tv fv')).
Proof.
  intros W L1 L2.
  set (k0 := compute_css_above_z0 len cl w fl tv fv). set (k0' := compute_css_above_z0 len cl w fl' tv fv').
  assert (SC : storage_cols k0 k0').
  { unfold storage_cols, k0, k0', compute_css_above_z0. cbn [k_z k_tw k_fw k_wet k_flow k_fvol k_tvol].
    rewrite !envelope_length, !map_length. auto 8. }
  clearbody k0 k0'. unfold finish, extend_css_below_z0.
  assert (EZ : k_z k0 = k_z k0') by (destruct SC as (-> & _); reflexivity). rewrite EZ.
  rewrite (below_alike ex len (hd NaN (k_z k0')) (hd NaN (k_flow k0)) cells cells' _ W k0).
  generalize (linspace10 (nsub (hd NaN (k_z k0')) (nsub (hd NaN (k_z k0')) c0))). intro l.
  pose proof (below_storage ex len (hd NaN (k_z k0')) (hd NaN (k_flow k0)) (hd NaN (k_flow k0')) cells' l k0 k0' SC) as SK.
  match type of SK with storage_cols ?a ?b => generalize dependent a; generalize dependent b end. intros k2 k1 SK.
  unfold storage_part. cbn [g_cols g_tvol1d g_fvol1d g_z_roughness]. split; [exact SK|].
  destruct SK as (Z1 & Z2 & _ & _ & Z5 & _). rewrite Z1, Z2. split; [reflexivity|]. split; [|reflexivity].
  unfold css_volume. cbn [length]. rewrite !map_length. f_equal. apply cumtrapz_length. exact Z5.
Qed.

(** Velocities do not matter for the storage. *)
Lemma geometry_without_velocities smooth mean p len centre cells cells' : Forall2 alike cells cells' ->
  match build_geometry smooth mean p len centre cells, build_geometry smooth mean p len centre cells' with
  | Ok g, Ok g' => storage_part g g' | Raise e, Raise e' => e = e' | _, _ => False end.
Proof.
  intros F. unfold build_geometry.
  rewrite (alike_map (fun c => get_timeseries (gp_skip p) (c_level c)) cells cells') by (auto; intros c c' (_ & _ & _ & ->); reflexivity).
  rewrite (alike_map (fun c => get_timeseries (gp_skip p) (c_depth c)) cells cells') by (auto; intros c c' (_ & _ & -> & _); reflexivity).
  set (level := map (fun c => get_timeseries (gp_skip p) (c_level c)) cells').
  set (depth := map (fun c => get_timeseries (gp_skip p) (c_depth c)) cells').
  set (vel := map (fun c => get_timeseries (gp_skip p) (c_vel c)) cells).
  set (vel' := map (fun c => get_timeseries (gp_skip p) (c_vel c)) cells'). clearbody level depth vel vel'. cbv zeta.
  destruct (fill_centre_level _ _) as [cl0|]; [|reflexivity]. cbn [bind].
  destruct (identify_lakes _ _) as [[[lakes wet] corr]|]; [|reflexivity]. cbn [bind].
  rewrite !(map_ext _ _ (fun t => alike_area cells cells' _ t F)), !(map_ext _ _ (fun t => alike_volume cells cells' _ _ t F)).
  destruct (mask_index _ cl0) as [cl|]; [|reflexivity]. cbn [bind].
  destruct (mask_index _ _) as [tv|]; [|reflexivity]. cbn [bind].
  set (mono := check_monotonicity cl0). set (nt := length (nth centre depth [])).
  set (fm := distinguish_conveyance smooth mean (gp_method p) (gp_abs p) (gp_rel p) nt depth vel).
  set (fm' := distinguish_conveyance smooth mean (gp_method p) (gp_abs p) (gp_rel p) nt depth vel'). clearbody fm fm'.
  set (depth2 := map _ (map2 _ depth corr)).
  pose proof (mask_ok_length mono (map (masked_volume cells' depth2 fm) (seq 0 nt)) (map (masked_volume cells' depth2 fm') (seq 0 nt))
    ltac:(rewrite !map_length; reflexivity)) as L1.
  destruct (mask_index mono (map (masked_volume cells' depth2 fm) (seq 0 nt))) as [fv|],
    (mask_index mono (map (masked_volume cells' depth2 fm') (seq 0 nt))) as [fv'|]; try contradiction; [|exact L1]. cbn [bind].
  destruct (mask_index mono (map (masked_area cells' wet) (seq 0 nt))) as [w|]; [|reflexivity]. cbn [bind].
  pose proof (mask_ok_length mono (map (masked_area cells' fm) (seq 0 nt)) (map (masked_area cells' fm') (seq 0 nt))
    ltac:(rewrite !map_length; reflexivity)) as L2.
  destruct (mask_index mono (map (masked_area cells' fm) (seq 0 nt))) as [fl|],
    (mask_index mono (map (masked_area cells' fm') (seq 0 nt))) as [fl'|]; try contradiction; [|exact L2]. cbn [bind].
  exact (finish_storage _ _ _ _ _ _ _ _ _ _ _ _ _ (fun dz => alike_below cells cells' _ _ dz F) L1 L2).
Qed.

(** ** The cross-section *)

Lemma cells_alike s s' : s_area s = s_area s' -> s_bed s = s_bed s' -> s_depth s = s_depth s' -> s_level s = s_level s' ->
  Forall2 alike (M_Pipeline.cells_of s) (M_Pipeline.cells_of s').
Proof.
  intros A B D L. unfold M_Pipeline.cells_of. rewrite A, B, D, L. generalize (seq 0 (length (s_area s'))). intro is.
  induction is as [|i is IH]; [constructor|]. cbn [map]. constructor; [repeat split|exact IH].
Qed.
Lemma cells_vel s s' : s_area s = s_area s' -> s_vel s = s_vel s' ->
  map c_vel (M_Pipeline.cells_of s) = map c_vel (M_Pipeline.cells_of s').
Proof. intros A V. unfold M_Pipeline.cells_of. rewrite !map_map, A, V. reflexivity. Qed.

Section Parts.
  Variable smooth : list (list num) -> list (list num).
  Variable mean : list (list num) -> nat -> num.
  Variable correction : M_Geometry.geometry -> res (num * num * num).
  Variable clean : num -> num.
  Notation generate := (generate_cross_section smooth mean correction clean).

  (** Chezy values and sections do not matter for the geometry. *)
  Lemma generate_geometry st id len centre nt s s' cs cs' :
    M_Import.s_x s = M_Import.s_x s' -> s_area s = s_area s' -> s_bed s = s_bed s' -> s_depth s = s_depth s' -> s_level s = s_level s' ->
    s_vel s = s_vel s' -> generate st id len centre nt s = Ok (Some cs) -> generate st id len centre nt s' = Ok (Some cs') ->
    same_geometry cs cs'.
  Proof.
    intros X A B D L V E E'. unfold generate_cross_section in E, E'. rewrite X in E. destruct (Nat.ltb _ 10); [discriminate|].
    assert (G : build_cross_section_geometry smooth mean correction st len centre (M_Pipeline.cells_of s) =
                build_cross_section_geometry smooth mean correction st len centre (M_Pipeline.cells_of s')).
    { unfold build_cross_section_geometry.
      rewrite (geometry_without_sections smooth mean (st_geometry st) len centre _ _ (cells_alike s s' A B D L) (cells_vel s s' A V)). reflexivity. }
    rewrite G in E. clear G.
    destruct (build_cross_section_geometry _ _ _ _ _ _ _) as [[[[g [[cr to] fl]] [[z tw] fw]] [[z' tw'] fw']]|]; [|discriminate].
    cbn [bind] in E, E'.
    destruct (build_roughness_tables _ _ _ (links_of nt s)) as [tb|]; [|discriminate].
    destruct (build_roughness_tables _ _ _ (links_of nt s')) as [tb'|]; [|discriminate]. cbn [bind] in E, E'.
    destruct (nsection_widths len (s_area s) _ _ _) as [w|]; [|discriminate].
    destruct (nsection_widths len (s_area s') _ _ _) as [w'|]; [|discriminate]. cbn [bind] in E, E'.
    destruct (compute_floodplain_base _ _ (s_bed s) _) as [b|]; [|discriminate].
    destruct (compute_floodplain_base _ _ (s_bed s') _) as [b'|]; [|discriminate]. cbn [bind] in E, E'.
    injection E as <-. injection E' as <-. repeat split.
  Qed.

  (** Chezy values alone change the roughness tables only. *)
  Definition with_tables (tb : list (string * table num)) (c : M_Pipeline.css) : M_Pipeline.css :=
    mk_css (s_name c) (M_Pipeline.s_z c) (s_tw c) (s_fw c) (s_css_z c) (s_css_tw c) (s_css_fw c) (s_crest c) (s_extra_total c)
      (s_extra_flow c) tb (s_widths c) (s_base c) (s_faces c) (s_links c).
  Definition selection_with_chezy (ch : list (list num)) (s : selection) : selection :=
    mk_selection (M_Import.s_x s) (s_y s) (s_area s) (s_bed s) (s_depth s) (s_level s) (s_vel s) (s_section s) ch (s_region s)
      (s_islake s) (s_edge_faces s) (s_edge_x s) (s_edge_y s) (s_edge_section s).
  Lemma generate_tables st id len centre nt s ch cs cs' :
    generate st id len centre nt s = Ok (Some cs) -> generate st id len centre nt (selection_with_chezy ch s) = Ok (Some cs') ->
    cs' = with_tables (s_tables cs') cs.
  Proof.
    intros E E'. unfold generate_cross_section in E, E'.
    change (M_Pipeline.cells_of (selection_with_chezy ch s)) with (M_Pipeline.cells_of s) in E'.
    change (face_output_list clean id (selection_with_chezy ch s)) with (face_output_list clean id s) in E'.
    change (edge_output_list clean id (selection_with_chezy ch s)) with (edge_output_list clean id s) in E'.
    cbn [selection_with_chezy M_Import.s_x s_area s_bed s_section] in E'. destruct (Nat.ltb _ 10); [discriminate|].
    destruct (build_cross_section_geometry _ _ _ _ _ _ _) as [[[[g [[cr to] fl]] [[z tw] fw]] [[z' tw'] fw']]|]; [|discriminate].
    cbn [bind] in E, E'.
    destruct (build_roughness_tables _ _ _ (links_of nt s)) as [tb|]; [|discriminate].
    destruct (build_roughness_tables _ _ _ (links_of nt (selection_with_chezy ch s))) as [tb'|]; [|discriminate]. cbn [bind] in E, E'.
    destruct (nsection_widths len (s_area s) _ _ _) as [w|]; [|discriminate]. cbn [bind] in E, E'.
    destruct (compute_floodplain_base _ _ (s_bed s) _) as [b|]; [|discriminate]. cbn [bind] in E, E'.
    injection E as <-. injection E' as <-. reflexivity.
  Qed.

  (** Velocities do not matter for the storage. *)
  Definition selection_with_velocities (v : list (list num)) (s : selection) : selection :=
    mk_selection (M_Import.s_x s) (s_y s) (s_area s) (s_bed s) (s_depth s) (s_level s) v (s_section s) (s_chezy s) (s_region s)
      (s_islake s) (s_edge_faces s) (s_edge_x s) (s_edge_y s) (s_edge_section s).

  Definition same3 (a b : list num * list num * list num) : Prop :=
    fst (fst a) = fst (fst b) /\ snd (fst a) = snd (fst b) /\ length (snd a) = length (snd b).
  Definition both {A} (R : A -> A -> Prop) (x y : res A) : Prop :=
    match x, y with Ok a, Ok b => R a b | Raise e, Raise e' => e = e' | _, _ => False end.

  Lemma increasing_length l : length (check_increasing_order l) = length l.
  Proof.
    destruct l as [|x l]; [reflexivity|]. cbn [check_increasing_order length]. f_equal. revert x.
    induction l as [|y l IH]; intro x; [reflexivity|]. cbn [increasing_sweep length]. f_equal. apply IH.
  Qed.
  Lemma map2_length' {A B C} (f : A -> B -> C) a : forall b, length (map2 f a b) = Nat.min (length a) (length b).
  Proof. induction a as [|x a IH]; intros [|y b]; cbn [map2 length Nat.min]; [reflexivity..|]. f_equal. apply IH. Qed.
  Lemma requirements_same mw z tw fw fw' : length fw = length fw' ->
    both same3 (check_requirements mw z tw fw) (check_requirements mw z tw fw').
  Proof.
    intro L. unfold check_requirements. destruct (check_remove_duplicate_zeroes tw); [|reflexivity]. cbn [bind both].
    repeat split; cbn [fst snd]. unfold check_total_ge_flow. rewrite !map2_length', !increasing_length.
    unfold check_remove_zero_widths. rewrite !map_length, L. reflexivity.
  Qed.
  Lemma reduce_same n a b : same3 a b -> both same3 (reduce_css_points n a) (reduce_css_points n b).
  Proof.
    destruct a as [[z tw] fw], b as [[z' tw'] fw']. unfold same3. cbn [fst snd]. intros (-> & -> & L).
    assert (R : both same3 (reduce_points n z' tw' fw) (reduce_points n z' tw' fw')).
    { unfold reduce_points. destruct (zip_points z' tw') as [pts|]; [|reflexivity]. cbn [bind].
      match goal with |- context [bind ?e _] => destruct e as [[mask|]|] end; [|reflexivity|reflexivity]. cbn [bind].
      destruct (mask_index mask z') as [z2|]; [|reflexivity]. cbn [bind]. destruct (mask_index mask tw') as [tw2|]; [|reflexivity]. cbn [bind].
      pose proof (mask_ok_length mask fw fw' L) as M. destruct (mask_index mask fw), (mask_index mask fw'); try contradiction; cbn [bind both].
      - repeat split; exact M.
      - exact M. }
    unfold reduce_css_points. destruct (reduce_points n z' tw' fw) as [x|e], (reduce_points n z' tw' fw') as [y|e']; cbn [both] in R; try contradiction.
    - exact R.
    - subst e'. destruct e; cbn [both]; try reflexivity; repeat split.
  Qed.

  Lemma generate_storage st id len centre nt s v cs cs' : total_first correction ->
    generate st id len centre nt s = Ok (Some cs) -> generate st id len centre nt (selection_with_velocities v s) = Ok (Some cs') ->
    same_storage cs cs'.
  Proof.
    intros TF E E'. unfold generate_cross_section in E, E'.
    change (links_of nt (selection_with_velocities v s)) with (links_of nt s) in E'.
    change (face_output_list clean id (selection_with_velocities v s)) with (face_output_list clean id s) in E'.
    change (edge_output_list clean id (selection_with_velocities v s)) with (edge_output_list clean id s) in E'.
    pose proof (geometry_without_velocities smooth mean (st_geometry st) len centre (M_Pipeline.cells_of s)
      (M_Pipeline.cells_of (selection_with_velocities v s))
      (cells_alike s (selection_with_velocities v s) eq_refl eq_refl eq_refl eq_refl)) as G.
    generalize dependent (M_Pipeline.cells_of (selection_with_velocities v s)). intros cells' E' G.
    cbn [selection_with_velocities M_Import.s_x s_area s_bed s_section] in E'. destruct (Nat.ltb _ 10); [discriminate|].
    unfold build_cross_section_geometry in E, E'.
    destruct (build_geometry smooth mean (st_geometry st) len centre (M_Pipeline.cells_of s)) as [g|]; [|discriminate].
    destruct (build_geometry smooth mean (st_geometry st) len centre cells') as [g'|]; [|discriminate].
    cbn [bind] in E, E'. pose proof (TF g g' G) as C. destruct G as ((Z1 & Z2 & _ & _ & Z5 & _) & _ & _ & ZR).
    rewrite Z1, Z2 in E.
    pose proof (requirements_same (st_minwidth st) (k_z (g_cols g')) (k_tw (g_cols g')) _ _ Z5) as RQ.
    destruct (check_requirements _ _ _ (k_fw (g_cols g))) as [full|]; [|discriminate].
    destruct (check_requirements _ _ _ (k_fw (g_cols g'))) as [full'|]; [|discriminate]. cbn [bind both] in *.
    pose proof (reduce_same (st_points st) full full' RQ) as RD.
    destruct (reduce_css_points (st_points st) full) as [red|]; [|discriminate].
    destruct (reduce_css_points (st_points st) full') as [red'|]; [|discriminate]. cbn [bind both] in *.
    assert (PC : fst (perform_correction correction (st_correction st) g len) = fst (perform_correction correction (st_correction st) g' len)).
    { unfold perform_correction. destruct (st_correction st); [|reflexivity].
      destruct (correction g) as [[[c1 t1] f1]|], (correction g') as [[[c2 t2] f2]|]; cbn [res_map fst] in C; try discriminate; [|reflexivity].
      injection C as -> ->. reflexivity. }
    destruct (perform_correction correction (st_correction st) g len) as [[cr to] fl].
    destruct (perform_correction correction (st_correction st) g' len) as [[cr' to'] fl']. cbn [fst] in PC. injection PC as -> ->.
    destruct full as [[z tw] fw], full' as [[z' tw'] fw'], red as [[a b] c], red' as [[a' b'] c'].
    destruct RQ as (Q1 & Q2 & _), RD as (D1 & D2 & _). cbn [fst snd] in Q1, Q2, D1, D2. subst z' tw' a' b'.
    rewrite ZR in E. destruct (build_roughness_tables _ _ _ (links_of nt s)) as [tb|]; [|discriminate]. cbn [bind] in E, E'.
    destruct (nsection_widths len (s_area s) _ c fw) as [w|]; [|discriminate].
    destruct (nsection_widths len (s_area s) _ c' fw') as [w'|]; [|discriminate]. cbn [bind] in E, E'.
    destruct (compute_floodplain_base _ _ (s_bed s) _) as [bs|]; [|discriminate]. cbn [bind] in E, E'.
    injection E as <-. injection E' as <-. repeat split.
  Qed.
End Parts.

(** ** From the map file *)

Section Whole.
  Variable nearest : list point -> point -> nat.
  Variable within : ring -> point -> bool.
  Variable inside : ring -> point -> bool.
  Variable sqrt : num -> num.

  Lemma data_import c file mt f css dr ds regions sections m :
    snd (set_fm_model_data nearest within inside c file mt f css dr ds regions sections) = Ok m ->
    exists t l td, import_dflow2d f = Ok (t, l, td).
  Proof. unfold set_fm_model_data. destruct (import_dflow2d f) as [[[t l] td]|]; [eauto|discriminate]. Qed.

  Lemma import_velocities f ucx ucy u1 t l td t' l' td' : import_dflow2d f = Ok (t, l, td) ->
    import_dflow2d (with_velocities ucx ucy u1 f) = Ok (t', l', td') ->
    t' = t /\ l' = l /\ d_depth td' = d_depth td /\ d_level td' = d_level td /\ d_chezy_mean td' = d_chezy_mean td /\
    d_chezy_edge td' = d_chezy_edge td.
  Proof.
    unfold import_dflow2d. intros H H'.
    change (import_faces (with_velocities ucx ucy u1 f)) with (import_faces f) in H'.
    change (v_edge_type (with_velocities ucx ucy u1 f)) with (v_edge_type f) in H'.
    destruct (import_faces f) as [t0|]; [|discriminate]. cbn [bind] in H, H'.
    destruct (variable (v_edge_type f)) as [ty|]; [|discriminate]. cbn [bind] in H, H'.
    change (import_edges (with_velocities ucx ucy u1 f)) with (import_edges f) in H'.
    change (import_nodes (with_velocities ucx ucy u1 f)) with (import_nodes f) in H'.
    destruct (import_edges f _) as [l0|]; [|discriminate]. cbn [bind] in H, H'.
    destruct (import_nodes f) as [n0|]; [|discriminate]. cbn [bind] in H, H'.
    destruct (import_results f _) as [r|] eqn:R; [|discriminate]. destruct (import_results (with_velocities _ _ _ f) _) as [r'|] eqn:R'; [|discriminate].
    cbn [bind] in H, H'. injection H as <- <- <-. injection H' as <- <- <-. split; [reflexivity|]. split; [reflexivity|].
    unfold import_results in R, R'.
    change (import_frame (with_velocities ucx ucy u1 f)) with (import_frame f) in R'.
    change (import_chezy (with_velocities ucx ucy u1 f)) with (import_chezy f) in R'.
    cbn [with_velocities v_waterdepth v_s1 v_czs v_ucx v_ucy v_u1] in R'.
    destruct (import_frame f (v_waterdepth f)); [|discriminate]. cbn [bind] in R, R'.
    destruct (import_frame f (v_s1 f)); [|discriminate]. cbn [bind] in R, R'.
    destruct (import_frame f (v_czs f)); [|discriminate]. cbn [bind] in R, R'.
    destruct (import_chezy f _); [|discriminate]. cbn [bind] in R, R'.
    destruct (import_frame f (v_ucx f)); [|discriminate]. destruct (import_frame f ucx); [|discriminate]. cbn [bind] in R, R'.
    destruct (import_frame f (v_ucy f)); [|discriminate]. destruct (import_frame f ucy); [|discriminate]. cbn [bind] in R, R'.
    destruct (import_frame f (v_u1 f)); [|discriminate]. destruct (import_frame f u1); [|discriminate]. cbn [bind] in R, R'.
    injection R as <-. injection R' as <-. repeat split.
  Qed.

  Lemma import_chezys f czs czu cftrt t l td t' l' td' : import_dflow2d f = Ok (t, l, td) ->
    import_dflow2d (with_chezy czs czu cftrt f) = Ok (t', l', td') ->
    t' = t /\ l' = l /\ d_depth td' = d_depth td /\ d_level td' = d_level td /\ d_vx td' = d_vx td /\ d_vy td' = d_vy td.
  Proof.
    unfold import_dflow2d. intros H H'.
    change (import_faces (with_chezy czs czu cftrt f)) with (import_faces f) in H'.
    change (v_edge_type (with_chezy czs czu cftrt f)) with (v_edge_type f) in H'.
    destruct (import_faces f) as [t0|]; [|discriminate]. cbn [bind] in H, H'.
    destruct (variable (v_edge_type f)) as [ty|]; [|discriminate]. cbn [bind] in H, H'.
    change (import_edges (with_chezy czs czu cftrt f)) with (import_edges f) in H'.
    change (import_nodes (with_chezy czs czu cftrt f)) with (import_nodes f) in H'.
    destruct (import_edges f _) as [l0|]; [|discriminate]. cbn [bind] in H, H'.
    destruct (import_nodes f) as [n0|]; [|discriminate]. cbn [bind] in H, H'.
    destruct (import_results f _) as [r|] eqn:R; [|discriminate]. destruct (import_results (with_chezy _ _ _ f) _) as [r'|] eqn:R'; [|discriminate].
    cbn [bind] in H, H'. injection H as <- <- <-. injection H' as <- <- <-. split; [reflexivity|]. split; [reflexivity|].
    unfold import_results in R, R'.
    change (import_frame (with_chezy czs czu cftrt f)) with (import_frame f) in R'.
    cbn [with_chezy v_waterdepth v_s1 v_czs v_ucx v_ucy v_u1] in R'.
    destruct (import_frame f (v_waterdepth f)); [|discriminate]. cbn [bind] in R, R'.
    destruct (import_frame f (v_s1 f)); [|discriminate]. cbn [bind] in R, R'.
    destruct (import_frame f (v_czs f)); [|discriminate]. destruct (import_frame f czs); [|discriminate]. cbn [bind] in R, R'.
    destruct (import_chezy f _); [|discriminate]. destruct (import_chezy (with_chezy _ _ _ f) _); [|discriminate]. cbn [bind] in R, R'.
    destruct (import_frame f (v_ucx f)); [|discriminate]. cbn [bind] in R, R'.
    destruct (import_frame f (v_ucy f)); [|discriminate]. cbn [bind] in R, R'.
    destruct (import_frame f (v_u1 f)); [|discriminate]. cbn [bind] in R, R'.
    injection R as <-. injection R' as <-. repeat split.
  Qed.

  (** The model data with other Chezy values: only the sections and the Chezy
      values differ. *)
  Definition same_but_roughness (m m' : mesh) : Prop :=
    f_x m = f_x m' /\ f_area m = f_area m' /\ f_bed m = f_bed m' /\ f_class m = f_class m' /\ f_depth m = f_depth m' /\
    f_level m = f_level m' /\ f_vx m = f_vx m' /\ f_vy m = f_vy m'.
  Lemma data_chezy c file mt f css dr ds regions sections czs czu cftrt m m' :
    snd (set_fm_model_data nearest within inside c file mt f css dr ds regions sections) = Ok m ->
    snd (set_fm_model_data nearest within inside c file mt (with_chezy czs czu cftrt f) css dr ds regions sections) = Ok m' ->
    same_but_roughness m m'.
  Proof.
    intros H H'. destruct (data_import _ _ _ _ _ _ _ _ _ _ H) as (t & l & td & I). destruct (data_import _ _ _ _ _ _ _ _ _ _ H') as (t' & l' & td' & I').
    destruct (import_chezys f czs czu cftrt t l td t' l' td' I I') as (-> & -> & D1 & D2 & D3 & D4).
    unfold set_fm_model_data in H, H'. rewrite I in H. rewrite I' in H'. clear I I'. cbv zeta in H, H'.
    destruct css as [d|]; [|discriminate].
    assert (K : forall polys secs,
      snd (let a := assign_classes nearest within inside c file mt f (c_xy d) (c_id d) dr polys t l in
        match snd a with
        | Raise e => (fst a, Raise e)
        | Ok (t1, l1) =>
            let steps := match v_time f with Some time => length time | None => O end in
            let s := assign_sections inside (fst a) file mt f steps ds secs td t1 l1 in
            (fst s, tl <- snd s ;; mesh_of (fst tl) (snd tl) td)
        end) = Ok m ->
      snd (let a := assign_classes nearest within inside c file mt f (c_xy d) (c_id d) dr polys t l in
        match snd a with
        | Raise e => (fst a, Raise e)
        | Ok (t1, l1) =>
            let steps := match v_time f with Some time => length time | None => O end in
            let s := assign_sections inside (fst a) file mt f steps ds secs td' t1 l1 in
            (fst s, tl <- snd s ;; mesh_of (fst tl) (snd tl) td')
        end) = Ok m' -> same_but_roughness m m').
    { clear H H'. intros polys secs. cbv zeta.
      destruct (snd (assign_classes nearest within inside c file mt f (c_xy d) (c_id d) dr polys t l)) as [[t1 l1]|]; [|discriminate].
      set (c1 := fst (assign_classes _ _ _ _ _ _ _ _ _ _ _ _ _)). clearbody c1.
      set (steps := match v_time f with Some time => length time | None => 0%nat end). clearbody steps.
      assert (KEEP : forall r t2 l2, snd (assign_sections inside c1 file mt f steps ds secs r t1 l1) = Ok (t2, l2) ->
        t_x t2 = t_x t1 /\ t_area t2 = t_area t1 /\ t_bed t2 = t_bed t1 /\ t_class t2 = t_class t1).
      { intros r t2 l2 E. unfold assign_sections in E. destruct secs as [ps|]; cbn [snd] in E.
        - destruct (snd (classify_grid _ _ _ _ _ _ _ _)) as [lb|]; [|discriminate]. cbn [bind] in E.
          destruct (column _ _) as [fr|]; [|discriminate]. cbn [bind] in E. injection E as <- _. repeat split.
        - destruct (end_values steps (d_chezy_edge r)); [|discriminate]. cbn [bind] in E.
          destruct (classify_by_variance (T "1") _ _ _); [|discriminate]. cbn [bind] in E.
          destruct (end_values steps (d_chezy_mean r)); [|discriminate]. cbn [bind] in E.
          destruct (classify_by_variance (M_Geometry.LInt 1) _ _ _); [|discriminate]. cbn [bind] in E. injection E as <- _. repeat split. }
      cbn [snd]. destruct (snd (assign_sections inside c1 file mt f steps ds secs td t1 l1)) as [[t2 l2]|] eqn:E2; [|discriminate].
      destruct (snd (assign_sections inside c1 file mt f steps ds secs td' t1 l1)) as [[t3 l3]|] eqn:E3; [|discriminate].
      destruct (KEEP _ _ _ E2) as (A1 & A2 & A3 & A4), (KEEP _ _ _ E3) as (B1 & B2 & B3 & B4). cbn [bind fst snd]. unfold mesh_of. intros H H'.
      destruct (variable (l_x l2)); [|discriminate]. destruct (variable (l_y l2)); [|discriminate]. cbn [bind] in H. injection H as <-.
      destruct (variable (l_x l3)); [|discriminate]. destruct (variable (l_y l3)); [|discriminate]. cbn [bind] in H'. injection H' as <-.
      unfold same_but_roughness. cbn [f_x f_area f_bed f_class f_depth f_level f_vx f_vy].
      rewrite A1, A2, A3, A4, B1, B2, B3, B4, D1, D2, D3, D4. repeat split. }
    destruct regions as [[rs|]|]; [|discriminate|]; destruct sections as [[ss|]|]; try discriminate; revert H H'.
    - exact (K (Some rs) (Some ss)).
    - exact (K (Some rs) None).
    - exact (K None (Some ss)).
    - exact (K None None).
  Qed.

  Lemma selection_chezy m m' id s s' : same_but_roughness m m' -> get_selection sqrt m id = Ok s -> get_selection sqrt m' id = Ok s' ->
    M_Import.s_x s = M_Import.s_x s' /\ s_area s = s_area s' /\ s_bed s = s_bed s' /\ s_depth s = s_depth s' /\ s_level s = s_level s' /\
    s_vel s = s_vel s'.
  Proof.
    intros (X & A & B & C & D & L & VX & VY). unfold get_selection. cbv zeta. rewrite X, A, B, C, D, L, VX, VY. intros H H'.
    repeat (match type of H with bind ?e _ = _ => destruct e; [|discriminate H] end; cbn [bind] in H, H').
    repeat (match type of H' with bind (Ok _) _ = _ => cbn [bind] in H' | bind ?e _ = _ => destruct e; [|discriminate H'] end; cbn [bind] in H').
    injection H as <-. injection H' as <-. repeat split.
  Qed.
End Whole.

(** C119: other Chezy values give the same levels, widths and dike. *)
Theorem C119_roughness_does_not_change_the_geometry_partial :
  forall nearest within inside sqrt smooth mean correction clean c file mt css dr ds regions sections st id len centre nt f czs czu cftrt cs cs',
    cross_section_of nearest within inside sqrt smooth mean correction clean c file mt css dr ds regions sections st id len centre nt f = Ok (Some cs) ->
    cross_section_of nearest within inside sqrt smooth mean correction clean c file mt css dr ds regions sections st id len centre nt
      (with_chezy czs czu cftrt f) = Ok (Some cs') ->
    same_geometry cs cs'.
Proof.
  intros nearest within inside sqrt smooth mean correction clean c file mt css dr ds regions sections st id len centre nt f czs czu cftrt cs cs' H H'.
  unfold cross_section_of in H, H'.
  destruct (snd (set_fm_model_data nearest within inside c file mt f css dr ds regions sections)) as [m|] eqn:E; [|discriminate].
  destruct (snd (set_fm_model_data _ _ _ _ _ _ (with_chezy _ _ _ f) _ _ _ _ _)) as [m'|] eqn:E'; [|discriminate]. cbn [bind] in H, H'.
  destruct (get_selection sqrt m id) as [s|] eqn:G; [|discriminate]. destruct (get_selection sqrt m' id) as [s'|] eqn:G'; [|discriminate].
  cbn [bind] in H, H'.
  destruct (selection_chezy sqrt m m' id s s' (data_chezy nearest within inside c file mt f css dr ds regions sections czs czu cftrt m m' E E') G G')
    as (X & A & B & D & L & V).
  exact (generate_geometry smooth mean correction clean st id len centre nt s s' cs cs' X A B D L V H H').
Qed.
Print Assumptions C119_roughness_does_not_change_the_geometry_partial.

(** With section polygons nothing but the roughness tables is different. *)
Theorem C119_section_polygons_partial :
  forall nearest within inside sqrt smooth mean correction clean c file mt css dr ds regions sections st id len centre nt f czs czu cftrt cs cs',
    sections <> None ->
    cross_section_of nearest within inside sqrt smooth mean correction clean c file mt css dr ds regions sections st id len centre nt f = Ok (Some cs) ->
    cross_section_of nearest within inside sqrt smooth mean correction clean c file mt css dr ds regions sections st id len centre nt
      (with_chezy czs czu cftrt f) = Ok (Some cs') ->
    cs' = with_tables (s_tables cs') cs.
Proof.
  intros nearest within inside sqrt smooth mean correction clean c file mt css dr ds regions sections st id len centre nt f czs czu cftrt cs cs' S H H'.
  unfold cross_section_of in H, H'.
  destruct (snd (set_fm_model_data nearest within inside c file mt f css dr ds regions sections)) as [m|] eqn:E; [|discriminate].
  destruct (snd (set_fm_model_data _ _ _ _ _ _ (with_chezy _ _ _ f) _ _ _ _ _)) as [m'|] eqn:E'; [|discriminate]. cbn [bind] in H, H'.
  destruct (data_import _ _ _ _ _ _ _ _ _ _ _ _ _ E) as (t & l & td & I). destruct (data_import _ _ _ _ _ _ _ _ _ _ _ _ _ E') as (t' & l' & td' & I').
  destruct (import_chezys f czs czu cftrt t l td t' l' td' I I') as (-> & -> & D1 & D2 & D3 & D4).
  destruct (model_data_elsewhere nearest within inside c file mt f (with_chezy czs czu cftrt f) css dr ds regions sections t t l l td td' I I'
    ltac:(repeat split) (or_introl S)) as [R K].
  destruct (K m E) as (K1 & K2 & K3 & K4 & K5 & K6 & K7). clear K.
  apply (f_equal snd) in R. cbn [snd] in R. rewrite E, E' in R. cbn [res_map] in R. injection R as R. clear E E'.
  destruct (get_selection sqrt m id) as [s|] eqn:G; [|discriminate]. destruct (get_selection sqrt m' id) as [s'|] eqn:G'; [|discriminate].
  cbn [bind] in H, H'.
  assert (W : s' = selection_with_chezy (s_chezy s') s).
  { unfold get_selection in G, G'. cbv zeta in G, G'. subst m'. unfold with_results in G'.
    cbn [f_x f_y f_area f_bed f_region f_islake f_section f_class f_depth f_level f_vx f_vy e_x e_y e_section e_class e_faces e_chezy] in G'.
    rewrite D1, D2, D3, D4 in G'. rewrite K1, K2, K3, K4, K5, K6 in G.
    repeat (match type of G with bind ?e _ = _ => destruct e; [|discriminate G] end; cbn [bind] in G, G').
    repeat (match type of G' with bind (Ok _) _ = _ => cbn [bind] in G' | bind ?e _ = _ => destruct e; [|discriminate G'] end; cbn [bind] in G').
    injection G as <-. injection G' as <-. reflexivity. }
  rewrite W in H'. exact (generate_tables smooth mean correction clean st id len centre nt s _ cs cs' H H').
Qed.
Print Assumptions C119_section_polygons_partial.

(** C120: other velocities give the same levels, total widths, crest, extra
    total area, roughness, base level and points. *)
Theorem C120_velocities_do_not_change_the_storage_partial :
  forall nearest within inside sqrt smooth mean correction clean c file mt css dr ds regions sections st id len centre nt f ucx ucy u1 cs cs',
    total_first correction ->
    cross_section_of nearest within inside sqrt smooth mean correction clean c file mt css dr ds regions sections st id len centre nt f = Ok (Some cs) ->
    cross_section_of nearest within inside sqrt smooth mean correction clean c file mt css dr ds regions sections st id len centre nt
      (with_velocities ucx ucy u1 f) = Ok (Some cs') ->
    same_storage cs cs'.
Proof.
  intros nearest within inside sqrt smooth mean correction clean c file mt css dr ds regions sections st id len centre nt f ucx ucy u1 cs cs' TF H H'.
  unfold cross_section_of in H, H'.
  destruct (snd (set_fm_model_data nearest within inside c file mt f css dr ds regions sections)) as [m|] eqn:E; [|discriminate].
  destruct (snd (set_fm_model_data _ _ _ _ _ _ (with_velocities _ _ _ f) _ _ _ _ _)) as [m'|] eqn:E'; [|discriminate]. cbn [bind] in H, H'.
  destruct (data_import _ _ _ _ _ _ _ _ _ _ _ _ _ E) as (t & l & td & I). destruct (data_import _ _ _ _ _ _ _ _ _ _ _ _ _ E') as (t' & l' & td' & I').
  destruct (import_velocities f ucx ucy u1 t l td t' l' td' I I') as (-> & -> & D1 & D2 & D3 & D4).
  assert (LC : last_chezy td' = last_chezy td) by (unfold last_chezy; rewrite D3, D4; reflexivity).
  destruct (model_data_elsewhere nearest within inside c file mt f (with_velocities ucx ucy u1 f) css dr ds regions sections t t l l td td' I I'
    ltac:(repeat split) (or_intror LC)) as [R K].
  destruct (K m E) as (K1 & K2 & K3 & K4 & K5 & K6 & K7). clear K.
  apply (f_equal snd) in R. cbn [snd] in R. rewrite E, E' in R. cbn [res_map] in R. injection R as R. clear E E'.
  destruct (get_selection sqrt m id) as [s|] eqn:G; [|discriminate]. destruct (get_selection sqrt m' id) as [s'|] eqn:G'; [|discriminate].
  cbn [bind] in H, H'.
  assert (W : s' = selection_with_velocities (s_vel s') s).
  { unfold get_selection in G, G'. cbv zeta in G, G'. subst m'. unfold with_results in G'.
    cbn [f_x f_y f_area f_bed f_region f_islake f_section f_class f_depth f_level f_vx f_vy e_x e_y e_section e_class e_faces e_chezy] in G'.
    rewrite D1, D2, D4 in G'. rewrite K1, K2, K3, K4, K7 in G.
    repeat (match type of G with bind ?e _ = _ => destruct e; [|discriminate G] end; cbn [bind] in G, G').
    repeat (match type of G' with bind (Ok _) _ = _ => cbn [bind] in G' | bind ?e _ = _ => destruct e; [|discriminate G'] end; cbn [bind] in G').
    injection G as <-. injection G' as <-. reflexivity. }
  rewrite W in H'. exact (generate_storage smooth mean correction clean st id len centre nt s _ cs cs' TF H H').
Qed.
Print Assumptions C120_velocities_do_not_change_the_storage_partial.

(** ** Cases *)

(** The ten faces of C80 with other Chezy values and with other velocities. *)
Definition case_at (sections : option (res (list polygon))) (f : map_file) : res (option M_Pipeline.css) :=
  cross_section_of first_nearest (fun _ _ => false) (fun _ _ => false) (fun x => x) (fun x => x) (fun _ _ => Fin 0)
    (fun _ => Raise ValueError) (fun x => x) (fun _ => None) (T "map.nc") (0, 0)%Z
    (Ok (mk_columns [(0, 0)] [T "a"] [T "r"] [1] [0])) VNull (VStr (T "main")) None sections example_settings (T "a") (Fin 10) 0 3 f.
Definition other_chezy : map_file :=
  with_chezy (row_matrix 10 (fun t i => if Nat.eqb i 0 then 90 else 30)) (row_matrix 1 (fun t i => 25)) None ten_faces.
Definition slow_side : map_file :=
  with_velocities (row_matrix 10 (fun t i => if Nat.ltb i 2 then 1 else 0)) (row_matrix 10 (fun t i => 0)) (row_matrix 1 (fun t i => 1)) ten_faces.
Definition ask {A} (g : M_Pipeline.css -> A) (d : A) (r : res (option M_Pipeline.css)) : A :=
  match r with Ok (Some c) => g c | _ => d end.

(** Without section polygons a Chezy value changes the section widths. *)
Theorem C119_section_widths_refuted :
  exists cs cs', case_at None ten_faces = Ok (Some cs) /\ case_at None other_chezy = Ok (Some cs') /\
    neqb (nw_main (s_widths cs)) (Fin 10) = true /\ neqb (nw_main (s_widths cs')) (Fin (21 # 10)) = true.
Proof. do 2 eexists. split; [vm_compute; reflexivity|]. split; [vm_compute; reflexivity|]. split; vm_compute; reflexivity. Qed.
Print Assumptions C119_section_widths_refuted.

(** The Chezy values do reach the tables, with the same section widths if there
    are section polygons. *)
Theorem C119_case :
  exists cs cs', case_at one_polygon ten_faces = Ok (Some cs) /\ case_at one_polygon other_chezy = Ok (Some cs') /\
    map (fun t => friction (snd t)) (s_tables cs) = [[Fin 40; Fin 40; Fin 40]] /\
    map (fun t => friction (snd t)) (s_tables cs') = [[Fin 25; Fin 25; Fin 25]] /\ s_widths cs = s_widths cs'.
Proof.
  do 2 eexists. split; [vm_compute; reflexivity|]. split; [vm_compute; reflexivity|].
  split; [vm_compute; reflexivity|]. split; vm_compute; reflexivity.
Qed.
Print Assumptions C119_case.

(** Water that does not flow at the side reduces the flow width and not the
    total width. *)
Theorem C120_case :
  exists cs cs', case_at None ten_faces = Ok (Some cs) /\ case_at None slow_side = Ok (Some cs') /\
    M_Pipeline.s_z cs = M_Pipeline.s_z cs' /\ s_tw cs = s_tw cs' /\
    neqb (last (s_fw cs) NaN) (Fin 18) = true /\ neqb (last (s_fw cs') NaN) (Fin (4001 # 1000)) = true.
Proof.
  do 2 eexists. split; [vm_compute; reflexivity|]. split; [vm_compute; reflexivity|].
  split; [vm_compute; reflexivity|]. split; [vm_compute; reflexivity|]. split; vm_compute; reflexivity.
Qed.
Print Assumptions C120_case.
