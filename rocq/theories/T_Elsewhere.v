(** C118: what happens outside the control volume of a location does not matter
    for its cross-section. *)
From Coq Require Import String List Ascii ZArith QArith Qminmax Bool Lia.
From Verif Require Import PyBase Num Text L_Text L_List M_Log M_Run M_Geometry M_Sections M_Friction M_Simplify M_Import M_Classify M_Polygon M_Cli
  M_Pipeline M_Data L_Rows T_Pipeline T_Neighbour T_Data T_Whole T_Skip.
Import ListNotations.

(** ** Specification *)

(** Two columns agree at the points of class [id]. *)
Definition same_at {A} (id : text) (class : list text) (a b : list A) : Prop :=
  length a = length b /\ forall i, nth_error class i = Some id -> nth_error a i = nth_error b i.

(** The same mesh with other bed levels, areas and results. *)
Definition same_mesh (f f' : map_file) (t t' : face_table) (l l' : edge_table) : Prop :=
  t_x t' = t_x t /\ t_y t' = t_y t /\ l' = l /\ mesh_grid f' = mesh_grid f /\
  option_map (@length num) (v_time f') = option_map (@length num) (v_time f).

(** The same areas, bed levels and results in the control volume. *)
Definition same_inside (id : text) (m : mesh) (t t' : face_table) (td td' : results) : Prop :=
  same_at id (f_class m) (t_area t) (t_area t') /\ same_at id (f_class m) (t_bed t) (t_bed t') /\
  same_at id (f_class m) (d_depth td) (d_depth td') /\ same_at id (f_class m) (d_level td) (d_level td') /\
  same_at id (f_class m) (d_vx td) (d_vx td') /\ same_at id (f_class m) (d_vy td) (d_vy td') /\
  same_at id (e_class m) (d_chezy_edge td) (d_chezy_edge td').

(** The Chezy values of the last map, by which faces and links are divided over
    the sections if there are no section polygons. *)
Definition last_chezy (td : results) : list num * list num :=
  (map (fun row => last row NaN) (d_chezy_edge td), map (fun row => last row NaN) (d_chezy_mean td)).

(** ** Proofs *)

Lemma same_at_index {A} id class (a b : list A) : same_at id class a b ->
  mask_index (map (fun c => teqb c id) class) a = mask_index (map (fun c => teqb c id) class) b.
Proof.
  intros [L H]. unfold mask_index. rewrite map_length, L. destruct (Nat.eqb _ _); [|reflexivity]. f_equal.
  revert a b L H. induction class as [|c class IH]; intros [|x a] [|y b] L H; try discriminate; try reflexivity.
  cbn [map select]. injection L as L. rewrite (IH a b L) by (intros i E; exact (H (S i) E)).
  destruct (teqb_spec c id) as [->|N]; [|reflexivity]. specialize (H O eq_refl). injection H as <-. reflexivity.
Qed.

(** The table with other areas and bed levels. *)
Definition with_beds (area bed : list num) (t : face_table) : face_table :=
  mk_faces (t_x t) (t_y t) area bed (t_region t) (t_section t) (t_class t) (t_islake t).
Definition swapped (area bed : list num) (p : face_table * edge_table) := (with_beds area bed (fst p), snd p).

Section Elsewhere.
  Variable nearest : list point -> point -> nat.
  Variable within : ring -> point -> bool.
  Variable inside : ring -> point -> bool.

  Lemma imported_faces f t l td : import_dflow2d f = Ok (t, l, td) ->
    t_region t = map (fun _ => []) (t_y t) /\ t_section t = map (fun _ => M_Geometry.LStr "main") (t_y t) /\
    t_class t = map (fun _ => []) (t_y t) /\ t_islake t = map (fun _ => false) (t_y t).
  Proof.
    unfold import_dflow2d, import_faces. intro H.
    destruct (variable (v_face_x f)); [|discriminate]. cbn [bind] in H.
    destruct (variable (v_face_y f)); [|discriminate]. cbn [bind] in H. destruct (column _ _); [|discriminate]. cbn [bind] in H.
    destruct (variable (v_face_area f)); [|discriminate]. cbn [bind] in H. destruct (column _ _); [|discriminate]. cbn [bind] in H.
    destruct (variable (v_face_bed f)); [|discriminate]. cbn [bind] in H. destruct (column _ _); [|discriminate]. cbn [bind] in H.
    destruct (variable (v_edge_type f)); [|discriminate]. cbn [bind] in H. destruct (import_edges f _); [|discriminate]. cbn [bind] in H.
    destruct (import_nodes f); [|discriminate]. cbn [bind] in H. destruct (import_results f _); [|discriminate]. cbn [bind] in H.
    injection H as <- _ _. repeat split.
  Qed.

  Lemma classes_elsewhere c file mt f f' xy ids dr regions area bed t l : mesh_grid f' = mesh_grid f ->
    assign_classes nearest within inside c file mt f' xy ids dr regions (with_beds area bed t) l =
    let r := assign_classes nearest within inside c file mt f xy ids dr regions t l in
    (fst r, res_map (swapped area bed) (snd r)).
  Proof.
    intro G. unfold assign_classes. cbn [with_beds t_x t_y]. destruct regions as [ps|].
    - unfold classify_grid. rewrite G. cbn [fst snd]. f_equal.
      destruct (snd (get_gridpoints c _)) as [labels|]; [|reflexivity]. cbn [bind].
      destruct (column (t_x t) _) as [fr|]; [|reflexivity]. cbn [bind].
      destruct (get_points_in_polygon within dr (T "region") ps xy) as [cl|]; [|reflexivity]. cbn [bind].
      destruct (variable (l_x l)) as [x|]; [|reflexivity]. cbn [bind].
      destruct (variable (l_y l)) as [y|]; [|reflexivity]. cbn [bind].
      destruct (classify_with_regions _ _ _ _ _ _ _ _ _) as [k|]; reflexivity.
    - cbn [fst snd]. f_equal. destruct (variable (l_x l)) as [x|]; [|reflexivity]. cbn [bind].
      destruct (variable (l_y l)) as [y|]; [|reflexivity]. cbn [bind].
      destruct (classify_without_regions _ _ _ _ _) as [k|]; reflexivity.
  Qed.
  Lemma sections_elsewhere c file mt f f' steps ds sections td td' area bed t l : mesh_grid f' = mesh_grid f ->
    sections <> None \/ last_chezy td' = last_chezy td ->
    assign_sections inside c file mt f' steps ds sections td' (with_beds area bed t) l =
    let r := assign_sections inside c file mt f steps ds sections td t l in
    (fst r, res_map (swapped area bed) (snd r)).
  Proof.
    intros G S. unfold assign_sections. cbn [with_beds t_x t_y t_section]. destruct sections as [ps|].
    - unfold classify_grid. rewrite G. cbn [fst snd]. f_equal.
      destruct (snd (get_gridpoints c _)) as [labels|]; [|reflexivity]. cbn [bind].
      destruct (column (t_x t) _) as [fr|]; reflexivity.
    - destruct S as [S|S]; [contradiction S; reflexivity|]. unfold last_chezy in S. injection S as S1 S2.
      cbn [fst snd]. f_equal. unfold end_values. rewrite S1, S2. destruct steps; [reflexivity|]. cbn [bind].
      destruct (classify_by_variance (T "1") _ _ _); [|reflexivity]. cbn [bind].
      destruct (classify_by_variance (M_Geometry.LInt 1) _ _ _); reflexivity.
  Qed.

  (** The model data differ in areas, bed levels and results only. *)
  Definition with_results (area bed : list num) (td : results) (m : mesh) : mesh :=
    mk_mesh (f_x m) (f_y m) area bed (f_region m) (f_islake m) (f_section m) (f_class m)
      (d_depth td) (d_level td) (d_vx td) (d_vy td) (e_x m) (e_y m) (e_section m) (e_class m) (e_faces m) (d_chezy_edge td).

  Lemma model_data_elsewhere c file mt f f' css dr ds regions sections t t' l l' td td' :
    import_dflow2d f = Ok (t, l, td) -> import_dflow2d f' = Ok (t', l', td') -> same_mesh f f' t t' l l' ->
    sections <> None \/ last_chezy td' = last_chezy td ->
    let r := set_fm_model_data nearest within inside c file mt f css dr ds regions sections in
    set_fm_model_data nearest within inside c file mt f' css dr ds regions sections =
      (fst r, res_map (with_results (t_area t') (t_bed t') td') (snd r)) /\
    forall m, snd r = Ok m -> f_area m = t_area t /\ f_bed m = t_bed t /\ f_depth m = d_depth td /\ f_level m = d_level td /\
      f_vx m = d_vx td /\ f_vy m = d_vy td /\ e_chezy m = d_chezy_edge td.
  Proof.
    intros I I' (X & Y & -> & G & TM) S r.
    assert (ET : t' = with_beds (t_area t') (t_bed t') t).
    { destruct (imported_faces f t l td I) as (A1 & A2 & A3 & A4). destruct (imported_faces f' t' l td' I') as (B1 & B2 & B3 & B4).
      destruct t' as [x y ar be re se cl la]. cbn [t_x t_y t_area t_bed t_region t_section t_class t_islake] in *. unfold with_beds.
      cbn [t_x t_y t_area t_bed t_region t_section t_class t_islake]. rewrite A1, A2, A3, A4, B1, B2, B3, B4, X, Y. reflexivity. }
    subst r. unfold set_fm_model_data. rewrite I, I'. cbv zeta.
    destruct css as [d|e]; [|split; [reflexivity|discriminate]].
    assert (S' : forall o, sections = Some (Ok o) -> True) by trivial. clear S'.
    assert (K : forall polys secs, secs <> None \/ last_chezy td' = last_chezy td ->
      let go g tt rr := (let a := assign_classes nearest within inside c file mt g (c_xy d) (c_id d) dr polys tt l in
        match snd a with
        | Raise e => (fst a, Raise e)
        | Ok (t1, l1) =>
            let steps := match v_time g with Some time => length time | None => O end in
            let s := assign_sections inside (fst a) file mt g steps ds secs rr t1 l1 in
            (fst s, tl <- snd s ;; mesh_of (fst tl) (snd tl) rr)
        end) in
      go f' t' td' = (fst (go f t td), res_map (with_results (t_area t') (t_bed t') td') (snd (go f t td))) /\
      forall m, snd (go f t td) = Ok m -> f_area m = t_area t /\ f_bed m = t_bed t /\ f_depth m = d_depth td /\ f_level m = d_level td /\
        f_vx m = d_vx td /\ f_vy m = d_vy td /\ e_chezy m = d_chezy_edge td).
    { intros polys secs SS go. subst go. cbv beta zeta.
      pose proof (classes_elsewhere c file mt f f' (c_xy d) (c_id d) dr polys (t_area t') (t_bed t') t l G) as CL.
      rewrite <- ET in CL. rewrite CL. clear CL. cbv zeta. cbn [fst snd].
      assert (EQ : match v_time f' with Some time => length time | None => 0%nat end = match v_time f with Some time => length time | None => 0%nat end).
      { destruct (v_time f'), (v_time f); cbn in TM; congruence. }
      assert (KEEP : forall t1 l1, snd (assign_classes nearest within inside c file mt f (c_xy d) (c_id d) dr polys t l) = Ok (t1, l1) ->
        t_area t1 = t_area t /\ t_bed t1 = t_bed t).
      { intros t1 l1 E. pose proof (classes_elsewhere c file mt f f (c_xy d) (c_id d) dr polys (t_area t) (t_bed t) t l eq_refl) as Q.
        replace (with_beds (t_area t) (t_bed t) t) with t in Q by (destruct t; reflexivity).
        cbv zeta in Q. apply (f_equal snd) in Q. cbn [snd] in Q. rewrite E in Q. cbn in Q. injection Q as Q. rewrite Q. split; reflexivity. }
      destruct (snd (assign_classes nearest within inside c file mt f (c_xy d) (c_id d) dr polys t l)) as [[t1 l1]|e];
        [|split; [reflexivity|discriminate]].
      destruct (KEEP t1 l1 eq_refl) as [KA KB]. clear KEEP.
      cbn [res_map swapped fst snd]. rewrite EQ.
      set (c1 := fst (assign_classes _ _ _ _ _ _ _ _ _ _ _ _ _)). clearbody c1.
      set (steps := match v_time f with Some time => length time | None => 0%nat end).
      rewrite (sections_elsewhere c1 file mt f f' steps ds secs td td' _ _ t1 l1 G SS). cbv zeta. cbn [fst snd].
      assert (KEEP : forall t2 l2, snd (assign_sections inside c1 file mt f steps ds secs td t1 l1) = Ok (t2, l2) ->
        t_area t2 = t_area t1 /\ t_bed t2 = t_bed t1).
      { intros t2 l2 E. pose proof (sections_elsewhere c1 file mt f f steps ds secs td td (t_area t1) (t_bed t1) t1 l1 eq_refl (or_intror eq_refl)) as Q.
        replace (with_beds (t_area t1) (t_bed t1) t1) with t1 in Q by (destruct t1; reflexivity).
        cbv zeta in Q. apply (f_equal snd) in Q. cbn [snd] in Q. rewrite E in Q. cbn in Q. injection Q as Q. rewrite Q. split; reflexivity. }
      destruct (snd (assign_sections inside c1 file mt f steps ds secs td t1 l1)) as [[t2 l2]|e]; [|split; [reflexivity|discriminate]].
      destruct (KEEP t2 l2 eq_refl) as [KA2 KB2]. clear KEEP.
      cbn [res_map swapped fst snd bind]. unfold mesh_of.
      destruct (variable (l_x l2)) as [x|]; [|split; [reflexivity|discriminate]]. cbn [bind].
      destruct (variable (l_y l2)) as [y|]; [|split; [reflexivity|discriminate]]. cbn [bind res_map]. split; [reflexivity|].
      intros m H. injection H as <-. cbn [f_area f_bed f_depth f_level f_vx f_vy e_chezy]. rewrite KA2, KB2, KA, KB. repeat split. }
    destruct regions as [[rs|e]|]; [|split; [reflexivity|discriminate]|]; destruct sections as [[ss|e']|];
      try (split; [reflexivity|discriminate]); first [apply (K (Some rs)) | apply (K None)];
      first [left; discriminate | destruct S as [S|S]; [contradiction S; reflexivity|right; exact S]].
  Qed.
End Elsewhere.

(** C118: the same control volume, whatever is outside, gives the same
    cross-section, or the same exception. *)
Theorem C118_elsewhere_does_not_matter_partial :
  forall nearest within inside sqrt smooth mean correction clean c file mt css dr ds regions sections st id len centre nt
         f f' t t' l l' td td' m,
    import_dflow2d f = Ok (t, l, td) -> import_dflow2d f' = Ok (t', l', td') -> same_mesh f f' t t' l l' ->
    sections <> None \/ last_chezy td' = last_chezy td ->
    snd (set_fm_model_data nearest within inside c file mt f css dr ds regions sections) = Ok m ->
    same_inside id m t t' td td' ->
    cross_section_of nearest within inside sqrt smooth mean correction clean c file mt css dr ds regions sections st id len centre nt f' =
    cross_section_of nearest within inside sqrt smooth mean correction clean c file mt css dr ds regions sections st id len centre nt f.
Proof.
  intros nearest within inside sqrt smooth mean correction clean c file mt css dr ds regions sections st id len centre nt
    f f' t t' l l' td td' m I I' M S E (A & B & D & L & VX & VY & C).
  destruct (model_data_elsewhere nearest within inside c file mt f f' css dr ds regions sections t t' l l' td td' I I' M S) as [R K].
  unfold cross_section_of. rewrite R. cbn [fst snd]. rewrite E. cbn [res_map bind].
  destruct (K m E) as (K1 & K2 & K3 & K4 & K5 & K6 & K7). clear K R E.
  enough (G : get_selection sqrt (with_results (t_area t') (t_bed t') td' m) id = get_selection sqrt m id) by (rewrite G; reflexivity).
  unfold get_selection, with_results.
  cbn [f_x f_y f_area f_bed f_region f_islake f_section f_class f_depth f_level f_vx f_vy e_x e_y e_section e_class e_faces e_chezy].
  rewrite K1, K2, K3, K4, K5, K6, K7.
  rewrite <- (same_at_index _ _ _ _ A), <- (same_at_index _ _ _ _ B), <- (same_at_index _ _ _ _ D), <- (same_at_index _ _ _ _ L),
    <- (same_at_index _ _ _ _ VX), <- (same_at_index _ _ _ _ VY), <- (same_at_index _ _ _ _ C). reflexivity.
Qed.
Print Assumptions C118_elsewhere_does_not_matter_partial.

(** ** Cases *)

(** Ten faces at the location "a" and four at the location "b", 1000 m away,
    with the given depth and Chezy value there. *)
Definition two_places (depth chezy : Q) : map_file :=
  mk_map_file (Some (map qn (seq 0 10) ++ repeat 1000 4)) (Some (repeat 0 14)) (Some (repeat (Fin 20) 14))
    (Some (map (fun i => Fin (qn i)) (seq 0 14))) (Some (repeat (1, [1; 2; 2])%Z 14)) (Some [1; 1]%Z)
    (Some [0; 1000]) (Some [0; 0]) (Some [[1; 2]; [11; 12]]%nat) (Some [(1, 2)%Z; (1, 2)%Z]) (Some [0; 1]) (Some [0; 0])
    (Some [Fin 0; Fin 60; Fin 120])
    (row_matrix 14 (fun t i => if Nat.ltb i 10 then Qmax 0 (qn t * 4 + 1 - qn i) else depth))
    (row_matrix 14 (fun t i => if Nat.ltb i 10 then Qmax (qn i) (qn t * 4 + 1) else depth + qn i))
    (row_matrix 14 (fun t i => if Nat.ltb i 10 then 30 + qn i / 2 else chezy)) (row_matrix 2 (fun t i => 40)) None
    (row_matrix 14 (fun t i => 1)) (row_matrix 14 (fun t i => 0)) (row_matrix 2 (fun t i => 1)).
Definition one_polygon : option (res (list polygon)) := Some (Ok [mk_polygon [(5, 5); (6, 5); (6, 6)] [(T "section", VStr (T "floodplain1"))]]).
Definition at_a (sections : option (res (list polygon))) (f : map_file) : res (option M_Pipeline.css) :=
  cross_section_of first_nearest (fun _ _ => false) (fun _ _ => false) (fun x => x) (fun x => x) (fun _ _ => Fin 0)
    (fun _ => Raise ValueError) (fun x => x) (fun _ => None) (T "map.nc") (0, 0)%Z
    (Ok (mk_columns [(0, 0); (1000, 0)] [T "a"; T "b"] [T "r"; T "r"] [1; 1] [0; 0])) VNull (VStr (T "main")) None sections
    example_settings (T "a") (Fin 10) 0 3 f.

Theorem C118_case :
  (exists cs, at_a one_polygon (two_places 1 30) = Ok (Some cs)) /\
  at_a one_polygon (two_places 5 60) = at_a one_polygon (two_places 1 30) /\
  (exists cs, at_a None (two_places 1 30) = Ok (Some cs)) /\ at_a None (two_places 5 30) = at_a None (two_places 1 30).
Proof.
  split; [vm_compute; eexists; reflexivity|]. split; [vm_compute; reflexivity|].
  split; [vm_compute; eexists; reflexivity|vm_compute; reflexivity].
Qed.
Print Assumptions C118_case.

(** Without section polygons the sections are a division of all faces of the
    model by their Chezy value: a smooth bed elsewhere moves faces of this control
    volume to the floodplain, and the main section becomes 2.1 m instead of 10 m
    wide. *)
Definition widths_of (r : res (option M_Pipeline.css)) : res nwidths :=
  match r with Ok (Some c) => Ok (s_widths c) | Ok None => Raise ValueError | Raise e => Raise e end.
Definition case_data (f : map_file) : res mesh :=
  snd (set_fm_model_data first_nearest (fun _ _ => false) (fun _ _ => false) (fun _ => None) (T "map.nc") (0, 0)%Z f
    (Ok (mk_columns [(0, 0); (1000, 0)] [T "a"; T "b"] [T "r"; T "r"] [1; 1] [0; 0])) VNull (VStr (T "main")) None None).
Theorem C118_chezy_elsewhere_refuted :
  exists t l td td' m,
    import_dflow2d (two_places 1 30) = Ok (t, l, td) /\ import_dflow2d (two_places 1 90) = Ok (t, l, td') /\
    same_mesh (two_places 1 30) (two_places 1 90) t t l l /\ case_data (two_places 1 30) = Ok m /\
    same_inside (T "a") m t t td td' /\
    exists w w', widths_of (at_a None (two_places 1 30)) = Ok w /\ widths_of (at_a None (two_places 1 90)) = Ok w' /\
      neqb (nw_main w) (Fin 10) = true /\ neqb (nw_main w') (Fin (21 # 10)) = true.
Proof.
  do 5 eexists. split; [vm_compute; reflexivity|]. split; [vm_compute; reflexivity|].
  split; [repeat split|]. split; [vm_compute; reflexivity|]. split.
  - unfold same_inside, same_at.
    cbn [f_class e_class t_area t_bed d_depth d_level d_vx d_vy d_chezy_edge].
    repeat split; intros i H; do 14 (destruct i as [|i]; [first [reflexivity|exfalso; revert H; vm_compute; discriminate]|]);
      destruct i; discriminate H.
  - do 2 eexists. split; [vm_compute; reflexivity|]. split; [vm_compute; reflexivity|]. split; vm_compute; reflexivity.
Qed.
Print Assumptions C118_chezy_elsewhere_refuted.
