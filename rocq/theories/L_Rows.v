(** A change of the maps of a 2D run (leaving maps out, repeating a map) that
    acts on every row of results alike, from the map file to the model data. *)
From Coq Require Import String List Ascii ZArith QArith Bool Lia.
From Verif Require Import PyBase Num Text L_List M_Geometry M_Sections M_Friction M_Simplify M_Import M_Classify M_Polygon M_Cli
  M_Pipeline M_Data.
Import ListNotations.

Section Definitions.
  Variable op : forall A : Type, list A -> list A.

  Definition matrix_maps (v : matrix) : matrix := mk_matrix (m_points v) (op _ (m_steps v)).
  Definition file_maps (f : map_file) : map_file :=
    mk_map_file (v_face_x f) (v_face_y f) (v_face_area f) (v_face_bed f) (v_face_nodes f) (v_edge_type f)
      (v_edge_x f) (v_edge_y f) (v_edge_faces f) (v_edge_nodes f) (v_node_x f) (v_node_y f)
      (option_map (op _) (v_time f)) (option_map matrix_maps (v_waterdepth f)) (option_map matrix_maps (v_s1 f))
      (option_map matrix_maps (v_czs f)) (option_map matrix_maps (v_czu f)) (option_map matrix_maps (v_cftrt f))
      (option_map matrix_maps (v_ucx f)) (option_map matrix_maps (v_ucy f)) (option_map matrix_maps (v_u1 f)).
  Definition mesh_maps (m : mesh) : mesh :=
    mk_mesh (f_x m) (f_y m) (f_area m) (f_bed m) (f_region m) (f_islake m) (f_section m) (f_class m)
      (map (op _) (f_depth m)) (map (op _) (f_level m)) (map (op _) (f_vx m)) (map (op _) (f_vy m))
      (e_x m) (e_y m) (e_section m) (e_class m) (e_faces m) (map (op _) (e_chezy m)).
  Definition results_maps (r : results) : results :=
    mk_results (map (op _) (d_depth r)) (map (op _) (d_level r)) (map (op _) (d_chezy_mean r))
      (map (op _) (d_chezy_edge r)) (map (op _) (d_vx r)) (map (op _) (d_vy r)) (map (op _) (d_u r)).
  Definition selection_maps (s : selection) : selection :=
    mk_selection (s_x s) (s_y s) (s_area s) (s_bed s) (map (op _) (s_depth s)) (map (op _) (s_level s))
      (map (op _) (s_vel s)) (s_section s) (map (op _) (s_chezy s)) (s_region s) (s_islake s) (s_edge_faces s)
      (s_edge_x s) (s_edge_y s) (s_edge_section s).
  Definition cell_maps (c : cell) : cell :=
    mkCell (c_area c) (c_bed c) (op _ (c_depth c)) (op _ (c_level c)) (op _ (c_vel c)) (c_section c).
End Definitions.

Lemma select_map {A B} (f : A -> B) mask l : select mask (map f l) = map f (select mask l).
Proof. revert l. induction mask as [|b mask IH]; intros [|x l]; cbn; auto; destruct b; cbn; rewrite ?IH; auto. Qed.
Lemma mask_index_map {A B} (f : A -> B) mask l : mask_index mask (map f l) = res_map (map f) (mask_index mask l).
Proof. unfold mask_index. rewrite map_length. destruct (Nat.eqb _ _); [cbn; f_equal; apply select_map|reflexivity]. Qed.

Section Maps.
  Variable op : forall A : Type, list A -> list A.
  Variable f : map_file.
  Hypothesis op_map : forall A B (g : A -> B) l, op B (map g l) = map g (op A l).
  (** The change keeps series of the right length apart from others, does not
      remove all maps, and keeps the last one. *)
  Definition fitting : Prop := forall time, v_time f = Some time ->
    (forall l : list (list num), Nat.eqb (length (op _ l)) (length (op _ time)) = Nat.eqb (length l) (length time)) /\
    Nat.eqb (length (op _ time)) 0 = Nat.eqb (length time) 0 /\
    (forall l : list num, length l = length time -> last (op _ l) NaN = last l NaN).
  Hypothesis remains : fitting.

  Lemma transpose_maps v : transpose (matrix_maps op v) = map (op _) (transpose v).
  Proof. unfold transpose, matrix_maps. cbn [m_points m_steps]. rewrite map_map. apply map_ext. intro i. rewrite op_map. reflexivity. Qed.

  Lemma same_number time v : v_time f = Some time ->
    Nat.eqb (length (m_steps (matrix_maps op v))) (length (op _ time)) = Nat.eqb (length (m_steps v)) (length time).
  Proof. intro T. apply remains in T. apply T. Qed.
  Lemma import_frame_maps v : import_frame (file_maps op f) (option_map (matrix_maps op) v) = res_map (map (op _)) (import_frame f v).
  Proof.
    unfold import_frame. destruct v as [v|]; [|reflexivity]. cbn [option_map variable of_option bind].
    cbn [file_maps v_time]. case_eq (v_time f); [intros time T|reflexivity]. cbn [option_map variable of_option bind].
    unfold frame. rewrite (same_number time v T). destruct (Nat.eqb _ _); [cbn; f_equal; apply transpose_maps|reflexivity].
  Qed.
  Lemma import_edge_frame_maps mask v :
    import_edge_frame (file_maps op f) mask (option_map (matrix_maps op) v) = res_map (map (op _)) (import_edge_frame f mask v).
  Proof.
    unfold import_edge_frame. destruct v as [v|]; [|reflexivity]. cbn [option_map variable of_option bind].
    rewrite transpose_maps, mask_index_map. destruct (mask_index mask (transpose v)) as [rows|]; [|reflexivity]. cbn [res_map bind].
    cbn [file_maps v_time]. case_eq (v_time f); [intros time T|reflexivity]. cbn [option_map variable of_option bind].
    rewrite (same_number time v T). destruct (Nat.eqb _ _); reflexivity.
  Qed.
  Lemma import_results_maps mask : import_results (file_maps op f) mask = res_map (results_maps op) (import_results f mask).
  Proof.
    unfold import_results. cbn [file_maps v_waterdepth v_s1 v_czs v_ucx v_ucy v_u1].
    fold (file_maps op f). rewrite !import_frame_maps.
    assert (C : import_chezy (file_maps op f) mask = res_map (map (op _)) (import_chezy f mask)).
    { unfold import_chezy. cbn [file_maps v_czu v_cftrt]. fold (file_maps op f). rewrite !import_edge_frame_maps.
      destruct (import_edge_frame f mask (v_czu f)) as [r|[]]; reflexivity. }
    rewrite C.
    destruct (import_frame f (v_waterdepth f)); [|reflexivity]. destruct (import_frame f (v_s1 f)); [|reflexivity].
    destruct (import_frame f (v_czs f)); [|reflexivity]. destruct (import_chezy f mask); [|reflexivity].
    destruct (import_frame f (v_ucx f)); [|reflexivity]. destruct (import_frame f (v_ucy f)); [|reflexivity].
    destruct (import_frame f (v_u1 f)); reflexivity.
  Qed.
  Lemma import_maps : import_dflow2d (file_maps op f) =
    res_map (fun r => (fst r, results_maps op (snd r))) (import_dflow2d f).
  Proof.
    unfold import_dflow2d. change (import_faces (file_maps op f)) with (import_faces f).
    change (v_edge_type (file_maps op f)) with (v_edge_type f).
    destruct (import_faces f); [|reflexivity]. cbn [bind]. destruct (variable (v_edge_type f)); [|reflexivity]. cbn [bind].
    change (import_edges (file_maps op f)) with (import_edges f). destruct (import_edges f _); [|reflexivity]. cbn [bind].
    change (import_nodes (file_maps op f)) with (import_nodes f). destruct (import_nodes f); [|reflexivity]. cbn [bind].
    rewrite import_results_maps. destruct (import_results f _); reflexivity.
  Qed.

  (** Every row has a value for each time step. *)
  Lemma frame_rows v rows : import_frame f v = Ok rows ->
    exists time, v_time f = Some time /\ Forall (fun r => length r = length time) rows.
  Proof.
    clear remains.
    unfold import_frame. destruct v as [v|]; [|discriminate]. cbn [variable of_option bind].
    destruct (v_time f) as [time|]; [|discriminate]. cbn [variable of_option bind]. unfold frame.
    destruct (Nat.eqb_spec (length (m_steps v)) (length time)) as [E|]; [|discriminate]. intro H. injection H as <-.
    exists time. split; [reflexivity|]. unfold transpose. apply Forall_map, Forall_forall. intros i _. rewrite map_length. exact E.
  Qed.
  Lemma select_all {A} (P : A -> Prop) l : Forall P l -> forall mask, Forall P (select mask l).
  Proof. induction 1; intros [|[] mask]; cbn; auto. Qed.
  Lemma edge_frame_rows mask v rows : import_edge_frame f mask v = Ok rows ->
    exists time, v_time f = Some time /\ Forall (fun r => length r = length time) rows.
  Proof.
    clear remains.
    unfold import_edge_frame. destruct v as [v|]; [|discriminate]. cbn [variable of_option bind].
    destruct (mask_index mask (transpose v)) as [rs|] eqn:M; [|discriminate]. cbn [bind].
    destruct (v_time f) as [time|]; [|discriminate]. cbn [variable of_option bind].
    destruct (Nat.eqb_spec (length (m_steps v)) (length time)) as [E|]; [|discriminate]. intro H. injection H as <-.
    exists time. split; [reflexivity|]. unfold mask_index in M. destruct (Nat.eqb _ _); [|discriminate]. injection M as <-.
    apply select_all. unfold transpose. apply Forall_map, Forall_forall. intros i _. rewrite map_length. exact E.
  Qed.
  Definition whole (n : nat) (rows : list (list num)) : Prop := Forall (fun r => length r = n) rows.
  Lemma import_rows t l td : import_dflow2d f = Ok (t, l, td) ->
    exists time, v_time f = Some time /\ whole (length time) (d_chezy_edge td) /\ whole (length time) (d_chezy_mean td) /\
      whole (length time) (d_depth td) /\ whole (length time) (d_level td) /\ whole (length time) (d_vx td) /\
      whole (length time) (d_vy td).
  Proof.
    clear remains.
    unfold import_dflow2d. destruct (import_faces f); [|discriminate]. cbn [bind].
    destruct (variable (v_edge_type f)) as [types|]; [|discriminate]. cbn [bind]. destruct (import_edges f _); [|discriminate]. cbn [bind].
    destruct (import_nodes f); [|discriminate]. cbn [bind]. unfold import_results.
    destruct (import_frame f (v_waterdepth f)) as [dp|] eqn:DP; [|discriminate]. cbn [bind].
    destruct (import_frame f (v_s1 f)) as [lv|] eqn:LV; [|discriminate]. cbn [bind].
    destruct (import_frame f (v_czs f)) as [cz|] eqn:CZ; [|discriminate]. cbn [bind].
    destruct (import_chezy f (internal_edges types)) as [ch|] eqn:CH; [|discriminate]. cbn [bind].
    destruct (import_frame f (v_ucx f)) as [vx|] eqn:VX; [|discriminate]. cbn [bind].
    destruct (import_frame f (v_ucy f)) as [vy|] eqn:VY; [|discriminate]. cbn [bind].
    destruct (import_frame f (v_u1 f)); [|discriminate]. cbn [bind]. intro H. injection H as <- <- <-.
    cbn [d_chezy_edge d_chezy_mean d_depth d_level d_vx d_vy].
    destruct (frame_rows _ _ CZ) as (time & T & F). exists time. split; [exact T|].
    assert (R : forall v rows, import_frame f v = Ok rows -> whole (length time) rows).
    { intros v rows E. destruct (frame_rows _ _ E) as (time' & T' & F'). assert (time' = time) by congruence. subst time'. exact F'. }
    assert (RC : whole (length time) ch).
    { unfold import_chezy in CH.
      destruct (import_edge_frame f (internal_edges types) (v_czu f)) as [r|[]] eqn:E; try discriminate.
      - injection CH as <-. destruct (edge_frame_rows _ _ _ E) as (time' & T' & F'). assert (time' = time) by congruence. subst time'. exact F'.
      - destruct (edge_frame_rows _ _ _ CH) as (time' & T' & F'). assert (time' = time) by congruence. subst time'. exact F'. }
    repeat split; eauto.
  Qed.
  Lemma end_values_maps time rows : v_time f = Some time -> Forall (fun r => length r = length time) rows ->
    end_values (length (op _ time)) (map (op _) rows) = end_values (length time) rows.
  Proof.
    intros T F. destruct (remains time T) as (_ & Z & L). unfold end_values.
    assert (M : map (fun row => last row NaN) (map (op num) rows) = map (fun row => last row NaN) rows).
    { rewrite map_map. apply map_ext_in. intros r R. rewrite Forall_forall in F. apply L, F, R. }
    rewrite M. destruct (length (op _ time)), (length time); try discriminate; reflexivity.
  Qed.
End Maps.

Section Data.
  Variable nearest : list point -> point -> nat.
  Variable within : ring -> point -> bool.
  Variable inside : ring -> point -> bool.

  (** The model data of the shorter file are those of the whole file, with the
      results of the remaining maps: the same classes, regions and sections. *)
  Lemma model_data_maps c file mt f css dr ds regions sections op :
    (forall A B (g : A -> B) l, op B (map g l) = map g (op A l)) -> fitting op f ->
    set_fm_model_data nearest within inside c file mt (file_maps op f) css dr ds regions sections =
    (fst (set_fm_model_data nearest within inside c file mt f css dr ds regions sections),
     res_map (mesh_maps op) (snd (set_fm_model_data nearest within inside c file mt f css dr ds regions sections))).
  Proof.
    intros OM L. unfold set_fm_model_data. rewrite (import_maps op f OM L).
    destruct (import_dflow2d f) as [[[t l] td]|e] eqn:EI; [|reflexivity]. cbn [res_map fst snd].
    destruct (import_rows f t l td EI) as (time & T & FE & FM & _).
    destruct css as [d|e]; [|reflexivity].
    change (assign_classes nearest within inside c file mt (file_maps op f)) with (assign_classes nearest within inside c file mt f).
    cbn [file_maps v_time]. fold (file_maps op f). rewrite T. cbn [option_map].
    assert (K : forall c0 t1 l1 ps,
      assign_sections inside c0 file mt (file_maps op f) (length (op _ time)) ds ps (results_maps op td) t1 l1 =
      assign_sections inside c0 file mt f (length time) ds ps td t1 l1).
    { intros c0 t1 l1 ps. unfold assign_sections. destruct ps as [ps|]; [reflexivity|].
      cbn [results_maps d_chezy_edge d_chezy_mean].
      rewrite (end_values_maps op f L time _ T FE), (end_values_maps op f L time _ T FM). reflexivity. }
    assert (M : forall x, (tl <- x ;; mesh_of (fst tl) (snd tl) (results_maps op td)) =
                          res_map (mesh_maps op) (tl <- x ;; mesh_of (fst tl) (snd tl) td)).
    { intros [[t1 l1]|e]; [|reflexivity]. cbn [bind fst snd]. unfold mesh_of.
      destruct (variable (l_x l1)); [|reflexivity]. destruct (variable (l_y l1)); reflexivity. }
    destruct regions as [[ps|e]|]; [| reflexivity |]; destruct sections as [[qs|e]|]; try reflexivity;
      (match goal with |- context [snd (assign_classes ?a ?b ?c ?d ?e ?f ?g ?h ?i ?j ?k ?l ?m)] =>
         destruct (assign_classes a b c d e f g h i j k l m) as [c1 [[t1 l1]|e']] end; cbn [fst snd]; [|reflexivity];
       rewrite K, M; reflexivity).
  Qed.
End Data.

