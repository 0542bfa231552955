(** Theorems for C105: the order of the locations does not matter. *)
From Coq Require Import String List Ascii ZArith QArith Bool Lia Lqa Permutation.
From Verif Require Import Spec PyBase Num Text L_Text L_List M_Ini M_Log M_Run T_Run T_Generate M_Import T_Select M_Classify T_Neighbour
  M_Polygon M_Export M_Geometry M_Data.
Import ListNotations.
Local Open Scope Q_scope.

(** A row of the location file, as far as the control volumes depend on it. *)
Notation row := (point * text)%type (only parsing).

(** [c] is the id of a location such that none is nearer to [p]. *)
Definition goes_to (rows : list row) (p : point) (c : text) : Prop :=
  exists s, In (s, c) rows /\ forall q, In q rows -> sq_dist p s <= sq_dist p (fst q).
(** The nearest locations have one id. *)
Definition decided (rows : list row) (p : point) : Prop := forall c c', goes_to rows p c -> goes_to rows p c' -> c = c'.

Lemma goes_to_perm rows rows' p c : Permutation rows rows' -> goes_to rows p c -> goes_to rows' p c.
Proof.
  intros P (s & I & H). exists s. split; [exact (Permutation_in _ P I)|]. intros q Iq. apply H.
  exact (Permutation_in _ (Permutation_sym P) Iq).
Qed.

Lemma nearest_goes_to nearest rows p : is_nearest nearest -> rows <> [] ->
  goes_to rows p (nth (nearest (map fst rows) p) (map snd rows) []).
Proof.
  intros N H. destruct (N (map fst rows) p) as (s & E & M); [destruct rows; [congruence|discriminate]|].
  exists s. rewrite nth_error_map in E. destruct (nth_error rows (nearest (map fst rows) p)) as [[s0 c]|] eqn:R; cbn in E; [|discriminate E].
  injection E as ->. rewrite (nth_error_nth _ _ [] (x := c)) by (rewrite nth_error_map, R; reflexivity).
  split; [eapply nth_error_In; eauto|]. intros q Iq. apply M. apply in_map. exact Iq.
Qed.

Lemma predict_order nearest rows rows' pts : is_nearest nearest -> Permutation rows rows' ->
  (forall p, In p pts -> decided rows p) ->
  predict nearest (map fst rows) (map snd rows) pts = predict nearest (map fst rows') (map snd rows') pts.
Proof.
  intros N P D. destruct rows as [|r rows].
  - apply Permutation_nil in P. subst rows'. reflexivity.
  - destruct rows' as [|r' rows']; [apply Permutation_sym, Permutation_nil in P; discriminate P|].
    destruct pts as [|p pts]; [reflexivity|].
    rewrite !predict_ok by discriminate. f_equal. apply map_ext_in. intros q Iq.
    apply (D q Iq); [apply nearest_goes_to; [exact N|discriminate]|].
    eapply goes_to_perm; [exact (Permutation_sym P)|]. apply nearest_goes_to; [exact N|discriminate].
Qed.

Lemma classify_order nearest rows rows' faces links : is_nearest nearest -> Permutation rows rows' ->
  (forall p, In p faces \/ In p links -> decided rows p) ->
  classify_without_regions nearest (map fst rows) (map snd rows) faces links =
  classify_without_regions nearest (map fst rows') (map snd rows') faces links.
Proof.
  intros N P D. unfold classify_without_regions.
  rewrite (predict_order nearest rows rows' faces), (predict_order nearest rows rows' links); auto.
Qed.

(** ** Regions *)

Lemma select_rows {B} (f : row -> B) g rows : select (map g rows) (map f rows) = map f (filter g rows).
Proof. induction rows as [|r rows IH]; [reflexivity|]. cbn [map select filter]. destruct (g r); cbn [map]; rewrite IH; reflexivity. Qed.

Lemma select_incl {A} m : forall (l : list A), incl (select m l) l.
Proof.
  induction m as [|b m IH]; intros [|a l] x I; cbn [select] in I; try destruct b; cbn in I; try contradiction.
  - destruct I as [<-|I]; [left; reflexivity|right; apply (IH l); exact I].
  - right. apply (IH l). exact I.
Qed.

Definition in_label (region_of : point -> text) (region : text) (r : row) : bool := teqb (region_of (fst r)) region.

Lemma region_step_rows nearest region_of rows faces fr links er st region :
  region_step nearest (map fst rows) (map snd rows) (map region_of (map fst rows)) faces fr links er st region =
  match filter (in_label region_of region) rows with
  | [] => Ok st
  | group =>
      n <- predict nearest (map fst group) (map snd group) (select (in_region region fr) faces) ;;
      e <- predict nearest (map fst group) (map snd group) (select (in_region region er) links) ;;
      Ok (put_where (in_region region fr) n (fst st), put_where (in_region region er) (map u99 e) (snd st))
  end.
Proof.
  unfold region_step. cbv zeta.
  assert (E : in_region region (map region_of (map fst rows)) = map (in_label region_of region) rows).
  { unfold in_region. rewrite !map_map. reflexivity. }
  rewrite E, !select_rows. destruct (filter (in_label region_of region) rows) as [|r g]; reflexivity.
Qed.

Lemma filter_order {A} (f : A -> bool) l l' : Permutation l l' -> Permutation (filter f l) (filter f l').
Proof.
  induction 1 as [|x l l' P IH|x y l|l m n P1 IH1 P2 IH2]; cbn [filter].
  - constructor.
  - destruct (f x); [constructor; exact IH|exact IH].
  - destruct (f x), (f y); try apply Permutation_refl. constructor.
  - eapply Permutation_trans; eauto.
Qed.

Lemma regions_order nearest region_of rows rows' faces fr links er e_class : is_nearest nearest -> Permutation rows rows' ->
  (forall p, In p faces \/ In p links -> forall region, decided (filter (in_label region_of region) rows) p) ->
  classify_with_regions nearest (map fst rows) (map snd rows) (map region_of (map fst rows)) faces fr links er e_class =
  classify_with_regions nearest (map fst rows') (map snd rows') (map region_of (map fst rows')) faces fr links er e_class.
Proof.
  intros N P D. unfold classify_with_regions. generalize (unique fr) as regions. intros regions. generalize (fr, e_class). intros st. revert st.
  induction regions as [|region regions IH]; intros st; [reflexivity|]. cbn [fold_res].
  assert (E : region_step nearest (map fst rows) (map snd rows) (map region_of (map fst rows)) faces fr links er st region =
    region_step nearest (map fst rows') (map snd rows') (map region_of (map fst rows')) faces fr links er st region).
  { rewrite !region_step_rows. pose proof (filter_order (in_label region_of region) rows rows' P) as Pf.
    pose proof (predict_order nearest _ _ (select (in_region region fr) faces) N Pf) as E1.
    pose proof (predict_order nearest _ _ (select (in_region region er) links) N Pf) as E2.
    destruct (filter (in_label region_of region) rows) as [|r g] eqn:Ef.
    - apply Permutation_nil in Pf. rewrite Pf. reflexivity.
    - cbv zeta. rewrite E1, E2.
      + destruct (filter (in_label region_of region) rows') as [|r' g']; [|reflexivity].
        apply Permutation_sym, Permutation_nil in Pf. discriminate Pf.
      + intros p I. rewrite <- Ef. apply D. right. exact (select_incl _ _ _ I).
      + intros p I. rewrite <- Ef. apply D. left. exact (select_incl _ _ _ I). }
  rewrite E. destruct (region_step nearest (map fst rows') _ _ _ _ _ _ _ _) as [st'|]; [apply IH|reflexivity].
Qed.

(** ** The whole import *)

(** The locations of a file. *)
Definition located (rows : list row) (d : columns Q) : Prop := c_xy d = map fst rows /\ c_id d = map snd rows.
(** No point of the mesh has two nearest locations, in its region. *)
Definition no_ties (within : ring -> point -> bool) (default_region : value) (regions : option (list polygon))
    (rows : list row) (p : point) : Prop :=
  match regions with
  | None => decided rows p
  | Some ps => forall region, decided (filter (in_label (fun q => text_of (point_label within default_region (T "region") ps q)) region) rows) p
  end.
(** The points of faces and flow links. *)
Definition mesh_point (t : face_table) (l : edge_table) (p : point) : Prop :=
  In p (combine (t_x t) (t_y t)) \/ exists x y, l_x l = Some x /\ l_y l = Some y /\ In p (combine x y).

Lemma assign_order nearest within inside c file mt f rows rows' dr regions t l : is_nearest nearest -> Permutation rows rows' ->
  (forall p, mesh_point t l p -> no_ties within dr regions rows p) ->
  assign_classes nearest within inside c file mt f (map fst rows) (map snd rows) dr regions t l =
  assign_classes nearest within inside c file mt f (map fst rows') (map snd rows') dr regions t l.
Proof.
  intros N P D. unfold assign_classes, variable. destruct regions as [ps|].
  - f_equal. destruct (snd (classify_grid inside c file mt f dr (T "region") ps)) as [labels|]; cbn [bind]; [|reflexivity].
    destruct (M_Data.column (t_x t) (map text_of (fst labels))) as [fr|]; cbn [bind]; [|reflexivity].
    set (lab := point_label within dr (T "region") ps).
    assert (G : forall rs : list row, get_points_in_polygon within dr (T "region") ps (map fst rs) =
      match ps, rs with [], _ :: _ => Raise ValueError | _, _ => Ok (map lab (map fst rs)) end).
    { intros rs. unfold get_points_in_polygon. destruct ps, rs; reflexivity. }
    rewrite !G. clear G.
    assert (Em : (rows = [] /\ rows' = []) \/ (rows <> [] /\ rows' <> [])).
    { destruct rows as [|r rs]; [left; split; [reflexivity|apply Permutation_nil; exact P]|right; split; [discriminate|]].
      intros ->. apply Permutation_sym, Permutation_nil in P. discriminate P. }
    destruct Em as [[-> ->]|[N1 N2]]; [reflexivity|].
    assert (B : forall rs : list row, rs <> [] -> match ps, rs with [], _ :: _ => Raise ValueError | _, _ => Ok (map lab (map fst rs)) end =
      match ps with [] => Raise ValueError | _ => Ok (map lab (map fst rs)) end).
    { intros rs Hr. destruct ps, rs; try congruence; reflexivity. }
    rewrite (B rows N1), (B rows' N2). clear B. destruct ps as [|p0 ps0]; [reflexivity|]. cbn [bind].
    destruct (of_option KeyError (l_x l)) as [x|] eqn:Lx; cbn [bind]; [|reflexivity].
    destruct (of_option KeyError (l_y l)) as [y|] eqn:Ly; cbn [bind]; [|reflexivity].
    assert (M : forall rs : list row, map text_of (map lab (map fst rs)) = map (fun q => text_of (lab q)) (map fst rs)).
    { intros rs. rewrite !map_map. reflexivity. }
    rewrite !M. rewrite (regions_order nearest (fun q => text_of (lab q)) rows rows'); auto.
    intros p Hp. apply D. destruct Hp as [Hp|Hp]; [left; exact Hp|right]. exists x, y.
    destruct (l_x l); [|discriminate Lx]. destruct (l_y l); [|discriminate Ly]. injection Lx as ->. injection Ly as ->. auto.
  - f_equal. destruct (of_option KeyError (l_x l)) as [x|] eqn:Lx; cbn [bind]; [|reflexivity].
    destruct (of_option KeyError (l_y l)) as [y|] eqn:Ly; cbn [bind]; [|reflexivity].
    rewrite (classify_order nearest rows rows'); auto.
    intros p Hp. apply (D p). destruct Hp as [Hp|Hp]; [left; exact Hp|right]. exists x, y.
    destruct (l_x l); [|discriminate Lx]. destruct (l_y l); [|discriminate Ly]. injection Lx as ->. injection Ly as ->. auto.
Qed.

(** The rows of the location file in another order: every face and every link
    is in the control volume of the same cross-section, and the caches are the
    same. *)
Theorem C105_control_volumes_partial :
  forall nearest within inside c file mt f rows rows' d d' dr ds regions sections,
    is_nearest nearest -> located rows d -> located rows' d' -> Permutation rows rows' ->
    (forall t l td, import_dflow2d f = Ok (t, l, td) -> forall p, mesh_point t l p ->
       no_ties within dr (match regions with Some (Ok ps) => Some ps | _ => None end) rows p) ->
    set_fm_model_data nearest within inside c file mt f (Ok d) dr ds regions sections =
    set_fm_model_data nearest within inside c file mt f (Ok d') dr ds regions sections.
Proof.
  intros nearest within inside c file mt f rows rows' d d' dr ds regions sections N [X I] [X' I'] P D.
  unfold set_fm_model_data. rewrite X, I, X', I'.
  destruct (import_dflow2d f) as [[[t l] td]|e]; [|reflexivity].
  specialize (D t l td eq_refl). destruct regions as [[ps|e]|]; [|reflexivity|].
  - rewrite (assign_order nearest within inside c file mt f rows rows' dr (Some ps) t l N P D). reflexivity.
  - rewrite (assign_order nearest within inside c file mt f rows rows' dr None t l N P D). reflexivity.
Qed.
Print Assumptions C105_control_volumes_partial.

(** ** The results *)

Lemma flat_map_order {A B} (f : A -> list B) l l' : Permutation l l' -> Permutation (flat_map f l) (flat_map f l').
Proof.
  induction 1 as [|x l l' P IH|x y l|l m n P1 IH1 P2 IH2]; cbn [flat_map].
  - constructor.
  - apply Permutation_app_head. exact IH.
  - rewrite !app_assoc. apply Permutation_app_tail. apply Permutation_app_comm.
  - eapply Permutation_trans; eauto.
Qed.

(** The same locations in another order give the same cross-sections in that
    order. *)
Theorem C105_results_in_the_order_of_the_file :
  forall log_line pickled ed l l' all, Permutation l l' ->
    snd (generate_list log_line pickled [] ed l) = Ok all ->
    exists all', snd (generate_list log_line pickled [] ed l') = Ok all' /\ Permutation all all'.
Proof.
  intros log_line pickled ed l l' all P A.
  assert (B : forall c, In c l -> wanted c = true -> exists x, cd_build c = Ok x).
  { intros c I W. destruct (cd_build c) as [x|e] eqn:Ec; [exists x; reflexivity|].
    destruct (C47_failure_stops_the_run log_line pickled [] ed l l c e (C47_no_selection _ l) I W Ec) as (e' & E').
    rewrite E' in A. discriminate A. }
  rewrite (C47_generated_list log_line pickled [] ed l l (C47_no_selection _ l) B) in A. injection A as <-.
  exists (flat_map built l'). split.
  - apply C47_generated_list; [apply C47_no_selection|]. intros c I. apply B. exact (Permutation_in _ (Permutation_sym P) I).
  - apply flat_map_order. exact P.
Qed.
Print Assumptions C105_results_in_the_order_of_the_file.

(** ** Ties *)

(** A face in the middle between two locations goes to the first of them, with a
    search that takes the first of the nearest samples. *)
Theorem C105_ties_refuted :
  let a := ((0, 0), T "waal_1000.0") in
  let b := ((2, 0), T "waal_2000.0") in
  let classes rows := classify_without_regions first_nearest (map fst rows) (map snd rows) [(1, 0)] [(1, 0)] in
  Permutation [a; b] [b; a] /\
  classes [a; b] = Ok ([T "waal_1000.0"], [T "waal_1000.0"]) /\
  classes [b; a] = Ok ([T "waal_2000.0"], [T "waal_2000.0"]).
Proof. cbv zeta. split; [constructor|]. split; vm_compute; reflexivity. Qed.
Print Assumptions C105_ties_refuted.

Theorem C105_case :
  let a := ((0, 0), T "waal_1000.0") in
  let b := ((4, 0), T "waal_2000.0") in
  let classes rows := classify_without_regions first_nearest (map fst rows) (map snd rows) [(1, 0); (3, 0)] [(1, 1)] in
  decided [a; b] (1, 0) /\ decided [a; b] (3, 0) /\ decided [a; b] (1, 1) /\
  classes [a; b] = Ok ([T "waal_1000.0"; T "waal_2000.0"], [T "waal_1000.0"]) /\ classes [b; a] = classes [a; b].
Proof.
  cbv zeta.
  assert (D : forall p, ~ sq_dist p (0, 0) == sq_dist p (4, 0) -> decided [((0, 0), T "waal_1000.0"); ((4, 0), T "waal_2000.0")] p).
  { intros p H c c' (s & [E|[E|[]]] & M) (s' & [E'|[E'|[]]] & M'); injection E as <- <-; injection E' as <- <-; try reflexivity;
      exfalso; apply H; apply Qle_antisym;
      first [apply (M ((0, 0), T "waal_1000.0")); cbn; tauto|apply (M ((4, 0), T "waal_2000.0")); cbn; tauto
            |apply (M' ((0, 0), T "waal_1000.0")); cbn; tauto|apply (M' ((4, 0), T "waal_2000.0")); cbn; tauto]. }
  repeat (split; [apply D; discriminate|]). split; vm_compute; reflexivity.
Qed.
Print Assumptions C105_case.
