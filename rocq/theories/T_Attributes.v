(** C129: the other attributes of the polygons in a polygon file. *)
From Coq Require Import String List Ascii ZArith QArith Bool Lia.
From Verif Require Import PyBase Num Text L_Text L_List M_Geometry M_Import M_Classify M_Polygon M_Pipeline M_Data T_Neighbour T_Polygon T_Skip.
Import ListNotations.

(** ** Specification *)

(** The same attribute, whatever the letter case of its name. *)
Definition same_attribute (k : text) (a b : dict) : Prop := lookup k (lower_keys a) = lookup k (lower_keys b).
(** Two features with the same geometry, name and label. *)
Definition same_feature (prop : text) (f g : feature) : Prop :=
  f_geometry f = f_geometry g /\
  match f_props f, f_props g with
  | None, None => True
  | Some a, Some b => same_attribute (T "name") a b /\ same_attribute prop a b
  | _, _ => False
  end.
(** Two polygons as they are read: the same, apart from other attributes. *)
Definition same_polygon (prop : text) (p q : polygon) : Prop :=
  p_ring p = p_ring q /\ lookup (T "name") (p_props p) = lookup (T "name") (p_props q) /\ lookup prop (p_props p) = lookup prop (p_props q).
(** Two polygons with the same ring and label; the names may differ. *)
Definition same_label (prop : text) (p q : polygon) : Prop := p_ring p = p_ring q /\ get prop (p_props p) = get prop (p_props q).
(** The outcome of reading: the same polygons and the same warnings about
    overlap, or the same exception. *)
Definition same_outcome (prop : text) (a b : res (list polygon * list (value * value))) : Prop :=
  match a, b with
  | Ok (ps, w), Ok (qs, w') => Forall2 (same_polygon prop) ps qs /\ w = w'
  | Raise e, Raise e' => e = e'
  | _, _ => False
  end.
Definition same_labels (prop : text) (a b : option (res (list polygon))) : Prop :=
  match a, b with
  | None, None => True
  | Some (Ok ps), Some (Ok qs) => Forall2 (same_label prop) ps qs
  | Some (Raise e), Some (Raise e') => e = e'
  | _, _ => False
  end.

(** ** Reading *)

Definition R2 {A} (R : A -> A -> Prop) (a b : res A) : Prop :=
  match a, b with Ok x, Ok y => R x y | Raise e, Raise e' => e = e' | _, _ => False end.
Lemma map_res_R2 {A B} (R : A -> A -> Prop) (S : B -> B -> Prop) (f : A -> res B) l l' :
  (forall x y, R x y -> R2 S (f x) (f y)) -> Forall2 R l l' -> R2 (Forall2 S) (map_res f l) (map_res f l').
Proof.
  intros H F. induction F as [|x y l l' E F IH]; cbn [map_res]; [apply Forall2_nil|]. specialize (H x y E).
  destruct (f x), (f y); cbn [R2] in *; try contradiction; [|exact H].
  destruct (map_res f l), (map_res f l'); cbn [R2] in *; try contradiction; [apply Forall2_cons; assumption|exact IH].
Qed.
Lemma feature_R2 prop f g : same_feature prop f g -> R2 (same_polygon prop) (polygon_of_feature f) (polygon_of_feature g).
Proof.
  destruct f as [a ga], g as [b gb]. unfold same_feature, polygon_of_feature. cbn [f_props f_geometry]. intros [<- H].
  destruct a as [a|], b as [b|]; try contradiction; [|reflexivity]. destruct H as [N L]. unfold same_attribute in *. cbv zeta. rewrite <- N.
  assert (P : forall r, same_polygon prop (mk_polygon r (lower_keys a)) (mk_polygon r (lower_keys b))).
  { intro r. split; [reflexivity|]. split; [exact N|exact L]. }
  destruct (lookup (T "name") (lower_keys a)); [|reflexivity].
  destruct ga as [rs|parts| | |]; try reflexivity.
  - destruct rs as [|r [|r' rs]]; [reflexivity|apply P|reflexivity].
  - destruct (Nat.eqb (length parts) 1).
    + destruct (py_index parts 0) as [p|]; [|reflexivity]. cbn [bind]. destruct (py_index p 0) as [r|]; [|reflexivity]. apply P.
    + destruct (py_index parts 0) as [p|]; [|reflexivity]. cbn [bind]. destruct (negb _); [reflexivity|].
      destruct (py_index p 0) as [r|]; [|reflexivity]. apply P.
Qed.
Lemma names_same prop ps qs : Forall2 (same_polygon prop) ps qs ->
  map (fun p => get (T "name") (p_props p)) ps = map (fun p => get (T "name") (p_props p)) qs.
Proof. intro F. induction F as [|p q ps qs (_ & N & _) F IH]; [reflexivity|]. cbn [map]. unfold get at 1 3. rewrite N, IH. reflexivity. Qed.
Lemma set_polygons_R2 prop ps qs : Forall2 (same_polygon prop) ps qs -> R2 (Forall2 (same_polygon prop)) (set_polygons ps) (set_polygons qs).
Proof.
  intro F. unfold set_polygons. cbv zeta. rewrite <- (names_same prop ps qs F).
  destruct (negb _); [reflexivity|]. destruct (negb _); [reflexivity|]. destruct (negb _); [reflexivity|exact F].
Qed.
Lemma from_file_R2 prop name fs gs : Forall2 (same_feature prop) fs gs ->
  R2 (Forall2 (same_polygon prop)) (from_file name (Features (Some fs))) (from_file name (Features (Some gs))).
Proof.
  intro F. unfold from_file. destruct (negb _); [reflexivity|]. pose proof (map_res_R2 _ _ _ _ _ (feature_R2 prop) F) as M.
  unfold polygons_from_geojson_data. destruct F as [|f g fs gs E F]; [reflexivity|].
  destruct (map_res polygon_of_feature (f :: fs)), (map_res polygon_of_feature (g :: gs)); cbn [R2 bind] in *; try contradiction; [|exact M].
  apply set_polygons_R2, M.
Qed.
Lemma positions_same prop ps qs : Forall2 (same_polygon prop) ps qs ->
  Forall2 (fun a b => fst a = fst b /\ same_polygon prop (snd a) (snd b)) (positions ps) (positions qs).
Proof.
  unfold positions. intro F. generalize 0%nat. induction F as [|p q ps qs E F IH]; intro i; [apply Forall2_nil|].
  cbn [length seq combine]. apply Forall2_cons; [split; [reflexivity|exact E]|apply IH].
Qed.
Lemma flat_map_F2 {A B} (R : A -> A -> Prop) (f g : A -> list B) l l' : (forall x y, R x y -> f x = g y) -> Forall2 R l l' -> flat_map f l = flat_map g l'.
Proof. intros H F. induction F as [|x y l l' E F IH]; [reflexivity|]. cbn [flat_map]. rewrite (H x y E), IH. reflexivity. Qed.
Lemma overlap_same intersects prop ps qs : Forall2 (same_polygon prop) ps qs -> check_overlap intersects ps = check_overlap intersects qs.
Proof.
  intro F. unfold check_overlap. pose proof (positions_same prop ps qs F) as P.
  eapply flat_map_F2; [|exact P]. intros [i a] [i' a'] [E (A1 & A2 & _)]. eapply flat_map_F2; [|exact P]. intros [j b] [j' b'] [E' (B1 & B2 & _)].
  cbn [fst snd] in *. subst i' j'. unfold get. rewrite A1, A2, B1, B2. reflexivity.
Qed.
Lemma section_R2 p q : same_polygon (T "section") p q -> R2 (same_polygon (T "section")) (validate_section p) (validate_section q).
Proof.
  intros (A & N & S). unfold validate_section. rewrite <- S. destruct (lookup (T "section") (p_props p)) as [[|z|s|]|] eqn:E; try reflexivity.
  cbv zeta. destruct (negb _); [reflexivity|]. destruct (map_section _) as [s'|]; cbn [R2].
  - split; [exact A|]. cbn [p_props]. rewrite !lookup_set_key. split; [exact N|reflexivity].
  - split; [exact A|]. split; [exact N|]. rewrite E. exact S.
Qed.

(** ** Labels *)

Lemma point_same within u prop pt ps qs : Forall2 (same_label prop) ps qs -> point_label within u prop ps pt = point_label within u prop qs pt.
Proof. intro F. induction F as [|p q ps qs [A L] F IH]; [reflexivity|]. cbn [point_label]. unfold label_of. rewrite A, L, IH. reflexivity. Qed.
Lemma paint_same inside prop nodes ps qs : Forall2 (same_label prop) ps qs -> forall ls,
  fold_left (paint inside prop nodes) ps ls = fold_left (paint inside prop nodes) qs ls.
Proof.
  intro F. induction F as [|p q ps qs [A L] F IH]; intro ls; [reflexivity|]. cbn [fold_left]. rewrite IH. f_equal.
  unfold paint, label_of. rewrite A, L. reflexivity.
Qed.
Lemma classify_same inside c file mt f u prop ps qs : Forall2 (same_label prop) ps qs ->
  classify_grid inside c file mt f u prop ps = classify_grid inside c file mt f u prop qs.
Proof.
  intro F. unfold classify_grid. f_equal. f_equal. destruct (mesh_grid f) as [g|]; [|reflexivity]. cbn [bind].
  unfold gridpoints, faces_in_polygon, edges_in_polygon.
  replace (node_labels inside u prop qs (g_nodes g)) with (node_labels inside u prop ps (g_nodes g)); [reflexivity|].
  unfold node_labels. pose proof (paint_same inside prop (g_nodes g) ps qs F) as P. destruct F; [reflexivity|]. rewrite P. reflexivity.
Qed.
Lemma points_same within u prop ps qs pts : Forall2 (same_label prop) ps qs ->
  get_points_in_polygon within u prop ps pts = get_points_in_polygon within u prop qs pts.
Proof.
  intro F. unfold get_points_in_polygon. rewrite (map_ext _ _ (fun pt => point_same within u prop pt ps qs F)). destruct F; reflexivity.
Qed.

(** ** C129 *)

(** Two files with the same geometries, names and labels are read alike. *)
Theorem C129_reading :
  forall intersects name fs gs,
    (Forall2 (same_feature (T "region")) fs gs ->
     same_outcome (T "region") (region_polygon intersects name (Features (Some fs))) (region_polygon intersects name (Features (Some gs)))) /\
    (Forall2 (same_feature (T "section")) fs gs ->
     same_outcome (T "section") (section_polygon intersects name (Features (Some fs))) (section_polygon intersects name (Features (Some gs)))).
Proof.
  intros intersects name fs gs. split; intro F; pose proof (from_file_R2 _ name fs gs F) as R.
  - unfold region_polygon. destruct (from_file name (Features (Some fs))) as [ps|e], (from_file name (Features (Some gs))) as [qs|e']; cbn [R2] in R; try contradiction.
    + split; [exact R|apply (overlap_same _ (T "region")), R].
    + subst e'. destruct e; reflexivity.
  - unfold section_polygon. destruct (from_file name (Features (Some fs))) as [ps|e], (from_file name (Features (Some gs))) as [qs|e']; cbn [R2] in R; try contradiction; [|exact R].
    cbn [bind]. pose proof (map_res_R2 _ _ _ _ _ section_R2 R) as V.
    destruct (map_res validate_section ps), (map_res validate_section qs); cbn [R2] in V; try contradiction; [|exact V].
    cbn [bind]. split; [exact V|apply (overlap_same _ (T "section")), V].
Qed.
Print Assumptions C129_reading.

Lemma same_polygon_label prop ps qs : Forall2 (same_polygon prop) ps qs -> Forall2 (same_label prop) ps qs.
Proof. intro F. induction F as [|p q ps qs (A & _ & L) F IH]; constructor; [|exact IH]. split; [exact A|]. unfold get. rewrite L. reflexivity. Qed.

(** The model data and the caches depend on the rings and the labels only. *)
Theorem C129_rings_and_labels :
  forall nearest within inside c file mt f css dr ds regions sections regions' sections',
    same_labels (T "region") regions regions' -> same_labels (T "section") sections sections' ->
    set_fm_model_data nearest within inside c file mt f css dr ds regions sections =
    set_fm_model_data nearest within inside c file mt f css dr ds regions' sections'.
Proof.
  intros nearest within inside c file mt f css dr ds regions sections regions' sections' R S. unfold set_fm_model_data.
  destruct (import_dflow2d f) as [[[t l] td]|]; [|reflexivity]. destruct css as [d|]; [|reflexivity].
  assert (SE : forall c' steps t1 l1, assign_sections inside c' file mt f steps ds (match sections with Some (Ok ps) => Some ps | _ => None end) td t1 l1 =
                                      assign_sections inside c' file mt f steps ds (match sections' with Some (Ok ps) => Some ps | _ => None end) td t1 l1).
  { intros c' steps t1 l1. destruct sections as [[ps|e]|], sections' as [[qs|e']|]; try contradiction; try reflexivity.
    unfold assign_sections. rewrite (classify_same inside c' file mt f ds (T "section") ps qs S). reflexivity. }
  assert (RE : assign_classes nearest within inside c file mt f (c_xy d) (c_id d) dr (match regions with Some (Ok ps) => Some ps | _ => None end) t l =
               assign_classes nearest within inside c file mt f (c_xy d) (c_id d) dr (match regions' with Some (Ok ps) => Some ps | _ => None end) t l).
  { destruct regions as [[ps|e]|], regions' as [[qs|e']|]; try contradiction; try reflexivity.
    unfold assign_classes. rewrite (classify_same inside c file mt f dr (T "region") ps qs R), (points_same within dr (T "region") ps qs _ R). reflexivity. }
  cbv zeta. rewrite RE.
  destruct regions as [[ps|e]|], regions' as [[qs|e']|]; try contradiction; destruct sections as [[ps1|e1]|], sections' as [[qs1|e1']|]; try contradiction;
    cbn [same_labels] in R, S; subst; try reflexivity;
    (destruct (snd (assign_classes _ _ _ _ _ _ _ _ _ _ _ _ _)) as [[t1 l1]|]; [|reflexivity]); rewrite SE; reflexivity.
Qed.
Print Assumptions C129_rings_and_labels.

(** From the files to a cross-section: the polygons of two pairs of files. *)
Definition polygons_of (r : res (list polygon * list (value * value))) : res (list polygon) := p <- r ;; Ok (fst p).
Theorem C129_cross_sections :
  forall intersects nearest within inside sqrt smooth mean correction clean c file mt css dr ds rname sname fs gs hs ks st id len centre nt f,
    Forall2 (same_feature (T "region")) fs gs -> Forall2 (same_feature (T "section")) hs ks ->
    let run a b :=
      cross_section_of nearest within inside sqrt smooth mean correction clean c file mt css dr ds
        (Some (polygons_of (region_polygon intersects rname (Features (Some a)))))
        (Some (polygons_of (section_polygon intersects sname (Features (Some b))))) st id len centre nt f in
    run fs hs = run gs ks.
Proof.
  intros intersects nearest within inside sqrt smooth mean correction clean c file mt css dr ds rname sname fs gs hs ks st id len centre nt f F H. cbv zeta.
  assert (L : forall prop a b, same_outcome prop a b -> same_labels prop (Some (polygons_of a)) (Some (polygons_of b))).
  { intros prop [[ps w]|e] [[qs w']|e']; cbn; try tauto. intros [E _]. apply same_polygon_label, E. }
  unfold cross_section_of.
  rewrite (C129_rings_and_labels nearest within inside c file mt f css dr ds _ _ _ _
    (L _ _ _ (proj1 (C129_reading intersects rname fs gs) F)) (L _ _ _ (proj2 (C129_reading intersects sname hs ks) H))).
  reflexivity.
Qed.
Print Assumptions C129_cross_sections.

(** A feature from a geographic information system, with its own columns and
    names in capitals, beside one with the bare minimum. *)
Theorem C129_case :
  let ring := square 0 10 in
  let bare := mk_feature (Some [(T "name", VStr (T "p")); (T "section", VStr (T "2"))]) (GPolygon [ring]) in
  let full := mk_feature (Some [(T "fid", VInt 7); (T "SECTION", VStr (T "2")); (T "Name", VStr (T "p")); (T "region", VMany)]) (GPolygon [ring]) in
  Forall2 (same_feature (T "section")) [bare] [full] /\ ~ same_feature (T "region") bare full /\
  (exists ps qs, section_polygon (fun _ _ => false) (T "s.geojson") (Features (Some [bare])) = Ok (ps, []) /\
     section_polygon (fun _ _ => false) (T "s.geojson") (Features (Some [full])) = Ok (qs, []) /\ ps <> qs /\
     map (label_of (T "section")) ps = [VStr (T "floodplain1")] /\ map (label_of (T "section")) qs = [VStr (T "floodplain1")]).
Proof.
  cbv zeta. split; [|split].
  - apply Forall2_cons; [|apply Forall2_nil]. split; [reflexivity|]. split; vm_compute; reflexivity.
  - intros [_ [_ H]]. vm_compute in H. discriminate H.
  - eexists. eexists. split; [vm_compute; reflexivity|]. split; [vm_compute; reflexivity|]. split; [discriminate|]. split; vm_compute; reflexivity.
Qed.
Print Assumptions C129_case.
