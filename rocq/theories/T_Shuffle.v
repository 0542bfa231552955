(** C128: the order of the polygons in a polygon file. *)
From Coq Require Import String List Ascii ZArith QArith Bool Lia Permutation.
From Verif Require Import PyBase Num Text L_Text L_List M_Geometry M_Import M_Classify M_Polygon M_Pipeline M_Data T_Neighbour T_Polygon T_Skip.
Import ListNotations.

(** ** Specification *)

(** A point in two polygons gets the same label from both. *)
Definition agreeing (test : ring -> point -> bool) (prop : text) (ps : list polygon) : Prop :=
  forall pt p q, In p ps -> In q ps -> test (p_ring p) pt = true -> test (p_ring q) pt = true -> label_of prop p = label_of prop q.
(** The polygons of a run: as they were read, in another order. *)
Definition shuffled (a b : option (res (list polygon))) : Prop :=
  match a, b with
  | None, None => True
  | Some (Ok ps), Some (Ok qs) => Permutation ps qs
  | Some (Raise e), Some (Raise e') => e = e'
  | _, _ => False
  end.
Definition all_agree (test : ring -> point -> bool) (prop : text) (a : option (res (list polygon))) : Prop :=
  match a with Some (Ok ps) => agreeing test prop ps | _ => True end.

(** ** Labels *)

Lemma agreeing_perm test prop ps qs : Permutation ps qs -> agreeing test prop ps -> agreeing test prop qs.
Proof. intros P A pt p q I J. apply A; eapply Permutation_in; try eassumption; apply Permutation_sym, P. Qed.
Lemma agreeing_tail test prop p ps : agreeing test prop (p :: ps) -> agreeing test prop ps.
Proof. intros A pt a b I J. apply A; right; assumption. Qed.
Lemma point_perm within undefined prop pt ps qs : Permutation ps qs -> agreeing within prop ps ->
  point_label within undefined prop ps pt = point_label within undefined prop qs pt.
Proof.
  intro P. induction P as [|p ps qs P IH|p q ps|a b c P1 IH1 P2 IH2]; intro A; [reflexivity|..].
  - cbn [point_label]. rewrite IH by (apply (agreeing_tail _ _ p), A). reflexivity.
  - cbn [point_label]. destruct (within (p_ring q) pt) eqn:E, (within (p_ring p) pt) eqn:E'; try reflexivity.
    apply (A pt); [left; reflexivity|right; left; reflexivity|assumption..].
  - rewrite IH1 by exact A. apply IH2, (agreeing_perm _ _ _ _ P1), A.
Qed.
Lemma node_perm inside prop n ps qs : Permutation ps qs -> agreeing inside prop ps -> forall undefined,
  node_label inside undefined prop ps n = node_label inside undefined prop qs n.
Proof.
  intro P. induction P as [|p ps qs P IH|p q ps|a b c P1 IH1 P2 IH2]; intros A u; [reflexivity|..].
  - unfold node_label in *. cbn [fold_left]. apply IH, (agreeing_tail _ _ p), A.
  - unfold node_label. cbn [fold_left]. f_equal. destruct (inside (p_ring q) n) eqn:E, (inside (p_ring p) n) eqn:E'; try reflexivity.
    apply (A n p q); [right; left; reflexivity|left; reflexivity|assumption..].
  - rewrite IH1 by exact A. apply IH2, (agreeing_perm _ _ _ _ P1), A.
Qed.
Lemma points_perm within undefined prop ps qs pts : Permutation ps qs -> agreeing within prop ps ->
  get_points_in_polygon within undefined prop ps pts = get_points_in_polygon within undefined prop qs pts.
Proof.
  intros P A. unfold get_points_in_polygon. rewrite (map_ext _ _ (fun pt => point_perm within undefined prop pt ps qs P A)).
  destruct ps as [|p ps]; [apply Permutation_nil in P; subst qs; reflexivity|].
  destruct qs as [|q qs]; [apply Permutation_sym, Permutation_nil in P; discriminate|reflexivity].
Qed.
Lemma nodes_perm inside undefined prop ps qs nodes : Permutation ps qs -> agreeing inside prop ps ->
  node_labels inside undefined prop ps nodes = node_labels inside undefined prop qs nodes.
Proof.
  intros P A. destruct ps as [|p ps]; [apply Permutation_nil in P; subst qs; reflexivity|].
  assert (N : qs <> []) by (intros ->; apply Permutation_sym, Permutation_nil in P; discriminate).
  rewrite !node_labels_pointwise by (exact N || discriminate). f_equal. apply map_ext. intro n. apply node_perm; assumption.
Qed.
Lemma grid_perm inside undefined prop ps qs g : Permutation ps qs -> agreeing inside prop ps ->
  gridpoints inside undefined prop ps g = gridpoints inside undefined prop qs g.
Proof. intros P A. unfold gridpoints, faces_in_polygon, edges_in_polygon. rewrite (nodes_perm inside undefined prop ps qs _ P A). reflexivity. Qed.
Lemma classify_perm inside c file mt f undefined prop ps qs : Permutation ps qs -> agreeing inside prop ps ->
  classify_grid inside c file mt f undefined prop ps = classify_grid inside c file mt f undefined prop qs.
Proof.
  intros P A. unfold classify_grid. f_equal. f_equal. destruct (mesh_grid f) as [g|]; [|reflexivity]. cbn [bind]. apply grid_perm; assumption.
Qed.

(** ** C128 *)

(** The model data and the cache files. *)
Theorem C128_order_of_the_polygons :
  forall nearest within inside c file mt f css dr ds regions sections regions' sections',
    shuffled regions regions' -> shuffled sections sections' ->
    all_agree within (T "region") regions -> all_agree inside (T "region") regions -> all_agree inside (T "section") sections ->
    set_fm_model_data nearest within inside c file mt f css dr ds regions sections =
    set_fm_model_data nearest within inside c file mt f css dr ds regions' sections'.
Proof.
  intros nearest within inside c file mt f css dr ds regions sections regions' sections' R S A1 A2 A3. unfold set_fm_model_data.
  destruct (import_dflow2d f) as [[[t l] td]|]; [|reflexivity]. destruct css as [d|]; [|reflexivity].
  assert (SE : forall c' steps t1 l1, assign_sections inside c' file mt f steps ds (match sections with Some (Ok ps) => Some ps | _ => None end) td t1 l1 =
                                      assign_sections inside c' file mt f steps ds (match sections' with Some (Ok ps) => Some ps | _ => None end) td t1 l1).
  { intros c' steps t1 l1. destruct sections as [[ps|e]|], sections' as [[qs|e']|]; try contradiction; try reflexivity.
    unfold assign_sections. rewrite (classify_perm inside c' file mt f ds (T "section") ps qs S A3). reflexivity. }
  assert (RE : assign_classes nearest within inside c file mt f (c_xy d) (c_id d) dr (match regions with Some (Ok ps) => Some ps | _ => None end) t l =
               assign_classes nearest within inside c file mt f (c_xy d) (c_id d) dr (match regions' with Some (Ok ps) => Some ps | _ => None end) t l).
  { destruct regions as [[ps|e]|], regions' as [[qs|e']|]; try contradiction; try reflexivity.
    unfold assign_classes. rewrite (classify_perm inside c file mt f dr (T "region") ps qs R A2), (points_perm within dr (T "region") ps qs _ R A1). reflexivity. }
  cbv zeta. rewrite RE.
  destruct regions as [[ps|e]|], regions' as [[qs|e']|]; try contradiction; destruct sections as [[ps1|e1]|], sections' as [[qs1|e1']|]; try contradiction;
    cbn [shuffled] in R, S; subst; try reflexivity;
    (destruct (snd (assign_classes _ _ _ _ _ _ _ _ _ _ _ _ _)) as [[t1 l1]|]; [|reflexivity]); rewrite SE; reflexivity.
Qed.
Print Assumptions C128_order_of_the_polygons.

(** Every cross-section. *)
Theorem C128_cross_sections :
  forall nearest within inside sqrt smooth mean correction clean c file mt css dr ds regions sections regions' sections' st id len centre nt f,
    shuffled regions regions' -> shuffled sections sections' ->
    all_agree within (T "region") regions -> all_agree inside (T "region") regions -> all_agree inside (T "section") sections ->
    cross_section_of nearest within inside sqrt smooth mean correction clean c file mt css dr ds regions sections st id len centre nt f =
    cross_section_of nearest within inside sqrt smooth mean correction clean c file mt css dr ds regions' sections' st id len centre nt f.
Proof.
  intros nearest within inside sqrt smooth mean correction clean c file mt css dr ds regions sections regions' sections' st id len centre nt f R S A1 A2 A3.
  unfold cross_section_of. rewrite (C128_order_of_the_polygons nearest within inside c file mt f css dr ds _ _ _ _ R S A1 A2 A3). reflexivity.
Qed.
Print Assumptions C128_cross_sections.

(** ** Reading *)

Lemma map_res_perm {A B} (f : A -> res B) l l' : Permutation l l' -> forall ys, map_res f l = Ok ys ->
  exists ys', map_res f l' = Ok ys' /\ Permutation ys ys'.
Proof.
  intro P. induction P as [|x l l' P IH|x y l|a b c P1 IH1 P2 IH2]; intros ys H.
  - exists ys. split; [exact H|apply Permutation_refl].
  - cbn [map_res] in *. destruct (f x) as [v|]; [|discriminate]. destruct (map_res f l) as [vs|]; [|discriminate]. injection H as <-.
    destruct (IH vs eq_refl) as (vs' & -> & Q). exists (v :: vs'). split; [reflexivity|apply perm_skip, Q].
  - cbn [map_res] in *. destruct (f y) as [v|]; [|discriminate]. destruct (f x) as [w|]; [|discriminate].
    destruct (map_res f l) as [vs|]; [|discriminate]. injection H as <-. exists (w :: v :: vs). split; [reflexivity|apply perm_swap].
  - destruct (IH1 ys H) as (zs & Z & Q). destruct (IH2 zs Z) as (ws & W & Q'). exists ws. split; [exact W|eapply Permutation_trans; eassumption].
Qed.
Lemma forallb_perm {A} (f : A -> bool) l l' : Permutation l l' -> forallb f l = forallb f l'.
Proof.
  intro P. induction P as [|x l l' P IH|x y l|a b c P1 IH1 P2 IH2]; cbn [forallb]; [reflexivity|rewrite IH; reflexivity| |congruence].
  destruct (f x), (f y); reflexivity.
Qed.
Lemma existsb_perm {A} (f : A -> bool) l l' : Permutation l l' -> existsb f l = existsb f l'.
Proof.
  intro P. induction P as [|x l l' P IH|x y l|a b c P1 IH1 P2 IH2]; cbn [existsb]; [reflexivity|rewrite IH; reflexivity| |congruence].
  destruct (f x), (f y); reflexivity.
Qed.
Lemma value_eqb_sym a b : value_eqb a b = value_eqb b a.
Proof.
  destruct a as [|x|s|], b as [|y|t|]; try reflexivity; cbn [value_eqb]; [apply Z.eqb_sym|].
  destruct (teqb s t) eqn:E, (teqb t s) eqn:E'; try reflexivity.
  - apply teqb_eq in E. subst t. rewrite (proj2 (teqb_eq s s) eq_refl) in E'. discriminate.
  - apply teqb_eq in E'. subst t. rewrite (proj2 (teqb_eq s s) eq_refl) in E. discriminate.
Qed.
Lemma distinct_perm l l' : Permutation l l' -> distinct l = distinct l'.
Proof.
  intro P. induction P as [|x l l' P IH|x y l|a b c P1 IH1 P2 IH2]; cbn [distinct existsb]; [reflexivity| | |congruence].
  - rewrite IH, (existsb_perm _ l l' P). reflexivity.
  - rewrite (value_eqb_sym y x). destruct (value_eqb x y), (existsb (value_eqb x) l), (existsb (value_eqb y) l); reflexivity.
Qed.
Lemma set_polygons_perm ps qs : Permutation ps qs -> set_polygons ps = Ok ps -> set_polygons qs = Ok qs.
Proof.
  intros P H. unfold set_polygons in *. cbv zeta in *. pose proof (Permutation_map (fun p => get (T "name") (p_props p)) P) as Q.
  rewrite <- (forallb_perm truthy _ _ Q), <- (forallb_perm hashable _ _ Q), <- (distinct_perm _ _ Q).
  destruct (negb (forallb truthy _)); [discriminate|]. destruct (negb (forallb hashable _)); [discriminate|].
  destruct (negb (distinct _)); [discriminate|reflexivity].
Qed.
Lemma set_polygons_same ps qs : set_polygons ps = Ok qs -> qs = ps.
Proof.
  unfold set_polygons. cbv zeta. destruct (negb _); [discriminate|]. destruct (negb _); [discriminate|]. destruct (negb _); [discriminate|congruence].
Qed.
Lemma from_file_perm name fs fs' ps : Permutation fs fs' -> from_file name (Features (Some fs)) = Ok ps ->
  exists ps', from_file name (Features (Some fs')) = Ok ps' /\ Permutation ps ps'.
Proof.
  intros P. unfold from_file. destruct (negb _); [discriminate|].
  destruct fs as [|a fs]; [discriminate|].
  destruct fs' as [|b fs']; [apply Permutation_sym, Permutation_nil in P; discriminate|].
  unfold polygons_from_geojson_data. destruct (map_res polygon_of_feature (a :: fs)) as [xs|] eqn:E; [|discriminate]. cbn [bind]. intro H.
  pose proof (set_polygons_same _ _ H) as ->. destruct (map_res_perm _ _ _ P xs E) as (ys & -> & Q). exists ys. cbn [bind].
  split; [apply (set_polygons_perm xs ys Q H)|exact Q].
Qed.

(** A file of regions or sections is accepted in every order or in none, and
    the polygons are those of the other file. *)
Theorem C128_reading :
  forall intersects name fs fs' ps w, Permutation fs fs' ->
    (region_polygon intersects name (Features (Some fs)) = Ok (ps, w) ->
     exists ps' w', region_polygon intersects name (Features (Some fs')) = Ok (ps', w') /\ Permutation ps ps') /\
    (section_polygon intersects name (Features (Some fs)) = Ok (ps, w) ->
     exists ps' w', section_polygon intersects name (Features (Some fs')) = Ok (ps', w') /\ Permutation ps ps').
Proof.
  intros intersects name fs fs' ps w P. split; intro H.
  - unfold region_polygon in *. destruct (from_file name (Features (Some fs))) as [xs|e] eqn:E; [|destruct e; discriminate].
    destruct (from_file_perm name fs fs' xs P E) as (ys & -> & Q). injection H as <- _. exists ys, (check_overlap intersects ys). split; [reflexivity|exact Q].
  - unfold section_polygon in *. destruct (from_file name (Features (Some fs))) as [xs|e] eqn:E; [|discriminate]. cbn [bind] in H.
    destruct (from_file_perm name fs fs' xs P E) as (ys & -> & Q). cbn [bind].
    destruct (map_res validate_section xs) as [us|] eqn:V; [|discriminate]. cbn [bind] in H.
    destruct (map_res_perm _ _ _ Q us V) as (vs & -> & Q'). cbn [bind]. injection H as <- _.
    exists vs, (check_overlap intersects vs). split; [reflexivity|exact Q'].
Qed.
Print Assumptions C128_reading.

(** Without the condition the order matters: a location in two regions. *)
Theorem C128_overlap_matters :
  exists ps qs pt, Permutation ps qs /\ ~ agreeing in_square (T "region") ps /\
    point_label in_square (VStr (T "undefined")) (T "region") ps pt <> point_label in_square (VStr (T "undefined")) (T "region") qs pt /\
    node_label in_square (VStr (T "undefined")) (T "region") ps pt <> node_label in_square (VStr (T "undefined")) (T "region") qs pt.
Proof.
  exists [named "p" "west" (square 0 10); named "q" "east" (square 5 20)], [named "q" "east" (square 5 20); named "p" "west" (square 0 10)], (7, 0)%Q.
  split; [apply perm_swap|]. split; [|split; vm_compute; discriminate].
  intro A. specialize (A (7, 0)%Q _ _ (or_introl eq_refl) (or_intror (or_introl eq_refl)) eq_refl eq_refl). vm_compute in A. discriminate A.
Qed.
Print Assumptions C128_overlap_matters.

(** Two polygons that overlap and have the same label, and one beside them. *)
Theorem C128_case :
  let a := named "p" "west" (square 0 10) in let b := named "q" "west" (square 5 20) in let c := named "r" "east" (square 30 40) in
  map (point_label in_square (VStr (T "undefined")) (T "region") [a; b; c]) [(7, 0); (15, 0); (35, 0); (25, 0)]%Q =
  map (point_label in_square (VStr (T "undefined")) (T "region") [c; b; a]) [(7, 0); (15, 0); (35, 0); (25, 0)]%Q /\
  map (node_label in_square (VStr (T "undefined")) (T "region") [b; c; a]) [(7, 0); (15, 0); (35, 0); (25, 0)]%Q =
  [VStr (T "west"); VStr (T "west"); VStr (T "east"); VStr (T "undefined")].
Proof. split; vm_compute; reflexivity. Qed.
Print Assumptions C128_case.
