(** Theorems for C35, C36 and C68: classification by polygons, validation of
    polygon files, and the overlap warnings. *)
From Coq Require Import String List Ascii ZArith QArith Bool Lia.
From Verif Require Import PyBase Num Text L_Text L_List M_Classify M_Polygon T_Neighbour.
Import ListNotations.

Lemma map_res_ok {A B} (f : A -> res B) l : forall out, map_res f l = Ok out ->
  Forall2 (fun x y => f x = Ok y) l out.
Proof.
  induction l as [|x l IH]; intros out H; cbn [map_res] in H.
  - injection H as <-. constructor.
  - destruct (f x) as [y|] eqn:E; [|discriminate]. destruct (map_res f l) as [ys|]; [|discriminate].
    injection H as <-. constructor; auto.
Qed.

Lemma map_res_total {A B} (f : A -> res B) g l : (forall x, In x l -> f x = Ok (g x)) ->
  map_res f l = Ok (map g l).
Proof.
  induction l as [|x l IH]; intro H; [reflexivity|]. cbn [map_res map].
  rewrite (H x (or_introl eq_refl)), IH; [reflexivity|]. intros y I. apply H. right; auto.
Qed.

Lemma map_res_raises {A B} (f : A -> res B) l x e : In x l -> f x = Raise e -> forall out, map_res f l <> Ok out.
Proof.
  intros I E out H. apply map_res_ok in H. revert I. induction H as [|a b l m Hab H IH]; intros []; subst.
  - congruence.
  - auto.
Qed.

Lemma Forall2_nth {A B} (P : A -> B -> Prop) l m : Forall2 P l m -> forall i,
  match nth_error l i, nth_error m i with
  | Some x, Some y => P x y
  | None, None => True
  | _, _ => False
  end.
Proof. induction 1; intros [|i]; cbn; auto. apply IHForall2. Qed.

(** * C35 *)

(** A location gets the label of the first polygon it is within, or the default. *)
Theorem C35_label_of_a_location :
  forall within undefined prop ps pt,
    (exists before p after, ps = before ++ p :: after /\ within (p_ring p) pt = true /\
       (forall q, In q before -> within (p_ring q) pt = false) /\
       point_label within undefined prop ps pt = get prop (p_props p)) \/
    ((forall q, In q ps -> within (p_ring q) pt = false) /\
     point_label within undefined prop ps pt = undefined).
Proof.
  intros within undefined prop ps pt. induction ps as [|p ps IH]; cbn [point_label].
  - right. split; auto. intros q [].
  - destruct (within (p_ring p) pt) eqn:E.
    + left. exists [], p, ps. repeat split; auto. intros q [].
    + destruct IH as [(b & q & a & -> & W & N & L)|[N L]].
      * left. exists (p :: b), q, a. repeat split; auto. intros x [<-|I]; auto.
      * right. split; auto. intros x [<-|I]; auto.
Qed.
Print Assumptions C35_label_of_a_location.

(** The labels of the nodes, per node. *)
Definition node_label (inside : ring -> point -> bool) (undefined : value) (prop : text)
    (ps : list polygon) (n : point) : value :=
  fold_left (fun l p => if inside (p_ring p) n then get prop (p_props p) else l) ps undefined.

Lemma paint_map inside prop nodes (f : point -> value) p :
  paint inside prop nodes (map f nodes) p
  = map (fun n => if inside (p_ring p) n then label_of prop p else f n) nodes.
Proof. unfold paint. induction nodes as [|n nodes IH]; cbn; [reflexivity|]. rewrite IH. reflexivity. Qed.

Lemma node_labels_pointwise inside undefined prop ps nodes : ps <> [] ->
  node_labels inside undefined prop ps nodes = Ok (map (node_label inside undefined prop ps) nodes).
Proof.
  intro N. unfold node_labels. destruct ps as [|p0 ps0] eqn:E; [congruence|]. rewrite <- E. f_equal.
  clear E N p0 ps0. unfold node_label.
  assert (G : forall f : point -> value, fold_left (paint inside prop nodes) ps (map f nodes) =
    map (fun n => fold_left (fun l p => if inside (p_ring p) n then get prop (p_props p) else l) ps (f n)) nodes).
  { induction ps as [|p ps IH]; intro f; cbn [fold_left]; [reflexivity|]. rewrite paint_map, IH. reflexivity. }
  apply G.
Qed.

Lemma node_label_snoc inside undefined prop ps p n :
  node_label inside undefined prop (ps ++ [p]) n
  = if inside (p_ring p) n then get prop (p_props p) else node_label inside undefined prop ps n.
Proof. unfold node_label. rewrite fold_left_app. reflexivity. Qed.

(** A node gets the label of the last polygon it is inside, or the default. *)
Theorem C35_label_of_a_node :
  forall inside undefined prop ps n,
    (exists before p after, ps = before ++ p :: after /\ inside (p_ring p) n = true /\
       (forall q, In q after -> inside (p_ring q) n = false) /\
       node_label inside undefined prop ps n = get prop (p_props p)) \/
    ((forall q, In q ps -> inside (p_ring q) n = false) /\
     node_label inside undefined prop ps n = undefined).
Proof.
  intros inside undefined prop ps n. induction ps as [|p ps IH] using rev_ind.
  - right. split; auto. intros q [].
  - rewrite node_label_snoc. destruct (inside (p_ring p) n) eqn:E.
    + left. exists ps, p, []. repeat split; auto. intros q [].
    + destruct IH as [(b & q & a & -> & W & N & L)|[N L]].
      * left. exists b, q, (a ++ [p]). rewrite <- app_assoc. repeat split; auto.
        intros x I. apply in_app_or in I. destruct I as [I|[<-|[]]]; auto.
      * right. split; auto. intros x I. apply in_app_or in I. destruct I as [I|[<-|[]]]; auto.
Qed.
Print Assumptions C35_label_of_a_node.

(** A point that is in at most one polygon, with shapely and MeshKernel of the
    same opinion, gets the same label as a location and as a node. *)
Theorem C35_locations_and_nodes_agree_partial :
  forall within inside undefined prop ps pt,
    (forall p, In p ps -> within (p_ring p) pt = inside (p_ring p) pt) ->
    (forall b1 p1 a1 b2 p2 a2, ps = b1 ++ p1 :: a1 -> ps = b2 ++ p2 :: a2 ->
       inside (p_ring p1) pt = true -> inside (p_ring p2) pt = true -> p1 = p2) ->
    point_label within undefined prop ps pt = node_label inside undefined prop ps pt.
Proof.
  intros within inside undefined prop ps pt A O.
  destruct (C35_label_of_a_location within undefined prop ps pt) as [(b & p & a & E & W & _ & ->)|[N ->]];
  destruct (C35_label_of_a_node inside undefined prop ps pt) as [(b' & p' & a' & E' & W' & _ & ->)|[N' ->]].
  - rewrite (O b p a b' p' a' E E'); auto. rewrite <- A; auto. rewrite E. apply in_elt.
  - rewrite A in W by (rewrite E; apply in_elt). rewrite N' in W by (rewrite E; apply in_elt). discriminate.
  - rewrite <- A in W' by (rewrite E'; apply in_elt). rewrite N in W' by (rewrite E'; apply in_elt). discriminate.
  - reflexivity.
Qed.
Print Assumptions C35_locations_and_nodes_agree_partial.

(** A mesh whose faces and edges refer to nodes. *)
Definition good_grid (g : grid) : Prop :=
  length (g_edge_type g) = length (g_edges g) /\
  (forall k r, In (k, r) (g_faces g) -> (1 <= k <= Z.of_nat (length (g_nodes g)))%Z) /\
  (forall k r, In (k, r) (g_edges g) -> (1 <= k <= Z.of_nat (length (g_nodes g)))%Z).

Definition first_node (g : grid) (k : Z) : point := nth (Z.to_nat (k - 1)) (g_nodes g) (0, 0)%Q.

(** The internal edges, as in the importer (data_import.py 115). *)
Definition internal (g : grid) : list (Z * Z) := select (map (fun t => Z.eqb t 1) (g_edge_type g)) (g_edges g).

Lemma select_map {A B} (f : A -> B) mask : forall l, select mask (map f l) = map f (select mask l).
Proof. induction mask as [|[] mask IH]; intros [|x l]; cbn; auto. f_equal; auto. Qed.

Lemma labels_at_good (f : point -> value) nodes ks :
  (forall k, In k ks -> (1 <= k <= Z.of_nat (length nodes))%Z) ->
  labels_at (map f nodes) ks = Ok (map (fun k => f (nth (Z.to_nat (k - 1)) nodes (0, 0)%Q)) ks).
Proof.
  intro H. unfold labels_at. apply map_res_total. intros k I. specialize (H k I).
  assert (Hk : (Z.to_nat (k - 1) < length nodes)%nat) by lia.
  replace (k - 1)%Z with (Z.of_nat (Z.to_nat (k - 1))) at 1 by lia.
  apply py_index_nat. rewrite nth_error_map, (@nth_error_nth' point nodes _ (0, 0)%Q Hk). reflexivity.
Qed.

(** Every face and every internal edge gets the label of its first node. *)
Theorem C35_mesh_classification_is_total :
  forall inside undefined prop ps g, ps <> [] -> good_grid g ->
    gridpoints inside undefined prop ps g
    = Ok (map (fun row => node_label inside undefined prop ps (first_node g (fst row))) (g_faces g),
          map (fun row => node_label inside undefined prop ps (first_node g (fst row))) (internal g)).
Proof.
  intros inside undefined prop ps g N (L & F & E). unfold gridpoints, faces_in_polygon, edges_in_polygon.
  rewrite node_labels_pointwise by auto. cbn [bind].
  rewrite labels_at_good.
  2: { intros k I. apply in_map_iff in I. destruct I as ([k' r] & <- & I). apply (F k' r I). }
  cbn [bind]. unfold mask_index. rewrite !map_length, L, Nat.eqb_refl. cbn [bind].
  rewrite select_map, labels_at_good.
  2: { intros k I. apply in_map_iff in I. destruct I as ([k' r] & <- & I). apply (E k' r).
       apply select_in in I. destruct I as (i & _ & I). eapply nth_error_In; eauto. }
  cbn [bind]. rewrite !map_map. reflexivity.
Qed.
Print Assumptions C35_mesh_classification_is_total.

Definition square (x0 x1 : Q) : ring := [(x0, 0); (x1, 0); (x1, 1); (x0, 1)]%Q.
Definition named (n : string) (label : string) (r : ring) : polygon :=
  mk_polygon r [(T "name", VStr (T n)); (T "region", VStr (T label))].
(** Inside test for such squares. *)
Definition in_square (r : ring) (p : point) : bool :=
  match r with
  | (x0, _) :: (x1, _) :: _ => Qltb x0 (fst p) && Qltb (fst p) x1
  | _ => false
  end.

Example C35_example :
  gridpoints in_square (VStr (T "undefined")) (T "region")
    [named "p" "west" (square 0 10); named "q" "east" (square 10 20)]
    (mk_grid [(1, 0); (11, 0); (30, 0)]%Q [(1, []); (2, []); (3, [])]%Z [(1, 2); (2, 3); (3, 1)]%Z [1; 0; 1]%Z)
  = Ok ([VStr (T "west"); VStr (T "east"); VStr (T "undefined")],
        [VStr (T "west"); VStr (T "undefined")]).
Proof. vm_compute. reflexivity. Qed.

(** Overlapping polygons: the first one counts for locations, the last one for
    nodes, so that a location and the node below it are in different regions. *)
Theorem C35_overlap_refuted :
  exists ps pt,
    (forall p, In p ps -> in_square (p_ring p) pt = true) /\
    point_label in_square (VStr (T "undefined")) (T "region") ps pt = VStr (T "west") /\
    node_label in_square (VStr (T "undefined")) (T "region") ps pt = VStr (T "east").
Proof.
  exists [named "p" "west" (square 0 10); named "q" "east" (square 5 20)], (7, 0)%Q.
  split; [intros p [<-|[<-|[]]]; reflexivity|]. split; reflexivity.
Qed.
Print Assumptions C35_overlap_refuted.

(** A face takes the label of its first node, also if its other nodes and its
    centre are in another polygon. *)
Theorem C35_face_across_a_border_refuted :
  exists ps g labels,
    faces_in_polygon in_square (VStr (T "undefined")) (T "region") ps g = Ok labels /\
    labels = [VStr (T "west")] /\
    (* the centre of the only face *)
    point_label in_square (VStr (T "undefined")) (T "region") ps (13, 0)%Q = VStr (T "east").
Proof.
  exists [named "p" "west" (square 0 10); named "q" "east" (square 10 20)],
         (mk_grid [(9, 0); (15, 0); (15, 0)]%Q [(1, [2; 3])]%Z [] []).
  eexists. split; [reflexivity|]. split; reflexivity.
Qed.
Print Assumptions C35_face_across_a_border_refuted.

(** A region polygon without the property "region" gives the label None. *)
Theorem C35_missing_property_gives_none :
  exists fs ps w,
    region_polygon (fun _ _ => false) (T "r.geojson") (Features (Some fs)) = Ok (ps, w) /\
    point_label in_square (VStr (T "undefined")) (T "region") ps (5, 0)%Q = VNull.
Proof.
  exists [mk_feature (Some [(T "name", VStr (T "p"))]) (GPolygon [square 0 10])].
  do 2 eexists. split; [vm_compute; reflexivity|]. reflexivity.
Qed.
Print Assumptions C35_missing_property_gives_none.

(** * C36 *)

(** The value of a property whatever the case of its key. *)
Definition property (k : text) (f : feature) : option value :=
  match f_props f with None => None | Some d => lookup k (lower_keys d) end.

(** The ring of a geometry that the reader takes. *)
Definition read_ring (g : geometry) : option ring :=
  match g with
  | GPolygon [r] => Some r
  | GMultiPolygon [r :: _] => Some r                   (* holes are dropped *)
  | GMultiPolygon ([r] :: _ :: _) => Some r            (* further parts are dropped *)
  | _ => None
  end.

Lemma polygon_of_feature_ok f p :
  polygon_of_feature f = Ok p <->
  (exists d v r, f_props f = Some d /\ lookup (T "name") (lower_keys d) = Some v /\
     read_ring (f_geometry f) = Some r /\ p = mk_polygon r (lower_keys d)).
Proof.
  unfold polygon_of_feature. destruct (f_props f) as [d|].
  2: { split; [discriminate|]. intros (d & v & r & H & _). discriminate. }
  destruct (lookup (T "name") (lower_keys d)) as [v|] eqn:En.
  2: { split; [discriminate|]. intros (d' & v & r & H & H' & _). injection H as <-. congruence. }
  assert (G : forall (o : option ring) (x : res polygon),
    (x = match o with Some r => Ok (mk_polygon r (lower_keys d)) | None => x end) ->
    (o = None -> forall q, x <> Ok q) ->
    (x = Ok p <-> exists d0 v0 r, Some d = Some d0 /\ lookup (T "name") (lower_keys d0) = Some v0 /\
       o = Some r /\ p = mk_polygon r (lower_keys d0))).
  { intros [r|] x Hx Hn.
    - rewrite Hx. split.
      + intro H. injection H as <-. exists d, v, r. auto.
      + intros (d0 & v0 & r0 & H & _ & H2 & ->). injection H as <-. injection H2 as <-. reflexivity.
    - split; [intro H; exfalso; eapply Hn; eauto|]. intros (d0 & v0 & r0 & _ & _ & H & _). discriminate. }
  apply G.
  - destruct (f_geometry f) as [[|r [|]]|[|[|r [|r' rs]] [|q qs]]| | |]; reflexivity.
  - destruct (f_geometry f) as [[|r [|]]|[|[|r [|r' rs]] [|q qs]]| | |]; cbn; intros H q0; try discriminate.
Qed.

Lemma value_eqb_refl v : hashable v = true -> value_eqb v v = true.
Proof. destruct v; cbn; auto; intros; [apply Z.eqb_refl|apply teqb_refl]. Qed.

Lemma value_eqb_eq a b : value_eqb a b = true -> a = b.
Proof.
  destruct a, b; cbn; try discriminate; auto; intro H.
  - apply Z.eqb_eq in H. congruence.
  - apply teqb_eq in H. congruence.
Qed.

Lemma distinct_NoDup l : forallb hashable l = true -> (distinct l = true <-> NoDup l).
Proof.
  induction l as [|v l IH]; intro H; cbn [distinct forallb] in *.
  - split; [constructor|auto].
  - apply andb_prop in H. destruct H as [Hv Hl]. specialize (IH Hl). rewrite andb_true_iff, IH. split.
    + intros [E N]. constructor; auto. intro I. apply negb_true_iff in E.
      assert (existsb (value_eqb v) l = true); [|congruence].
      apply existsb_exists. exists v. split; auto. apply value_eqb_refl; auto.
    + intro N. inversion N as [|? ? Hn N']; subst. split; auto. apply negb_true_iff.
      destruct (existsb (value_eqb v) l) eqn:E; auto. apply existsb_exists in E.
      destruct E as (x & I & J). apply value_eqb_eq in J. subst. contradiction.
Qed.

(** Names that are accepted: not null, not empty, not zero, not a list. *)
Definition good_name (v : value) : bool :=
  match v with
  | VNull => false
  | VInt z => negb (Z.eqb z 0)
  | VStr t => negb (teqb t [])
  | VMany => false
  end.
Lemma good_name_spec v : good_name v = truthy v && hashable v.
Proof. destruct v as [|z|[|c t]|]; cbn; rewrite ?andb_true_r; reflexivity. Qed.

(** What is read from an accepted file, and the exact condition for it. *)
Theorem C36_accepted_files :
  forall name doc ps,
    from_file name doc = Ok ps <->
    (suffix name = T ".json" \/ suffix name = T ".geojson") /\
    exists fs, doc = Features (Some fs) /\ fs <> [] /\
      Forall2 (fun f p => f_props f <> None /\ read_ring (f_geometry f) = Some (p_ring p) /\
                          option_map lower_keys (f_props f) = Some (p_props p) /\
                          exists v, property (T "name") f = Some v /\ good_name v = true) fs ps /\
      NoDup (map (property (T "name")) fs).
Proof.
  intros name doc ps. unfold from_file.
  assert (Hs : (teqb (suffix name) (T ".json") || teqb (suffix name) (T ".geojson")) = true <->
               suffix name = T ".json" \/ suffix name = T ".geojson").
  { rewrite orb_true_iff, !teqb_eq. reflexivity. }
  destruct (teqb (suffix name) (T ".json") || teqb (suffix name) (T ".geojson")).
  2: { cbn [negb]. split; [discriminate|]. intros [H _]. apply Hs in H. discriminate. }
  cbn [negb]. destruct doc as [| |[[|f0 fs0]|]];
    try (split; [discriminate|]; intros (_ & fs & H & H' & _); congruence).
  remember (f0 :: fs0) as fs eqn:Efs.
  assert (Nfs : fs <> []) by (rewrite Efs; discriminate). clear Efs f0 fs0.
  unfold polygons_from_geojson_data, set_polygons.
  split.
  - intro H. split; [apply Hs; reflexivity|].
    exists fs. split; [reflexivity|]. split; [exact Nfs|].
    destruct (map_res polygon_of_feature fs) as [qs|] eqn:E; cbn [bind] in H; [|discriminate].
    destruct (forallb truthy (map (fun p => get (T "name") (p_props p)) qs)) eqn:Ht; cbn [negb] in H; [|discriminate].
    destruct (forallb hashable (map (fun p => get (T "name") (p_props p)) qs)) eqn:Hh; cbn [negb] in H; [|discriminate].
    destruct (distinct (map (fun p => get (T "name") (p_props p)) qs)) eqn:Hd; cbn [negb] in H; [|discriminate].
    injection H as ->. apply map_res_ok in E.
    apply (distinct_NoDup _ Hh) in Hd.
    rewrite forallb_forall in Ht. rewrite forallb_forall in Hh.
    assert (Names : map (property (T "name")) fs = map Some (map (fun p => get (T "name") (p_props p)) ps)).
    { clear - E. induction E as [|f p fs ps Hf _ IH]; [reflexivity|]. cbn [map]. f_equal; auto.
      apply polygon_of_feature_ok in Hf. destruct Hf as (d & v & r & H1 & H2 & _ & ->).
      unfold property, get. rewrite H1. cbn [p_props]. rewrite H2. reflexivity. }
    split.
    + clear - E Ht Hh. induction E as [|f p fs ps Hf _ IH]; constructor.
      * apply polygon_of_feature_ok in Hf. destruct Hf as (d & v & r & H1 & H2 & H3 & ->).
        cbn [p_ring p_props]. rewrite H1. split; [discriminate|]. split; [exact H3|]. split; [reflexivity|].
        exists v. split; [unfold property; rewrite H1; exact H2|]. rewrite good_name_spec.
        assert (G : get (T "name") (lower_keys d) = v) by (unfold get; rewrite H2; reflexivity).
        rewrite <- G. rewrite Ht, Hh; auto; cbn [map p_props]; left; reflexivity.
      * apply IH; intros x I; [apply Hh|apply Ht]; right; auto.
    + rewrite Names. apply FinFun.Injective_map_NoDup; auto. intros x y Hxy. congruence.
  - intros (_ & fs' & Hf & _ & F & N). injection Hf as <-.
    assert (E : map_res polygon_of_feature fs = Ok ps).
    { clear - F. induction F as [|f p fs ps (_ & H1 & H2 & v & H3 & _) _ IH]; [reflexivity|]. cbn [map_res].
      assert (X : polygon_of_feature f = Ok p).
      { apply polygon_of_feature_ok. unfold property in H3. destruct (f_props f) as [d|]; [|discriminate].
        exists d, v, (p_ring p). cbn in H2. injection H2 as H2. repeat split; auto. rewrite H2. destruct p; reflexivity. }
      rewrite X, IH. reflexivity. }
    rewrite E. cbn [bind].
    assert (Names : map (property (T "name")) fs = map Some (map (fun p => get (T "name") (p_props p)) ps)).
    { clear - F. induction F as [|f p fs ps (_ & _ & H2 & v & H3 & _) _ IH]; [reflexivity|]. cbn [map].
      f_equal; auto. unfold property in *. destruct (f_props f) as [d|]; [|discriminate].
      cbn in H2. injection H2 as <-. unfold get. rewrite H3. reflexivity. }
    assert (Good : forall v, In v (map (fun p => get (T "name") (p_props p)) ps) -> good_name v = true).
    { clear - F. induction F as [|f p fs ps (_ & _ & H2 & v & H3 & G) _ IH]; cbn [map]; intros w [].
      - subst w. unfold property in *. destruct (f_props f) as [d|]; [|discriminate].
        cbn in H2. injection H2 as <-. unfold get. rewrite H3. exact G.
      - auto. }
    assert (Ht : forallb truthy (map (fun p => get (T "name") (p_props p)) ps) = true).
    { apply forallb_forall. intros v I. apply Good in I. rewrite good_name_spec in I. apply andb_prop in I. apply I. }
    assert (Hh : forallb hashable (map (fun p => get (T "name") (p_props p)) ps) = true).
    { apply forallb_forall. intros v I. apply Good in I. rewrite good_name_spec in I. apply andb_prop in I. apply I. }
    rewrite Ht, Hh. cbn [negb].
    assert (Hd : distinct (map (fun p => get (T "name") (p_props p)) ps) = true).
    { apply (distinct_NoDup _ Hh). rewrite Names in N. apply NoDup_map_inv in N. exact N. }
    rewrite Hd. reflexivity.
Qed.
Print Assumptions C36_accepted_files.

(** Features without a name, with an unusable name, with the name of another
    feature or with holes or an unsupported geometry are rejected. *)
Theorem C36_invalid_features_are_rejected_partial :
  forall name fs,
    ((exists f, In f fs /\ property (T "name") f = None) \/
     (exists f v, In f fs /\ property (T "name") f = Some v /\ good_name v = false) \/
     (exists i j f g, i <> j /\ nth_error fs i = Some f /\ nth_error fs j = Some g /\
        property (T "name") f = property (T "name") g) \/
     (exists f, In f fs /\ read_ring (f_geometry f) = None)) ->
    forall ps, from_file name (Features (Some fs)) <> Ok ps.
Proof.
  intros name fs H ps E. apply C36_accepted_files in E.
  destruct E as (_ & fs' & Hf & _ & F & N). injection Hf as <-.
  destruct H as [(f & I & P)|[(f & v & I & P & G)|[(i & j & f & g & D & Ei & Ej & P)|(f & I & P)]]].
  - apply In_nth_error in I. destruct I as [i I]. pose proof (Forall2_nth _ _ _ F i) as X. rewrite I in X.
    destruct (nth_error ps i); [|contradiction]. destruct X as (_ & _ & _ & v & H & _). congruence.
  - apply In_nth_error in I. destruct I as [i I]. pose proof (Forall2_nth _ _ _ F i) as X. rewrite I in X.
    destruct (nth_error ps i); [|contradiction]. destruct X as (_ & _ & _ & v' & H & G'). congruence.
  - apply D. eapply (proj1 (NoDup_nth_error _)); eauto.
    + rewrite map_length. apply nth_error_Some. congruence.
    + rewrite !nth_error_map, Ei, Ej. cbn. congruence.
  - apply In_nth_error in I. destruct I as [i I]. pose proof (Forall2_nth _ _ _ F i) as X. rewrite I in X.
    destruct (nth_error ps i); [|contradiction]. destruct X as (_ & H & _). congruence.
Qed.
Print Assumptions C36_invalid_features_are_rejected_partial.

(** A geometry of two parts, and a multi-part geometry with a hole, are
    accepted and cut down to the first ring. *)
Theorem C36_multi_part_geometry_refuted :
  exists r1 r2 ps1 ps2,
    from_file (T "r.geojson")
      (Features (Some [mk_feature (Some [(T "name", VStr (T "p"))]) (GMultiPolygon [[r1]; [r2]])])) = Ok ps1 /\
    from_file (T "r.geojson")
      (Features (Some [mk_feature (Some [(T "name", VStr (T "p"))]) (GMultiPolygon [[r1; r2]])])) = Ok ps2 /\
    map p_ring ps1 = [r1] /\ map p_ring ps2 = [r1] /\ r1 <> r2.
Proof.
  exists (square 0 10), (square 20 30). do 2 eexists. split; [vm_compute; reflexivity|].
  split; [vm_compute; reflexivity|]. split; [reflexivity|]. split; [reflexivity|]. vm_compute. discriminate.
Qed.
Print Assumptions C36_multi_part_geometry_refuted.

(** * Sections *)

Lemma lookup_set_key k v d k' :
  lookup k' (set_key k v d) = if teqb k k' then Some v else lookup k' d.
Proof.
  unfold set_key. induction d as [|[k0 v0] d IH]; cbn [lookup app].
  - destruct (teqb k k'); reflexivity.
  - rewrite IH. destruct (teqb k k'); [reflexivity|]. destruct (lookup k' d); reflexivity.
Qed.

(** The label that is kept for a section property [s]. *)
Definition kept_section (s : text) : text :=
  match map_section (lower s) with Some s' => s' | None => s end.

Lemma validate_section_ok p q :
  validate_section p = Ok q <->
  exists s, lookup (T "section") (p_props p) = Some (VStr s) /\ valid_section (lower s) = true /\
    q = match map_section (lower s) with
        | Some s' => mk_polygon (p_ring p) (set_key (T "section") (VStr s') (p_props p))
        | None => p
        end.
Proof.
  unfold validate_section. destruct (lookup (T "section") (p_props p)) as [[| |s|]|].
  1, 2, 4, 5: split; [discriminate|]; intros (s & H & _); discriminate.
  destruct (valid_section (lower s)) eqn:E; cbn [negb].
  - split.
    + intro H. exists s. split; auto. split; auto. destruct (map_section (lower s)); congruence.
    + intros (s' & H & _ & ->). injection H as <-. destruct (map_section (lower s)); reflexivity.
  - split; [discriminate|]. intros (s' & H & H' & _). injection H as <-. congruence.
Qed.

(** An accepted section polygon file: the property "section" of each feature is,
    in any case, one of the six keys; 1, 2 and 3 are translated; the names,
    rings and other properties are those of the file. *)
Theorem C36_section_labels_partial :
  forall intersects name doc ps w,
    section_polygon intersects name doc = Ok (ps, w) <->
    exists raw, from_file name doc = Ok raw /\ w = check_overlap intersects ps /\
      Forall2 (fun p q =>
        exists s, lookup (T "section") (p_props p) = Some (VStr s) /\ valid_section (lower s) = true /\
          p_ring q = p_ring p /\ lookup (T "section") (p_props q) = Some (VStr (kept_section s)) /\
          (map_section (lower s) = None -> q = p) /\
          (map_section (lower s) <> None ->
             p_props q = set_key (T "section") (VStr (kept_section s)) (p_props p))) raw ps.
Proof.
  intros intersects name doc ps w. unfold section_polygon.
  destruct (from_file name doc) as [raw|]; cbn [bind].
  2: { split; [discriminate|]. intros (raw & H & _). discriminate. }
  split.
  - destruct (map_res validate_section raw) as [qs|] eqn:E; cbn [bind]; [|discriminate].
    intro H. injection H as -> <-. exists raw. split; [reflexivity|]. split; [reflexivity|].
    apply map_res_ok in E. clear - E. induction E as [|p q raw ps H _ IH]; constructor; auto.
    apply validate_section_ok in H. destruct H as (s & H1 & H2 & ->). exists s.
    unfold kept_section. destruct (map_section (lower s)) as [s'|]; cbn [p_ring p_props].
    + rewrite lookup_set_key, teqb_refl. repeat split; auto. discriminate.
    + repeat split; auto. congruence.
  - intros (raw' & H & -> & F). injection H as <-.
    assert (E : map_res validate_section raw = Ok ps).
    { clear - F. induction F as [|p q raw ps (s & H1 & H2 & H3 & H4 & H5 & H6) _ IH]; [reflexivity|].
      cbn [map_res]. assert (X : validate_section p = Ok q).
      { apply validate_section_ok. exists s. split; auto. split; auto.
        unfold kept_section in *. destruct (map_section (lower s)) as [s'|].
        - destruct q as [qr qp]. cbn [p_ring p_props] in *. rewrite H3, H6 by discriminate. reflexivity.
        - apply H5. reflexivity. }
      rewrite X, IH. reflexivity. }
    rewrite E. reflexivity.
Qed.
Print Assumptions C36_section_labels_partial.

(** A section polygon file is refused at its first feature without a usable
    section: without the property or with another text than the six keys as an
    error in the polygon, with a value that is no text as an attribute error. *)
Theorem C36_refused_sections :
  forall intersects name doc before p after,
    from_file name doc = Ok (before ++ p :: after) ->
    Forall (fun q => exists s, lookup (T "section") (p_props q) = Some (VStr s) /\ valid_section (lower s) = true) before ->
    (lookup (T "section") (p_props p) = None -> section_polygon intersects name doc = Raise PolygonError) /\
    (forall s, lookup (T "section") (p_props p) = Some (VStr s) -> valid_section (lower s) = false ->
       section_polygon intersects name doc = Raise PolygonError) /\
    (forall v, lookup (T "section") (p_props p) = Some v -> (forall s, v <> VStr s) ->
       section_polygon intersects name doc = Raise AttributeError).
Proof.
  intros intersects name doc before p after H B.
  assert (E : forall e, validate_section p = Raise e -> section_polygon intersects name doc = Raise e).
  { intros e V. unfold section_polygon. rewrite H. cbn [bind].
    assert (M : map_res validate_section (before ++ p :: after) = Raise e).
    { clear H. induction B as [|q l (s & L & W) _ IH]; cbn [app map_res]; [rewrite V; reflexivity|].
      destruct (validate_section q) as [q'|] eqn:Q; [rewrite IH; reflexivity|].
      exfalso. unfold validate_section in Q. rewrite L, W in Q. cbn [negb] in Q. destruct (map_section (lower s)); discriminate. }
    rewrite M. reflexivity. }
  split; [|split].
  - intro L. apply E. unfold validate_section. rewrite L. reflexivity.
  - intros s L W. apply E. unfold validate_section. rewrite L, W. reflexivity.
  - intros v L N. apply E. unfold validate_section. rewrite L. destruct v; try reflexivity. exfalso. exact (N _ eq_refl).
Qed.
Print Assumptions C36_refused_sections.

(** The kept labels are main, floodplain1 or floodplain2, apart from case. *)
Theorem C36_kept_labels :
  forall s, valid_section (lower s) = true ->
    (lower (kept_section s) = T "main" \/ lower (kept_section s) = T "floodplain1" \/
     lower (kept_section s) = T "floodplain2") /\
    (kept_section s <> lower (kept_section s) -> kept_section s = s) /\
    (s = T "1" -> kept_section s = T "main") /\ (s = T "2" -> kept_section s = T "floodplain1") /\
    (s = T "3" -> kept_section s = T "floodplain2").
Proof.
  intros s H. unfold valid_section in H. apply existsb_exists in H. destruct H as (k & I & E).
  apply teqb_eq in E. unfold kept_section. split; [|split; [|split; [|split]]].
  - rewrite E. cbn [In] in I.
    destruct I as [<-|[<-|[<-|[<-|[<-|[<-|[]]]]]]]; vm_compute map_section; rewrite ?E; auto.
  - rewrite E. destruct I as [<-|[<-|[<-|[<-|[<-|[<-|[]]]]]]]; vm_compute map_section; auto;
      intro X; exfalso; apply X; reflexivity.
  - intros ->. reflexivity.
  - intros ->. reflexivity.
  - intros ->. reflexivity.
Qed.
Print Assumptions C36_kept_labels.

(** "Main" passes and is kept as it is. *)
Theorem C36_capital_section_refuted :
  exists ps w,
    section_polygon (fun _ _ => false) (T "s.geojson")
      (Features (Some [mk_feature (Some [(T "name", VStr (T "p")); (T "section", VStr (T "Main"))])
                                  (GPolygon [square 0 10])])) = Ok (ps, w) /\
    map (fun p => get (T "section") (p_props p)) ps = [VStr (T "Main")].
Proof. do 2 eexists. split; vm_compute; reflexivity. Qed.
Print Assumptions C36_capital_section_refuted.

(** Sections outside the list are rejected, as are features without one. *)
Theorem C36_unknown_sections_are_rejected :
  forall intersects name fs f,
    In f fs ->
    (property (T "section") f = None \/
     exists s, property (T "section") f = Some (VStr s) /\ valid_section (lower s) = false) ->
    forall r, section_polygon intersects name (Features (Some fs)) <> Ok r.
Proof.
  intros intersects name fs f I H [ps w] E. apply C36_section_labels_partial in E.
  destruct E as (raw & Hr & _ & F). apply C36_accepted_files in Hr.
  destruct Hr as (_ & fs' & Hf & _ & G & _). injection Hf as <-.
  apply In_nth_error in I. destruct I as [i I].
  pose proof (Forall2_nth _ _ _ G i) as X. rewrite I in X. destruct (nth_error raw i) as [p|] eqn:Ep; [|contradiction].
  pose proof (Forall2_nth _ _ _ F i) as Y. rewrite Ep in Y. destruct (nth_error ps i); [|contradiction].
  destruct Y as (s & L & V & _). destruct X as (_ & _ & P & _).
  unfold property in H. destruct (f_props f) as [d|]; [|discriminate]. cbn in P. injection P as P.
  rewrite <- P in L. destruct H as [H|(s' & H & H')]; congruence.
Qed.
Print Assumptions C36_unknown_sections_are_rejected.

(** * C68 *)

Lemma positions_nth {A} (l : list A) i x : In (i, x) (positions l) <-> nth_error l i = Some x.
Proof.
  unfold positions.
  assert (G : forall k, In (i, x) (combine (seq k (length l)) l) <-> (k <= i)%nat /\ nth_error l (i - k) = Some x).
  { induction l as [|y l IH]; intro k; cbn [length seq combine In].
    - split; [intros []|]. intros [_ H]. destruct (i - k)%nat; discriminate.
    - rewrite IH. split.
      + intros [H|[H1 H2]].
        * injection H as -> ->. rewrite Nat.sub_diag. auto.
        * split; [lia|]. replace (i - k)%nat with (S (i - S k)) by lia. exact H2.
      + intros [H1 H2]. destruct (Nat.eq_dec i k) as [->|D].
        * rewrite Nat.sub_diag in H2. left. cbn in H2. congruence.
        * right. split; [lia|]. replace (i - k)%nat with (S (i - S k)) in H2 by lia. exact H2. }
  rewrite G. rewrite Nat.sub_0_r. split; [intros []; auto|]. intro H. split; [lia|auto].
Qed.

(** There is a warning exactly for each ordered pair of different polygons that
    intersect. *)
Theorem C68_overlaps_are_reported :
  forall intersects ps a b,
    In (a, b) (check_overlap intersects ps) <->
    exists i j p q, i <> j /\ nth_error ps i = Some p /\ nth_error ps j = Some q /\
      intersects (p_ring p) (p_ring q) = true /\
      a = get (T "name") (p_props p) /\ b = get (T "name") (p_props q).
Proof.
  intros intersects ps a b. unfold check_overlap. rewrite in_flat_map. split.
  - intros ([i p] & I & H). apply in_flat_map in H. destruct H as ([j q] & J & H). cbn [fst snd] in H.
    destruct (Nat.eqb i j) eqn:E; [destruct H|]. apply Nat.eqb_neq in E.
    destruct (intersects (p_ring p) (p_ring q)) eqn:X; [|destruct H].
    destruct H as [H|[]]. injection H as <- <-. apply positions_nth in I. apply positions_nth in J.
    exists i, j, p, q. auto 10.
  - intros (i & j & p & q & D & I & J & X & -> & ->). exists (i, p). split; [apply positions_nth; auto|].
    apply in_flat_map. exists (j, q). split; [apply positions_nth; auto|]. cbn [fst snd].
    apply Nat.eqb_neq in D. rewrite D, X. left. reflexivity.
Qed.
Print Assumptions C68_overlaps_are_reported.

(** Overlap is not an error. *)
Theorem C68_overlap_does_not_reject :
  forall i1 i2 name doc,
    res_map fst (region_polygon i1 name doc) = res_map fst (region_polygon i2 name doc) /\
    res_map fst (section_polygon i1 name doc) = res_map fst (section_polygon i2 name doc).
Proof.
  intros i1 i2 name doc. unfold region_polygon, section_polygon. destruct (from_file name doc) as [ps|[]]; cbn; auto.
  destruct (map_res validate_section ps); auto.
Qed.
Print Assumptions C68_overlap_does_not_reject.
