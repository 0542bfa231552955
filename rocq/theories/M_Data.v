(** Model of the reading of the 2D results and of the assignment of its points
    to cross-sections and sections (fm2prof/data_import.py 41-72, 79-170 and
    182-204, fm2prof_runner.py 380-481, polygon_file.py 444-466 and 512-532).

    A map file is the set of its netCDF variables; [None] is a variable that is
    not in the file.  Simplifications: coordinates are finite numbers (sklearn
    and MeshKernel refuse others); fill values are ordinary values; the node
    coordinates are checked and not kept, nothing reads them afterwards. *)
From Coq Require Import String List Ascii ZArith QArith Bool.
From Verif Require Import PyBase Num Text M_Geometry M_Import M_Classify M_Polygon.
Import ListNotations.

(** A variable with one row per time step and [m_points] values in a row. *)
Record matrix := mk_matrix { m_points : nat; m_steps : list (list num) }.

Record map_file := mk_map_file {
  v_face_x : option (list Q); v_face_y : option (list Q);
  v_face_area : option (list num); v_face_bed : option (list num);
  v_face_nodes : option (list (Z * list Z));
  v_edge_type : option (list Z);
  v_edge_x : option (list Q); v_edge_y : option (list Q);
  v_edge_faces : option (list (list nat));
  v_edge_nodes : option (list (Z * Z));
  v_node_x : option (list Q); v_node_y : option (list Q);
  v_time : option (list num);
  v_waterdepth : option matrix;    (* mesh2d_waterdepth *)
  v_s1 : option matrix;            (* mesh2d_s1, water level *)
  v_czs : option matrix;           (* mesh2d_czs, Chezy of a face *)
  v_czu : option matrix;           (* mesh2d_czu, Chezy of an edge *)
  v_cftrt : option matrix;         (* mesh2d_cftrt, the same in older files *)
  v_ucx : option matrix; v_ucy : option matrix;
  v_u1 : option matrix }.

(** [map_file.variables[key]] *)
Definition variable {A} (v : option A) : res A := of_option KeyError v.

(** [array.T]: one row per point. *)
Definition transpose (v : matrix) : list (list num) :=
  map (fun i => map (fun step => nth i step NaN) (m_steps v)) (seq 0 (m_points v)).

(** [frame[key] = column]: the number of rows has to fit. *)
Definition column {A B} (rows : list A) (col : list B) : res (list B) :=
  if Nat.eqb (length col) (length rows) then Ok col else Raise ValueError.

(** [pd.DataFrame(data=..., columns=time)] *)
Definition frame (time : list num) (v : matrix) : res (list (list num)) :=
  if Nat.eqb (length (m_steps v)) (length time) then Ok (transpose v) else Raise ValueError.

(** The tables of the importer. *)
Record face_table := mk_faces {
  t_x : list Q; t_y : list Q; t_area : list num; t_bed : list num;
  t_region : list text; t_section : list label; t_class : list text; t_islake : list bool }.

(** The columns of the edges; the keys that are not in the file are absent. *)
Record edge_table := mk_edges {
  l_x : option (list Q); l_y : option (list Q); l_faces : option (list (list nat));
  l_nodes : option (list (Z * Z));
  l_class : list text; l_section : list text; l_region : list text }.

Record results := mk_results {
  d_depth : list (list num); d_level : list (list num); d_chezy_mean : list (list num);
  d_chezy_edge : list (list num); d_vx : list (list num); d_vy : list (list num);
  d_u : list (list num) }.

(** data_import.py 99-115 *)
Definition import_faces (f : map_file) : res face_table :=
  x <- variable (v_face_x f) ;;
  y0 <- variable (v_face_y f) ;; y <- column x y0 ;;
  a0 <- variable (v_face_area f) ;; area <- column x a0 ;;
  b0 <- variable (v_face_bed f) ;; bed <- column x b0 ;;
  Ok (mk_faces x y area bed (map (fun _ => []) y) (map (fun _ => LStr "main") y)
        (map (fun _ => []) y) (map (fun _ => false) y)).

(** data_import.py 119: edge type 1 is an internal edge. *)
Definition internal_edges (types : list Z) : list bool := map (fun t => Z.eqb t 1) types.

(** data_import.py 122-132: a key that is not in the file is left out. *)
Definition edge_column {A} (mask : list bool) (v : option (list A)) : res (option (list A)) :=
  match v with
  | None => Ok None
  | Some l => l' <- mask_index mask l ;; Ok (Some l')
  end.

(** data_import.py 117-136; the warnings are not modelled. *)
Definition import_edges (f : map_file) (mask : list bool) : res edge_table :=
  x <- edge_column mask (v_edge_x f) ;;
  y <- edge_column mask (v_edge_y f) ;;
  faces <- edge_column mask (v_edge_faces f) ;;
  nodes <- edge_column mask (v_edge_nodes f) ;;
  let internal := filter (fun b : bool => b) mask in
  Ok (mk_edges x y faces nodes (map (fun _ => []) internal) (map (fun _ => T "main") internal)
        (map (fun _ => []) internal)).

(** data_import.py 138-141 *)
Definition import_nodes (f : map_file) : res unit :=
  x <- variable (v_node_x f) ;;
  y <- variable (v_node_y f) ;;
  _ <- column x y ;; Ok tt.

(** data_import.py 145-168: the results at the faces. *)
Definition import_frame (f : map_file) (v : option matrix) : res (list (list num)) :=
  m <- variable v ;;
  time <- variable (v_time f) ;;
  frame time m.

(** data_import.py 151-155 and 157-160: the rows of the internal edges. *)
Definition import_edge_frame (f : map_file) (mask : list bool) (v : option matrix) : res (list (list num)) :=
  m <- variable v ;;
  rows <- mask_index mask (transpose m) ;;
  time <- variable (v_time f) ;;
  if Nat.eqb (length (m_steps m)) (length time) then Ok rows else Raise ValueError.

(** data_import.py 146-161: older files have mesh2d_cftrt. *)
Definition import_chezy (f : map_file) (mask : list bool) : res (list (list num)) :=
  match import_edge_frame f mask (v_czu f) with
  | Raise KeyError => import_edge_frame f mask (v_cftrt f)
  | r => r
  end.

Definition import_results (f : map_file) (mask : list bool) : res results :=
  depth <- import_frame f (v_waterdepth f) ;;
  level <- import_frame f (v_s1 f) ;;
  czs <- import_frame f (v_czs f) ;;
  chezy <- import_chezy f mask ;;
  vx <- import_frame f (v_ucx f) ;;
  vy <- import_frame f (v_ucy f) ;;
  u <- import_frame f (v_u1 f) ;;
  Ok (mk_results depth level czs chezy vx vy u).

(** data_import.py 79-170 import_dflow2d *)
Definition import_dflow2d (f : map_file) : res (face_table * edge_table * results) :=
  faces <- import_faces f ;;
  types <- variable (v_edge_type f) ;;
  let mask := internal_edges types in
  edges <- import_edges f mask ;;
  _ <- import_nodes f ;;
  td <- import_results f mask ;;
  Ok (faces, edges, td).

(** The text of a label.  Simplification: labels are compared as text, so that
    the label None (a polygon without the property) is the text "None". *)
Definition text_of (v : value) : text :=
  match v with
  | VNull => T "None"
  | VInt z => show_Z z
  | VStr t => t
  | VMany => T "[]"
  end.

(** The label of a section in the table of the faces. *)
Definition section_label (v : value) : label := LStr (string_of_list_ascii (text_of v)).

(** polygon_file.py 290-327: the variables MeshKernel needs; xarray raises
    KeyError for one that is not in the file. *)
Definition mesh_grid (f : map_file) : res grid :=
  x <- variable (v_node_x f) ;;
  y <- variable (v_node_y f) ;;
  edges <- variable (v_edge_nodes f) ;;
  faces <- variable (v_face_nodes f) ;;
  types <- variable (v_edge_type f) ;;
  Ok (mk_grid (combine x y) faces edges types).

Section Data.
  Variable nearest : list point -> point -> nat.
  Variable within : ring -> point -> bool.
  Variable inside : ring -> point -> bool.

  (** polygon_file.py 444-466 and 512-532, with the cache of M_Polygon. *)
  Definition classify_grid (c : caches) (file : text) (mt : meta) (f : map_file)
      (undefined : value) (prop : text) (ps : list polygon) : caches * res (list value * list value) :=
    get_gridpoints c (mk_call file prop false mt (g <- mesh_grid f ;; gridpoints inside undefined prop ps g)).

  (** fm2prof_runner.py 424-450: the classes of the faces and of the edges, and
      the regions.  [regions] is [None] if no region file is given. *)
  Definition assign_classes (c : caches) (file : text) (mt : meta) (f : map_file)
      (xy : list point) (ids : list text) (default_region : value) (regions : option (list polygon))
      (t : face_table) (l : edge_table) : caches * res (face_table * edge_table) :=
    let faces := combine (t_x t) (t_y t) in
    match regions with
    | None =>
        (c, x <- variable (l_x l) ;;
            y <- variable (l_y l) ;;
            classes <- classify_without_regions nearest xy ids faces (combine x y) ;;
            Ok (mk_faces (t_x t) (t_y t) (t_area t) (t_bed t) (t_region t) (t_section t) (fst classes) (t_islake t),
                mk_edges (l_x l) (l_y l) (l_faces l) (l_nodes l) (snd classes) (l_section l) (l_region l)))
    | Some ps =>
        let r := classify_grid c file mt f default_region (T "region") ps in
        (fst r,
         labels <- snd r ;;
         f_regions <- column (t_x t) (map text_of (fst labels)) ;;
         let e_regions := map text_of (snd labels) in
         css_labels <- get_points_in_polygon within default_region (T "region") ps xy ;;
         x <- variable (l_x l) ;;
         y <- variable (l_y l) ;;
         classes <- classify_with_regions nearest xy ids (map text_of css_labels) faces f_regions
                      (combine x y) e_regions (l_class l) ;;
         Ok (mk_faces (t_x t) (t_y t) (t_area t) (t_bed t) f_regions (t_section t) (fst classes) (t_islake t),
             mk_edges (l_x l) (l_y l) (l_faces l) (l_nodes l) (snd classes) (l_section l) e_regions))
    end.

  (** [variable.T.iloc[-1]]: the values at the last time step. *)
  Definition end_values (steps : nat) (rows : list (list num)) : res (list num) :=
    match steps with
    | O => Raise IndexError
    | _ => Ok (map (fun row => last row NaN) rows)
    end.

  (** fm2prof_runner.py 452-471 *)
  Definition assign_sections (c : caches) (file : text) (mt : meta) (f : map_file) (steps : nat)
      (default_section : value) (sections : option (list polygon)) (td : results)
      (t : face_table) (l : edge_table) : caches * res (face_table * edge_table) :=
    match sections with
    | None =>
        (c, e_values <- end_values steps (d_chezy_edge td) ;;
            e_section <- classify_by_variance (T "1") (T "2") (l_section l) e_values ;;
            f_values <- end_values steps (d_chezy_mean td) ;;
            f_section <- classify_by_variance (LInt 1) (LInt 2) (t_section t) f_values ;;
            Ok (mk_faces (t_x t) (t_y t) (t_area t) (t_bed t) (t_region t) f_section (t_class t) (t_islake t),
                mk_edges (l_x l) (l_y l) (l_faces l) (l_nodes l) (l_class l) e_section (l_region l)))
    | Some ps =>
        let r := classify_grid c file mt f default_section (T "section") ps in
        (fst r,
         labels <- snd r ;;
         f_section <- column (t_x t) (map section_label (fst labels)) ;;
         Ok (mk_faces (t_x t) (t_y t) (t_area t) (t_bed t) (t_region t) f_section (t_class t) (t_islake t),
             mk_edges (l_x l) (l_y l) (l_faces l) (l_nodes l) (l_class l) (map text_of (snd labels)) (l_region l)))
    end.

  (** The tables as get_selection reads them (data_import.py 182-204 keeps
      them). *)
  Definition mesh_of (t : face_table) (l : edge_table) (td : results) : res mesh :=
    x <- variable (l_x l) ;;
    y <- variable (l_y l) ;;
    Ok (mk_mesh (map Fin (t_x t)) (map Fin (t_y t)) (t_area t) (t_bed t) (t_region t) (t_islake t)
          (t_section t) (t_class t) (d_depth td) (d_level td) (d_vx td) (d_vy td)
          (map Fin x) (map Fin y) (l_section l) (l_class l) (l_faces l) (d_chezy_edge td)).

  (** fm2prof_runner.py 380-481 _set_fm_model_data.  [css] is the result of
      reading the location file; [regions] and [sections] are absent if no file
      is configured, and else the result of reading it. *)
  Definition set_fm_model_data (c : caches) (file : text) (mt : meta) (f : map_file)
      (css : res (columns Q)) (default_region default_section : value)
      (regions sections : option (res (list polygon))) : caches * res mesh :=
    let fail e := (c, Raise e) in
    match import_dflow2d f with
    | Raise e => fail e
    | Ok (t, l, td) =>
    match css with
    | Raise e => fail e
    | Ok d =>
    match regions, sections with
    | Some (Raise e), _ => fail e
    | _, Some (Raise e) => fail e
    | _, _ =>
        let polygons o := match o with Some (Ok ps) => Some ps | _ => None end in
        let a := assign_classes c file mt f (c_xy d) (c_id d) default_region (polygons regions) t l in
        match snd a with
        | Raise e => (fst a, Raise e)
        | Ok (t1, l1) =>
            let steps := match v_time f with Some time => length time | None => O end in
            let s := assign_sections (fst a) file mt f steps default_section (polygons sections) td t1 l1 in
            (fst s, tl <- snd s ;; mesh_of (fst tl) (snd tl) td)
        end
    end
    end
    end.
End Data.
