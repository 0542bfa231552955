(** Model of the polygon files (fm2prof/polygon_file.py): reading and
    validation, classification of points, and the cache of the classification.

    A ring is a list of points.  The geometry tests of shapely and MeshKernel
    are oracles.  A netCDF file is the mesh variables that are read from it. *)
From Coq Require Import String List Ascii ZArith QArith Bool.
From Verif Require Import PyBase Num Text M_Classify.
Import ListNotations.
Local Open Scope char_scope.

Definition ring := list point.

(** A value of a property in a geojson file.  Simplification: numbers are
    integers and a Boolean is the integer Python takes it for; [VMany] is a
    list or an object. *)
Inductive value := VNull | VInt (z : Z) | VStr (t : text) | VMany.

(** A dictionary: of two pairs with the same key the later one counts. *)
Definition dict := list (text * value).

Fixpoint lookup (k : text) (d : dict) : option value :=
  match d with
  | [] => None
  | (k', v) :: d' =>
      match lookup k d' with
      | Some v' => Some v'
      | None => if teqb k' k then Some v else None
      end
  end.

(** [d.get(k)] *)
Definition get (k : text) (d : dict) : value :=
  match lookup k d with Some v => v | None => VNull end.

(** [d[k] = v] *)
Definition set_key (k : text) (v : value) (d : dict) : dict := d ++ [(k, v)].

Inductive geometry :=
| GPolygon (rings : list ring)
| GMultiPolygon (parts : list (list ring))
| GOther                    (* any other geometry type *)
| GNull                     (* "geometry": null *)
| GMissing.                 (* no key "geometry" *)

(** [f_props] is [None] if the feature has no properties or null. *)
Record feature := mk_feature { f_props : option dict; f_geometry : geometry }.

Record polygon := mk_polygon { p_ring : ring; p_props : dict }.

(** {k.lower(): v for k, v in ...} *)
Definition lower_keys (d : dict) : dict := map (fun kv => (lower (fst kv), snd kv)) d.

(** polygon_file.py 370-397: the body of the loop. *)
Definition polygon_of_feature (f : feature) : res polygon :=
  match f_props f with
  | None => Raise AttributeError
  | Some raw =>
      let props := lower_keys raw in
      match lookup (T "name") props with
      | None => Raise PolygonError
      | Some _ =>
          match f_geometry f with
          | GMissing => Raise KeyError
          | GNull => Raise TypeError
          | GOther => Raise PolygonError
          | GPolygon rings =>
              match rings with
              | [r] => Ok (mk_polygon r props)
              | _ => Raise PolygonError
              end
          | GMultiPolygon parts =>
              if Nat.eqb (length parts) 1 then
                p <- py_index parts 0 ;;
                r <- py_index p 0 ;;
                Ok (mk_polygon r props)
              else
                first <- py_index parts 0 ;;
                if negb (Nat.eqb (length first) 1) then Raise PolygonError
                else
                  r <- py_index first 0 ;;
                  Ok (mk_polygon r props)
          end
      end
  end.

(** polygon_file.py 370-397 _polygons_from_geojson_data *)
Definition polygons_from_geojson_data (fs : list feature) : res (list polygon) :=
  map_res polygon_of_feature fs.

Definition truthy (v : value) : bool :=
  match v with
  | VNull => false
  | VInt z => negb (Z.eqb z 0)
  | VStr t => match t with [] => false | _ => true end
  | VMany => true          (* simplification: not an empty list or object *)
  end.

Definition value_eqb (a b : value) : bool :=
  match a, b with
  | VNull, VNull => true
  | VInt x, VInt y => Z.eqb x y
  | VStr s, VStr t => teqb s t
  | _, _ => false
  end.

Definition hashable (v : value) : bool := match v with VMany => false | _ => true end.

(** [len(l) == len(set(l))] *)
Fixpoint distinct (l : list value) : bool :=
  match l with
  | [] => true
  | v :: l' => negb (existsb (value_eqb v) l') && distinct l'
  end.

(** polygon_file.py 128-142: the setter of [polygons]. *)
Definition set_polygons (ps : list polygon) : res (list polygon) :=
  let names := map (fun p => get (T "name") (p_props p)) ps in
  if negb (forallb truthy names) then Raise ValueError
  else if negb (forallb hashable names) then Raise TypeError
  else if negb (distinct names) then Raise ValueError
  else Ok ps.

(** Path.suffix of a file name: from the last dot on, unless that dot is the
    first or the last character. *)
Fixpoint last_dot (i : nat) (t : text) (found : option nat) : option nat :=
  match t with
  | [] => found
  | c :: t' => last_dot (S i) t' (if Ascii.eqb c "." then Some i else found)
  end.

Definition suffix_at (name : text) : nat :=
  match last_dot 0 name None with
  | Some i => if ((0 <? i) && (i <? length name - 1))%nat then i else length name
  | None => length name
  end.

Definition suffix (name : text) : text := skipn (suffix_at name) name.
Definition stem (name : text) : text := firstn (suffix_at name) name.

(** Path.with_suffix *)
Definition with_suffix (name suf : text) : text := stem name ++ suf.

(** What is at the path of a polygon file. *)
Inductive document :=
| Absent
| Malformed                               (* json.load fails *)
| Features (fs : option (list feature)).  (* the value of "features" *)

(** polygon_file.py 345-368 and 399-405 MultiPolygon.from_file *)
Definition from_file (name : text) (doc : document) : res (list polygon) :=
  if negb (teqb (suffix name) (T ".json") || teqb (suffix name) (T ".geojson")) then Raise OSError
  else
    match doc with
    | Absent => Raise FileNotFoundError
    | Malformed => Raise PolygonError
    | Features None => Raise PolygonError
    | Features (Some []) => Raise PolygonError
    | Features (Some fs) =>
        ps <- polygons_from_geojson_data fs ;;
        set_polygons ps
    end.

(** Positions of a list. *)
Definition positions {A} (l : list A) : list (nat * A) := combine (seq 0 (length l)) l.

Section Overlap.
  Variable intersects : ring -> ring -> bool.

  (** polygon_file.py 332-343 check_overlap: the names in the warnings. *)
  Definition check_overlap (ps : list polygon) : list (value * value) :=
    flat_map (fun ip : nat * polygon =>
      flat_map (fun jp : nat * polygon =>
        if Nat.eqb (fst ip) (fst jp) then []
        else if intersects (p_ring (snd ip)) (p_ring (snd jp))
             then [(get (T "name") (p_props (snd ip)), get (T "name") (p_props (snd jp)))]
             else []) (positions ps)) (positions ps).

  (** polygon_file.py 411-429 and 436-444 RegionPolygon: the polygons and the
      warnings.  Only a TypeError is turned into a PolygonError. *)
  Definition region_polygon (name : text) (doc : document) : res (list polygon * list (value * value)) :=
    match from_file name doc with
    | Ok ps => Ok (ps, check_overlap ps)
    | Raise TypeError => Raise PolygonError
    | Raise e => Raise e
    end.

  Definition map_section (key : text) : option text :=
    if teqb key (T "1") then Some (T "main")
    else if teqb key (T "2") then Some (T "floodplain1")
    else if teqb key (T "3") then Some (T "floodplain2")
    else None.

  Definition valid_section (key : text) : bool :=
    existsb (teqb key) [T "main"; T "floodplain1"; T "floodplain2"; T "1"; T "2"; T "3"].

  (** polygon_file.py 546-569: the body of the loop. *)
  Definition validate_section (p : polygon) : res polygon :=
    match lookup (T "section") (p_props p) with
    | None => Raise PolygonError
    | Some (VStr s) =>
        let key := lower s in
        if negb (valid_section key) then Raise PolygonError
        else match map_section key with
             | Some s' => Ok (mk_polygon (p_ring p) (set_key (T "section") (VStr s') (p_props p)))
             | None => Ok p
             end
    | Some _ => Raise AttributeError
    end.

  (** polygon_file.py 482-510 and 534-573 SectionPolygon *)
  Definition section_polygon (name : text) (doc : document) : res (list polygon * list (value * value)) :=
    ps <- from_file name doc ;;
    ps' <- map_res validate_section ps ;;
    Ok (ps', check_overlap ps').
End Overlap.

(** * Classification *)

Section Inside.
  (** [point.within(polygon)] of shapely and the test of MeshKernel. *)
  Variable within : ring -> point -> bool.
  Variable inside : ring -> point -> bool.

  (** The value of the default label and the name of the property. *)
  Variable undefined : value.
  Variable prop : text.

  Definition label_of (p : polygon) : value := get prop (p_props p).

  (** polygon_file.py 225-251 get_points_in_polygon, for one point. *)
  Fixpoint point_label (ps : list polygon) (pt : point) : value :=
    match ps with
    | [] => undefined
    | p :: ps' => if within (p_ring p) pt then label_of p else point_label ps' pt
    end.

  Definition get_points_in_polygon (ps : list polygon) (pts : list point) : res (list value) :=
    match ps, pts with
    | [], _ :: _ => Raise ValueError
    | _, _ => Ok (map (point_label ps) pts)
    end.

  (** polygon_file.py 303-312: the labels of the nodes; each polygon overwrites
      the labels of the nodes inside. *)
  Definition paint (nodes : list point) (labels : list value) (p : polygon) : list value :=
    map2 (fun n l => if inside (p_ring p) n then label_of p else l) nodes labels.

  Definition node_labels (ps : list polygon) (nodes : list point) : res (list value) :=
    match ps with
    | [] => Raise ValueError
    | _ => Ok (fold_left (paint nodes) ps (map (fun _ => undefined) nodes))
    end.

  (** The mesh variables: node coordinates, the nodes of each face and of each
      edge (numbered from 1, a row has a first node), and the edge types. *)
  Record grid := mk_grid {
    g_nodes : list point;
    g_faces : list (Z * list Z);
    g_edges : list (Z * Z);
    g_edge_type : list Z }.

  (** polygon_file.py 272-330 meshkernel_inpolygon for faces and for edges. *)
  Definition labels_at (labels : list value) (firsts : list Z) : res (list value) :=
    map_res (fun k => py_index labels (k - 1)) firsts.

  Definition faces_in_polygon (ps : list polygon) (g : grid) : res (list value) :=
    labels <- node_labels ps (g_nodes g) ;;
    labels_at labels (map fst (g_faces g)).

  Definition edges_in_polygon (ps : list polygon) (g : grid) : res (list value) :=
    labels <- node_labels ps (g_nodes g) ;;
    firsts <- mask_index (map (fun t => Z.eqb t 1) (g_edge_type g)) (map fst (g_edges g)) ;;
    labels_at labels firsts.

  Definition gridpoints (ps : list polygon) (g : grid) : res (list value * list value) :=
    f <- faces_in_polygon ps g ;;
    e <- edges_in_polygon ps g ;;
    Ok (f, e).
End Inside.

(** * The cache *)

(** st_mtime and st_size; only compared. *)
Definition meta := (Z * Z)%type.

Definition meta_eqb (a b : meta) : bool := Z.eqb (fst a) (fst b) && Z.eqb (snd a) (snd b).

(** A cache file.  json.load gives back what json.dump has written in full;
    it fails on anything that is cut off, the empty file included: proved in
    T_Json.v for the cache as text. *)
Inductive stored :=
| Whole (m : meta) (faces edges : list value)
| Truncated.

(** A directory of cache files. *)
Definition caches := text -> option stored.
Definition put_cache (name : text) (s : stored) (c : caches) : caches :=
  fun n => if teqb n name then Some s else c n.

(** polygon_file.py 203 *)
Definition cache_name (res_file prop : text) : text :=
  with_suffix res_file ("." :: prop ++ T "_cache.json").

(** A call of get_gridpoints_in_polygon: the 2D file and its metadata at that
    time, the property, and the labels that would be computed. *)
Record call := mk_call {
  c_file : text; c_prop : text; c_force : bool; c_meta : meta;
  c_labels : res (list value * list value) }.

(** polygon_file.py 174-223 get_gridpoints_in_polygon.  [unlink] followed by
    [_write_cache] leaves no cache file if the computation fails. *)
Definition get_gridpoints (c : caches) (k : call) : caches * res (list value * list value) :=
  let name := cache_name (c_file k) (c_prop k) in
  let recompute (c : caches) :=
    match c_labels k with
    | Ok (f, e) => (put_cache name (Whole (c_meta k) f e) c, Ok (f, e))
    | Raise x => (c, Raise x)
    end in
  match c name with
  | None => recompute c
  | Some s =>
      if c_force k then recompute (fun n => if teqb n name then None else c n)
      else
        match s with
        | Truncated => (c, Raise JSONDecodeError)
        | Whole m f e =>
            if meta_eqb (c_meta k) m then (c, Ok (f, e)) else recompute c
        end
  end.

(** The directory after an interruption of the call: before the cache file is
    opened for writing, while it is written, or afterwards. *)
Inductive interruption := Before | During | After.

Definition interrupted (at_ : interruption) (c : caches) (k : call) : caches :=
  let name := cache_name (c_file k) (c_prop k) in
  match at_ with
  | After => fst (get_gridpoints c k)
  | Before =>
      match c name with
      | Some _ => if c_force k then (fun n => if teqb n name then None else c n) else c
      | None => c
      end
  | During =>
      (* only if the call writes at all *)
      match c name, c_force k, c_labels k with
      | _, _, Raise _ => fst (get_gridpoints c k)
      | Some Truncated, false, _ => c
      | Some (Whole m _ _), false, _ =>
          if meta_eqb (c_meta k) m then c else put_cache name Truncated c
      | _, _, Ok _ => put_cache name Truncated c
      end
  end.

(** A history: calls that return and calls that are interrupted. *)
Inductive event := Called (k : call) | Interrupted (at_ : interruption) (k : call).

Definition event_call (e : event) : call := match e with Called k => k | Interrupted _ k => k end.

(** The results of the calls that return. *)
Fixpoint history (c : caches) (es : list event) : list (res (list value * list value)) :=
  match es with
  | [] => []
  | Called k :: es' => snd (get_gridpoints c k) :: history (fst (get_gridpoints c k)) es'
  | Interrupted at_ k :: es' => history (interrupted at_ c k) es'
  end.
