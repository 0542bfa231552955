(** Model of the way from the 2D data of one control volume to one finished
    cross-section (fm2prof/fm2prof_runner.py 600-721, 885-956 and
    fm2prof/cross_section.py 136-259, 560-584, 648-741), and of the files with
    the faces and the links (fm2prof_runner.py 534-563).

    Simplifications: log messages are left out; the search for the summer dike
    (M_Correction) is an oracle here, because it works on real numbers. *)
From Coq Require Import String List Ascii ZArith QArith Qround Bool.
From Verif Require Import PyBase Num Text M_Geometry M_Sections M_Friction M_Simplify M_Import M_Cli.
Import ListNotations.
Local Open Scope Q_scope.

(** * Section widths for all float values *)

(** The dictionary section_widths, cross_section.py 178. *)
Record nwidths := mk_nwidths { nw_main : num; nw_fp1 : num; nw_fp2 : num }.

(** The sections of the faces, in the two files that model them. *)
Definition section_of (l : M_Geometry.label) : M_Sections.label :=
  match l with M_Geometry.LInt k => M_Sections.LInt k | M_Geometry.LStr s => M_Sections.LStr s end.

(** [math.floor(x)]: ValueError for nan; the OverflowError for an infinite
    value is taken as ValueError as well. *)
Definition py_floor (x : num) : res Z :=
  match x with Fin q => Ok (Qfloor q) | _ => Raise ValueError end.

(** cross_section.py 976-1005 and 1446-1481.  The Python function sum() and
    np.sum of a Series differ: the latter skips nan. *)
Definition nsection_widths (length : num) (area : list num) (section : list M_Sections.label)
    (flow_width css_flow_width : list num) : res nwidths :=
  let pick k := mask_index (map (label_is k) section) area in
  unassigned <- pick M_Sections.NODATA ;;
  a1 <- pick 1%Z ;;
  a2 <- pick 2%Z ;;
  a3 <- pick 3%Z ;;
  let main := ndiv (nadd (nansum a1) (npsum unassigned)) length in
  let fp1 := ndiv (nansum a2) length in
  let fp2 := ndiv (nansum a3) length in
  last_fw <- py_index flow_width (-1) ;;
  let dif := nsub last_fw (nadd (nadd (nadd (Fin 0) main) fp1) fp2) in
  let main := if nltb (Fin 0) dif then nadd main dif else main in
  first_fw <- py_index css_flow_width 0 ;;
  fl <- py_floor (nmul (nsub main first_fw) (Fin 100)) ;;
  let dif := inject_Z fl / 100 - (1 # 10) in
  if Qltb dif 0 then Ok (mk_nwidths (nsub main (Fin dif)) (nadd fp1 (Fin dif)) fp2)
  else Ok (mk_nwidths main fp1 fp2).

(** * One cross-section *)

(** The parameters of the configuration file that are used here. *)
Record settings := mk_settings {
  st_geometry : geom_params;
  st_minwidth : num;            (* MinimumTotalWidth *)
  st_points : Z;                (* MaximumPointsInProfile *)
  st_correction : bool;         (* SDCorrection *)
  st_base : num;                (* SDFloodplainBase *)
  st_weighing : Z }.            (* FrictionweighingMethod *)

(** The faces of the control volume with their data. *)
Definition cells_of (s : selection) : list cell :=
  map (fun i => mkCell (nth i (s_area s) NaN) (nth i (s_bed s) NaN) (nth i (s_depth s) [])
                  (nth i (s_level s) []) (nth i (s_vel s) []) (nth i (s_section s) (M_Geometry.LInt 0)))
      (seq 0 (length (s_area s))).

(** The links of the control volume; [nt] is the number of time steps. *)
Definition links_of (nt : nat) (s : selection) : links :=
  {| chezy := s_chezy s; nsteps := nt;
     edge_section := map string_of_list_ascii (s_edge_section s);
     edge_faces := match s_edge_faces s with Some l => l | None => [] end;
     area_full := None |}.

(** A point of the output files: the properties of a face and of a link. *)
Record face_props := mk_face_props {
  p_css : text; p_lake : bool; p_bed : num; p_region : text; p_section : M_Geometry.label }.
Record link_props := mk_link_props { q_css : text; q_section : text }.

Record css := mk_css {
  s_name : text;
  s_z : list num; s_tw : list num; s_fw : list num;                (* z, total_width, flow_width *)
  s_css_z : list num; s_css_tw : list num; s_css_fw : list num;    (* _css_z and so on *)
  s_crest : num; s_extra_total : num; s_extra_flow : num;          (* extra_*_area *)
  s_tables : list (string * table num);
  s_widths : nwidths; s_base : num;
  s_faces : list (mask_point num face_props);
  s_links : list (mask_point num link_props) }.

(** fm2prof_runner.py 885-913 _reduce_css_points: an exception is logged and
    the attributes keep their initial value [[]] (cross_section.py 175-177). *)
Definition reduce_css_points (n : Z) (c : list num * list num * list num)
  : res (list num * list num * list num) :=
  let '(z, tw, fw) := c in
  match reduce_points n z tw fw with
  | Ok r => Ok r
  | Raise NonTermination => Raise NonTermination
  | Raise _ => Ok ([], [], [])
  end.

Section Pipeline.
  (** The oracles of M_Geometry; the search for the summer dike, which gives
      the crest level and two volumes; rounding of a coordinate by geojson. *)
  Variable smooth : list (list num) -> list (list num).
  Variable mean : list (list num) -> nat -> num.
  Variable correction : geometry -> res (num * num * num).
  Variable clean : num -> num.

  (** fm2prof_runner.py 931-956 _perform_2D_volume_correction: an exception is
      logged and the attributes keep their initial value. *)
  Definition perform_correction (enabled : bool) (g : geometry) (len : num) : num * num * num :=
    if enabled then
      match correction g with
      | Ok (crest, total, flow) => (crest, ndiv total len, ndiv flow len)
      | Raise _ => (Fin 0, Fin 0, Fin 0)
      end
    else (Fin 0, Fin 0, Fin 0).

  (** fm2prof_runner.py 676-709 _build_cross_section_geometry: the columns
      before and after the reduction, and the result of the search. *)
  Definition build_cross_section_geometry (st : settings) (len : num) (centre : nat) (cells : list cell)
    : res (geometry * (num * num * num) * (list num * list num * list num) * (list num * list num * list num)) :=
    g <- build_geometry smooth mean (st_geometry st) len centre cells ;;
    let sd := perform_correction (st_correction st) g len in
    full <- check_requirements (st_minwidth st) (k_z (g_cols g)) (k_tw (g_cols g)) (k_fw (g_cols g)) ;;
    reduced <- reduce_css_points (st_points st) full ;;
    Ok (g, sd, full, reduced).

  (** cross_section.py 648-697 set_face_output_list: the points up to the first
      exception, which is logged.  A point with two coordinates is valid. *)
  Fixpoint points_until {P} (make : nat -> res (mask_point num P)) (is : list nat) : list (mask_point num P) :=
    match is with
    | [] => []
    | i :: is' => match make i with Ok p => p :: points_until make is' | Raise _ => [] end
    end.
  Definition item {A} (l : list A) (i : nat) : res A := py_index l (Z.of_nat i).
  Definition face_output_list (name : text) (s : selection) : list (mask_point num face_props) :=
    points_until (fun i =>
      lake <- item (s_islake s) i ;;
      bed <- item (s_bed s) i ;;
      region <- item (s_region s) i ;;
      section <- item (s_section s) i ;;
      x <- item (s_x s) i ;;
      y <- item (s_y s) i ;;
      let p := mk_face_props name lake bed region section in
      create_mask_point clean p (fun _ => true) [x; y] (Some p)) (seq 0 (length (s_x s))).

  (** cross_section.py 699-741 set_edge_output_list *)
  Definition edge_output_list (name : text) (s : selection) : list (mask_point num link_props) :=
    points_until (fun i =>
      section <- item (s_edge_section s) i ;;
      x <- item (s_edge_x s) i ;;
      y <- item (s_edge_y s) i ;;
      let p := mk_link_props name section in
      create_mask_point clean p (fun _ => true) [x; y] (Some p)) (seq 0 (length (s_edge_x s))).

  (** fm2prof_runner.py 600-674 _generate_cross_section and 711-721,
      cross_section.py 560-575.  [None] is a control volume with fewer than ten
      faces.  [centre] is the face nearest to the location. *)
  Definition generate_cross_section (st : settings) (name : text) (len : num) (centre nt : nat)
      (s : selection) : res (option css) :=
    if Nat.ltb (length (s_x s)) 10 then Ok None else
    r <- build_cross_section_geometry st len centre (cells_of s) ;;
    let '(g, (crest, total, flow), (z, tw, fw), (z', tw', fw')) := r in
    tables <- build_roughness_tables (st_weighing st) (gp_skip (st_geometry st)) (g_z_roughness g) (links_of nt s) ;;
    let sections := map section_of (s_section s) in
    widths <- nsection_widths len (s_area s) sections fw' fw ;;
    base <- compute_floodplain_base crest (st_base st) (s_bed s) sections ;;
    Ok (Some (mk_css name z' tw' fw' z tw fw crest total flow tables widths base
                (face_output_list name s) (edge_output_list name s))).
End Pipeline.

(** cross_section.py 226-240 alluvial_width and nonalluvial_width; the keys of
    section_widths are main, floodplain1 and floodplain2. *)
Definition section_width (w : nwidths) (key : string) : option num :=
  if String.eqb key "main" then Some (nw_main w)
  else if String.eqb key "floodplain1" then Some (nw_fp1 w)
  else if String.eqb key "floodplain2" then Some (nw_fp2 w)
  else None.
Fixpoint first_key (w : nwidths) (keys : list string) : num :=
  match keys with
  | [] => Fin 0
  | k :: keys' => match section_width w k with Some v => v | None => first_key w keys' end
  end.
Definition alluvial_width (w : nwidths) : num := first_key w ["1"; "main"; "Main"]%string.
Definition nonalluvial_width (w : nwidths) : num := first_key w ["2"; "floodplain"; "FloodPlain1"]%string.

(** * The files with the points *)

(** fm2prof_runner.py 534-563 _generate_geojson_output: an exception (no points
    at all) is logged.  The two files are in one directory; they are kept apart
    because their points have different properties. *)
Definition face_file : text := T "face_output.geojson".
Definition edge_file : text := T "edge_output.geojson".
Definition generate_geojson_output (fd : mask_dir num face_props) (ed : mask_dir num link_props)
    (l : list css) : mask_dir num face_props * mask_dir num link_props :=
  (fst (write_mask_output_file fd face_file (flat_map s_faces l)),
   fst (write_mask_output_file ed edge_file (flat_map s_links l))).
