(** Model of export.py (Export1DModelData, 45-486) and of the readers of the
    exported files, utils.py VisualiseOutput (547-591, 703-749, 949-954).

    [str] of a float is the oracle [show_float], the format [.4] the oracle
    [show4] and [float(text)] the oracle [read_float].  Text is ASCII and lines
    end with a single line feed. *)
From Coq Require Import String List Ascii ZArith QArith Bool.
From Verif Require Import PyBase Num Text Fixed M_Friction M_Import M_Ini M_Network.
Import ListNotations.
Local Open Scope char_scope.

(** The columns of the volume table, cross_section.py attributes [_css_z] etc. *)
Record volumes := mk_volumes {
  v_z : list num; v_fm_total : list num; v_fm_flow : list num; v_fm_wet : list num; v_fm_area : list num;
  v_total_corrected : list num; v_total : list num; v_flow_corrected : list num; v_flow : list num;
  v_total_width : list num; v_flow_width : list num }.

(** A cross-section as the exporter sees it. *)
Record xs := mk_xs {
  x_name : text; x_branch : text; x_chainage : num;
  x_z : list num; x_flow_width : list num; x_total_width : list num;
  x_crest : num; x_extra_flow_area : num; x_extra_total_area : num; x_extra_total_volume : num;
  x_base : num;
  x_widths : list (text * num);                        (* section_widths *)
  x_tables : list (text * (list num * list num));      (* friction_tables: levels, frictions *)
  x_volumes : volumes }.

(** [f"{x:.df}"] *)
Definition show_num (d : nat) (x : num) : text :=
  match x with
  | Fin q => show_fixed d q
  | NaN => T "nan"
  | PInf => T "inf"
  | NInf => T "-inf"
  end.

Definition tabs (n : nat) : text := repeat (ascii_of_N 9) n.
Definition blanks (n : nat) : text := repeat " " n.
(** A line and its line end. *)
Definition ln (t : text) : text := t ++ [newline].

(** Consecutive writes to an open file: what the file holds in the end and the
    exception that stopped the writing. *)
Fixpoint run_writes (l : list (res text)) : text * option exn :=
  match l with
  | [] => ([], None)
  | Raise e :: _ => ([], Some e)
  | Ok t :: l' => let r := run_writes l' in (t ++ fst r, snd r)
  end.

Section Writers.
  Variable show_float : num -> text.
  Variable show4 : num -> text.

  (** export.py 121-146 export_volumes *)
  Definition volume_header : text :=
    ln (T "id,z,2D_total_volume,2D_flow_volume,2D_wet_area,2D_flow_area,1D_total_volume_sd,1D_total_volume,1D_flow_volume_sd,1D_flow_volume,1D_total_width,1D_flow_width").
  Definition volume_columns (v : volumes) : list (list num) :=
    [v_z v; v_fm_total v; v_fm_flow v; v_fm_wet v; v_fm_area v; v_total_corrected v; v_total v;
     v_flow_corrected v; v_flow v; v_total_width v; v_flow_width v].
  Definition volume_row (c : xs) (i : nat) : res text :=
    cells <- map_res (fun col => py_index col (Z.of_nat i)) (volume_columns (x_volumes c)) ;;
    Ok (ln (join (T ",") (x_name c :: map show_float cells))).
  Definition write_volumes (css : list xs) : list (res text) :=
    Ok volume_header ::
    flat_map (fun c => map (volume_row c) (seq 0 (length (v_z (x_volumes c))))) css.

  (** export.py 148-173 export_cross_section_locations *)
  Definition general_section (kind : text) : text :=
    ln (T "[General]") ++ ln (T "majorVersion" ++ tabs 3 ++ T "= 1") ++
    ln (T "minorversion" ++ tabs 3 ++ T "= 0") ++ ln (T "fileType" ++ tabs 4 ++ T "= " ++ kind) ++ ln [].
  Definition write_css_locations (css : list xs) : list (res text) :=
    Ok (general_section (T "crossLoc")) ::
    flat_map (fun c =>
      [Ok (ln (T "[CrossSection]"));
       Ok (ln (tabs 1 ++ T "id" ++ tabs 5 ++ T "= " ++ x_name c));
       Ok (ln (tabs 1 ++ T "branchid" ++ tabs 3 ++ T "= " ++ x_branch c));
       Ok (ln (tabs 1 ++ T "chainage" ++ tabs 3 ++ T "= " ++ show_float (x_chainage c)));
       Ok (ln (tabs 1 ++ T "shift" ++ tabs 4 ++ T "= 0.000"));
       Ok (ln (tabs 1 ++ T "definition" ++ tabs 3 ++ T "= " ++ x_name c) ++ ln [])]) css.

  (** export.py 177-189 _write_geometry_testformat *)
  Definition write_geometry_test (css : list xs) : list (res text) :=
    Ok (ln (T "chainage,z,total width,flow width")) ::
    flat_map (fun c => map (fun i =>
        z <- py_index (x_z c) (Z.of_nat i) ;; tw <- py_index (x_total_width c) (Z.of_nat i) ;;
        fw <- py_index (x_flow_width c) (Z.of_nat i) ;;
        Ok (ln (show_float (x_chainage c) ++ T ", " ++ show_float z ++ T ", " ++ show_float tw ++ T "," ++
                show_float fw)))
      (seq 0 (length (x_z c)))) css.

  (** export.py 191-216 _write_roughness_testformat: the attribute
      alluvial_friction_table does not exist. *)
  Definition write_roughness_test (css : list xs) : list (res text) :=
    Ok (ln (T "chainage,type,waterlevel,chezy roughness")) :: map (fun _ => Raise AttributeError) css.

  (** export.py 220-258 _write_geometry_fm1d *)
  Definition width_of (c : xs) (s : text) : res num := of_option KeyError (tassoc (x_widths c) s).
  Definition numbers (d : nat) (l : list num) : text := join (T " ") (map (show_num d) l).
  Definition definition_body (c : xs) : res text :=
    main <- width_of c (T "main") ;; fp1 <- width_of c (T "floodplain1") ;;
    fp2 <- width_of c (T "floodplain2") ;;
    Ok (ln (tabs 1 ++ T "id" ++ tabs 5 ++ T "= " ++ x_name c) ++
        ln (tabs 1 ++ T "type" ++ tabs 4 ++ T "= tabulated") ++
        ln (tabs 1 ++ T "thalweg" ++ tabs 4 ++ T "= 0.000") ++
        ln (tabs 1 ++ T "numLevels" ++ tabs 3 ++ T "= " ++ show_Z (Z.of_nat (length (x_z c)))) ++
        ln (tabs 1 ++ T "levels" ++ tabs 4 ++ T "= " ++ numbers 4 (x_z c)) ++
        ln (tabs 1 ++ T "flowWidths" ++ tabs 3 ++ T "= " ++ numbers 4 (x_flow_width c)) ++
        ln (tabs 1 ++ T "totalWidths" ++ tabs 3 ++ T "= " ++ numbers 4 (x_total_width c)) ++
        ln (tabs 1 ++ T "sd_crest" ++ tabs 3 ++ T "= " ++ show_num 4 (x_crest c)) ++
        ln (tabs 1 ++ T "sd_flowArea" ++ tabs 3 ++ T "= " ++ show_float (x_extra_flow_area c)) ++
        ln (tabs 1 ++ T "sd_totalArea" ++ tabs 2 ++ T "= " ++ show_num 4 (x_extra_total_area c)) ++
        ln (tabs 1 ++ T "sd_baseLevel" ++ tabs 2 ++ T "= " ++ show_float (x_base c)) ++
        ln (tabs 1 ++ T "main" ++ tabs 4 ++ T "= " ++ show_num 4 main) ++
        ln (tabs 1 ++ T "floodPlain1" ++ tabs 3 ++ T "= " ++ show_num 4 fp1) ++
        ln (tabs 1 ++ T "floodPlain2" ++ tabs 3 ++ T "= " ++ show_num 4 fp2) ++
        ln (tabs 1 ++ T "groundlayerUsed" ++ tabs 2 ++ T "= 0") ++
        ln (tabs 1 ++ T "groundLayer" ++ tabs 3 ++ T "= 0.000") ++ ln []).
  Definition write_geometry_fm1d (css : list xs) : list (res text) :=
    Ok (general_section (T "crossDef")) ::
    flat_map (fun c => [Ok (ln (T "[Definition]")); definition_body c]) css.

  (** export.py 260-332 _write_roughness_fm1d *)
  Definition roughness_general (section : text) : text :=
    ln (T "[General]") ++
    ln (blanks 8 ++ T "majorVersion          = 1") ++
    ln (blanks 8 ++ T "minorVersion          = 0") ++
    ln (blanks 8 ++ T "fileType              = roughness") ++ ln [] ++
    ln (blanks 4 ++ T "[Content]") ++
    ln (blanks 8 ++ T "sectionId             = " ++ section) ++
    ln (blanks 8 ++ T "flowDirection         = False") ++
    ln (blanks 8 ++ T "interpolate           = 1") ++
    ln (blanks 8 ++ T "globalType            = 1") ++
    ln (blanks 8 ++ T "globalValue           = 45") ++ ln [] ++ blanks 4.
  Definition definition_sec (css : list xs) (section : text) : text :=
    concat (map (fun c =>
      match tassoc (x_tables c) section with
      | None => []
      | Some tab =>
          ln (T "[Definition]") ++
          ln (blanks 8 ++ T "branchId              = " ++ x_branch c) ++
          ln (blanks 8 ++ T "chainage              = " ++ show_float (x_chainage c)) ++
          ln (blanks 8 ++ T "values                = " ++ join (T " ") (map show4 (snd tab))) ++ ln [] ++ blanks 4
      end) css).
  Fixpoint branch_sec (css : list xs) (section : text) (branch_list : list text) : text :=
    match css with
    | [] => []
    | c :: css' =>
        match tassoc (x_tables c) section with
        | None => branch_sec css' section branch_list
        | Some tab =>
            if existsb (teqb (x_branch c)) branch_list then branch_sec css' section branch_list
            else
              (ln (T "[BranchProperties]") ++
               ln (blanks 8 ++ T "branchId              = " ++ x_branch c) ++
               ln (blanks 8 ++ T "roughnessType         = 1") ++
               ln (blanks 8 ++ T "functionType          = 2") ++
               ln (blanks 8 ++ T "numLevels             = " ++ show_Z (Z.of_nat (length (fst tab)))) ++
               ln (blanks 8 ++ T "levels                = " ++ numbers 4 (fst tab))) ++
              branch_sec css' section (branch_list ++ [x_branch c])
        end
    end.
  Definition write_roughness_fm1d (css : list xs) (section : text) : list (res text) :=
    [Ok (roughness_general section); Ok (branch_sec css (lower section) []);
     Ok (definition_sec css (lower section))].

  (** export.py 336-430 _write_geometry_sobek3 *)
  Definition sobek_header : text :=
    ln (T "id,Name,Data_type,level,Total width,Flow width,Profile_type,branch,chainage,width main channel,widthfloodplain 1,width floodplain 2,width sediment transport,Use Summerdike,Crest level summerdike,Floodplainbaselevel behind summerdike,Flow area behind summerdike,Total area behind summerdike,Use groundlayer,Ground layer depth").
  (** str(section_widths.get(s)) *)
  Definition show_width (c : xs) (s : text) : text :=
    match tassoc (x_widths c) s with Some w => show_float w | None => T "None" end.
  Definition meta_row (c : xs) : text :=
    let dike := nltb (Fin 0) (x_extra_total_volume c) in
    let crest := if dike then show_float (x_crest c) else [] in
    let base := if dike then (if isnan (x_base c) then show_float (x_crest c) else show_float (x_base c)) else [] in
    let area := if dike then show_float (x_extra_total_area c) else [] in
    ln (x_name c ++ T ",," ++ T "meta" ++ T ",,,," ++ T "ZW" ++ T "," ++ x_branch c ++ T "," ++
        show_float (x_chainage c) ++ T "," ++ show_width c (T "main") ++ T "," ++
        show_width c (T "floodplain1") ++ T "," ++ show_width c (T "floodplain2") ++ T ",," ++
        (if dike then T "1" else T "0") ++ T "," ++ crest ++ T "," ++ base ++ T "," ++ area ++ T "," ++ area ++
        T ",,,,,,").
  (** [z + range(1, z.size + 1) * 1e-5] *)
  Definition raised_levels (z : list num) : list num :=
    map2 (fun v k => nadd v (Fin (inject_Z (Z.of_nat k) * (1 # 100000)))) z (seq 1 (length z)).
  Definition geom_row (c : xs) (i : nat) (width : num) : res text :=
    fw <- py_index (x_flow_width c) (Z.of_nat i) ;;
    z <- py_index (raised_levels (x_z c)) (Z.of_nat i) ;;
    Ok (ln (x_name c ++ T ",," ++ T "geom" ++ T "," ++ show_num 8 z ++ T "," ++ show_float width ++ T "," ++
            show_float fw ++ T ",,,,,,,,,,,,,,")).
  Definition sobek_writes (c : xs) : list (res text) :=
    Ok (meta_row c) :: map2 (geom_row c) (seq 0 (length (x_total_width c))) (x_total_width c).
  (** A cross-section that raises is left at that point and logged. *)
  Definition write_geometry_sobek3 (css : list xs) : list (res text) :=
    Ok sobek_header :: map (fun c => Ok (fst (run_writes (sobek_writes c)))) css.

  (** export.py 432-486 _write_roughness_sobek3 *)
  Definition unique_texts (l : list text) : list text :=
    map T (np_unique (map string_of_list_ascii l)).
  Definition sections_of (css : list xs) : list text :=
    unique_texts (flat_map (fun c => map fst (x_tables c)) css).
  Definition plain_of (section : text) : res text :=
    if teqb section (T "main") then Ok (T "Main")
    else if teqb section (T "floodplain1") then Ok (T "FloodPlain1")
    else if teqb section (T "floodplain2") then Ok (T "FloodPlain2")
    else Raise ValueError.
  Definition roughness_row (c : xs) (plain : text) (level friction : num) : text :=
    ln (x_branch c ++ T "," ++ show_float (x_chainage c) ++ T "," ++ T "Chezy" ++ T "," ++ plain ++ T "," ++
        T "Waterlevel" ++ T "," ++ T "Linear" ++ T "," ++ T "Same" ++ T ",,,," ++ show_float level ++ T "," ++
        show_float friction ++ T ",,,,,").
  Definition section_writes (css : list xs) (section : text) : list (res text) :=
    flat_map (fun c =>
      match tassoc (x_tables c) section with
      | None => []
      | Some tab =>
          match plain_of section with
          | Raise e => [Raise e]
          | Ok plain => map2 (fun l f => Ok (roughness_row c plain l f)) (fst tab) (snd tab)
          end
      end) css.
  Definition write_roughness_sobek3 (css : list xs) : list (res text) :=
    Ok (ln (T "Name,Chainage,RoughnessType,SectionType,Dependance,Interpolation,Pos/neg,R_pos_constant,Q_pos,R_pos_f(Q),H_pos,R_pos__f(h),R_neg_constant,Q_neg,R_neg_f(Q),H_neg,R_neg_f(h)")) ::
    flat_map (section_writes css) (sections_of css).
End Writers.

Section Readers.
  Variable read_float : text -> option num.
  Variable round2 : num -> num.                 (* round(x, 2) *)

  Definition float_of (t : text) : res num := of_option ValueError (read_float t).
  Definition floats_of (t : text) : res (list num) := map_res float_of (words t).

  (** utils.py 703-704 _get_value_from_line *)
  Definition value_of (line : text) : res text :=
    v <- py_index (split_on "=" (strip line)) 1 ;; Ok (strip v).

  Record definition := mk_definition {
    d_id : text; d_levels : list num; d_flow_width : list num; d_total_width : list num;
    d_sd_crest : num; d_sd_flow_area : num; d_sd_total_area : num; d_sd_baselevel : num;
    d_main_width : num; d_fp1_width : num }.

  (** utils.py 710-749 parse_cross_section_definition_file: the body of one
      definition takes 13 lines. *)
  Definition parse_definition (ls : list text) : res definition :=
    let line i := nth i ls [] in
    id <- py_index (split_on "=" (strip (line 0%nat))) 1 ;;
    levels <- (v <- value_of (line 4%nat) ;; floats_of v) ;;
    fw <- (v <- value_of (line 5%nat) ;; floats_of v) ;;
    tw <- (v <- value_of (line 6%nat) ;; floats_of v) ;;
    crest <- (v <- value_of (line 7%nat) ;; float_of v) ;;
    flow <- (v <- value_of (line 8%nat) ;; float_of v) ;;
    total <- (v <- value_of (line 9%nat) ;; float_of v) ;;
    base <- (v <- value_of (line 10%nat) ;; float_of v) ;;
    main <- (v <- value_of (line 11%nat) ;; float_of v) ;;
    fp1 <- (v <- value_of (line 12%nat) ;; float_of v) ;;
    Ok (mk_definition (strip id) levels fw tw crest flow total base main fp1).
  Fixpoint parse_definitions (fuel : nat) (ls : list text) : res (list definition) :=
    match fuel, ls with
    | O, _ | _, [] => Ok []
    | S fuel', l :: rest =>
        if teqb (strip (lower l)) (T "[definition]") then
          d <- parse_definition rest ;; ds <- parse_definitions fuel' (skipn 13 rest) ;; Ok (d :: ds)
        else parse_definitions fuel' rest
    end.
  Definition parse_definition_file (content : text) : res (list definition) :=
    let ls := file_lines content in parse_definitions (length ls) ls.

  (** utils.py 593-604 get_cross_section_by_id *)
  Definition get_cross_section_by_id (content id : text) : res (option definition) :=
    ds <- parse_definition_file content ;; Ok (find (fun d => teqb (d_id d) id) ds).

  (** utils.py 565-591 get_volume_info_for_css: the eleven columns. *)
  Definition volume_line (name : text) (cols : list (list num)) (line : text) : res (list (list num)) :=
    let values := split_on "," (strip line) in
    if teqb (hd [] values) name then
      cells <- map_res (fun i => v <- py_index values (Z.of_nat (S i)) ;; float_of v) (seq 0 11) ;;
      Ok (map2 (fun col v => col ++ [v]) cols cells)
    else Ok cols.
  Definition get_volume_info (content name : text) : res (list (list num)) :=
    fold_res (volume_line name) (file_lines content) (repeat [] 11).

  (** [t.rsplit(c, 1)] with two pieces *)
  Fixpoint split_last (c : ascii) (t : text) : option (text * text) :=
    match t with
    | [] => None
    | x :: t' =>
        match split_last c t' with
        | Some (a, b) => Some (x :: a, b)
        | None => if Ascii.eqb x c then Some ([], t') else None
        end
    end.
  (** utils.py 949-954 _parse_cssname *)
  Definition parse_cssname (name : text) : res (text * num) :=
    bc <- of_option ValueError (split_last "_" name) ;;
    ch <- float_of (snd bc) ;;
    Ok (fst bc, round2 ch).

  (** utils.py 547-563 get_roughness_info_for_css *)
  Fixpoint roughness_info (fuel : nat) (ls : list text) (branch : text) (chainage : num)
      (levels values : option (list num)) : res (option (list num) * option (list num)) :=
    match fuel, ls with
    | O, _ | _, [] => Ok (levels, values)
    | S fuel', l :: rest =>
        if teqb (lower (strip l)) (T "[branchproperties]") then
          b <- value_of (hd [] rest) ;;
          if teqb (lower b) branch then
            let rest' := skipn 3 (tl rest) in
            v <- value_of (hd [] rest') ;; lv <- floats_of v ;;
            roughness_info fuel' (tl rest') branch chainage (Some lv) values
          else roughness_info fuel' (tl rest) branch chainage levels values
        else if teqb (lower (strip l)) (T "[definition]") then
          b <- value_of (hd [] rest) ;;
          if teqb (lower b) branch then
            c <- value_of (hd [] (tl rest)) ;; ch <- float_of (lower c) ;;
            if neqb ch chainage then
              v <- value_of (hd [] (tl (tl rest))) ;; vs <- floats_of v ;;
              roughness_info fuel' (tl (tl (tl rest))) branch chainage levels (Some vs)
            else roughness_info fuel' (tl (tl rest)) branch chainage levels values
          else roughness_info fuel' (tl rest) branch chainage levels values
        else roughness_info fuel' rest branch chainage levels values
    end.
  Definition get_roughness_info (content name : text) : res (option (list num) * option (list num)) :=
    bc <- parse_cssname name ;;
    let ls := file_lines content in
    roughness_info (length ls) ls (fst bc) (snd bc) None None.
End Readers.
