(** Model of the location file reader, the transposition of its columns and
    the selection of the 2D data of a cross-section (fm2prof/data_import.py
    206-327).

    Text is ASCII and a file is its text after newline translation.  Python
    floats are a type [F] with [float(text)] as the oracle [read_float]. *)
From Coq Require Import String List Ascii ZArith QArith Bool.
From Verif Require Import PyBase Num Text M_Geometry.
Import ListNotations.
Local Open Scope char_scope.

(** The lines of an open text file with their line ends. *)
Fixpoint raw_lines (t : text) : list text :=
  match t with
  | [] => []
  | c :: t' =>
      if Ascii.eqb c newline then [newline] :: raw_lines t'
      else match raw_lines t' with
           | [] => [[c]]
           | l :: ls => (c :: l) :: ls
           end
  end.

Definition of_option {A} (e : exn) (o : option A) : res A :=
  match o with Some a => Ok a | None => Raise e end.

Section Locations.
  Variable F : Type.
  Variable read_float : text -> option F.
  (** [round(x)]; [None] if [x] has no nearest integer.  Simplification: inf
      raises OverflowError in Python, here ValueError like NaN. *)
  Variable round_float : F -> option Z.

  (** The dictionary of columns built by css_file. *)
  Record columns := mk_columns {
    c_xy : list (F * F);
    c_id : list text;
    c_branch : list text;
    c_length : list F;
    c_chainage : list F }.

  Definition no_columns : columns := mk_columns [] [] [] [] [].

  (** data_import.py 305-310: six columns, else the legacy layout of five. *)
  Definition split_line (line : text) : res (text * text * text * text * text * text) :=
    match split_on "," line with
    | [cssid; x; y; length; branchid; chainage] => Ok (cssid, x, y, length, branchid, chainage)
    | [x; y; branchid; length; chainage] =>
        c <- of_option ValueError (read_float chainage) ;;
        z <- of_option ValueError (round_float c) ;;
        Ok (branchid ++ "_" :: show_Z z, x, y, length, branchid, chainage)
    | _ => Raise ValueError
    end.

  (** data_import.py 303-322: the body of the loop. *)
  Definition css_line (lineno : nat) (d : columns) (line : text) : res columns :=
    fields <- split_line line ;;
    let '(cssid, x, y, length, branchid, chainage) := fields in
    let skip := match read_float x with Some _ => false | None => Nat.eqb lineno 0 end in
    if skip then Ok d
    else
      fx <- of_option ValueError (read_float x) ;;
      fy <- of_option ValueError (read_float y) ;;
      fl <- of_option ValueError (read_float length) ;;
      fc <- of_option ValueError (read_float chainage) ;;
      Ok (mk_columns (c_xy d ++ [(fx, fy)]) (c_id d ++ [cssid]) (c_branch d ++ [strip branchid])
                     (c_length d ++ [fl]) (c_chainage d ++ [fc])).

  Fixpoint css_lines (lineno : nat) (d : columns) (lines : list text) : res columns :=
    match lines with
    | [] => Ok d
    | l :: lines' => d' <- css_line lineno d l ;; css_lines (S lineno) d' lines'
    end.

  (** data_import.py 293-327 css_file; [None] is a file that does not exist. *)
  Definition css_file (content : option text) : res columns :=
    match content with
    | None => Raise OSError
    | Some t => css_lines 0 no_columns (raw_lines t)
    end.
End Locations.

Arguments mk_columns {F}. Arguments c_xy {F}. Arguments c_id {F}. Arguments c_branch {F}.
Arguments c_length {F}. Arguments c_chainage {F}. Arguments no_columns {F}.
Arguments split_line {F}. Arguments css_line {F}. Arguments css_lines {F}. Arguments css_file {F}.

(** data_import.py 206-232 get_ordered_css_list.  A dictionary is a list of
    pairs with distinct keys; [dict(zip(keys, values))] then has the pairs of
    [combine]. *)
Definition get_ordered_css_list {K V} (d : list (K * list V)) : list (list (K * V)) :=
  match d with
  | [] => []
  | (_, first) :: _ =>
      map (fun idx =>
             combine (map fst d)
                     (flat_map (fun kv => match nth_error (snd kv) idx with
                                          | Some v => [v] | None => [] end) d))
          (seq 0 (length first))
  end.

(** The 2D model: face columns (data_import.py dti), their results (dtd) and
    link columns.  [e_faces] is absent in some 2D files. *)
Record mesh := mk_mesh {
  f_x : list num; f_y : list num; f_area : list num; f_bed : list num;
  f_region : list text; f_islake : list bool; f_section : list label; f_class : list text;
  f_depth : list (list num); f_level : list (list num);
  f_vx : list (list num); f_vy : list (list num);
  e_x : list num; e_y : list num; e_section : list text; e_class : list text;
  e_faces : option (list (list nat)); e_chezy : list (list num) }.

Record selection := mk_selection {
  s_x : list num; s_y : list num; s_area : list num; s_bed : list num;
  s_depth : list (list num); s_level : list (list num); s_vel : list (list num);
  s_section : list label; s_chezy : list (list num); s_region : list text;
  s_islake : list bool; s_edge_faces : option (list (list nat));
  s_edge_x : list num; s_edge_y : list num; s_edge_section : list text }.

(** [waterlevel[waterdepth == 0] = nan] for one face. *)
Definition dry_levels (depth level : list num) : list num :=
  map2 (fun d l => if neqb d (Fin 0) then NaN else l) depth level.

(** [(vx**2 + vy**2) ** 0.5]; the square root is an oracle. *)
Definition magnitude (sqrt : num -> num) (vx vy : list num) : list num :=
  map2 (fun a b => sqrt (nadd (nmul a a) (nmul b b))) vx vy.

(** data_import.py 234-287 get_selection.  Boolean indexing of a frame makes a
    copy, so that the model data stays as it is. *)
Definition get_selection (sqrt : num -> num) (m : mesh) (name : text) : res selection :=
  let fm := map (fun c => teqb c name) (f_class m) in
  let em := map (fun c => teqb c name) (e_class m) in
  x <- mask_index fm (f_x m) ;;
  y <- mask_index fm (f_y m) ;;
  area <- mask_index fm (f_area m) ;;
  region <- mask_index fm (f_region m) ;;
  islake <- mask_index fm (f_islake m) ;;
  depth <- mask_index fm (f_depth m) ;;
  level <- mask_index fm (f_level m) ;;
  vx <- mask_index fm (f_vx m) ;;
  vy <- mask_index fm (f_vy m) ;;
  section <- mask_index fm (f_section m) ;;
  chezy <- mask_index em (e_chezy m) ;;
  faces <- match e_faces m with
           | None => Ok None
           | Some ef => ef' <- mask_index em ef ;; Ok (Some ef')
           end ;;
  ex <- mask_index em (e_x m) ;;
  ey <- mask_index em (e_y m) ;;
  esec <- mask_index em (e_section m) ;;
  bed <- mask_index fm (f_bed m) ;;
  Ok (mk_selection x y area bed depth (map2 dry_levels depth level)
        (map2 (magnitude sqrt) vx vy) section chezy region islake faces ex ey esec).

(** The faces of a selection as the records used by [build_geometry]. *)
Fixpoint cells_of (area bed : list num) (depth level vel : list (list num))
  (section : list label) : list cell :=
  match area, bed, depth, level, vel, section with
  | a :: area', b :: bed', d :: depth', l :: level', v :: vel', s :: section' =>
      mkCell a b d l v s :: cells_of area' bed' depth' level' vel' section'
  | _, _, _, _, _, _ => []
  end.
Definition selection_cells (s : selection) : list cell :=
  cells_of (s_area s) (s_bed s) (s_depth s) (s_level s) (s_vel s) (s_section s).
