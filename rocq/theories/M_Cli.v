(** Model of the command line (fm2prof/cli.py 22-94) as far as the
    configuration file is concerned, and of the mask output files
    (fm2prof/mask_output_file.py 32-104). *)
From Coq Require Import String List Ascii ZArith QArith Bool.
From Verif Require Import PyBase Text M_Ini M_Polygon.
Import ListNotations.
Local Open Scope char_scope.

(** Path.with_suffix: a path without a name has no suffix to change. *)
Definition path_with_suffix (p : path) (suf : text) : res path :=
  match rev (p_parts p) with
  | [] => Raise ValueError
  | name :: before => Ok (mk_path (p_abs p) (rev before ++ [with_suffix name suf]))
  end.

(** cli.py 26: Path(f"{projectname}.ini") *)
Definition create_path (projectname : text) : path := parse_path (projectname ++ T ".ini").

(** cli.py 37, 47, 79: Path(projectname).with_suffix(".ini") *)
Definition run_path (projectname : text) : res path :=
  path_with_suffix (parse_path projectname) (T ".ini").

(** open("w") and write: the directory must exist. *)
Definition write_text (w : fs) (p : list text) (t : text) : res fs :=
  if is_dir w p then Raise OSError
  else if is_dir w (removelast p) then Ok (mk_fs ((p, t) :: files w) (dirs w))
  else Raise FileNotFoundError.

(** cli.py 22-31 create: the printed default configuration. *)
Definition cli_create (w : fs) (cwd : list text) (projectname : text) : res fs :=
  write_text w (resolve cwd (create_path projectname))
    (print_configuration (fun t : text => t) template).

(** cli.py 34-39 check and 79-80 of run: the project that is loaded. *)
Definition cli_load (w : fs) (cwd : list text) (projectname : text) : res (option (ini text)) :=
  p <- run_path projectname ;;
  project_init (fun t => Some t) template cwd w p.

(** * Mask output files *)

Section Mask.
  (** A coordinate and its rounding by the geojson library. *)
  Variable coord : Type.
  Variable clean : coord -> coord.
  Variable props : Type.
  Variable no_props : props.
  Variable truthy_props : props -> bool.

  Record mask_point := mk_mask { m_coords : list coord; m_props : props }.

  (** mask_output_file.py 32-46 create_mask_point; [None] is no properties. *)
  Definition create_mask_point (coords : list coord) (properties : option props) : res mask_point :=
    match coords with
    | [] => Raise ValueError
    | _ =>
        Ok (mk_mask (map clean coords)
              (match properties with
               | Some p => if truthy_props p then p else no_props
               | None => no_props
               end))
    end.

  (** What a file can be for geojson.load.  Simplification: the properties are
      JSON values and come back as they are; numbers come back exactly. *)
  Inductive mask_doc :=
  | Collection (ms : list mask_point)    (* a FeatureCollection *)
  | OtherJson                            (* JSON but no FeatureCollection *)
  | NotJson.

  (** Files by name in a directory that exists. *)
  Definition mask_dir := text -> option mask_doc.

  (** mask_output_file.py 49-62 validate_extension *)
  Definition validate_extension (name : text) : res unit :=
    if teqb (suffix name) (T ".json") || teqb (suffix name) (T ".geojson") then Ok tt else Raise OSError.

  (** Loading cleans the coordinates again. *)
  Definition reload (m : mask_point) : mask_point := mk_mask (map clean (m_coords m)) (m_props m).

  (** mask_output_file.py 65-83 read_mask_output_file *)
  Definition read_mask_output_file (d : mask_dir) (name : text) : res (list mask_point) :=
    match d name with
    | None => Raise FileNotFoundError
    | Some doc =>
        _ <- validate_extension name ;;
        match doc with
        | NotJson => Raise JSONDecodeError
        | OtherJson => Raise OSError
        | Collection ms => Ok (map reload ms)
        end
    end.

  (** mask_output_file.py 86-104 write_mask_output_file: the directory
      afterwards, and whether the call returns. *)
  Definition write_mask_output_file (d : mask_dir) (name : text) (ms : list mask_point)
    : mask_dir * res unit :=
    match name, ms with
    | [], _ => (d, Raise ValueError)
    | _, [] => (d, Raise ValueError)
    | _, _ =>
        match validate_extension name with
        | Raise e => (d, Raise e)
        | Ok _ => ((fun n => if teqb n name then Some (Collection ms) else d n), Ok tt)
        end
    end.
End Mask.

Arguments mk_mask {coord props}. Arguments m_coords {coord props}. Arguments m_props {coord props}.
Arguments create_mask_point {coord} clean {props} no_props truthy_props.
Arguments reload {coord} clean {props}. Arguments read_mask_output_file {coord} clean {props}.
Arguments write_mask_output_file {coord props}.
Arguments Collection {coord props}. Arguments OtherJson {coord props}. Arguments NotJson {coord props}.
