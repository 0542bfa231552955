(** Model of fm2prof/ini_file.py (IniFile) and of the configuration methods of
    Project (fm2prof/fm2prof_runner.py 976-1077), with the part of the standard
    module [configparser] that they use.

    Text is ASCII; files are text after newline translation; paths are POSIX
    paths without symbolic links.  Messages to the logger are left out. *)
From Coq Require Import String List Ascii ZArith Bool.
From Verif Require Import PyBase Text.
Import ListNotations.
Local Open Scope char_scope.

(** ** Dictionaries with text keys *)

Fixpoint tassoc {A} (d : list (text * A)) (k : text) : option A :=
  match d with
  | [] => None
  | (k', v) :: d' => if teqb k' k then Some v else tassoc d' k
  end.

(** d[k] = v: in place if present, else at the end. *)
Fixpoint tassoc_set {A} (d : list (text * A)) (k : text) (v : A) : list (text * A) :=
  match d with
  | [] => [(k, v)]
  | (k', v') :: d' => if teqb k' k then (k', v) :: d' else (k', v') :: tassoc_set d' k v
  end.

(** First key equal up to case. *)
Fixpoint find_key {A} (d : list (text * A)) (k : text) : option (text * A) :=
  match d with
  | [] => None
  | (k', v) :: d' => if teqb (lower k') (lower k) then Some (k', v) else find_key d' k
  end.

(** ** Paths (pathlib.PurePosixPath) *)

Record path := mk_path { p_abs : bool; p_parts : list text }.

(** Path(str): empty components and "." disappear. *)
Definition parse_path (t : text) : path :=
  mk_path (startswith (T "/") t)
          (filter (fun c => negb (teqb c []) && negb (teqb c (T "."))) (split_on "/" t)).

(** str(Path) *)
Definition show_path (p : path) : text :=
  match p_abs p, p_parts p with
  | true, ps => "/" :: join (T "/") ps
  | false, [] => T "."
  | false, ps => join (T "/") ps
  end.

(** a.joinpath(b) *)
Definition joinpath (a b : path) : path :=
  if p_abs b then b else mk_path (p_abs a) (p_parts a ++ p_parts b).

(** Path.parent *)
Definition parent (p : path) : path := mk_path (p_abs p) (removelast (p_parts p)).

(** The place in the file system a path denotes, seen from the working
    directory: ".." goes one directory up. *)
Fixpoint normalise (acc : list text) (ps : list text) : list text :=
  match ps with
  | [] => rev acc
  | c :: ps' => if teqb c (T "..") then normalise (tl acc) ps' else normalise (c :: acc) ps'
  end.
Definition resolve (cwd : list text) (p : path) : list text :=
  normalise [] (if p_abs p then p_parts p else cwd ++ p_parts p).

(** ** File system: regular files with contents, and directories.  The root
    directory always exists. *)
Record fs := mk_fs { files : list (list text * text); dirs : list (list text) }.

Fixpoint parts_eqb (a b : list text) : bool :=
  match a, b with
  | [], [] => true
  | x :: a', y :: b' => teqb x y && parts_eqb a' b'
  | _, _ => false
  end.

Fixpoint lookup_file (fl : list (list text * text)) (p : list text) : option text :=
  match fl with
  | [] => None
  | (q, c) :: fl' => if parts_eqb q p then Some c else lookup_file fl' p
  end.
Definition is_file (w : fs) (p : list text) : bool :=
  match lookup_file (files w) p with Some _ => true | None => false end.
Definition is_dir (w : fs) (p : list text) : bool :=
  match p with [] => true | _ => existsb (fun q => parts_eqb q p) (dirs w) end.
Definition path_exists (w : fs) (p : list text) : bool := is_file w p || is_dir w p.

(** Path.mkdir() without parents. *)
Definition mkdir (w : fs) (p : list text) : res fs :=
  if path_exists w p then Raise FileExistsError
  else if is_dir w (removelast p) then Ok (mk_fs (files w) (dirs w ++ [p]))
  else if is_file w (removelast p) then Raise OSError
  else Raise FileNotFoundError.

(** Path.mkdir(parents=True) of a path that does not exist: [todo] are the
    components below the directory [base]. *)
Fixpoint mkdir_below (w : fs) (base todo : list text) : res fs :=
  match todo with
  | [] => Ok w
  | c :: todo' =>
      let p := base ++ [c] in
      if is_dir w p then mkdir_below w p todo'
      else if is_file w p then Raise OSError
      else mkdir_below (mk_fs (files w) (dirs w ++ [p])) p todo'
  end.
Definition mkdir_parents (w : fs) (p : list text) : res fs := mkdir_below w [] p.

(** ** configparser.ConfigParser (default options)

    The parser keeps the option values as lists of lines; the section [DEFAULT]
    is kept among the sections. *)

Definition rawsec := list (text * list text).
Record pstate := mk_pstate {
  ps_sections : list (text * rawsec);
  ps_cur : option text;        (* current section *)
  ps_opt : option text;        (* current option *)
  ps_indent : nat;
  ps_error : bool }.           (* a parsing error is raised at the end *)

(** Position of the first character that is not blank. *)
Fixpoint indent_of (t : text) : nat :=
  match t with
  | c :: t' => if is_space c then S (indent_of t') else 0
  | [] => 0
  end.

(** The text before the last occurrence of [c], if there is one. *)
Fixpoint before_last (c : ascii) (t : text) : option text :=
  match t with
  | [] => None
  | x :: t' =>
      match before_last c t' with
      | Some u => Some (x :: u)
      | None => if Ascii.eqb x c then Some [] else None
      end
  end.

(** SECTCRE: an opening bracket, at least one character, and the last closing
    bracket. *)
Definition section_header (v : text) : option text :=
  match v with
  | "["%char :: v' =>
      match before_last "]" v' with
      | Some (c :: h) => Some (c :: h)
      | _ => None
      end
  | _ => None
  end.

(** OPTCRE (option, delimiter, value): split at the first delimiter, "=" or
    ":". *)
Fixpoint split_option (v : text) : option (text * text) :=
  match v with
  | [] => None
  | c :: v' =>
      if Ascii.eqb c "=" || Ascii.eqb c ":" then Some ([], v')
      else option_map (fun kv => (c :: fst kv, snd kv)) (split_option v')
  end.

(** Append a line to the current value of an option. *)
Definition append_value (secs : list (text * rawsec)) (s o l : text) : list (text * rawsec) :=
  match tassoc secs s with
  | Some sec =>
      match tassoc sec o with
      | Some ls => tassoc_set secs s (tassoc_set sec o (ls ++ [l]))
      | None => secs
      end
  | None => secs
  end.

Definition nonempty (t : text) : bool := match t with [] => false | _ => true end.

(** One line of RawConfigParser._read. *)
Definition parse_line (st : pstate) (line : text) : res pstate :=
  let stripped := strip line in
  let comment := startswith (T "#") stripped || startswith (T ";") stripped in
  let value := if comment then [] else stripped in
  match value with
  | [] =>
      match ps_cur st, ps_opt st with
      | Some s, Some o =>
          if negb comment && nonempty o
          then Ok (mk_pstate (append_value (ps_sections st) s o []) (ps_cur st) (ps_opt st)
                             (ps_indent st) (ps_error st))
          else Ok st
      | _, _ => Ok st
      end
  | _ =>
      let indent := indent_of line in
      match (match ps_cur st, ps_opt st with
             | Some s, Some o =>
                 if nonempty o && Nat.ltb (ps_indent st) indent then Some (s, o) else None
             | _, _ => None
             end) with
      | Some (s, o) =>
          Ok (mk_pstate (append_value (ps_sections st) s o value) (ps_cur st) (ps_opt st)
                        (ps_indent st) (ps_error st))
      | None =>
          match section_header value with
          | Some name =>
              if teqb name (T "DEFAULT") then
                Ok (mk_pstate (match tassoc (ps_sections st) name with
                               | Some _ => ps_sections st
                               | None => ps_sections st ++ [(name, [])]
                               end) (Some name) None indent (ps_error st))
              else
                match tassoc (ps_sections st) name with
                | Some _ => Raise ConfigParserError          (* DuplicateSectionError *)
                | None => Ok (mk_pstate (ps_sections st ++ [(name, [])]) (Some name) None indent
                                        (ps_error st))
                end
          | None =>
              match ps_cur st with
              | None => Raise ConfigParserError              (* MissingSectionHeaderError *)
              | Some s =>
                  match split_option value with
                  | Some (o, v) =>
                      let o' := lower (rstrip o) in
                      let sec := match tassoc (ps_sections st) s with Some d => d | None => [] end in
                      match tassoc sec o' with
                      | Some _ => Raise ConfigParserError    (* DuplicateOptionError *)
                      | None =>
                          Ok (mk_pstate (tassoc_set (ps_sections st) s (tassoc_set sec o' [strip v]))
                                        (ps_cur st) (Some o') indent
                                        (ps_error st || negb (nonempty (rstrip o))))
                      end
                  | None => Ok (mk_pstate (ps_sections st) (ps_cur st) (ps_opt st) indent true)
                  end
              end
          end
      end
  end.

Definition init_pstate : pstate := mk_pstate [] None None 0 false.

(** read_file: sections with joined values. *)
Definition parse_ini (t : text) : res (list (text * list (text * text))) :=
  st <- fold_res parse_line (file_lines t) init_pstate ;;
  if ps_error st then Raise ConfigParserError
  else Ok (map (fun s => (fst s, map (fun o => (fst o, rstrip (join [newline] (snd o)))) (snd s)))
               (ps_sections st)).

(** BasicInterpolation: "%%" is "%".  Simplification: references [%(name)s] are
    not looked up but raise, like every other "%". *)
Fixpoint interpolate_percent (t : text) : res text :=
  match t with
  | [] => Ok []
  | "%"%char :: t1 =>
      match t1 with
      | "%"%char :: t2 => r <- interpolate_percent t2 ;; Ok ("%" :: r)
      | _ => Raise ConfigParserError
      end
  | c :: t1 => r <- interpolate_percent t1 ;; Ok (c :: r)
  end.

(** The options of a section, own options first, followed by the defaults. *)
Definition with_defaults (defaults own : list (text * text)) : list (text * text) :=
  own ++ filter (fun kv => match tassoc own (fst kv) with Some _ => false | None => true end) defaults.

Definition inidict := list (text * list (text * text)).

(** ini_file.py 491-494: the options of one section, up to a comment sign. *)
Definition read_options (opts : list (text * text)) : res (list (text * text)) :=
  fold_res (fun d kv =>
              v <- interpolate_percent (snd kv) ;;
              Ok (tassoc_set d (lower (fst kv)) (strip (hd [] (split_on "#" v)))))
           opts [].

(** ini_file.py 467-496 _get_inifile_params. *)
Definition get_inifile_params (t : text) : res inidict :=
  secs <- parse_ini t ;;
  let defaults := match tassoc secs (T "DEFAULT") with Some d => d | None => [] end in
  fold_res (fun acc s =>
              if teqb (fst s) (T "DEFAULT") then Ok acc
              else
                opts <- read_options (with_defaults defaults (snd s)) ;;
                Ok (tassoc_set acc (lower (fst s)) opts))
           secs [].

(** ** Configuration *)

(** The types named in the template. *)
Inductive kind := KStr | KInt | KFloat | KBool | KList.

Section Ini.
  (** Python floats with [str] and [float], which are not modelled. *)
  Variable F : Type.
  Variable show_float : F -> text.
  Variable read_float : text -> option F.

  Inductive value :=
  | VStr (t : text) | VInt (z : Z) | VFloat (x : F) | VBool (b : bool) | VList (l : list Z)
  | VPath (p : path).

  Record entry := mk_entry { e_kind : kind; e_hint : text; e_value : value }.
  Definition section := list (text * entry).
  Definition config := list (text * section).

  (** str(value) *)
  Definition show_value (v : value) : text :=
    match v with
    | VStr t => t
    | VInt z => show_Z z
    | VFloat x => show_float x
    | VBool b => if b then T "True" else T "False"
    | VList l => "[" :: join (T ", ") (map show_Z l) ++ T "]"
    | VPath p => show_path p
    end.

  Fixpoint opt_all {A} (l : list (option A)) : option (list A) :=
    match l with
    | [] => Some []
    | Some x :: l' => option_map (cons x) (opt_all l')
    | None :: _ => None
    end.

  (** key_type(text); [None] is ValueError.  ImportBoolType and ImportListType
      are ini_file.py 25-38. *)
  Definition cast (k : kind) (t : text) : option value :=
    match k with
    | KStr => Some (VStr t)
    | KInt => option_map VInt (parse_Z t)
    | KFloat => option_map VFloat (read_float t)
    | KBool => Some (VBool (teqb (strip (lower t)) (T "true")))
    | KList => option_map VList (opt_all (map parse_Z (split_on "," (strip_chars (T "[]") t))))
    end.

  (** ini_file.py 293-298 and 258-273 _set_config_value: the new configuration
      and whether the key was known; an unknown section is KeyError. *)
  Definition set_config_value (c : config) (s k : text) (v : value) : res (config * bool) :=
    match tassoc c s with
    | None => Raise KeyError
    | Some sec =>
        match find_key sec k with
        | Some (ckey, e) =>
            if nonempty ckey
            then Ok (tassoc_set c s (tassoc_set sec ckey (mk_entry (e_kind e) (e_hint e) v)), true)
            else Ok (c, false)
        | None => Ok (c, false)
        end
    end.

  (** ini_file.py 300-309 _get_from_configuration. *)
  Definition get_from (c : config) (s k : text) : res value :=
    match tassoc c s with
    | None => Raise AttributeError
    | Some sec =>
        match find_key sec k with
        | Some (_, e) => Ok (e_value e)
        | None => Raise KeyError
        end
    end.

  (** ini_file.py 202-220 get_parameter; [None] for an unknown key. *)
  Definition get_parameter (c : config) (k : text) : res (option value) :=
    match get_from c (T "parameters") k with
    | Ok v => Ok (Some v)
    | Raise KeyError =>
        match get_from c (T "debug") k with
        | Ok v => Ok (Some v)
        | Raise KeyError => Ok None
        | Raise e => Raise e
        end
    | Raise e => Raise e
    end.

  (** ini_file.py 254-256 set_parameter and 222-224 set_input_file. *)
  Definition set_parameter (c : config) (k : text) (v : value) (s : text) : res config :=
    r <- set_config_value c s k v ;; Ok (fst r).
  Definition set_input_file (c : config) (k : text) (v : value) : res config :=
    r <- set_config_value c (T "input") k v ;; Ok (fst r).
  (** ini_file.py 191-200 get_input_file. *)
  Definition get_input_file (c : config) (k : text) : res value := get_from c (T "input") k.

  (** fm2prof_runner.py Project.set_parameter: always section "parameters". *)
  Definition project_set_parameter (c : config) (k : text) (v : value) : res config :=
    set_parameter c k v (T "parameters").

  (** ini_file.py 226-236 print_configuration: lines without their line ends. *)
  Definition print_entry (ke : text * entry) : text :=
    ljust 30 (fst ke) ++ T "= " ++ ljust 10 (show_value (e_value (snd ke))) ++ T "# " ++ e_hint (snd ke).
  Definition print_section (ns : text * section) : list text :=
    ("[" :: fst ns ++ T "]") :: map print_entry (snd ns) ++ [[]].
  Definition print_configuration (c : config) : text :=
    concat (map (fun l => l ++ [newline]) (concat (map print_section c))).

  (** ini_file.py 414-422 _get_key_from_template. *)
  Definition key_from_template (tpl : config) (s k : text) : option (text * kind) :=
    match tassoc tpl s with
    | None => None
    | Some sec => option_map (fun ke => (fst ke, e_kind (snd ke))) (find_key sec k)
    end.

  (** ini_file.py 340-379 _extract_parameters: unknown keys are skipped, a value
      that cannot be cast is skipped, KeyError is swallowed. *)
  Definition extract_parameters (tpl : config) (ini : inidict) (s : text) (c : config) : config :=
    match tassoc ini s with
    | None => c
    | Some opts =>
        fold_left (fun c kv =>
                     match key_from_template tpl s (fst kv) with
                     | None => c
                     | Some (key, kd) =>
                         match cast kd (snd kv) with
                         | None => c
                         | Some v =>
                             match set_config_value c s key v with
                             | Ok (c', _) => c'
                             | Raise _ => c
                             end
                         end
                     end) opts c
    end.

  (** The object: configuration, path of the file, and the file system. *)
  Record ini := mk_ini { i_cfg : config; i_file : option path; i_fs : fs }.

  (** ini_file.py 113-116 _file_dir; the working directory is absolute. *)
  Definition file_dir (cwd : list text) (i : ini) : path :=
    match i_file i with
    | Some p => parent p
    | None => mk_path true cwd
    end.

  (** ini_file.py 381-412 _extract_input_files; [Mapping.get] of an absent
      section gives None, whose [items] is AttributeError. *)
  Definition extract_input_files (tpl : config) (cwd : list text) (d : inidict) (i : ini) : res ini :=
    match tassoc d (T "input") with
    | None => Raise AttributeError
    | Some opts =>
        fold_res (fun i kv =>
                    match key_from_template tpl (T "input") (fst kv) with
                    | None => Ok i
                    | Some (key, _) =>
                        let p := joinpath (file_dir cwd i) (parse_path (snd kv)) in
                        if is_file (i_fs i) (resolve cwd p)
                        then r <- set_config_value (i_cfg i) (T "input") key (VPath p) ;;
                             Ok (mk_ini (fst r) (i_file i) (i_fs i))
                        else Ok i
                    end) opts i
    end.

  Definition outdir_key : text := T "OutputDirectory".

  (** configuration["sections"]["output"]["OutputDirectory"]["value"] = v *)
  Definition set_output_value (c : config) (v : value) : res config :=
    match tassoc c (T "output") with
    | None => Raise KeyError
    | Some sec =>
        match tassoc sec outdir_key with
        | None => Raise KeyError
        | Some e => Ok (tassoc_set c (T "output") (tassoc_set sec outdir_key (mk_entry (e_kind e) (e_hint e) v)))
        end
    end.

  (** ini_file.py 154-165 set_output_directory with 445-458
      _get_valid_output_dir: existence and creation relative to the working
      directory. *)
  Definition set_output_directory (cwd : list text) (i : ini) (p : path) : res ini :=
    w <- (if path_exists (i_fs i) (resolve cwd p) then Ok (i_fs i)
          else mkdir (i_fs i) (resolve cwd p)) ;;
    c <- set_output_value (i_cfg i) (VPath p) ;;
    Ok (mk_ini c (i_file i) w).

  (** ini_file.py 143-152 get_output_directory: relative to the ini file. *)
  Definition get_output_directory (cwd : list text) (i : ini) : res path :=
    match tassoc (i_cfg i) (T "output") with
    | None => Raise KeyError
    | Some sec =>
        match tassoc sec outdir_key with
        | None => Raise KeyError
        | Some e =>
            match e_value e with
            | VStr t => Ok (joinpath (file_dir cwd i) (parse_path t))
            | VPath p => Ok (joinpath (file_dir cwd i) p)
            | _ => Raise TypeError
            end
        end
    end.

  (** ini_file.py 424-443 _extract_output_dir. *)
  Definition extract_output_dir (cwd : list text) (d : inidict) (i : ini) : res ini :=
    match tassoc d (T "output") with
    | None => Raise AttributeError
    | Some opts =>
        fold_res (fun i kv =>
                    if teqb (lower (fst kv)) (lower outdir_key)
                    then set_output_directory cwd i (parse_path (snd kv))
                    else Ok i) opts i
    end.

  Definition with_cfg (i : ini) (c : config) : ini := mk_ini c (i_file i) (i_fs i).

  (** ini_file.py 317-338 _read_inifile, after and with parsing. *)
  Definition read_dict (tpl : config) (cwd : list text) (d : inidict) (i : ini) : res ini :=
    i1 <- extract_input_files tpl cwd d i ;;
    let i2 := with_cfg i1 (extract_parameters tpl d (T "parameters") (i_cfg i1)) in
    let i3 := with_cfg i2 (extract_parameters tpl d (T "debug") (i_cfg i2)) in
    extract_output_dir cwd d i3.
  Definition read_inifile (tpl : config) (cwd : list text) (t : text) (i : ini) : res ini :=
    d <- get_inifile_params t ;; read_dict tpl cwd d i.

  (** ini_file.py 238-252 load_configuration_from_file: the file is read twice. *)
  Definition load_configuration (tpl : config) (cwd : list text) (i : ini) (p : path) : res ini :=
    match lookup_file (files (i_fs i)) (resolve cwd p) with
    | None => Raise FileNotFoundError
    | Some t =>
        i1 <- read_inifile tpl cwd t (mk_ini (i_cfg i) (Some p) (i_fs i)) ;;
        read_inifile tpl cwd t i1
    end.

  (** ini_file.py 118-141 has_output_directory: creates the directory of the
      getter with its parents. *)
  Definition has_output_directory (cwd : list text) (i : ini) : res (ini * bool) :=
    q <- get_output_directory cwd i ;;
    if path_exists (i_fs i) (resolve cwd q) then Ok (i, true)
    else match mkdir_parents (i_fs i) (resolve cwd q) with
         | Ok w => Ok (mk_ini (i_cfg i) (i_file i) w, true)
         | Raise FileNotFoundError => Ok (i, false)
         | Raise e => Raise e
         end.

  (** fm2prof_runner.py 79-119 Fm2ProfRunner.__init__ with 155-170
      load_configuration, without the log file: the loaded configuration, or
      [None] when the constructor gives up.  Configuration file errors and
      missing files are caught; other exceptions leave the constructor. *)
  Definition project_init (tpl : config) (cwd : list text) (w : fs) (p : path) : res (option ini) :=
    let fresh := mk_ini tpl None w in
    match (if is_file w (resolve cwd p) then load_configuration tpl cwd fresh p else Ok fresh) with
    | Raise ConfigurationFileError | Raise FileNotFoundError => Ok None
    | Raise e => Raise e
    | Ok i => r <- has_output_directory cwd i ;; Ok (Some (fst r))
    end.
End Ini.

Arguments VStr {F}. Arguments VInt {F}. Arguments VFloat {F}. Arguments VBool {F}.
Arguments VList {F}. Arguments VPath {F}.
Arguments mk_entry {F}. Arguments e_kind {F}. Arguments e_hint {F}. Arguments e_value {F}.
Arguments mk_ini {F}. Arguments i_cfg {F}. Arguments i_file {F}. Arguments i_fs {F}.
Arguments set_config_value {F}. Arguments get_from {F}. Arguments get_parameter {F}.
Arguments set_parameter {F}. Arguments set_input_file {F}. Arguments get_input_file {F}.
Arguments project_set_parameter {F}. Arguments show_value {F}. Arguments cast {F}.
Arguments print_entry {F}. Arguments print_section {F}. Arguments print_configuration {F}.
Arguments key_from_template {F}. Arguments extract_parameters {F}. Arguments extract_input_files {F}.
Arguments set_output_value {F}. Arguments set_output_directory {F}. Arguments get_output_directory {F}.
Arguments extract_output_dir {F}. Arguments file_dir {F}. Arguments with_cfg {F}.
Arguments read_inifile {F}. Arguments read_dict {F}. Arguments has_output_directory {F}.
Arguments project_init {F}. Arguments load_configuration {F}.

Local Open Scope string_scope.

(** The shipped template, configurationfile_template.json.  Floats are written
    as the text Python prints for them. *)
Definition template : config text :=
  let e k (h : string) v := mk_entry k (T h) v in
  let s (x : string) : value text := VStr (T x) in
  let f (x : string) : value text := VFloat (T x) in
  [ (T "input",
     [ (T "2DMapOutput", e KStr "Output file from FM2D model (.net file)" (s ""));
       (T "CrossSectionLocationFile", e KStr ".csv or .txt file (, as delimiter) that contains four columns: X_coordinate,Y_coordinate,BranchName,Length,Chainage." (s ""));
       (T "RegionPolygonFile", e KStr "User defined polygons in json format" (s ""));
       (T "SectionPolygonFile", e KStr "User defined polygons in json format" (s "")) ]);
    (T "parameters",
     [ (T "CaseName", e KStr "Subdirectory name under OutputDir (no space); if not specified, 'CaseXX' (01, 02..) are used" (s ""));
       (T "MaximumPointsInProfile", e KInt "Number of points which are used to generate cross-sections" (VInt 20));
       (T "ConveyanceDetectionMethod", e KInt "[0] method based on mean flow velocity, [1] method based on maximum flow velocity (default)" (VInt 1));
       (T "AbsoluteVelocityThreshold", e KFloat "Absolute velocity threshold in m/s. Used to determine storage" (f "0.1"));
       (T "RelativeVelocityThreshold", e KFloat "Relative velocity threshold (percentage). Used to determine storage" (f "0.15"));
       (T "MinimumDepthThreshold", e KFloat "Minimum depth (m) for storage identification" (f "0.02"));
       (T "BedlevelCriterium", e KFloat "Ignore the lowest percentage of bed level points" (f "0.05"));
       (T "LakeTimesteps", e KInt "Number of timesteps that are used for identifying lakes" (VInt 10));
       (T "ExtrapolateStorage", e KBool "Add storage to water level independent cross-section section" (VBool true));
       (T "SDCorrection", e KBool "Use summerdike volume correction" (VBool true));
       (T "SDFloodplainBase", e KFloat "minimum distance between floodplain base level and crest level in meters" (f "0.5"));
       (T "SDTransitionHeight", e KFloat "Transition height at the summer dike (m)" (f "0.5"));
       (T "SDOptimisationMethod", e KInt "[0] Optimise on Total volume, [1] optimise  on flow volume, [2] optimise on both" (VInt 0));
       (T "FrictionWeighingMethod", e KInt "Options. [0] arithmetric mean, [1] Weighted average" (VInt 0));
       (T "SkipMaps", e KInt "number of timesteps to skip at begin of 2D output. Use to skip problems related to initial conditions. " (VInt 0));
       (T "MinimumTotalWidth", e KFloat "Minimum width in meters. Zero width may lead to numerical instability in 1D solvers" (f "0.5"));
       (T "DefaultSection", e KStr "Default section name to use in cells not covered by a section polygon. Value options: floodplain1, floodplain2 or main" (s "floodplain1"));
       (T "DefaultRegion", e KStr "Default region name to use in cells not covered by a region polygon." (s "undefined")) ]);
    (T "debug",
     [ (T "ExportCSSData", e KBool "If True, exports pickled (1) input data for cross-section object, (2) flow mask for conveyance/storage." (VBool false));
       (T "ExportMapFiles", e KBool "Export detailed map output. Only use for small models or limited number of cross-sections b/c output can be huge." (VBool false));
       (T "CssSelection", e KList "provide comma separated list of ints; e.g. 38, 39, 40. Leave empty to generate all cross-sections" (s "")) ]);
    (T "output",
     [ (T "OutputDirectory", e KStr "Output files are saved in OutputDir/CaseName; if not specified, subdirectory is created in the current directory" (s "output")) ]) ].
