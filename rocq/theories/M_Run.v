(** Model of a run, fm2prof_runner.py: run (121-153), _run_inifile (187-215),
    _initialise_fm2prof (217-277), _validate_config_after_initalization (279-321),
    _finalise_fm2prof (323-350), _generate_cross_section_list (565-600),
    _get_css_range (602-609), _generate_cross_section (611-674),
    _create_new_cross_section (723-762), _write_output (765-883), _output_exists
    (963-973), and export.py OutputFiles (21-42).

    Files are the files of the output directory, by name.  A run is the list of the
    file actions it performs, in order, and its outcome; a run that is interrupted
    has performed a prefix of its actions.  One write of the code is one action.
    Computations that other model files cover (reading the 2D data, building a
    profile, interpolating friction) appear as their results.  [can_open] tells
    whether the operating system lets a file be opened for writing, [log_line] is the
    text the file formatter makes of a message and [pickled] the contents of a
    pickle file.  All messages of level warning and error are there; of the messages of
    level info and debug only some.  Cross-section ids are used as file names and are assumed to hold
    no path separator. *)
From Coq Require Import String List Ascii ZArith QArith Bool.
From Verif Require Import PyBase Num Text Fixed M_Ini M_Friction M_Import M_Network M_Export M_Log.
Import ListNotations.
Local Open Scope char_scope.

(** ** Files *)

Definition directory := text -> option text.
Definition put (f t : text) (d : directory) : directory := fun g => if teqb f g then Some t else d g.
Definition contents (d : directory) (f : text) : text := match d f with Some t => t | None => [] end.

Definition log_file := T "fm2prof.log".

(** Opening for writing empties the file.  [Log l t]: a message of level [l] goes to the log file as [t]. *)
Inductive action := Create (f : text) | Write (f t : text) | Log (l : level) (t : text).
Definition touches (a : action) : text := match a with Create f => f | Write f _ => f | Log _ _ => log_file end.
Definition apply (d : directory) (a : action) : directory :=
  match a with
  | Create f => put f [] d
  | Write f t => put f (contents d f ++ t) d
  | Log _ t => put log_file (contents d log_file ++ t) d
  end.
Definition play (acts : list action) (d : directory) : directory := fold_left apply acts d.

(** export.py 21-42 OutputFiles *)
Definition css_locations := T "CrossSectionLocations.ini".
Definition css_definitions := T "CrossSectionDefinitions.ini".
Definition roughness_main := T "roughness-Main.ini".
Definition roughness_fp1 := T "roughness-FloodPlain1.ini".
Definition roughness_fp2 := T "roughness-FloodPlain2.ini".
Definition sobek_geometry := T "geometry.csv".
Definition sobek_roughness := T "roughness.csv".
Definition test_geometry := T "geometry_test.csv".
Definition test_roughness := T "roughness_test.csv".
Definition volumes_file := T "volumes.csv".
Definition output_files : list text :=
  [css_locations; css_definitions; roughness_main; roughness_fp1; roughness_fp2; sobek_geometry; sobek_roughness;
   test_geometry; test_roughness; volumes_file].

(** fm2prof_runner.py 963-973 _output_exists *)
Definition output_exists (d : directory) : bool :=
  existsb (fun f => match d f with Some _ => true | None => false end) output_files.

Section Run.
  Variable show_float : num -> text.
  Variable show4 : num -> text.
  Variable can_open : text -> bool.
  Variable log_line : level -> text -> text.
  Variable pickled : text -> text.

  Definition logged (l : level) (m : text) : action := Log l (log_line l m).

  (** ** Writing output *)

  (** [with open(f, "w"): ...] with the given writes. *)
  Definition job := (text * list (res text))%type.
  Fixpoint write_actions (f : text) (ws : list (res text)) : list action * option exn :=
    match ws with
    | [] => ([], None)
    | Raise e :: _ => ([], Some e)
    | Ok t :: ws' => let r := write_actions f ws' in (Write f t :: fst r, snd r)
    end.
  Definition job_actions (j : job) : list action * option exn :=
    if can_open (fst j) then
      let r := write_actions (fst j) (snd j) in (Create (fst j) :: fst r, snd r)
    else ([], Some OSError).

  (** The body of one [try]: jobs until the first exception. *)
  Fixpoint group (js : list (res job)) : list action * option exn :=
    match js with
    | [] => ([], None)
    | Raise e :: _ => ([], Some e)
    | Ok j :: js' =>
        let r := job_actions j in
        match snd r with
        | Some e => (fst r, Some e)
        | None => let r' := group js' in (fst r ++ fst r', snd r')
        end
    end.
  Definition guarded (js : list (res job)) (m : text) : list action :=
    let r := group js in fst r ++ match snd r with Some _ => [logged Error m] | None => [] end.

  (** fm2prof_runner.py 802-839: section_file_key_dict *)
  Definition roughness_job (css : list xs) (section : text) : res job :=
    if teqb section (T "main") then Ok (roughness_main, write_roughness_fm1d show_float show4 css (T "Main"))
    else if teqb section (T "floodplain1") then
      Ok (roughness_fp1, write_roughness_fm1d show_float show4 css (T "FloodPlain1"))
    else if teqb section (T "floodplain2") then
      Ok (roughness_fp2, write_roughness_fm1d show_float show4 css (T "FloodPlain2"))
    else Raise KeyError.
  Definition dimr_jobs (css : list xs) : list (res job) :=
    Ok (css_locations, write_css_locations show_float css) ::
    Ok (css_definitions, write_geometry_fm1d show_float css) :: map (roughness_job css) (sections_of css).
  Definition sobek_jobs (css : list xs) : list (res job) :=
    [Ok (sobek_geometry, write_geometry_sobek3 show_float css);
     Ok (sobek_roughness, write_roughness_sobek3 show_float css)].
  Definition other_jobs (css : list xs) : list (res job) :=
    [Ok (test_geometry, write_geometry_test show_float css);
     Ok (volumes_file, write_volumes show_float css)].

  Definition dimr_error := T "An error was produced while exporting files to DIMR format, not all output files might be exported. ".
  Definition sobek_error := T "An error was produced while exporting files to SOBEK format, not all output files might be exported. ".
  Definition other_error := T "An error was produced while exporting files, not all output files might be exported. ".
  (** export.py 426-430: a message for every cross-section that is left; they come here before the
      writes to the geometry file, in the code between them. *)
  Definition sobek_messages (css : list xs) : list action :=
    if can_open sobek_geometry then
      flat_map (fun c => match snd (run_writes (sobek_writes show_float c)) with
                         | Some _ => [logged Error (T "Cross-section " ++ x_name c ++ T " not written to sobek format cross-section file")]
                         | None => []
                         end) css
    else [].
  Definition write_output (css : list xs) (dir_exists : bool) : list action :=
    match css with
    | [] => []
    | _ => if dir_exists then
             guarded (dimr_jobs css) dimr_error ++ sobek_messages css ++ guarded (sobek_jobs css) sobek_error ++
             guarded (other_jobs css) other_error ++ [logged Info (T "Exported output files, FM2PROF finished")]
           else []
    end.

  (** ** Generating cross-sections *)

  (** A row of the cross-section list: its id (empty if missing), whether length, xy, branchid and chainage
      are there, the number of faces selected for it, and the cross-section that is built. *)
  Record css_data := mk_css_data { cd_id : text; cd_complete : bool; cd_faces : nat; cd_build : res xs }.

  (** fm2prof_runner.py 602-609: None and an empty list select everything *)
  Definition css_range (selection : list Z) (n : nat) : list Z :=
    match selection with [] => map Z.of_nat (seq 0 n) | _ => selection end.
  (** [np.array(css_data_list)[css_selection]] *)
  Definition selected {A} (selection : list Z) (l : list A) : res (list A) :=
    map_res (py_index l) (css_range selection (length l)).

  (** fm2prof_runner.py 611-674 and 723-762; cross_section.py 333-339 writes the flow mask *)
  Definition generate_cross_section (export_data : bool) (c : css_data) : list action * res (option xs) :=
    match cd_id c with
    | [] => ([logged Error (T "No Cross-section could be generated for new_cross_section")], Ok None)
    | _ =>
        if negb (cd_complete c) then
          ([logged Error (T "No Cross-section could be generated for " ++ cd_id c)], Ok None)
        else
          let pickle := if export_data
            then [Create (cd_id c ++ T ".pickle"); Write (cd_id c ++ T ".pickle") (pickled (cd_id c))] else [] in
          if Nat.ltb (cd_faces c) 10 then
            (pickle ++ [logged Error (T "There are too little 2D points in control volume to construct cross-section")], Ok None)
          else
            let mask := if export_data
              then [Create (cd_id c ++ T "_flowmask.pickle");
                    Write (cd_id c ++ T "_flowmask.pickle") (pickled (cd_id c))] else [] in
            (pickle ++ [logged Info (T "Initiated new cross-section")] ++ mask, res_map Some (cd_build c))
    end.
  Fixpoint generate_all (export_data : bool) (l : list css_data) : list action * res (list xs) :=
    match l with
    | [] => ([], Ok [])
    | c :: l' =>
        let r := generate_cross_section export_data c in
        match snd r with
        | Raise e => (fst r, Raise e)
        | Ok x =>
            let r' := generate_all export_data l' in
            (fst r ++ fst r', res_map (fun xs => match x with Some y => y :: xs | None => xs end) (snd r'))
        end
    end.
  (** fm2prof_runner.py 565-600 *)
  Definition generate_list (selection : list Z) (export_data : bool) (l : list css_data) : list action * res (list xs) :=
    match selected selection l with
    | Raise e => ([], Raise e)
    | Ok s => generate_all export_data s
    end.

  (** ** Initialisation *)

  (** fm2prof_runner.py 279-321: success and the levels of the logged messages; [skip > nsteps / 2] *)
  Definition validate (skip : Z) (nsteps : nat) (no_edge_faces : bool) (weighing : Z) : bool * list level :=
    let n := Z.of_nat nsteps in
    let r := if (n <=? skip)%Z then (false, [Error])
             else if (n <? 2 * skip)%Z then (true, [Warning]) else (true, []) in
    (fst r, snd r ++ if no_edge_faces && (weighing =? 1)%Z then [Warning] else []).

  (** The configuration and input of a run. *)
  Record input := mk_input {
    r_ini : bool;                                  (* a configuration was loaded *)
    r_map_exists : bool; r_css_exists : bool;
    r_read : list action * res nat;                (* _set_fm_model_data: cache files, number of time steps *)
    r_skip : Z; r_no_edge_faces : bool; r_weighing : Z;
    r_selection : list Z; r_export_data : bool; r_css : list css_data;
    r_interpolate : list xs -> list xs;            (* friction tables interpolated in place; never raises *)
    r_dir_exists : bool;
    r_export_maps : bool; r_maps : list action;    (* face and edge output *)
    r_envelope : list action }.

  (** fm2prof_runner.py 217-277 *)
  Definition initialise (i : input) : list action * res unit :=
    if negb (r_map_exists i) || negb (r_css_exists i) then
      ((if r_map_exists i then [] else [logged Error (T "File for 2DMapOutput not found")]) ++
       (if r_css_exists i then [] else [logged Error (T "File for CrossSectionLocationFile not found")]),
       Raise InitializationError)
    else match snd (r_read i) with
         | Raise PolygonError => (fst (r_read i) ++ [logged Error (T "Error during initialisation")], Raise InitializationError)
         | Raise e => (fst (r_read i), Raise e)
         | Ok n =>
             let v := validate (r_skip i) n (r_no_edge_faces i) (r_weighing i) in
             let messages := map (fun l => logged l (T "Validating settings")) (snd v) in
             if fst v then (fst (r_read i) ++ messages, Ok tt)
             else (fst (r_read i) ++ messages ++ [logged Error (T "Validation of configuration file not successful")],
                   Raise InitializationError)
         end.

  (** fm2prof_runner.py 323-350 *)
  Definition finalise (i : input) (css : list xs) : list action * res unit :=
    (write_output (r_interpolate i css) (r_dir_exists i) ++ (if r_export_maps i then r_maps i else []) ++ r_envelope i,
     Ok tt).

  (** fm2prof_runner.py 187-215 *)
  Definition run_inifile (i : input) : list action * res bool :=
    let a := initialise i in
    match snd a with
    | Raise InitializationError => (fst a ++ [logged Error (T "Initialization failed")], Ok false)
    | Raise e => (fst a, Raise e)
    | Ok _ =>
        let g := generate_list (r_selection i) (r_export_data i) (r_css i) in
        match snd g with
        | Raise e => (fst a ++ fst g, Raise e)
        | Ok css =>
            let f := finalise i css in
            (fst a ++ fst g ++ fst f, res_map (fun _ => true) (snd f))
        end
    end.

  (** fm2prof_runner.py 121-153; without a configuration there is no log file yet *)
  Definition run (i : input) (overwrite : bool) (d : directory) : list action * res bool :=
    if negb (r_ini i) then ([], Ok false)
    else if output_exists d && negb overwrite then
      ([logged Warning (T "Output already exists. Use overwrite option if you want to re-run the program")], Ok false)
    else
      let r := run_inifile i in
      (fst r ++ match snd r with
                | Ok true => [logged Info (T "Program finished")]
                | Ok false => [logged Warning (T "Program finished with errors")]
                | Raise _ => []
                end, snd r).
End Run.
