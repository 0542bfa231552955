(** Model of the figures of utils.py VisualiseOutput (418-954) and of the loop
    over them in cli.py 82-87.
    A figure is the list of what is drawn in each of its three panels, with the
    numbers handed to matplotlib.  Simplifications: colours, line styles, axis
    titles and plot styles are left out (the line style of the crest level is
    kept); writing a figure to a file does not fail. *)
From Coq Require Import String List Ascii ZArith QArith Bool.
From Verif Require Import PyBase Num Text M_Classify M_Friction M_Import M_Ini M_Network M_Export M_Run.
Import ListNotations.

(** ax.plot(x, y) and ax.fill_between(z, low, high), fill_betweenx: arrays of
    different lengths raise ValueError.  No label is the empty text. *)
Inductive shape :=
| Line (label : string) (x y : list num)
| Area (label : string) (along low high : list num).
Definition line (label : string) (x y : list num) : res shape :=
  if Nat.eqb (length x) (length y) then Ok (Line label x y) else Raise ValueError.
Definition area (label : string) (along low high : list num) : res shape :=
  if Nat.eqb (length along) (length low) && Nat.eqb (length along) (length high)
  then Ok (Area label along low high) else Raise ValueError.
(** ax.set_xlim: limits that are not finite raise ValueError. *)
Definition limits (lo hi : num) : res unit :=
  match lo, hi with Fin _, Fin _ => Ok tt | _, _ => Raise ValueError end.

Record figure := mk_figure { f_geometry : list shape; f_volume : list shape; f_roughness : list shape }.

(** utils.py 925-942 _get_sd_plot_info: line style, label and crest. *)
Definition sd_plot_info (d : definition) : res (string * string * num) :=
  first <- py_index (d_levels d) 0 ;;
  let v := first :: d_levels d in
  let crest := d_sd_crest d in
  hi <- py_max v ;; lo <- py_min v ;;
  if nleb crest hi then
    if nleb lo crest then Ok ("--"%string, "SD Crest Level"%string, crest)
    else Ok ("-"%string, "SD Crest Level (cropped)"%string, lo)
  else Ok ("-"%string, "SD Crest Level (cropped)"%string, hi).

Definition column (k : nat) (vd : list (list num)) : list num := nth k vd [].
(** np.argmax of booleans: the first that is true, else 0. *)
Fixpoint first_true (l : list bool) : option nat :=
  match l with [] => None | b :: l' => if b then Some 0%nat else option_map S (first_true l') end.
Definition argmax_bool (l : list bool) : res nat :=
  match l with
  | [] => Raise ValueError
  | _ => Ok (match first_true l with Some i => i | None => 0%nat end)
  end.
(** utils.py 944-947 _get_lowest_water_level_in_2d *)
Definition lowest_water_level (vd : list (list num)) : res num :=
  i <- argmax_bool (map (fun x => negb (isnan x)) (column 1 vd)) ;;
  py_index (column 0 vd) (Z.of_nat i).

(** [side * w / 2] *)
Definition half_width (side : Q) (w : num) : num := ndiv (nmul (Fin side) w) (Fin 2).

(** utils.py 759-830 _plot_geometry.  The label Storage is given to the area of
    the right hand side, the last one drawn. *)
Definition plot_geometry (d : definition) (vd : res (list (list num)))
    (reference : option (list num * list num)) : res (list shape) :=
  let tw := Fin 0 :: d_total_width d in
  let fw := Fin 0 :: d_flow_width d in
  first <- py_index (d_levels d) 0 ;;
  let levels := first :: d_levels d in
  vd' <- vd ;;
  low <- lowest_water_level vd' ;;
  let side_shapes s label :=
    a <- area label levels (map (half_width s) fw) (map (half_width s) tw) ;;
    t <- line "" (map (half_width s) tw) levels ;;
    f <- line "" (map (half_width s) fw) levels ;;
    Ok [a; t; f] in
  left <- side_shapes (-1)%Q ""%string ;;
  right <- side_shapes 1%Q "Storage"%string ;;
  bottom <- py_min levels ;;
  let below := nsub bottom (Fin (1 # 4)) in
  let section w := [nmul (Fin (- 1 # 2)) w; nmul (Fin (1 # 2)) w] in
  widest <- py_max tw ;;
  low_line <- line "Lowest water level in 2D" (map (fun w => nsub w (nmul (Fin (1 # 2)) widest)) tw)
                   (map (fun _ => low) levels) ;;
  refs <- match reference with
          | Some (z, w) => r <- line "Reference geometry" w z ;; Ok [r]
          | None => Ok []
          end ;;
  sd <- sd_plot_info d ;;
  let top := last tw (Fin 0) in
  Ok (left ++ right ++
      [Line "Main section" (section (d_main_width d)) [below; below];
       Line "Floodplain section" (section (nadd (d_main_width d) (d_fp1_width d))) [below; below];
       low_line] ++ refs ++
      [Line (snd (fst sd)) [ndiv (nneg top) (Fin 2); ndiv top (Fin 2)] [snd sd; snd sd]]).

(** utils.py 832-895 _plot_volume *)
Definition plot_volume (d : definition) (vd : res (list (list num))) : res (list shape) :=
  vd' <- vd ;;
  low <- lowest_water_level vd' ;;
  let z := column 0 vd' in
  let zero := map (fun _ => Fin 0) z in
  a1 <- area "1D Total Volume (incl. SD)" z zero (column 5 vd') ;;
  a2 <- area "1D Total Volume (excl. SD)" z zero (column 6 vd') ;;
  a3 <- area "1D Flow Volume (incl. SD)" z zero (column 8 vd') ;;
  a4 <- area "1D Flow Volume (excl. SD)" z zero (column 8 vd') ;;
  l1 <- line "2D Total Volume" z (column 1 vd') ;;
  l2 <- line "2D Flow Volume" z (column 2 vd') ;;
  let l3 := Line "Lowest water level in 2D" (map (fun _ => low) (column 1 vd')) (column 1 vd') in
  sd <- sd_plot_info d ;;
  let l4 := Line (snd (fst sd)) (map (fun _ => snd sd) (column 1 vd')) (column 1 vd') in
  lo <- py_min z ;; hi <- py_max z ;;
  _ <- limits lo hi ;;
  Ok [a1; a2; a3; a4; l1; l2; l3; l4].

(** utils.py 897-923 _plot_roughness: whatever the first ax.plot raises is
    passed over; of the second file only its absence is. *)
Definition plot_roughness (d : definition) (main fp1 : res (option (list num) * option (list num)))
    (reference : option (list num * list num)) : res (list shape) :=
  m <- main ;;
  let s1 := match m with
            | (Some l, Some v) => match line "Main channel" l v with Ok s => [s] | Raise _ => [] end
            | _ => []
            end in
  s2 <- match fp1 with
        | Ok (Some l, Some v) => s <- line "Floodplain1" l v ;; Ok [s]
        | Ok _ => Ok []
        | Raise FileNotFoundError => Ok []
        | Raise e => Raise e
        end ;;
  s3 <- match reference with
        | Some (z, c) => r <- line "Reference friction" z c ;; Ok [r]
        | None => Ok []
        end ;;
  lo <- py_min (d_levels d) ;; hi <- py_max (d_levels d) ;;
  _ <- limits lo hi ;;
  Ok (s1 ++ s2 ++ s3).

(** open(f) of a file of the output directory, utils.py 694-700 *)
Definition open_file (files : directory) (f : text) : res text := of_option FileNotFoundError (files f).

Section Visual.
  Variable read_float : text -> option num.
  Variable round2 : num -> num.                 (* round(x, 2) *)

  Definition volumes_of (files : directory) (name : text) : res (list (list num)) :=
    content <- open_file files volumes_file ;; get_volume_info read_float content name.
  Definition roughness_of (files : directory) (f name : text) : res (option (list num) * option (list num)) :=
    content <- open_file files f ;; get_roughness_info read_float round2 content name.
  (** utils.py 461-471, 706-707 cross_sections *)
  Definition cross_sections (files : directory) : res (list definition) :=
    content <- open_file files css_definitions ;; parse_definition_file read_float content.

  (** utils.py 633-646: the three panels *)
  Definition draw (files : directory) (d : definition)
      (geometry roughness : option (list num * list num)) : res figure :=
    let vd := volumes_of files (d_id d) in
    g <- plot_geometry d vd geometry ;;
    v <- plot_volume d vd ;;
    r <- plot_roughness d (roughness_of files roughness_main (d_id d)) (roughness_of files roughness_fp1 (d_id d)) roughness ;;
    Ok (mk_figure g v r).

  (** The directory with the figures: by cross-section id, for the file id.png. *)
  Definition figures := text -> option figure.
  Definition save (id : text) (f : figure) (figs : figures) : figures :=
    fun g => if teqb id g then Some f else figs g.

  (** utils.py 606-664 figure_cross_section: the directory afterwards, the
      figure returned, and whether an error was logged. *)
  Definition figure_cross_section (files : directory) (figs : figures) (d : definition)
      (geometry roughness : option (list num * list num)) (save_to_file overwrite : bool)
    : figures * option figure * bool :=
    match figs (d_id d), overwrite with
    | Some _, false => (figs, None, false)
    | _, _ =>
        match draw files d geometry roughness with
        | Raise _ => (figs, None, true)
        | Ok f => if save_to_file then (save (d_id d) f figs, None, false) else (figs, Some f, false)
        end
    end.

  (** cli.py 82-87: the figures afterwards and the ids that were logged. *)
  Fixpoint figure_loop (files : directory) (ds : list definition) (figs : figures) : figures * list text :=
    match ds with
    | [] => (figs, [])
    | d :: ds' =>
        let '(figs', _, failed) := figure_cross_section files figs d None None true false in
        let r := figure_loop files ds' figs' in
        (fst r, (if failed then [d_id d] else []) ++ snd r)
    end.
  Definition post_process (files : directory) (figs : figures) : res (figures * list text) :=
    ds <- cross_sections files ;; Ok (figure_loop files ds figs).

  (** utils.py 666-678 plot_cross_sections: figure_cross_section has no
      argument pbar. *)
  Definition plot_cross_sections (files : directory) (figs : figures) : res figures :=
    ds <- cross_sections files ;;
    match ds with [] => Ok figs | _ :: _ => Raise TypeError end.

  (** utils.py 426-446: there is no method _create_logger. *)
  Definition visualise_output (has_logger : bool) : res unit :=
    if has_logger then Ok tt else Raise AttributeError.

  (** * Branches *)

  (** utils.py 535-540 split_css: name, chainage, branch *)
  Definition split_css (name : text) : res (text * num * text) :=
    let pieces := split_on "_"%char name in
    chainage <- float_of read_float (last pieces []) ;;
    Ok (name, chainage, join (T "_") (removelast pieces)).

  (** utils.py 448-454 branches *)
  Definition branch_names (css : list (text * num * text)) : list text := unique_texts (map snd css).
  Definition contiguous (branches : list text) : list text :=
    unique_texts (map (fun b => hd [] (split_on "_"%char b)) branches).

  (** [name in array] as Python takes the truth value of [array == name]: an
      array of more than one element has none; an empty array is false (numpy
      before 2.2). *)
  Definition truth_equal (name : text) (array : list text) : res bool :=
    match array with
    | [] => Ok false
    | [a] => Ok (teqb a name)
    | _ => Raise ValueError
    end.
  (** [branch in (branches, contiguous_branches)] *)
  Definition known_branch (name : text) (branches contiguous_branches : list text) : res bool :=
    b <- truth_equal name branches ;;
    if b then Ok true else truth_equal name contiguous_branches.

  (** utils.py 542-545 get_css_for_branch *)
  Definition css_for_branch (css : list (text * num * text)) (branch : text) : list (text * num * text) :=
    filter (fun c => startswith branch (snd c)) css.

  (** utils.py 523-531: [before] is the sublist of the sub-branch before. *)
  Fixpoint chain_branches (css : list (text * num * text)) (subs : list text) (running : num)
      (before : option (list (text * num * text))) : res (list (text * num * text)) :=
    match subs with
    | [] => Ok []
    | s :: subs' =>
        let sublist := css_for_branch css s in
        running' <- match before with
                    | None => Ok running
                    | Some b => c <- py_index b (-1) ;; Ok (nadd running (snd (fst c)))
                    end ;;
        rest <- chain_branches css subs' running' (Some sublist) ;;
        Ok (map (fun c => (fst (fst c), nadd (snd (fst c)) running', snd c)) sublist ++ rest)
    end.

  (** utils.py 507-533 get_cross_sections_for_branch, of the ids in the
      definition file. *)
  Definition cross_sections_for_branch (ids : list text) (branch : text) : res (list (text * num * text)) :=
    css <- map_res split_css ids ;;
    let branches := branch_names css in
    known <- known_branch branch branches (contiguous branches) ;;
    if known then
      chain_branches css (unique_texts (filter (startswith branch) branches)) (Fin 0) None
    else Raise KeyError.

  (** utils.py 473-505 figure_roughness_longitudinal: chainage in km and the
      least and greatest roughness of every cross-section.  [min(None)] raises
      TypeError. *)
  Definition roughness_longitudinal (files : directory) (branch : text) : res (list shape) :=
    ds <- cross_sections files ;;
    css <- cross_sections_for_branch (map d_id ds) branch ;;
    rows <- map_res (fun c : text * num * text =>
      info <- roughness_of files roughness_main (fst (fst c)) ;;
      v <- of_option TypeError (snd info) ;;
      lo <- py_min v ;; hi <- py_max v ;;
      Ok (nmul (snd (fst c)) (Fin (1 # 1000)), lo, hi)) css ;;
    match rows with
    | [] => Raise IndexError
    | _ => Ok [Line "minimum" (map (fun r => fst (fst r)) rows) (map (fun r => snd (fst r)) rows);
               Line "maximum" (map (fun r => fst (fst r)) rows) (map snd rows)]
    end.
End Visual.
