(** Model of the friction tables, cross_section.py 48-120, 916-974 and
    common.py 349-377.

    Simplifications: exact arithmetic; the levels are finite numbers where
    they are interpolated, and of any type where they are only stored; log
    messages and the progress bar are left out. *)
From Coq Require Import String List ZArith QArith Qround Bool.
From Verif Require Import PyBase Num.
Import ListNotations.
Local Open Scope Q_scope.

(** np.unique of a list of strings: sorted, without duplicates. *)
Fixpoint insert_unique (s : string) (l : list string) : list string :=
  match l with
  | [] => [s]
  | t :: l' => match String.compare s t with
               | Lt => s :: t :: l'
               | Eq => t :: l'
               | Gt => t :: insert_unique s l'
               end
  end.
Definition np_unique (l : list string) : list string := fold_right insert_unique [] l.

(** 2D data of the flow links of one cross-section. *)
Record links := {
  chezy : list (list num);          (* one row per link, one column per time step *)
  nsteps : nat;                     (* number of columns *)
  edge_section : list string;
  edge_faces : list (list nat);
  area_full : option (nat -> option num) }.  (* key in fm_data; data_import.py 234-287 never sets it *)

(** [replace(0, np.nan)] *)
Definition zero_to_nan (x : num) : num := if neqb x (Fin 0) then NaN else x.
Definition nan_to_zero (x : num) : num := if isnan x then Fin 0 else x.

(** Column [t] of a frame given by rows. *)
Definition column (t : nat) (rows : list (list num)) : list num :=
  map (fun r => nth t r NaN) rows.

(** cross_section.py 943-949 _friction_weighing_simple; [steps] are the
    remaining columns. *)
Definition friction_simple (steps : list nat) (rows : list (list num)) : list num :=
  map (fun t => nan_to_zero (nanmean (map zero_to_nan (column t rows)))) steps.

(** cross_section.py 951-974 _friction_weighing_area *)
Definition link_area (area : nat -> option num) (ef : list nat) : num :=
  nanmean (map (fun f => match area f with Some a => a | None => NaN end) ef).
Definition friction_area (areas : option (nat -> option num)) (efs : list (list nat))
    (steps : list nat) (rows : list (list num)) : res (list num) :=
  match areas, efs with
  | None, _ :: _ => Raise AttributeError
  | None, [] => Ok (map (fun _ => Fin 0) steps)
  | Some area, _ =>
      let la := map (link_area area) efs in
      let w := map (fun a => ndiv a (npsum la)) la in
      Ok (map (fun t => nan_to_zero (npsum (map2 nmul (map zero_to_nan (column t rows)) w))) steps)
  end.

(** common.py 349-377 FrictionTable *)
Record table (A : Type) := mk_table { level : list A; friction : list num }.
Arguments mk_table {A}. Arguments level {A}. Arguments friction {A}.
Definition make_table {A} (lev : list A) (fr : list num) : res (table A) :=
  if Nat.eqb (length lev) (length fr) then Ok (mk_table lev fr)
  else Raise ValueError.

Definition section_is (s : string) (d : links) : list bool :=
  map (String.eqb s) (edge_section d).

(** cross_section.py 916-941 _build_roughness_tables; [weighing] is the
    parameter FrictionWeighingMethod, [skip] is SkipMaps, [z] the attribute
    _css_z_roughness. *)
Definition build_table {A} (weighing skip : Z) (z : list A) (d : links) (s : string) : res (table A) :=
  rows <- mask_index (section_is s d) (chezy d) ;;
  let steps := slice_from skip (seq 0 (nsteps d)) in
  fr <- (if Z.eqb weighing 0 then Ok (friction_simple steps rows)
         else if Z.eqb weighing 1 then
           efs <- mask_index (section_is s d) (edge_faces d) ;;
           friction_area (area_full d) efs steps rows
         else Raise ValueError) ;;
  make_table z fr.

Definition build_roughness_tables {A} (weighing skip : Z) (z : list A) (d : links)
    : res (list (string * table A)) :=
  fold_res (fun tabs s => t <- build_table weighing skip z d s ;; Ok (assoc_set s t tabs))
           (np_unique (edge_section d)) [].

(** ** Interpolation to common levels *)

(** np.interp of one value for finite tables.  [search xp x] is numpy's
    (binary or linear) search for the interval that contains [x]. *)
Definition np_interp (search : list Q -> Q -> nat) (xp fp : list Q) (x : Q) : Q :=
  let n := length xp in
  if Qltb (nth (n - 1) xp 0) x then nth (n - 1) fp 0
  else if Qltb x (nth 0 xp 0) then nth 0 fp 0
  else
    let j := search xp x in
    if Nat.eqb j (n - 1) then nth j fp 0
    else if Qeq_bool (nth j xp 0) x then nth j fp 0
    else (nth (S j) fp 0 - nth j fp 0) / (nth (S j) xp 0 - nth j xp 0) * (x - nth j xp 0) + nth j fp 0.

(** np.arange(start, stop, 0.1): ceil((stop-start)/0.1) values. *)
Definition zstep : Q := 1 # 10.
Definition arange (start stop : Q) : list Q :=
  map (fun k => start + inject_Z (Z.of_nat k) * zstep)
      (seq 0 (Z.to_nat (Qceiling ((stop - start) / zstep)))).

(** A friction table with finite values, as used by the interpolation. *)
Record qtable := { qlevel : list Q; qfriction : list Q }.

(** common.py 357-365 FrictionTable.interpolate *)
Definition interpolate (search : list Q -> Q -> nat) (new_z : list Q) (t : qtable) : res qtable :=
  if Nat.eqb (length (qlevel t)) 0 then Raise ValueError
  else if negb (Nat.eqb (length (qlevel t)) (length (qfriction t))) then Raise ValueError
  else Ok {| qlevel := new_z;
             qfriction := map (np_interp search (qlevel t) (qfriction t)) new_z |}.

Definition qmin2 (a b : Q) : Q := if Qltb b a then b else a.
Definition qmax2 (a b : Q) : Q := if Qltb a b then b else a.
(** np.min / np.max of a list: ValueError if it is empty. *)
Definition np_min (l : list Q) : res Q :=
  match l with [] => Raise ValueError | x :: l' => Ok (fold_left qmin2 l' x) end.
Definition np_max (l : list Q) : res Q :=
  match l with [] => Raise ValueError | x :: l' => Ok (fold_left qmax2 l' x) end.

(** Friction tables of one cross-section: section name to table. *)
Definition tables := list (string * qtable).

Definition big : Q := inject_Z (10 ^ 20).

(** Smallest and largest level over all cross-sections, cross_section.py 101-108. *)
Definition level_range (section : string) (css : list tables) : res (Q * Q) :=
  fold_res (fun mm t =>
    match assoc section t with
    | None => Ok mm
    | Some tab =>
        lo <- np_min (qlevel tab) ;;
        hi <- np_max (qlevel tab) ;;
        Ok (qmin2 (fst mm) lo, qmax2 (snd mm) hi)
    end) css (big, - big).

(** The second loop over the cross-sections, lines 110-115.  Mutates the
    tables: an exception leaves the earlier ones changed. *)
Fixpoint interpolate_section (search : list Q -> Q -> nat) (section : string) (new_z : list Q)
    (css : list tables) : list tables * bool :=
  match css with
  | [] => ([], true)
  | t :: css' =>
      match assoc section t with
      | None => let '(r, ok) := interpolate_section search section new_z css' in (t :: r, ok)
      | Some tab =>
          match interpolate search new_z tab with
          | Raise _ => (t :: css', false)
          | Ok tab' =>
              let '(r, ok) := interpolate_section search section new_z css' in
              (assoc_set section tab' t :: r, ok)
          end
      end
  end.

Fixpoint interpolate_sections (search : list Q -> Q -> nat) (sections : list string)
    (css : list tables) : list tables * bool :=
  match sections with
  | [] => (css, true)
  | s :: sections' =>
      match level_range s css with
      | Raise _ => (css, false)
      | Ok (lo, hi) =>
          let '(css', ok) := interpolate_section search s (arange lo hi) css in
          if ok then interpolate_sections search sections' css' else (css', false)
      end
  end.

(** cross_section.py 48-120: the tables afterwards and the returned flag; an
    exception is caught and gives [false]. *)
Definition interpolate_friction (search : list Q -> Q -> nat) (css : list tables)
    : list tables * bool :=
  interpolate_sections search (np_unique (flat_map (map fst) css)) css.
