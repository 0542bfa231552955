(** Model of the interpolation of friction tables of any numbers,
    cross_section.py 48-120 and common.py 357-365, and of the cross-sections
    that the exporter sees after it (fm2prof_runner.py 323-330).

    M_Friction.v has the same functions for finite numbers.  Here the levels
    and the friction may be NaN or infinite: the level at the centre of a
    control volume is NaN if the 2D model has no water level there
    (M_Geometry.v).  The helper object has no logger (fm2prof_runner.py 326), so
    that the message of cross_section.py 74-79 is not written
    (common.py 259-260). *)
From Coq Require Import String List ZArith QArith Bool.
From Verif Require Import PyBase Num Text M_Friction M_Ini M_Export M_Geometry M_Pipeline M_Chain.
Import ListNotations.
Local Open Scope Q_scope.

Definition ntables := list (string * table num).

(** np.min and np.max of a list; ValueError if it is empty. *)
Definition np_min_n (l : list num) : res num :=
  match l with [] => Raise ValueError | x :: l' => Ok (fold_left npmin l' x) end.
Definition np_max_n (l : list num) : res num :=
  match l with [] => Raise ValueError | x :: l' => Ok (fold_left npmax l' x) end.

(** cross_section.py 96-110 *)
Definition level_range_n (section : string) (css : list ntables) : res (num * num) :=
  fold_res (fun mm t =>
    match assoc section t with
    | None => Ok mm
    | Some tab =>
        lo <- np_min_n (level tab) ;;
        hi <- np_max_n (level tab) ;;
        Ok (npmin (fst mm) lo, npmax (snd mm) hi)
    end) css (Fin big, Fin (- big)).

(** np.arange(start, stop, 0.1): the length cannot be computed from NaN or an
    infinity. *)
Definition arange_n (start stop : num) : res (list Q) :=
  match start, stop with
  | Fin a, Fin b => Ok (arange a b)
  | _, _ => Raise ValueError
  end.

(** np.interp of one value.  The levels are finite here: [arange_n] fails if one
    is not ([finite_range] in T_Levels.v).  A result that is NaN is computed
    again from the other end of the interval. *)
Definition finite_part (x : num) : Q := match x with Fin q => q | _ => 0 end.
Definition np_interp_n (search : list Q -> Q -> nat) (xp : list Q) (fp : list num) (x : Q) : num :=
  let n := length xp in
  if Qltb (nth (n - 1) xp 0) x then nth (n - 1) fp (Fin 0)
  else if Qltb x (nth 0 xp 0) then nth 0 fp (Fin 0)
  else
    let j := search xp x in
    let f0 := nth j fp (Fin 0) in
    let f1 := nth (S j) fp (Fin 0) in
    if Nat.eqb j (n - 1) then f0
    else if Qeq_bool (nth j xp 0) x then f0
    else
      let slope := ndiv (nsub f1 f0) (Fin (nth (S j) xp 0 - nth j xp 0)) in
      let v := nadd (nmul slope (Fin (x - nth j xp 0))) f0 in
      if isnan v then
        let w := nadd (nmul slope (Fin (x - nth (S j) xp 0))) f1 in
        if isnan w && neqb f0 f1 then f0 else w
      else v.

(** common.py 357-365 *)
Definition interpolate_n (search : list Q -> Q -> nat) (new_z : list Q) (t : table num) : res (table num) :=
  if Nat.eqb (length (level t)) 0 then Raise ValueError
  else if negb (Nat.eqb (length (level t)) (length (friction t))) then Raise ValueError
  else Ok (mk_table (map Fin new_z) (map (np_interp_n search (map finite_part (level t)) (friction t)) new_z)).

(** cross_section.py 111-118.  np.arange is called for every cross-section that
    has the section. *)
Fixpoint interpolate_section_n (search : list Q -> Q -> nat) (section : string) (range : num * num)
    (css : list ntables) : list ntables * bool :=
  match css with
  | [] => ([], true)
  | t :: css' =>
      match assoc section t with
      | None => let '(r, ok) := interpolate_section_n search section range css' in (t :: r, ok)
      | Some tab =>
          match bind (arange_n (fst range) (snd range)) (fun new_z => interpolate_n search new_z tab) with
          | Raise _ => (t :: css', false)
          | Ok tab' =>
              let '(r, ok) := interpolate_section_n search section range css' in
              (assoc_set section tab' t :: r, ok)
          end
      end
  end.

Fixpoint interpolate_sections_n (search : list Q -> Q -> nat) (sections : list string)
    (css : list ntables) : list ntables * bool :=
  match sections with
  | [] => (css, true)
  | s :: sections' =>
      match level_range_n s css with
      | Raise _ => (css, false)
      | Ok range =>
          let '(css', ok) := interpolate_section_n search s range css in
          if ok then interpolate_sections_n search sections' css' else (css', false)
      end
  end.

(** cross_section.py 48-120: the tables afterwards and the returned flag. *)
Definition interpolate_friction_n (search : list Q -> Q -> nat) (css : list ntables) : list ntables * bool :=
  interpolate_sections_n search (np_unique (flat_map (map fst) css)) css.

(** fm2prof_runner.py 323-330: the exporter sees the interpolated tables; the
    flag is not looked at. *)
Definition with_ntables (c : xs) (t : ntables) : xs :=
  mk_xs (x_name c) (x_branch c) (x_chainage c) (x_z c) (x_flow_width c) (x_total_width c) (x_crest c)
    (x_extra_flow_area c) (x_extra_total_area c) (x_extra_total_volume c) (x_base c) (x_widths c)
    (map (fun e => (T (fst e), (level (snd e), friction (snd e)))) t) (x_volumes c).
Definition finalised_run (search : list Q -> Q -> nat) (l : list (place * css)) : list xs :=
  map2 with_ntables (map (fun e => as_exported (fst e) (snd e)) l)
    (fst (interpolate_friction_n search (map (fun e => s_tables (snd e)) l))).
