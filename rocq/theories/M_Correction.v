(** Model of the summer dike (volume) correction of a cross-section,
    cross_section.py 433-558 and 761-908, over the real numbers.

    Simplifications: real arithmetic; the columns are finite except for the
    missing entries ([None] = NaN) of the 2D volumes; the optimiser
    scipy.optimize.minimize is an arbitrary function from the cost function and
    the starting point to an end point; log messages are left out. *)
From Coq Require Import List ZArith Bool Reals.
From Verif Require Import PyBase.
Import ListNotations.
Local Open Scope R_scope.

(** cross_section.py 1362-1378 _get_extra_total_area for one water level;
    [np.e ** x] is [Rpower (exp 1) x], delta is 0.00001. *)
Definition delta : R := 1 / 100000.
Definition extra_share (tau crest h : R) : R :=
  1 / (1 + Rpower (exp 1) (ln delta / tau * (h - (crest + (1 / 2) * tau)))).

(** [volume + share * extra] over a column, e.g. cross_section.py 805-809. *)
Definition add_extra (tau : R) (z volume : list R) (crest extra : R) : list R :=
  map2 (fun h v => v + extra_share tau crest h * extra) z volume.

(** cross_section.py 1388-1401 _return_volume_error: squared relative error
    over the rows without missing values. *)
Definition row_error (p : R) (m : option R) : R :=
  match m with
  | None => 0
  | Some m => ((p - m) / Rmax m 1) ^ 2
  end.
Definition Rsum (l : list R) : R := fold_right Rplus 0 l.
Definition volume_error (predicted : list R) (measured : list (option R)) : R :=
  Rsum (map2 row_error predicted measured).

(** Attributes of the cross-section used by the correction. *)
Record css := {
  css_z : list R;
  css_tv : list R;               (* _css_total_volume *)
  css_fv : list R;               (* _css_flow_volume *)
  fm_tv : list (option R);       (* _fm_total_volume *)
  fm_fv : list (option R) }.     (* _fm_flow_volume *)

(** cross_section.py 783-810 _optimisation_func; the measured volume is the 2D
    total volume in every stage. *)
Definition cost_both (tau : R) (c : css) (volume : list R) (x : R * R) : R :=
  volume_error (add_extra tau (css_z c) volume (fst x) (snd x)) (fm_tv c).
Definition cost_single (tau : R) (c : css) (volume : list R) (crest : R) (x : R) : R :=
  volume_error (add_extra tau (css_z c) volume crest x) (fm_tv c).

Definition add_missing (a b : option R) : option R :=
  match a, b with Some x, Some y => Some (x + y) | _, _ => None end.

(** cross_section.py 761-781 _combined_optimisation_func *)
Definition cost_combined (tau : R) (c : css) (x : R * R * R) : R :=
  let '(crest, et, ef) := x in
  volume_error (map2 Rplus (add_extra tau (css_z c) (css_tv c) crest et)
                           (add_extra tau (css_z c) (css_fv c) crest ef))
               (map2 add_missing (fm_tv c) (fm_fv c)).

(** scipy.optimize.minimize for one, two and three unknowns. *)
Record optimiser := {
  min1 : (R -> R) -> R -> R;
  min2 : (R * R -> R) -> R * R -> R * R;
  min3 : (R * R * R -> R) -> R * R * R -> R * R * R }.

(** cross_section.py 812-908 _optimize_sd_storage; result crest level, extra
    total volume, extra flow volume. *)
Definition optimize_sd_storage (opt : optimiser) (method : Z) (tau : R) (c : css)
    (crest0 tv0 fv0 : R) : R * R * R :=
  let method := if Z.eqb method 0 || Z.eqb method 1 || Z.eqb method 2 then method else 0%Z in
  if Z.eqb method 0 then
    let x := min2 opt (cost_both tau c (css_tv c)) (crest0, tv0) in
    let crest := fst x in
    let et := Rmax (snd x) 0 in
    let y := min1 opt (cost_single tau c (css_fv c) crest) fv0 in
    (crest, et, Rmin (Rmax y 0) et)
  else if Z.eqb method 1 then
    let x := min2 opt (cost_both tau c (css_fv c)) (crest0, tv0) in
    let crest := fst x in
    let ef := Rmax (snd x) 0 in
    let y := min1 opt (cost_single tau c (css_tv c) crest) fv0 in
    (crest, Rmax (Rmax y 0) ef, ef)
  else
    let x := min3 opt (cost_combined tau c) (crest0, tv0, fv0) in
    let crest := fst (fst x) in
    let et := Rmax (snd (fst x)) 0 in
    (crest, et, Rmin (Rmax (snd x) 0) et).

(** [np.nanargmin]: index of the smallest entry that is not missing; raises
    ValueError if all are missing. *)
Fixpoint nanargmin_from (k : nat) (best : option (nat * R)) (l : list (option R)) : option nat :=
  match l with
  | [] => match best with Some (i, _) => Some i | None => None end
  | None :: l' => nanargmin_from (S k) best l'
  | Some x :: l' =>
      match best with
      | None => nanargmin_from (S k) (Some (k, x)) l'
      | Some (i, b) =>
          if Rlt_dec x b then nanargmin_from (S k) (Some (k, x)) l'
          else nanargmin_from (S k) best l'
      end
  end.
Definition nanargmin (l : list (option R)) : option nat := nanargmin_from 0 None l.

Record correction := {
  tv_corrected : list R; fv_corrected : list R;
  crest_level : R; extra_total_volume : R; extra_flow_volume : R;
  extra_total_area : R; extra_flow_area : R;
  extra_area_percentage : list R }.

Definition error_row (v : R) (m : option R) : option R :=
  match m with Some m => Some (v - m) | None => None end.

(** cross_section.py 433-558 calculate_correction.  Simplifications: a missing
    last error (NaN) would be passed to the optimiser as starting point, here
    [nan_start] stands for that value. *)
Definition calculate_correction (opt : optimiser) (nan_start : R) (method : Z) (tau len : R)
    (c : css) : res correction :=
  let terr := map2 error_row (css_tv c) (fm_tv c) in
  let ferr := map2 error_row (css_fv c) (fm_fv c) in
  let start l := match last l None with Some x => Rabs x | None => nan_start end in
  match nanargmin terr with
  | None => Raise ValueError
  | Some k =>
      match nth_error (css_z c) k with
      | None => Raise IndexError
      | Some crest0 =>
          match terr, ferr with
          | [], _ | _, [] => Raise IndexError
          | _, _ =>
              let '(crest, et, ef) :=
                optimize_sd_storage opt method tau c crest0 (start terr) (start ferr) in
              Ok {| tv_corrected := add_extra tau (css_z c) (css_tv c) crest et;
                    fv_corrected := add_extra tau (css_z c) (css_fv c) crest ef;
                    crest_level := crest;
                    extra_total_volume := et; extra_flow_volume := ef;
                    extra_total_area := et / len; extra_flow_area := ef / len;
                    extra_area_percentage := map (extra_share tau crest) (css_z c) |}
          end
      end
  end.
