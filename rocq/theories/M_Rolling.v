(** Model of the pandas calls in the legacy conveyance method,
    cross_section.py 1240-1265 [mean_velocity_method], for the pandas and numpy
    of pyproject.toml (pandas >= 2.2.1, < 3).  Definitions only. *)
From Coq Require Import List ZArith QArith Bool.
From Verif Require Import PyBase Num M_Geometry.
Import ListNotations.

(** pandas sets infinite values to missing before it rolls. *)
Definition prepared (x : num) : num := match x with Fin q => Fin q | _ => NaN end.

(** cross_section.py 1251 [rolling(window=10, min_periods=1, center=True).mean()]
    of one column: row [i] gets the mean of the known values in the rows from
    [i - 5] to [i + 4]. *)
Definition rolling_mean (col : list num) : list num :=
  map (fun i => nanmean (map prepared (firstn (i + 5 - (i - 5)) (skipn (i - 5) col))))
      (seq 0 (length col)).

(** The same for the frame: pandas rolls down the rows (axis 0), which are the
    faces here; the columns are the time steps. *)
Definition rolling_rows (vel : list (list num)) : list (list num) :=
  let nt := length (hd [] vel) in
  map (fun i => map (fun t => nth i (rolling_mean (column NaN t vel)) NaN) (seq 0 nt))
      (seq 0 (length vel)).

(** cross_section.py 1262 [np.mean(velocity)] of a frame calls
    [DataFrame.mean(axis=None)]: one mean of all known values, for all time
    steps. *)
Definition overall_mean (vel : list (list num)) (t : nat) : num := nanmean (concat vel).
