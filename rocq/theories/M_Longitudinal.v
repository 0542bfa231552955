(** Model of the lines along a route and of the summary of the statistics in
    the comparison of 1D and 2D results (fm2prof/utils.py 1767-1803
    statistics_to_file, 2057-2073, 2108-2163, 2233-2280 figure_longitudinal)
    without the drawing.

    A table is what data_1d_h or data_2d_h returns (the window is applied): its
    times in seconds and its columns by station. *)
From Coq Require Import String List Ascii ZArith QArith Bool.
From Verif Require Import PyBase Num Text M_Compare.
Import ListNotations.

Record wtable := mk_wtable { w_times : list Z; w_cols : list (text * list num) }.

(** * Lines at moments in time *)

(** utils.py 2057-2073 get_data_along_route_for_time: a value at each river
    kilometre *)
Definition data_for_time (data : wtable) (stations : list text) (rkms : list num) (time_index : Z)
  : res (list (num * num)) :=
  vals <- map_res (fun s => c <- column (w_cols data) s ;; py_index c time_index) stations ;;
  Ok (combine rkms vals).

(** utils.py 2108-2132 _time_func: for each moment the 1D and the 2D line.  The
    label is the moment. *)
Definition time_lines (h1 h2 : wtable) (stations : list text) (rkms : list num)
  : res (list (Z * list (num * num) * list (num * num))) :=
  moments <- time_moments (w_times h1) ;;
  map_res (fun day =>
    l1 <- data_for_time h1 stations rkms (get_nearest_time (w_times h1) day) ;;
    l2 <- data_for_time h2 stations rkms (get_nearest_time (w_times h2) day) ;;
    Ok (day, l1, l2)) moments.

(** * Lines of a statistic *)

(** utils.py 2144-2153 *)
Inductive stat := Last3 | Last25 | Max3 | Max13.
Definition stat_of (s : stat) (l : list num) : num :=
  match s with
  | Last3 => nanmean (last_k 3 l)
  | Last25 => nanmean (last_k 25 l)
  | Max3 => nanmean (nlargest 3 l)
  | Max13 => nanmean (nlargest 13 l)
  end.

(** utils.py 2134-2154 _apply_stat on the transposed table, of which the
    columns are labelled by river kilometres: of columns with one label the
    first one is used for all. *)
Fixpoint first_with (k : num) (rows : list (num * list num)) : list num :=
  match rows with
  | [] => []
  | (k', r) :: rows' => if same_value k k' then r else first_with k rows'
  end.
Definition apply_stat (s : stat) (rows : list (num * list num)) : list (num * num) :=
  map (fun r => (fst r, stat_of s (first_with (fst r) rows))) rows.

(** utils.py 2156-2161 _stat_func *)
Definition stat_lines (s : stat) (h1 h2 : wtable) (stations : list text) (rkms : list num)
  : res (list (num * num) * list (num * num)) :=
  r1 <- get_data_along_route (w_cols h1) stations rkms ;;
  r2 <- get_data_along_route (w_cols h2) stations rkms ;;
  Ok (apply_stat s r1, apply_stat s r2).

(** * The line of differences *)

(** utils.py 2277 [line.get("1D") - line.get("2D")]: pandas subtracts entry by
    entry if the labels are the same, and otherwise by label over all labels of
    both (a label is taken to occur once then; the order of the labels is not
    modelled). *)
Fixpoint same_labels (a b : list num) : bool :=
  match a, b with
  | [], [] => true
  | x :: a', y :: b' => same_value x y && same_labels a' b'
  | _, _ => false
  end.
Fixpoint value_at (k : num) (l : list (num * num)) : num :=
  match l with
  | [] => NaN
  | (k', v) :: l' => if same_value k k' then v else value_at k l'
  end.
Definition subtract (a b : list (num * num)) : list (num * num) :=
  if same_labels (map fst a) (map fst b) then
    map (fun p => (fst (fst p), nsub (snd (fst p)) (snd (snd p)))) (combine a b)
  else
    let others := filter (fun e => negb (existsb (same_value (fst e)) (map fst a))) b in
    map (fun k => (k, nsub (value_at k a) (value_at k b))) (map fst a ++ map fst others).

(** * Summary of the statistics *)

(** utils.py 1914-1919: the columns of a station that the summary uses; the
    standard deviation is given. *)
Record station_stats := mk_station { st_name : text; st_bias : num; st_std : num }.
Definition branch_of (s : station_stats) : text := name_to_branch (st_name s).
Definition is_lmw (s : station_stats) : bool := infix (T "lmw") (lower (st_name s)).

(** Series.unique *)
Fixpoint unique (seen : list text) (l : list text) : list text :=
  match l with
  | [] => []
  | x :: l' => if existsb (teqb x) seen then unique seen l' else x :: unique (x :: seen) l'
  end.

Record summary_line := mk_line {
  sl_branch : text; sl_bias : num; sl_std : num; sl_lmw_bias : num; sl_lmw_std : num }.

(** utils.py 1795-1803: a line for each branch; the numbers before they are
    written with two decimals *)
Definition summary (s : list station_stats) : list summary_line :=
  map (fun b =>
         let on := filter (fun x => teqb (branch_of x) b) s in
         let lmw := filter (fun x => teqb (branch_of x) b && is_lmw x) s in
         mk_line b (nanmean (map st_bias on)) (nanmean (map st_std on))
                 (nanmean (map st_bias lmw)) (nanmean (map st_std lmw)))
      (unique [] (map branch_of s)).
