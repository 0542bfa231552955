(** Model of what the heat maps, the figure of a station and the figure of the
    discharge distribution show in the comparison of 1D and 2D results
    (fm2prof/utils.py 1396-1422, 1805-1898, 1900-2055, 2389-2475) without the
    drawing.

    A table has an index of whole numbers (times in seconds, or the bins of
    the rating curves) and columns by station; a label occurs once. *)
From Coq Require Import String List Ascii ZArith QArith Bool.
From Verif Require Import PyBase Num Text M_Compare M_Longitudinal.
Import ListNotations.

(** * Tables *)

(** One column with its index; a station that is not in the table has no
    records. *)
Definition series_of (t : wtable) (s : text) : series :=
  match column (w_cols t) s with
  | Ok c => combine (w_times t) c
  | Raise _ => []
  end.

(** The names of the columns of a difference (their order is not used). *)
Definition known (t : wtable) (s : text) : bool := existsb (teqb s) (map fst (w_cols t)).
Definition names_of (a b : wtable) : list text :=
  map fst (w_cols a) ++ filter (fun s => negb (known a s)) (map fst (w_cols b)).

(** The difference of two tables: by label, over all labels of both. *)
Definition frame_difference (a b : wtable) : wtable :=
  let index := union_index (w_times a) (w_times b) in
  mk_wtable index
    (map (fun s => (s, map (fun t => nsub (at_time (series_of a s) t) (at_time (series_of b s) t)) index))
         (names_of a b)).

(** DataFrame.dropna(how="all"): rows in which every column is missing are left
    out. *)
Definition has_value (cols : list (text * list num)) (i : nat) : bool :=
  existsb (fun c => negb (isnan (nth i (snd c) NaN))) cols.
Definition dropna_all (t : wtable) : wtable :=
  let mask := map (has_value (w_cols t)) (seq 0 (length (w_times t))) in
  mk_wtable (select mask (w_times t)) (map (fun c => (fst c, select mask (snd c))) (w_cols t)).

(** utils.py 1424-1461 _apply_startstop_time for a table *)
Definition window_table (w : window) (t : wtable) : window * res wtable :=
  let (w', r) := apply_startstop_time w (combine (w_times t) (seq 0 (length (w_times t)))) in
  (w', rows <- r ;;
       Ok (mk_wtable (map fst rows)
             (map (fun c => (fst c, map (fun p => nth (snd p) (snd c) NaN) rows)) (w_cols t)))).

(** * The object *)

(** The attributes of Compare1D2D that are used here; [c_1d_bins] and
    [c_2d_bins] are the digitized tables. *)
Record comparison := mk_comparison {
  c_window : window;
  c_1d_h : wtable; c_2d_h : wtable; c_1d_q : wtable; c_2d_q : wtable;
  c_1d_bins : wtable; c_2d_bins : wtable;
  c_statistics : option (list (text * statistics)) }.

(** The setters of start_time and stop_time. *)
Definition set_window (o : comparison) (w : window) : comparison :=
  mk_comparison w (c_1d_h o) (c_2d_h o) (c_1d_q o) (c_2d_q o) (c_1d_bins o) (c_2d_bins o) (c_statistics o).
Definition set_statistics (o : comparison) (s : list (text * statistics)) : comparison :=
  mk_comparison (c_window o) (c_1d_h o) (c_2d_h o) (c_1d_q o) (c_2d_q o) (c_1d_bins o) (c_2d_bins o) (Some s).

(** utils.py 1395-1413: the properties data_1d_h, data_2d_h, data_1d_q,
    data_2d_q *)
Definition data (f : comparison -> wtable) (o : comparison) : comparison * res wtable :=
  let (w, r) := window_table (c_window o) (f o) in (set_window o w, r).

(** * Heat maps *)

(** utils.py 2403-2406, 2447-2451: the moments (or bins) and the rows by river
    kilometre.  [stations] and [rkms] are those of the route. *)
Definition heatmap (h1 h2 : wtable) (stations : list text) (rkms : list num)
  : res (list Z * list (num * list num)) :=
  let d := dropna_all (frame_difference h1 h2) in
  rows <- get_data_along_route (w_cols d) stations rkms ;;
  Ok (w_times d, rows).

(** utils.py 2389-2431 heatmap_time: of the tables without the window. *)
Definition heatmap_time (o : comparison) := heatmap (c_1d_h o) (c_2d_h o).
(** utils.py 2433-2476 heatmap_rating_curve *)
Definition heatmap_rating_curve (o : comparison) := heatmap (c_1d_bins o) (c_2d_bins o).

(** * Statistics *)

(** utils.py 1900-1938 _compute_statistics.  The tables are asked for ten times;
    after the first two the window is set and the same comes back. *)
Definition object_statistics (o : comparison) : comparison * res (list (text * statistics)) :=
  let (o1, r1) := data c_1d_h o in
  match r1 with
  | Raise e => (o1, Raise e)
  | Ok h1 =>
      let (o2, r2) := data c_2d_h o1 in
      match r2 with
      | Raise e => (o2, Raise e)
      | Ok h2 =>
          (o2, Ok (map (fun s => (s, compute_statistics (series_of h1 s) (series_of h2 s))) (names_of h1 h2)))
      end
  end.

(** utils.py 1785: statistics_to_file computes them anew. *)
Definition statistics_to_file (o : comparison) : comparison * res (list (text * statistics)) :=
  let (o1, r) := object_statistics o in
  match r with
  | Ok s => (set_statistics o1 s, Ok s)
  | Raise e => (o1, Raise e)
  end.

(** utils.py 1940-1943 _get_statistics *)
Fixpoint locate (l : list (text * statistics)) (s : text) : res statistics :=
  match l with
  | [] => Raise KeyError
  | (n, x) :: l' => if teqb n s then Ok x else locate l' s
  end.
Definition get_statistics (o : comparison) (s : text) : comparison * res statistics :=
  match c_statistics o with
  | Some l => (o, locate l s)
  | None =>
      let (o1, r) := statistics_to_file o in
      (o1, l <- r ;; locate l s)
  end.

(** * The figure of a station *)

Record station_figure := mk_station_figure {
  sf_2d : series; sf_1d : series; sf_error : series; sf_statistics : statistics }.

(** data[station] *)
Definition pick (t : wtable) (s : text) : res series :=
  c <- column (w_cols t) s ;; Ok (combine (w_times t) c).

(** utils.py 1805-1889 figure_at_station for [func="time"] *)
Definition figure_at_station (o : comparison) (s : text) : comparison * res station_figure :=
  let (o1, r2) := data c_2d_h o in
  match (h2 <- r2 ;; pick h2 s) with
  | Raise e => (o1, Raise e)
  | Ok s2 =>
      let (o2, r1) := data c_1d_h o1 in
      match (h1 <- r1 ;; pick h1 s) with
      | Raise e => (o2, Raise e)
      | Ok s1 =>
          let (o3, r) := get_statistics o2 s in
          (o3, st <- r ;; Ok (mk_station_figure s2 s1 (difference s1 s2) st))
      end
  end.

(** * The figure of the discharge distribution *)

(** One moment of [q.iloc[:, i] / q.sum(axis=1) * 100]: the sum skips missing
    values. *)
Record shares := mk_shares { sh_total : num; sh_first : num; sh_second : num }.
Definition shares_of (a b : num) : shares :=
  let total := nansum [a; b] in
  mk_shares total (nmul (ndiv a total) (Fin 100)) (nmul (ndiv b total) (Fin 100)).

Definition distribution (q : wtable) (first second : text) : res (list shares) :=
  a <- column (w_cols q) first ;;
  b <- column (w_cols q) second ;;
  Ok (map (fun p => shares_of (fst p) (snd p)) (combine a b)).

Record discharge_figure := mk_discharge_figure {
  df_lines : list (series * series);      (** 2D and 1D for each station *)
  df_error : series;
  df_2d : list shares; df_1d : list shares }.

(** utils.py 1945-2032 figure_compare_discharge_at_stations.  The first access
    sets the window; the error is of the tables without the window and of the
    station that was last in the loop. *)
Definition figure_discharge (o : comparison) (stations : list text) : comparison * res discharge_figure :=
  match stations with
  | [first; second] =>
      let (o1, r2) := data c_2d_q o in
      match (q2 <- r2 ;; l2 <- pick q2 first ;; Ok (q2, l2)) with
      | Raise e => (o1, Raise e)
      | Ok (q2, l2) =>
          let (o2, r1) := data c_1d_q o1 in
          (o2,
           q1 <- r1 ;;
           l1 <- pick q1 first ;;
           m2 <- pick q2 second ;;
           m1 <- pick q1 second ;;
           e1 <- pick (c_1d_q o) second ;;
           e2 <- pick (c_2d_q o) second ;;
           d2 <- distribution q2 first second ;;
           d1 <- distribution q1 first second ;;
           Ok (mk_discharge_figure [(l2, l1); (m2, m1)] (difference e1 e2) d2 d1))
      end
  | _ => (o, Raise ValueError)
  end.
