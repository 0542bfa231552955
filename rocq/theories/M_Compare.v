(** Model of the comparison of 1D and 2D results (fm2prof/utils.py 1217-1553
    ModelOutputReader and 1556-2484 Compare1D2D) without the figures.

    Times are whole seconds.  A table is a list of rows with their index label.
    The csv files in between are in M_Reader.v. *)
From Coq Require Import String List Ascii ZArith QArith Qround Bool.
From Verif Require Import PyBase Num Text.
Import ListNotations.
Local Open Scope Z_scope.

(** * Time window *)

(** utils.py 1214-1215, 1217-1235: the two attributes.  The setters ignore a
    value that is no datetime; an index of times gives datetimes. *)
Record window := mk_window { w_start : option Z; w_stop : option Z }.

Definition within {A} (a b : Z) (data : list (Z * A)) : list (Z * A) :=
  filter (fun row => (a <=? fst row) && (fst row <=? b)) data.

(** utils.py 1424-1461 _apply_startstop_time: the attributes afterwards and the
    selected rows.  A datetime is always true, so of the last four branches
    the first one is taken. *)
Definition apply_startstop_time {A} (w : window) (data : list (Z * A)) : window * res (list (Z * A)) :=
  let index := map fst data in
  match (match w_stop w with
         | Some b => Ok b
         | None => py_index index (-1)
         end) with
  | Raise e => (w, Raise e)
  | Ok b =>
      let w := mk_window (w_start w) (Some b) in
      match (match w_start w with
             | Some a => Ok a
             | None => py_index index 0
             end) with
      | Raise e => (w, Raise e)
      | Ok a =>
          let w := mk_window (Some a) (Some b) in
          (w,
           if b <=? a then Raise ValueError
           else
             last <- py_index index (-1) ;;
             if last <=? a then Raise ValueError
             else
               first <- py_index index 0 ;;
               if b <=? first then Raise ValueError
               else Ok (within a b data))
      end
  end.

(** A series of accesses to data_1d_h, data_2d_h, data_1d_q, data_2d_q of one
    object. *)
Fixpoint accesses {A} (w : window) (ds : list (list (Z * A))) : window * list (res (list (Z * A))) :=
  match ds with
  | [] => (w, [])
  | d :: ds' =>
      let (w1, r) := apply_startstop_time w d in
      let (w2, rs) := accesses w1 ds' in
      (w2, r :: rs)
  end.

(** * Station names *)

(** The Python test [p in t] *)
Fixpoint infix (p t : text) : bool :=
  startswith p t || match t with [] => false | _ :: t' => infix p t' end.

(** utils.py 1533-1553 _get_1d2d_map: next(x for x in names if
    x.startswith(n[:9])), or the empty string. *)
Definition match_name (names : list text) (n : text) : text :=
  match find (fun x => startswith (firstn 9 n) x) names with
  | Some x => x
  | None => []
  end.

(** The rows (1D, 2D_H, 2D_Q) of the map file. *)
Definition map_1d2d (stations hnames qnames : list text) : list (text * text * text) :=
  map (fun n => (n, match_name hnames n, match_name qnames n)) stations.

(** list.index *)
Fixpoint index_of (x : text) (l : list text) : option nat :=
  match l with
  | [] => None
  | y :: l' => if teqb y x then Some 0%nat
               else match index_of x l' with Some i => Some (S i) | None => None end
  end.

(** utils.py 1468-1493 _import_2d_observations for one quantity: the column of
    each 1D station, empty if there is no 2D station.  [cell] is how pandas
    reads a cell of the map file: [None] is a missing value (an empty cell). *)
Definition import_2d (cell : text -> option text) (names : list text) (columns : list (list num))
    (station_map : list (text * text)) : list (text * option (list num)) :=
  map (fun row =>
         (fst row,
          match cell (snd row) with
          | None => None
          | Some x =>
              match index_of x names with
              | None => None
              | Some si => nth_error columns si
              end
          end)) station_map.

(** * Routes *)

(** What [_catch_e] returns: the object np.nan, or a number. *)
Inductive km := Missing | Km (x : num).
Definition km_num (k : km) : num := match k with Missing => NaN | Km x => x end.

Section Route.
  (** float(t): [None] is ValueError *)
  Variable to_float : text -> option num.
  (** np.argsort *)
  Variable argsort : list num -> list nat.

  (** utils.py 1733-1734 _names_to_rkms *)
  Definition name_to_rkm (n : text) : km :=
    match nth_error (split_on "_" n) 1 with
    | None => Missing
    | Some t => match to_float t with None => Missing | Some x => Km x end
    end.

  (** utils.py 1736-1737 _names_to_branches *)
  Definition name_to_branch (n : text) : text := hd [] (split_on "_" n).

  (** utils.py 1752-1756: the stations of the branches, stop by stop *)
  Definition route_stations (names route : list text) : list text :=
    flat_map (fun stop => filter (fun n => teqb (name_to_branch n) stop) names) route.

  (** utils.py 1739-1765 get_route: stations, river kilometres, LMW stations. *)
  Definition get_route (names route : list text) : list text * list num * list (text * num) :=
    let stations := route_stations names route in
    let routekms := map name_to_rkm stations in
    let lmw := map (fun n => (n, km_num (name_to_rkm n))) (filter (infix (T "LMW")) stations) in
    let sorted_indices := argsort (map km_num routekms) in
    let kept := filter (fun i => match nth i routekms Missing with Missing => false | Km _ => true end)
                  sorted_indices in
    (map (fun i => nth i stations []) kept,
     map (fun i => km_num (nth i routekms Missing)) kept,
     map (fun j => nth j lmw ([], NaN)) (argsort (map snd lmw))).
End Route.

(** utils.py 2165-2182 _lmw_func *)
Fixpoint lmw_labels (prev_loc : num) (stations : list (text * num)) : list (text * num) :=
  match stations with
  | [] => []
  | (name, loc) :: rest =>
      if negb (infix (T "lmw") (lower name)) then lmw_labels prev_loc rest
      else if nltb (nabs (nsub prev_loc loc)) (Fin 5) then lmw_labels prev_loc rest
      else (last (split_on "_" name) [], loc) :: lmw_labels loc rest
  end.
Definition lmw_func (stations : list (text * num)) : list (text * num) :=
  lmw_labels (Fin (-9999 # 1)) stations.

(** * Data along a route *)

(** pandas compares missing values as equal in drop_duplicates. *)
Definition same_value (x y : num) : bool := neqb x y || (isnan x && isnan y).
Fixpoint same_row (a b : list num) : bool :=
  match a, b with
  | [], [] => true
  | x :: a', y :: b' => same_value x y && same_row a' b'
  | _, _ => false
  end.

(** DataFrame.drop_duplicates: of equal rows the first; the index label does
    not count. *)
Fixpoint drop_duplicates (seen : list (list num)) (rows : list (num * list num)) : list (num * list num) :=
  match rows with
  | [] => []
  | (k, r) :: rows' =>
      if existsb (same_row r) seen then drop_duplicates seen rows'
      else (k, r) :: drop_duplicates (r :: seen) rows'
  end.

(** A table by columns. *)
Fixpoint column (data : list (text * list num)) (station : text) : res (list num) :=
  match data with
  | [] => Raise KeyError
  | (n, c) :: data' => if teqb n station then Ok c else column data' station
  end.

(** utils.py 2075-2094 get_data_along_route; [stations] and [rkms] are those of
    the route. *)
Definition get_data_along_route (data : list (text * list num)) (stations : list text) (rkms : list num)
  : res (list (num * list num)) :=
  rows <- map_res (column data) stations ;;
  Ok (drop_duplicates [] (combine rkms rows)).

(** * Moments in time *)

(** utils.py 2100-2106 _get_nearest_time: the position of the first time that
    is not before the date, or the last position. *)
Fixpoint first_not_before (index : list Z) (date : Z) : option nat :=
  match index with
  | [] => None
  | t :: index' =>
      if t <? date then match first_not_before index' date with Some i => Some (S i) | None => None end
      else Some 0%nat
  end.
Definition get_nearest_time (index : list Z) (date : Z) : Z :=
  match first_not_before index date with
  | Some i => Z.of_nat i
  | None => Z.of_nat (length index) - 1
  end.

Definition day : Z := 86400.

(** range(0, n, step) *)
Definition range0 (n step : Z) : res (list Z) :=
  if step =? 0 then Raise ValueError
  else Ok (map (fun i => Z.of_nat i * step) (seq 0 (Z.to_nat ((n + step - 1) / step)))).

(** utils.py 2108-2114 of _time_func: the moments of the lines. *)
Definition time_moments (index : list Z) : res (list Z) :=
  first_day <- py_index index 0 ;;
  last_day <- py_index index (-1) ;;
  let number_of_days := (last_day - first_day) / day in
  let delta_days := Z.quot number_of_days 6 in
  steps <- range0 number_of_days delta_days ;;
  Ok (map (fun i => first_day + i * day) steps).

(** * Statistics *)

Definition series := list (Z * num).

Fixpoint at_time (s : series) (t : Z) : num :=
  match s with
  | [] => NaN
  | (t', v) :: s' => if t' =? t then v else at_time s' t
  end.

Fixpoint insert_time (t : Z) (l : list Z) : list Z :=
  match l with
  | [] => [t]
  | x :: l' => if t <? x then t :: l else if t =? x then l else x :: insert_time t l'
  end.

(** The union of two indices: the same index is kept, others are sorted. *)
Definition union_index (a b : list Z) : list Z :=
  if list_eq_dec Z.eq_dec a b then a else fold_right insert_time [] (a ++ b).

(** utils.py 1908: data_1d_h - data_2d_h for one station.  Assumed: a time
    occurs once in an index. *)
Definition difference (s1 s2 : series) : series :=
  map (fun t => (t, nsub (at_time s1 t) (at_time s2 t))) (union_index (map fst s1) (map fst s2)).

(** Series.mean: missing values are skipped. *)
Definition bias (d : series) : num := nanmean (map snd d).
Definition mae (d : series) : num := nanmean (map (fun r => nabs (snd r)) d).

Definition present (l : list num) : list num := filter (fun x => negb (isnan x)) l.

(** Series.std squared: with n - 1, missing for less than two values. *)
Definition std2 (d : series) : num :=
  let l := present (map snd d) in
  let m := nanmean l in
  match l with
  | [] | [_] => NaN
  | _ => ndiv (npsum (map (fun x => nmul (nsub x m) (nsub x m)) l)) (nofnat (length l - 1))
  end.

(** Series.nlargest(k): the k largest values, largest first. *)
Fixpoint insert_desc (x : num) (l : list num) : list num :=
  match l with
  | [] => [x]
  | y :: l' => if nleb y x then x :: l else y :: insert_desc x l'
  end.
Definition sort_desc (l : list num) : list num := fold_right insert_desc [] l.
Definition nlargest (k : nat) (l : list num) : list num := firstn k (sort_desc (present l)).

(** The last k values. *)
Definition last_k {A} (k : nat) (l : list A) : list A := skipn (length l - k) l.

(** utils.py 2134-2154 _apply_stat for one column *)
Definition stat_max (k : nat) (s : series) : num := nanmean (nlargest k (map snd s)).
Definition stat_last (k : nat) (s : series) : num := nanmean (last_k k (map snd s)).

(** utils.py 1900-1938 _compute_statistics for one station. *)
Record statistics := mk_stats {
  s_bias : num; s_std2 : num; s_mae : num;
  s_last3 : num * num * num; s_last25 : num * num * num;
  s_max3 : num * num * num; s_max13 : num * num * num }.

Definition compute_statistics (s1 s2 : series) : statistics :=
  let d := difference s1 s2 in
  mk_stats (bias d) (std2 d) (mae d)
    (stat_last 3 s1, stat_last 3 s2, stat_last 3 d)
    (stat_last 25 s1, stat_last 25 s2, stat_last 25 d)
    (stat_max 3 s1, stat_max 3 s2, stat_max 3 d)
    (stat_max 13 s1, stat_max 13 s2, stat_max 13 d).

(** * Rating curves *)

(** np.digitize for increasing bins: the number of edges that are not above
    the value; NaN is above all edges. *)
Definition digitize (bins : list num) (x : num) : nat :=
  if isnan x then length bins
  else length (filter (fun b => nleb b x) bins).

(** utils.py 1720-1731 _digitize_data for one station *)
Definition digitize_station (h q : list num) (bins : list num) : res (list num) :=
  let d := map (digitize bins) q in
  map_res (fun i => sel <- mask_index (map (Nat.eqb i) d) h ;; Ok (nanmean sel)) (seq 0 (length bins)).

(** utils.py 1628: np.arange(0, 100 * np.ceil(18000 / 100), 200) *)
Definition qsteps : list num := map (fun i => Fin (inject_Z (200 * Z.of_nat i))) (seq 0 90).

(** Series.max and Series.min skip missing values. *)
Definition smax (l : list num) : num := nneg (nanmin (map nneg l)).

(** Series.idxmin of [values < t]: the first label of which the value is not
    below t, or the first label. *)
Fixpoint first_not_below (t : num) (rows : list (num * num)) : option num :=
  match rows with
  | [] => None
  | (k, v) :: rows' => if nltb v t then first_not_below t rows' else Some k
  end.
Definition idxmin_below (t : num) (rows : list (num * num)) : res num :=
  match rows with
  | [] => Raise ValueError
  | (k, _) :: _ => Ok (match first_not_below t rows with Some k' => k' | None => k end)
  end.

(** utils.py 2358-2372 _iter_discharge_steps: the station as (discharge, level)
    rows. *)
Definition discharge_steps (n : nat) (station : list (num * num)) : res (list num) :=
  let lowest := nanmin (map snd (filter (fun r => nltb (Fin 0) (fst r)) station)) in
  let wl_range := nsub (smax (map snd station)) lowest in
  let stepsize := ndiv wl_range (nofnat (n + 1)) in
  let rows := filter (fun r => negb (isnan (snd r))) station in
  r <- fold_res (fun (acc : num * list num) i =>
        let t := nadd lowest (nmul (nofnat i) stepsize) in
        q <- idxmin_below t rows ;;
        Ok (if neqb q (fst acc) then acc else (q, snd acc ++ [q])))
      (seq 1 n) (Fin 0, []) ;;
  Ok (snd r).
