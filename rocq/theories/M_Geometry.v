(** Model of the geometry part of fm2prof/cross_section.py and
    fm2prof/nearest_neighbour.py:get_centre_values.  Definitions only. *)
From Coq Require Import String List ZArith QArith Bool.
From Verif Require Import PyBase Num.
Import ListNotations.
Local Open Scope Q_scope.

(** * Requirement check *)

Fixpoint find_index {A} (f : A -> bool) (l : list A) : option nat :=
  match l with
  | [] => None
  | x :: l' => if f x then Some O else option_map S (find_index f l')
  end.

(** cross_section.py 743-746 [_check_remove_duplicate_zeroes]:
    [max(1, np.argwhere(total_width != 0)[0][0])]; IndexError if all zero. *)
Definition check_remove_duplicate_zeroes (tw : list num) : res nat :=
  match find_index (fun w => negb (neqb w (Fin 0))) tw with
  | Some i => Ok (Nat.max 1 i)
  | None => Raise IndexError
  end.

(** cross_section.py 752-759 [_check_remove_zero_widths]. *)
Definition check_remove_zero_widths (minwidth : num) (w : list num) : list num :=
  map (fun x => if nltb x minwidth then minwidth else x) w.

(** cross_section.py 910-914 [_check_increasing_order], body of the in-place
    loop: [prev] is the already repaired [list_points[i-1]]. *)
Fixpoint increasing_sweep (prev : num) (l : list num) : list num :=
  match l with
  | [] => []
  | x :: l' =>
      let x' := if nleb x prev then nadd prev (Fin (1 # 1000)) else x in
      x' :: increasing_sweep x' l'
  end.

Definition check_increasing_order (l : list num) : list num :=
  match l with
  | [] => []
  | x :: l' => x :: increasing_sweep x l'
  end.

(** cross_section.py 1437-1444 [_check_total_width_greater_than_flow_width]. *)
Definition check_total_ge_flow (tw fw : list num) : list num :=
  map2 (fun f t => if nltb t f then t else f) fw tw.

(** cross_section.py 418-431 [check_requirements].  The three columns are
    [_css_z], [_css_total_width], [_css_flow_width]; the index returned by
    [_check_remove_duplicate_zeroes] is stored but never used. *)
Definition check_requirements (minwidth : num) (z tw fw : list num)
  : res (list num * list num * list num) :=
  _ <- check_remove_duplicate_zeroes tw ;;
  let tw1 := check_remove_zero_widths minwidth tw in
  let fw1 := check_remove_zero_widths minwidth fw in
  let z1 := check_increasing_order z in
  let tw2 := check_increasing_order tw1 in
  let fw2 := check_increasing_order fw1 in
  Ok (z1, tw2, check_total_ge_flow tw2 fw2).

(** * Monotonicity of the water level *)

(** [np.argwhere(mask)[-1][0]]: index of the last True. *)
Fixpoint last_true_from (i : nat) (mask : list bool) : option nat :=
  match mask with
  | [] => None
  | b :: m => match last_true_from (S i) m with
              | Some j => Some j
              | None => if b then Some i else None
              end
  end.
Definition last_true (mask : list bool) : nat :=
  match last_true_from 0 mask with Some j => j | None => 0%nat end.

(** cross_section.py 1424-1429: one iteration of the loop of method 1. *)
Definition monotonicity_step (arr : list num) (mask : list bool) (i : nat) : list bool :=
  let j := last_true mask in
  if nltb (nth j arr NaN) (nth i arr NaN) then mask ++ [true] else mask ++ [false].

(** cross_section.py 1403-1435 [_check_monotonicity] with method=1 (the only
    method used).  For an empty array the mask has length one, as in the
    code. *)
Definition check_monotonicity (arr : list num) : list bool :=
  fold_left (monotonicity_step arr) (seq 1 (length arr - 1)) [true].

(** * Data of one control volume *)

(** Section labels: the polygon classifier yields strings, the variance
    classifier integers for faces. *)
Inductive label := LInt (z : Z) | LStr (s : string).

(** One 2D face of the control volume.  Simplification: the columns of the
    data frames of [FmModelData.get_selection] that share the face index are
    kept together in one record. *)
Record cell := mkCell {
  c_area : num;
  c_bed : num;
  c_depth : list num;   (* waterdepth over time *)
  c_level : list num;   (* waterlevel over time *)
  c_vel : list num;     (* velocity magnitude over time *)
  c_section : label
}.

(** common.py NODATA = -999 *)
Definition NODATA : num := Fin (-999).

(** cross_section.py 283-293 [get_timeseries] for one row: drop the first
    SkipMaps columns, map -999 to NaN. *)
Definition get_timeseries (skip : Z) (row : list num) : list num :=
  map (fun v => if neqb v NODATA then NaN else v) (slice_from skip row).

(** * Lakes *)

(** cross_section.py 1083-1094: the lake test of one cell.  [.iloc[L]] raises
    IndexError when there are not enough time steps. *)
Definition is_lake (L : Z) (row : list num) : res bool :=
  dL <- py_index row L ;;
  d0 <- py_index row 0 ;;
  Ok (nltb (Fin 0) dL && nleb (nabs (nsub dL d0)) (Fin (1 # 100))).

(** cross_section.py 1099-1111: [plassen_mask_time] of one cell. *)
Fixpoint lake_mask_from (m : bool) (prev : num) (rest : list num) : list bool :=
  match rest with
  | [] => []
  | d :: rest' =>
      let m' := nleb (nsub d prev) (Fin (1 # 1000)) && m in
      m' :: lake_mask_from m' d rest'
  end.
Definition lake_mask_time (lake : bool) (row : list num) : list bool :=
  match row with
  | [] => []
  | d0 :: rest => lake :: lake_mask_from lake d0 rest
  end.

(** cross_section.py 1120-1123: wet and not (inactive) lake. *)
Definition wet_not_lake (lake : bool) (row : list num) : list bool :=
  map2 (fun d m => nltb (Fin 0) d && negb m) row (lake_mask_time lake row).

(** cross_section.py 1074, 1115-1117: depth correction of one cell. *)
Definition lake_depth_correction (lake : bool) (row : list num) : list num :=
  map (fun _ => if lake then nneg (hd NaN row) else Fin 0) row.

(** cross_section.py 1044-1125 [_identify_lakes]: lake flags, wet-not-lake
    masks and corrections per cell. *)
Definition identify_lakes (L : Z) (depth : list (list num))
  : res (list bool * list (list bool) * list (list num)) :=
  lakes <- map_res (is_lake L) depth ;;
  Ok (lakes, map2 wet_not_lake lakes depth, map2 lake_depth_correction lakes depth).

(** * Conveyance *)

(** Series.sort_values(): ascending, NaN last. *)
Definition sort_le (x y : num) : bool := isnan y || nleb x y.
Fixpoint insert_num (x : num) (l : list num) : list num :=
  match l with
  | [] => [x]
  | y :: l' => if sort_le x y then x :: y :: l' else y :: insert_num x l'
  end.
Definition sort_values (l : list num) : list num := fold_right insert_num [] l.

(** cross_section.py 1223: [velocity[i].sort_values().iloc[-3:].mean()]. *)
Definition top3_mean (col : list num) : num :=
  nanmean (slice_from (-3) (sort_values col)).

(** Column [t] of a matrix given by rows. *)
Definition column {A} (d : A) (t : nat) (m : list (list A)) : list A :=
  map (fun row => nth t row d) m.

(** cross_section.py 1218-1238: the condition for one cell and time step. *)
Definition conveys (abs_thr rel_thr maxv d v : num) : bool :=
  nltb (Fin 0) d && (nltb (nmul maxv rel_thr) v || nltb abs_thr v).

(** cross_section.py 1206-1238 [max_velocity_method]; [nt] is the number of
    time steps. *)
Definition max_velocity_method (abs_thr rel_thr : num) (nt : nat)
  (depth vel : list (list num)) : list (list bool) :=
  map2 (fun drow vrow =>
          map (fun t => conveys abs_thr rel_thr (top3_mean (column NaN t vel))
                          (nth t drow NaN) (nth t vrow NaN))
              (seq 0 nt))
       depth vel.

(** cross_section.py 1240-1265 [mean_velocity_method].  The rolling mean and
    [np.mean(velocity)] (whose axis depends on the pandas version) are the
    oracles [smooth] and [mean]. *)
Definition mean_velocity_method (smooth : list (list num) -> list (list num))
  (mean : list (list num) -> nat -> num)
  (abs_thr rel_thr : num) (nt : nat)
  (depth vel : list (list num)) : list (list bool) :=
  let v' := smooth vel in
  map2 (fun drow vrow =>
          map (fun t => nltb (Fin 0) (nth t drow NaN)
                        && nltb abs_thr (nth t vrow NaN)
                        && nltb (nmul rel_thr (mean v' t)) (nth t vrow NaN))
              (seq 0 nt))
       depth v'.

(** cross_section.py 1267-1279: dispatch on ConveyanceDetectionMethod. *)
Definition distinguish_conveyance smooth mean (method : Z) abs_thr rel_thr nt depth vel :=
  if (method =? 0)%Z then mean_velocity_method smooth mean abs_thr rel_thr nt depth vel
  else if (method =? 1)%Z then max_velocity_method abs_thr rel_thr nt depth vel
  else max_velocity_method abs_thr rel_thr nt depth vel.

(** * Centre values *)

(** nearest_neighbour.py 90-99 [get_centre_values] once the index of the
    nearest cell is known: missing levels are replaced by the lowest
    level-minus-depth of that cell.  [nanmin] of an empty row raises. *)
Definition fill_centre_level (depth level : list num) : res (list num) :=
  match level with
  | [] => Raise ValueError
  | _ =>
      let bed := nanmin (map2 nsub level depth) in
      Ok (map (fun v => if isnan v then bed else v) level)
  end.

(** * Areas and volumes *)

(** [np.nansum(area_matrix[mask], axis=0)] at time [t]
    (cross_section.py 342-343). *)
Definition masked_area (cells : list cell) (masks : list (list bool)) (t : nat) : num :=
  nansum (map2 (fun c (m : list bool) => if nth t m false then c_area c else NaN) cells masks).

(** cross_section.py 346-347: depth plus correction, negative becomes NaN. *)
Definition corrected_depth (row corr : list num) : list num :=
  map2 (fun d k => let e := nadd d k in if nleb (Fin 0) e then e else NaN) row corr.

(** cross_section.py 351-356: deep pools. *)
Definition pool_correction (centre0 : num) (row : list num) : list num :=
  if nltb centre0 (hd NaN row)
  then map (fun d => nsub d (nsub (hd NaN row) centre0)) row
  else row.

(** cross_section.py 359-373: [np.nansum(area[mask] * depth[mask])] at [t]. *)
Definition masked_volume (cells : list cell) (depth : list (list num))
  (masks : list (list bool)) (t : nat) : num :=
  nansum (map2 (fun cd (m : list bool) =>
                  if nth t m false then nmul (c_area (fst cd)) (nth t (snd cd) NaN) else NaN)
               (combine cells depth) masks).

(** * Geometry above z0 *)

(** cross_section.py 1157-1161: backward sweep making the flow width
    non-decreasing. *)
Fixpoint flow_width_envelope (l : list num) : list num :=
  match l with
  | [] => []
  | x :: l' =>
      match flow_width_envelope l' with
      | [] => [x]
      | y :: r => npmin x y :: y :: r
      end
  end.

(** cross_section.py 1150-1151: NaN levels become the lowest level. *)
Definition fill_nan_levels (z : list num) : list num :=
  let m := nanmin z in map (fun v => if isnan v then m else v) z.

(** The columns that the remainder of build_geometry works on. *)
Record css_cols := mkCols {
  k_z : list num;
  k_tw : list num;
  k_fw : list num;
  k_wet : list num;
  k_flow : list num;
  k_fvol : list num;
  k_tvol : list num
}.

(** cross_section.py 1147-1161 [_compute_css_above_z0]. *)
Definition compute_css_above_z0 (len : num) (level wet flow tvol fvol : list num) : css_cols :=
  mkCols (fill_nan_levels level)
         (map (fun a => ndiv a len) wet)
         (flow_width_envelope (map (fun a => ndiv a len) flow))
         wet flow fvol tvol.

(** * Geometry below z0 *)

(** np.linspace(0, h, 10) *)
Definition linspace10 (h : num) : list num :=
  map (fun k => nmul h (Fin (inject_Z (Z.of_nat k) / 9))) (seq 0 10).

(** cross_section.py 1327-1329: depth at t0 from level and bed, NaN -> 0. *)
Definition depth_at_t0 (c : cell) (level0 : num) : num :=
  let d := nsub level0 (c_bed c) in if isnan d then Fin 0 else d.

(** cross_section.py 1335-1337: wet area at [dz] below z0.  [cells] are paired
    with their water level at t0 and their wet-not-lake flag at t0. *)
Definition wet_area_below (cells : list (cell * num * bool)) (dz : num) : num :=
  nansum (map (fun x => c_area (fst (fst x)))
           (filter (fun x => nltb (Fin (-1 # 1000))
                                  (nsub (depth_at_t0 (fst (fst x)) (snd (fst x))) dz)
                             && snd x) cells)).

(** cross_section.py 1333-1360: one iteration. *)
Definition below_z0_step (extrapolate : bool) (len centre_level0 flow_area0 : num)
  (cells : list (cell * num * bool)) (k : css_cols) (dz : num) : css_cols :=
  let z := nsub centre_level0 dz in
  let wet := wet_area_below cells dz in
  let flow := if negb extrapolate then wet else npmin wet flow_area0 in
  mkCols (z :: k_z k)
         (ndiv wet len :: k_tw k)
         (ndiv flow len :: k_fw k)
         (wet :: k_wet k)
         (flow :: k_flow k)
         (NaN :: k_fvol k)
         (NaN :: k_tvol k).

(** cross_section.py 1320-1360 [_extend_css_below_z0].  [centre_level0] and
    [centre_depth0] are the first entries of the centre series. *)
Definition extend_css_below_z0 (extrapolate : bool) (len centre_level0 centre_depth0 : num)
  (cells : list (cell * num * bool)) (k : css_cols) : css_cols :=
  let flow_area0 := hd NaN (k_flow k) in
  let lowest := nsub centre_level0 centre_depth0 in
  fold_left (below_z0_step extrapolate len centre_level0 flow_area0 cells)
            (linspace10 (nsub centre_level0 lowest)) k.

(** * 1D volume *)

(** scipy cumulative_trapezoid(y, x) *)
Fixpoint cumtrapz_from (acc : num) (y x : list num) : list num :=
  match y, x with
  | y0 :: ((y1 :: _) as y'), x0 :: ((x1 :: _) as x') =>
      let acc' := nadd acc (ndiv (nmul (nsub x1 x0) (nadd y1 y0)) (Fin 2)) in
      acc' :: cumtrapz_from acc' y' x'
  | _, _ => []
  end.
Definition cumulative_trapezoid (y x : list num) : list num := cumtrapz_from (Fin 0) y x.

(** cross_section.py 401-408. *)
Definition css_volume (len : num) (width z : list num) : list num :=
  Fin 0 :: map (fun v => nmul v len) (cumulative_trapezoid width z).

(** * build_geometry *)

Record geom_params := mkParams {
  gp_skip : Z;
  gp_lake : Z;
  gp_method : Z;
  gp_abs : num;
  gp_rel : num;
  gp_extrapolate : bool
}.

Record geometry := mkGeometry {
  g_cols : css_cols;
  g_tvol1d : list num;        (* _css_total_volume *)
  g_fvol1d : list num;        (* _css_flow_volume *)
  g_z_roughness : list num    (* _css_z_roughness *)
}.

(** cross_section.py 262-416 [build_geometry].  [_css_z] aliases [centre_level]
    when NaNs are filled in place (line 1148-1151), so the extension below z0
    sees the filled first level, [hd (k_z k0)].  [centre] is the index of the
    cell nearest to the cross-section location (sklearn, not modelled), [len]
    the length.  Pickling for ExportCSSData and logging are left out;
    float64 conversion is the identity here. *)
Definition build_geometry smooth mean (p : geom_params) (len : num) (centre : nat)
  (cells : list cell) : res geometry :=
  let level := map (fun c => get_timeseries (gp_skip p) (c_level c)) cells in
  let depth := map (fun c => get_timeseries (gp_skip p) (c_depth c)) cells in
  let vel := map (fun c => get_timeseries (gp_skip p) (c_vel c)) cells in
  let centre_depth := nth centre depth [] in
  let nt := length centre_depth in
  centre_level <- fill_centre_level centre_depth (nth centre level []) ;;
  lk <- identify_lakes (gp_lake p) depth ;;
  let '(_, wet_mask, corr) := lk in
  let flow_mask := distinguish_conveyance smooth mean (gp_method p) (gp_abs p) (gp_rel p)
                     nt depth vel in
  let wet_area := map (masked_area cells wet_mask) (seq 0 nt) in
  let flow_area := map (masked_area cells flow_mask) (seq 0 nt) in
  let depth1 := map2 corrected_depth depth corr in
  let depth2 := map (pool_correction (hd NaN centre_depth)) depth1 in
  let tvol := map (masked_volume cells depth2 wet_mask) (seq 0 nt) in
  let fvol := map (masked_volume cells depth2 flow_mask) (seq 0 nt) in
  let mono := check_monotonicity centre_level in
  cl <- mask_index mono centre_level ;;
  tvol' <- mask_index mono tvol ;;
  fvol' <- mask_index mono fvol ;;
  wet' <- mask_index mono wet_area ;;
  flow' <- mask_index mono flow_area ;;
  let k0 := compute_css_above_z0 len cl wet' flow' tvol' fvol' in
  let cells0 := combine (combine cells (map (hd NaN) level)) (map (hd false) wet_mask) in
  let k1 := extend_css_below_z0 (gp_extrapolate p) len (hd NaN (k_z k0)) (hd NaN centre_depth) cells0 k0 in
  Ok (mkGeometry k1 (css_volume len (k_tw k1) (k_z k1)) (css_volume len (k_fw k1) (k_z k1))
        centre_level).
