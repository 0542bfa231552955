(** Model of the section widths and the floodplain base level of a
    cross-section, cross_section.py 976-1042 and 1446-1481.

    Simplifications: exact rationals; a zero control volume length is left
    out (the division then gives inf in numpy); log messages are left out. *)
From Coq Require Import String List ZArith QArith Qround Bool.
From Verif Require Import PyBase Num.
Import ListNotations.
Local Open Scope Q_scope.

(** Section label of a cell: the variance classifier writes integers
    (fm2prof_runner.py 484-532), the polygon classifier writes names
    (polygon_file.py 479-573). *)
Inductive label := LInt (k : Z) | LStr (s : string).

(** Elementwise [labels == k] for an integer [k]: a string never equals it. *)
Definition label_is (k : Z) (l : label) : bool :=
  match l with LInt j => Z.eqb j k | LStr _ => false end.

(** cross_section.py 178: the dictionary section_widths. *)
Record widths := { w_main : Q; w_fp1 : Q; w_fp2 : Q }.

Definition sumQ (l : list Q) : Q := fold_left Qplus l 0.

(** [np.sum(area[section == k])] *)
Definition section_area (k : Z) (area : list Q) (section : list label) : res Q :=
  res_map sumQ (mask_index (map (label_is k) section) area).

(** cross_section.py 29 *)
Definition NODATA : Z := (-999)%Z.

(** cross_section.py 1446-1457 _check_section_widths_greater_than_flow_width *)
Definition check_flow_width (flow_width : list Q) (w : widths) : res widths :=
  last_fw <- py_index flow_width (-1) ;;
  let total := 0 + w_main w + w_fp1 w + w_fp2 w in
  let dif := last_fw - total in
  if Qltb 0 dif then Ok {| w_main := w_main w + dif; w_fp1 := w_fp1 w; w_fp2 := w_fp2 w |}
  else Ok w.

(** cross_section.py 1459-1481 _check_section_widths_greater_than_minimum_width *)
Definition check_minimum_width (css_flow_width : list Q) (w : widths) : res widths :=
  first_fw <- py_index css_flow_width 0 ;;
  let tol := 1 # 10 in
  let dif := inject_Z (Qfloor ((w_main w - first_fw) * 100)) / 100 in
  if Qltb (dif - tol) 0
  then Ok {| w_main := w_main w - (dif - tol); w_fp1 := w_fp1 w + (dif - tol); w_fp2 := w_fp2 w |}
  else Ok w.

(** cross_section.py 976-1005 _compute_section_widths.  [flow_width] is the
    (reduced) column of the cross-section, [css_flow_width] the full one. *)
Definition compute_section_widths (length : Q) (area : list Q) (section : list label)
    (flow_width css_flow_width : list Q) : res widths :=
  unassigned <- section_area NODATA area section ;;
  a1 <- section_area 1 area section ;;
  a2 <- section_area 2 area section ;;
  a3 <- section_area 3 area section ;;
  w <- check_flow_width flow_width
         {| w_main := (a1 + unassigned) / length; w_fp1 := a2 / length; w_fp2 := a3 / length |} ;;
  check_minimum_width css_flow_width w.

(** cross_section.py 1007-1042 _compute_floodplain_base *)
Definition compute_floodplain_base (crest tolerance : num) (bedlevel : list num)
    (section : list label) : res num :=
  let mask := map (label_is 2) section in
  if existsb (fun b => b) mask then
    beds <- mask_index mask bedlevel ;;
    let mean := nanmean beds in
    if nltb (nsub crest tolerance) mean then Ok (nsub crest tolerance) else Ok mean
  else Ok (nsub crest tolerance).
