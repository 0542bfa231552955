(** From a generated cross-section to the exporter.  In the program both are the
    same object (cross_section.py CrossSection); the model of the generation
    (M_Pipeline) and that of the export (M_Export) each have the attributes that
    they use. *)
From Coq Require Import String List ZArith QArith Bool.
From Verif Require Import PyBase Num Text M_Friction M_Ini M_Export M_Geometry M_Pipeline.
Import ListNotations.

(** The attributes that come from the location of the cross-section
    (cross_section.py 166-172) and those of the volumes (185-207). *)
Record place := mk_place { pl_branch : text; pl_chainage : num; pl_extra_volume : num; pl_volumes : volumes }.

(** The exporter's view, export.py 121-486.  section_widths has the keys main,
    floodplain1 and floodplain2 (cross_section.py 178). *)
Definition as_exported (p : place) (c : css) : xs :=
  mk_xs (s_name c) (pl_branch p) (pl_chainage p) (s_z c) (s_fw c) (s_tw c) (s_crest c) (s_extra_flow c) (s_extra_total c)
    (pl_extra_volume p) (s_base c)
    [(T "main", nw_main (s_widths c)); (T "floodplain1", nw_fp1 (s_widths c)); (T "floodplain2", nw_fp2 (s_widths c))]
    (map (fun e => (T (fst e), (level (snd e), friction (snd e)))) (s_tables c)) (pl_volumes p).

(** fm2prof_runner.py 323-330: the definition file of a run.  The
    interpolation of the friction (325) does not touch what it holds. *)
Definition definition_file (show_float : num -> text) (l : list (place * css)) : text :=
  fst (run_writes (write_geometry_fm1d show_float (map (fun e => as_exported (fst e) (snd e)) l))).

(** fm2prof_runner.py 323-330: the SOBEK 3 geometry file of a run. *)
Definition sobek_file (show_float : num -> text) (l : list (place * css)) : text :=
  fst (run_writes (write_geometry_sobek3 show_float (map (fun e => as_exported (fst e) (snd e)) l))).

(** fm2prof_runner.py 323-330: the friction tables of all cross-sections of the
    run are interpolated to common levels, and the exporter sees these. *)
Definition with_tables (c : xs) (t : tables) : xs :=
  mk_xs (x_name c) (x_branch c) (x_chainage c) (x_z c) (x_flow_width c) (x_total_width c) (x_crest c)
    (x_extra_flow_area c) (x_extra_total_area c) (x_extra_total_volume c) (x_base c) (x_widths c)
    (map (fun e => (T (fst e), (map Fin (qlevel (snd e)), map Fin (qfriction (snd e))))) t) (x_volumes c).
Definition finalised (search : list Q -> Q -> nat) (l : list (xs * tables)) : list xs :=
  map2 with_tables (map fst l) (fst (interpolate_friction search (map snd l))).
