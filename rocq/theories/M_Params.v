(** The parameters that the program reads from its configuration, spelled as in
    the source, with the type of the value the code expects there.

    Simplification: a list of the calls of get_parameter, not the code around
    them. *)
From Coq Require Import String List Ascii ZArith Bool.
From Verif Require Import PyBase Text M_Ini.
Import ListNotations.

Definition reads : list (text * kind) :=
  [ (T "SDTransitionHeight", KFloat);            (* cross_section.py 126, 512, 764, 803 *)
    (T "ConveyanceDetectionMethod", KInt);       (* cross_section.py 127, 1267 *)
    (T "AbsoluteVelocityThreshold", KFloat);     (* cross_section.py 128, 1231, 1258 *)
    (T "RelativeVelocityThreshold", KFloat);     (* cross_section.py 129, 1226, 1262 *)
    (T "LakeTimesteps", KInt);                   (* cross_section.py 130, 1084, 1089 *)
    (T "FrictionweighingMethod", KInt);          (* cross_section.py 131, 927; fm2prof_runner.py 76, 311 *)
    (T "sdoptimisationmethod", KInt);            (* cross_section.py 132, 826, 862, 886 *)
    (T "SkipMaps", KInt);                        (* cross_section.py 133, 287, 920; fm2prof_runner.py 77, 290 *)
    (T "MinimumTotalWidth", KFloat);             (* cross_section.py 134, 757 *)
    (T "ExportCSSData", KBool);                  (* cross_section.py 333; fm2prof_runner.py 753 *)
    (T "sdfloodplainbase", KFloat);              (* cross_section.py 1013 *)
    (T "extrapolatestorage", KBool);             (* cross_section.py 1340, 1342 *)
    (T "ExportMapFiles", KBool);                 (* fm2prof_runner.py 335 *)
    (T "DefaultRegion", KStr);                   (* fm2prof_runner.py 423 *)
    (T "DefaultSection", KStr);                  (* fm2prof_runner.py 426 *)
    (T "CssSelection", KList);                   (* fm2prof_runner.py 604 *)
    (T "SDCorrection", KBool);                   (* fm2prof_runner.py 696 *)
    (T "MaximumPointsInProfile", KInt) ].        (* fm2prof_runner.py 897-899 *)

(** What the program gets to see of a configuration, besides the files. *)
Definition seen {F} (c : config F) : list (res (option (value F))) :=
  map (fun k => get_parameter c (fst k)) reads.
