(** Model of the volumes of a generated cross-section as they are exported to
    volumes.csv: cross_section.py 400-412 and 525-558, fm2prof_runner.py 676-709
    and 931-956, export.py 121-146 (the writer itself is in M_Export).

    Simplifications: as in M_Pipeline, the search for the summer dike is an
    oracle; so is the share of the extra volume that is released at a level,
    which M_Correction has over the real numbers. *)
From Coq Require Import List ZArith QArith Bool.
From Verif Require Import PyBase Num Text M_Geometry M_Export M_Pipeline.
Import ListNotations.

Section VolumeFile.
  Variable smooth : list (list num) -> list (list num).
  Variable mean : list (list num) -> nat -> num.
  (** Crest level, extra total volume and extra flow volume. *)
  Variable correction : geometry -> res (num * num * num).
  (** cross_section.py 1362-1378 _get_extra_total_area: crest level and level. *)
  Variable share : num -> num -> num.

  (** cross_section.py 411-412 and 542-548: the corrected volumes are the
      uncorrected ones unless the search succeeds.  The levels are those before
      check_requirements (fm2prof_runner.py 690-697). *)
  Definition corrected_volumes (enabled : bool) (g : geometry) : list num * list num :=
    if enabled then
      match correction g with
      | Ok (crest, total, flow) =>
          let p := map (share crest) (k_z (g_cols g)) in
          (map2 (fun v x => nadd v (nmul x total)) (g_tvol1d g) p,
           map2 (fun v x => nadd v (nmul x flow)) (g_fvol1d g) p)
      | Raise _ => (g_tvol1d g, g_fvol1d g)
      end
    else (g_tvol1d g, g_fvol1d g).

  (** The attributes that export.py 128-140 reads.  The levels and the widths are
      those after check_requirements, the others are left alone by it. *)
  Definition exported_volumes (enabled : bool) (g : geometry) (full : list num * list num * list num) : volumes :=
    let '(z, tw, fw) := full in
    let k := g_cols g in
    let c := corrected_volumes enabled g in
    mk_volumes z (k_tvol k) (k_fvol k) (k_wet k) (k_flow k) (fst c) (g_tvol1d g) (snd c) (g_fvol1d g) tw fw.

  (** fm2prof_runner.py 676-709; the reduction (701-704) leaves the columns that
      begin with _css alone. *)
  Definition generated_volumes (st : settings) (len : num) (centre : nat) (cells : list cell) : res volumes :=
    r <- build_cross_section_geometry smooth mean correction st len centre cells ;;
    let '(g, _, full, _) := r in
    Ok (exported_volumes (st_correction st) g full).
End VolumeFile.
