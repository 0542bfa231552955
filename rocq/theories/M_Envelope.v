(** Model of the envelopes of the control volumes, fm2prof_runner.py 344-378.

    scipy's ConvexHull is the oracle [hull]: from the coordinates of the faces to
    the indices of the corners.  geojson's rounding of coordinates is [clean]. *)
From Coq Require Import String List ZArith QArith Bool.
From Verif Require Import PyBase Num Text M_Ini M_Cli M_Pipeline.
Import ListNotations.

Record envelope := mk_envelope { e_name : text; e_ring : list (list num) }.

Section Envelope.
  Variable clean : num -> num.
  Variable hull : list (list num) -> res (list nat).

  (** fm2prof_runner.py 360-365: the coordinates of the faces *)
  Definition corners (c : css) : list (list num) := map m_coords (s_faces c).

  (** fm2prof_runner.py 367-375: one Feature *)
  Definition make_envelope (c : css) : res envelope :=
    vs <- hull (corners c) ;;
    ring <- map_res (fun i => py_index (corners c) (Z.of_nat i)) vs ;;
    Ok (mk_envelope (s_name c) (map (map clean) ring)).

  (** fm2prof_runner.py 352-376 _export_envelope: the features, and the names of
      the cross-sections that are logged as without a hull. *)
  Fixpoint envelopes (l : list css) : res (list envelope * list text) :=
    match l with
    | [] => Ok ([], [])
    | c :: l' =>
        match make_envelope c with
        | Ok f => r <- envelopes l' ;; Ok (f :: fst r, snd r)
        | Raise IndexError => r <- envelopes l' ;; Ok (fst r, s_name c :: snd r)
        | Raise e => Raise e
        end
    end.

  (** fm2prof_runner.py 344-350, 377-378: the content of
      cross_section_volumes.geojson afterwards ([before] is what was there), the
      names without a hull, and whether an error was logged.  The file is opened
      after the last hull has been made. *)
  Definition export_envelopes (before : option (list envelope)) (l : list css)
    : option (list envelope) * list text * bool :=
    match envelopes l with
    | Ok (fs, skipped) => (Some fs, skipped, false)
    | Raise _ => (before, [], true)
    end.
End Envelope.
