(** Model of the assignment of mesh points to cross-sections
    (fm2prof/nearest_neighbour.py 15-74 and 101-113) and of the classification
    of roughness by variance (fm2prof/fm2prof_runner.py 484-532).

    Coordinates are exact rationals.  The nearest neighbour search of sklearn
    is an oracle that gives the position of a sample; which one of several
    equally near samples is left open. *)
From Coq Require Import String List Ascii ZArith QArith Qround Bool.
From Verif Require Import PyBase Num Text.
Import ListNotations.
Local Open Scope Q_scope.

Definition point := (Q * Q)%type.

(** [Series.unique()]: the values in the order of first appearance. *)
Fixpoint unique (l : list text) : list text :=
  match l with
  | [] => []
  | x :: l' => x :: filter (fun y => negb (teqb x y)) (unique l')
  end.

(** [old[mask] = new] *)
Fixpoint put_where {A} (mask : list bool) (new old : list A) : list A :=
  match mask, new, old with
  | true :: m', v :: new', _ :: old' => v :: put_where m' new' old'
  | false :: m', _, x :: old' => x :: put_where m' new old'
  | _, _, _ => old
  end.

(** An array of dtype U99 keeps 99 characters of a string (data_import.py
    131). *)
Definition u99 (t : text) : text := firstn 99 t.

(** [np.array(regions) == region] *)
Definition in_region (region : text) (regions : list text) : list bool :=
  map (fun r => teqb r region) regions.

Section Neighbour.
  Variable nearest : list point -> point -> nat.

  (** nearest_neighbour.py 101-113 _get_class_tree and predict.  sklearn
      refuses to fit or to predict an empty array. *)
  Definition predict (xy : list point) (c : list text) (points : list point) : res (list text) :=
    match xy, points with
    | [], _ => Raise ValueError
    | _, [] => Raise ValueError
    | _, _ => Ok (map (fun p => nth (nearest xy p) c []) points)
    end.

  (** nearest_neighbour.py 56-74: the classes of the faces and of the links. *)
  Definition classify_without_regions (xy : list point) (ids : list text)
      (faces links : list point) : res (list text * list text) :=
    f <- predict xy ids faces ;;
    e <- predict xy ids links ;;
    Ok (f, e).

  (** nearest_neighbour.py 29-52: the body of the loop over the regions. *)
  Definition region_step (xy : list point) (ids css_regions : list text)
      (faces : list point) (f_regions : list text) (links : list point) (e_regions : list text)
      (st : list text * list text) (region : text) : res (list text * list text) :=
    let css_xy := select (in_region region css_regions) xy in
    let css_id := select (in_region region css_regions) ids in
    match css_id with
    | [] => Ok st
    | _ =>
        let node_mask := in_region region f_regions in
        let edge_mask := in_region region e_regions in
        css_2d_nodes <- predict css_xy css_id (select node_mask faces) ;;
        css_2d_edges <- predict css_xy css_id (select edge_mask links) ;;
        Ok (put_where node_mask css_2d_nodes (fst st),
            put_where edge_mask (map u99 css_2d_edges) (snd st))
    end.

  (** nearest_neighbour.py 15-54 classify_with_regions; [e_class] are the
      classes of the links before the call.  Simplification: labels are text
      (a polygon without the property gives None, see M_Polygon). *)
  Definition classify_with_regions (xy : list point) (ids css_regions : list text)
      (faces : list point) (f_regions : list text)
      (links : list point) (e_regions e_class : list text) : res (list text * list text) :=
    fold_res (region_step xy ids css_regions faces f_regions links e_regions)
             (unique f_regions) (f_regions, e_class).
End Neighbour.

(** * Classification by variance *)

(** Python's min() and max() over an array: a later value replaces the current
    one if it compares less (greater), which NaN never does. *)
Definition py_min (l : list num) : res num :=
  match l with
  | [] => Raise ValueError
  | x :: l' => Ok (fold_left (fun m y => if nltb y m then y else m) l' x)
  end.

Definition py_max (l : list num) : res num :=
  match l with
  | [] => Raise ValueError
  | x :: l' => Ok (fold_left (fun m y => if nltb m y then y else m) l' x)
  end.

(** [np.arange(lo, hi, 1)]: ceil(hi - lo) values from [lo] on; numpy raises
    ValueError for bounds that are not finite. *)
Definition arange1 (lo hi : num) : res (list Q) :=
  match lo, hi with
  | Fin a, Fin b =>
      Ok (map (fun k => a + inject_Z (Z.of_nat k)) (seq 0 (Z.to_nat (Qceiling (b - a)))))
  | _, _ => Raise ValueError
  end.

Definition qsum (l : list Q) : Q := fold_right Qplus 0 l.

(** [np.var]: mean of the squared differences with the mean; [None] is the nan
    of an empty array. *)
Definition variance (l : list Q) : option Q :=
  match l with
  | [] => None
  | _ =>
      let n := inject_Z (Z.of_nat (length l)) in
      let m := qsum l / n in
      Some (qsum (map (fun x => (x - m) * (x - m)) l) / n)
  end.

(** The finite numbers of a list; np.var of a group is only taken when the
    smallest and the greatest value are finite (see [arange1]). *)
Fixpoint finite_part (l : list num) : list Q :=
  match l with
  | [] => []
  | Fin q :: l' => q :: finite_part l'
  | _ :: l' => finite_part l'
  end.

Definition above (split : Q) (x : num) : bool := nltb (Fin split) x.
Definition below (split : Q) (x : num) : bool := nleb x (Fin split).

(** fm2prof_runner.py 513-519: np.max of the two variances, nan if one is nan. *)
Definition split_cost (values : list num) (split : Q) : option Q :=
  match variance (finite_part (filter (above split) values)),
        variance (finite_part (filter (below split) values)) with
  | Some a, Some b => Some (if Qltb a b then b else a)
  | _, _ => None
  end.

(** [np.nanargmin]: the first position of the least value; ValueError if all
    are nan. *)
Fixpoint nanargmin (l : list (option Q)) : option (nat * Q) :=
  match l with
  | [] => None
  | c :: l' =>
      match c, nanargmin l' with
      | None, None => None
      | None, Some (k, v) => Some (S k, v)
      | Some a, None => Some (0%nat, a)
      | Some a, Some (k, v) => if Qltb v a then Some (S k, v) else Some (0%nat, a)
      end
  end.

(** fm2prof_runner.py 484-532 _classify_roughness_sections_by_variance, for one
    column of labels.  [one] and [two] are the values 1 and 2 as they are
    stored: integers in the data frame of the faces, the strings "1" and "2" in
    the string array of the links. *)
Definition classify_by_variance {A} (one two : A) (labels : list A) (values : list num)
  : res (list A) :=
  lo <- py_min values ;;
  hi <- py_max values ;;
  split_candidates <- arange1 lo hi ;;
  if (length split_candidates <? 2)%nat then Ok (map (fun _ => one) labels)
  else
    match nanargmin (map (split_cost values) split_candidates) with
    | None => Raise ValueError
    | Some (k, _) =>
        let splitpoint := nth k split_candidates 0 in
        let set_one := map2 (fun x l => if above splitpoint x then one else l) values labels in
        Ok (map2 (fun x l => if below splitpoint x then two else l) values set_one)
    end.
