(** Model of the poly-line simplifier (fm2prof/lib/polysimplify.py) and of
    CrossSection.reduce_points. *)
From Coq Require Import String List ZArith QArith Qround Bool.
From Verif Require Import PyBase Num.
Import ListNotations.

(** A row of the (n, 2) array of points. *)
Definition point := (num * num)%type.

(** lib/polysimplify.py 41-48 triangle_area *)
Definition triangle_area (p1 p2 p3 : point) : num :=
  ndiv (nabs (nadd (nadd (nmul (fst p1) (nsub (snd p2) (snd p3)))
                         (nmul (fst p2) (nsub (snd p3) (snd p1))))
                   (nmul (fst p3) (nsub (snd p1) (snd p2)))))
       (Fin 2).

(** lib/polysimplify.py 72-81: the accumulator sequence on one triple of rows
    (other order of additions than [triangle_area]). *)
Definition triangle_area_row (p1 p2 p3 : point) : num :=
  let accr := nsub (snd p2) (snd p3) in
  let accr := nmul (fst p1) accr in
  let acc1 := nsub (snd p3) (snd p1) in
  let acc1 := nmul (fst p2) acc1 in
  let accr := nadd acc1 accr in
  let acc1 := nsub (snd p1) (snd p2) in
  let acc1 := nmul (fst p3) acc1 in
  let accr := nadd acc1 accr in
  ndiv (nabs accr) (Fin 2).

(** The interior rows [result[1:-1]]. *)
Fixpoint triangle_rows (arr : list point) : list num :=
  match arr with
  | p1 :: ((p2 :: p3 :: _) as arr') => triangle_area_row p1 p2 p3 :: triangle_rows arr'
  | _ => []
  end.

(** lib/polysimplify.py 51-83 triangle_areas_from_array: first and last entry
    infinite; an empty array makes [result[0] = inf] raise. *)
Definition triangle_areas_from_array (arr : list point) : res (list num) :=
  match arr with
  | [] => Raise IndexError
  | [_] => Ok [PInf]
  | _ => Ok (PInf :: triangle_rows arr ++ [PInf])
  end.

(** lib/polysimplify.py 89-97 remove: [s[i:-1] = s[i+1:]]; the length is kept
    and the last value is repeated. *)
Definition remove (s : list num) (i : nat) : list num :=
  remove_nth i s ++ [last s NaN].

(** numpy argmin: first index of the smallest value; NaN counts as smallest. *)
Definition argmin_less (x y : num) : bool :=
  if isnan y then false else if isnan x then true else nltb x y.
Fixpoint argmin_from (k best : nat) (bestv : num) (l : list num) : nat :=
  match l with
  | [] => best
  | x :: l' => if argmin_less x bestv then argmin_from (S k) k x l'
               else argmin_from (S k) best bestv l'
  end.
Definition argmin (l : list num) : nat :=
  match l with [] => O | x :: l' => argmin_from 1 O x l' end.

(** Variables of the elimination loop: real_areas, areas, i, min_vert,
    this_area. *)
Record vw := { vreal : list num; vareas : list num; vidx : list nat;
               vmin : nat; vthis : num }.

(** [triangle_area(pts[i[a]], pts[i[b]], pts[i[c]])] for Python integers. *)
Definition indexed_area (pts : list point) (i : list nat) (a b c : Z) : res num :=
  ia <- py_index i a ;; pa <- py_index pts (Z.of_nat ia) ;;
  ib <- py_index i b ;; pb <- py_index pts (Z.of_nat ib) ;;
  ic <- py_index i c ;; pc <- py_index pts (Z.of_nat ic) ;;
  Ok (triangle_area pa pb pc).

(** [i.pop(k)] *)
Definition pop_index (i : list nat) (k : nat) : res (list nat) :=
  match nth_error i k with Some _ => Ok (remove_nth k i) | None => Raise IndexError end.

(** lib/polysimplify.py 142-168: the vertex right of the removed one.
    [skip] is [None] for False. *)
Definition vw_right (pts : list point) (s : vw) : res (list num * list num * option nat) :=
  let m := Z.of_nat (vmin s) in
  match indexed_area pts (vidx s) (m - 1) m (m + 1) with
  | Raise IndexError => Ok (vreal s, vareas s, None)
  | Raise e => Raise e
  | Ok right_area =>
      right_idx <- py_index (vidx s) m ;;
      let capped := nleb right_area (vthis s) in
      let right_area := if capped then vthis s else right_area in
      Ok (update_nth right_idx right_area (vreal s),
          update_nth (vmin s) right_area (vareas s),
          if capped then Some (vmin s) else None)
  end.

(** lib/polysimplify.py 170-180: the vertex left of the removed one. *)
Definition vw_left (pts : list point) (s : vw) (st : list num * list num * option nat)
  : res (list num * list num * option nat) :=
  let '(real, areas, skip) := st in
  let m := Z.of_nat (vmin s) in
  if Nat.ltb 1 (vmin s) then
    left_area <- indexed_area pts (vidx s) (m - 2) (m - 1) m ;;
    let capped := nleb left_area (vthis s) in
    let left_area := if capped then vthis s else left_area in
    let skip := if capped then Some (vmin s - 1)%nat else skip in
    left_idx <- py_index (vidx s) (m - 1) ;;
    Ok (update_nth left_idx left_area real, update_nth (vmin s - 1) left_area areas, skip)
  else Ok (real, areas, skip).

(** lib/polysimplify.py 183-187: [skip or argmin(areas)], then pop and remove. *)
Definition vw_next (i : list nat) (st : list num * list num * option nat) : res vw :=
  let '(real, areas, skip) := st in
  let m := match skip with Some (S k) => S k | _ => argmin areas end in
  i' <- pop_index i m ;;
  this <- py_index areas (Z.of_nat m) ;;
  Ok {| vreal := real; vareas := remove areas m; vidx := i'; vmin := m; vthis := this |}.

(** One pass of the loop body, lib/polysimplify.py 135-187. *)
Definition vw_body (pts : list point) (s : vw) : res vw :=
  st <- vw_right pts s ;; st <- vw_left pts s st ;; vw_next (vidx s) st.

(** lib/polysimplify.py 134 [while this_area < np.inf]; [fuel] bounds the
    number of passes. *)
Fixpoint vw_loop (fuel : nat) (pts : list point) (s : vw) : res (list num) :=
  if nltb (vthis s) PInf then
    match fuel with
    | O => Raise NonTermination
    | S fuel => s' <- vw_body pts s ;; vw_loop fuel pts s'
    end
  else Ok (vreal s).

(** lib/polysimplify.py 109-195 build_thresholds *)
Definition build_thresholds (pts : list point) : res (list num) :=
  real <- triangle_areas_from_array pts ;;
  s <- vw_next (seq 0 (length pts)) (real, real, None) ;;
  vw_loop (length pts) pts s.

(** [sorted(l, reverse=True)] for values without NaN. *)
Fixpoint insert_desc (x : num) (l : list num) : list num :=
  match l with
  | [] => [x]
  | y :: l' => if nltb x y then y :: insert_desc x l' else x :: l
  end.
Definition sort_desc (l : list num) : list num := fold_right insert_desc [] l.

(** lib/polysimplify.py 197-198 from_threshold *)
Definition from_threshold (pts : list point) (threshold : num) : res (list point) :=
  th <- build_thresholds pts ;;
  mask_index (map (fun t => nleb threshold t) th) pts.

(** lib/polysimplify.py 200-206 from_number, [n] after [int(n)] *)
Definition from_number (pts : list point) (n : Z) : res (list point) :=
  th <- build_thresholds pts ;;
  match py_index (sort_desc th) n with
  | Raise IndexError => Ok pts
  | Raise e => Raise e
  | Ok t => mask_index (map (fun x => nltb t x) th) pts
  end.

(** lib/polysimplify.py 208-214 from_number_index.  [None] stands for
    [return self.pts], which is an array of points and not a mask. *)
Definition from_number_index (pts : list point) (n : Z) : res (option (list bool)) :=
  th <- build_thresholds pts ;;
  match py_index (sort_desc th) n with
  | Raise IndexError => Ok None
  | Raise e => Raise e
  | Ok t => Ok (Some (map (fun x => nltb t x) th))
  end.

(** lib/polysimplify.py 216-220 from_ratio for a rational ratio; [int] of a
    non-negative number is its floor. *)
Definition from_ratio (pts : list point) (r : Q) : res (list point) :=
  if Qle_bool r 0 || Qltb 1 r then Raise ValueError
  else from_number pts (Qfloor (r * inject_Z (Z.of_nat (length pts)))).

(** cross_section.py 586-646 reduce_points: any exception of the simplifier is
    logged and all points are kept.  Columns shorter than total_width make the
    list comprehension raise (IndexError); a mask of another length makes
    numpy indexing raise.  Indexing with the array of points ([None]) raises
    IndexError as well (arrays used as indices must be of integer or boolean
    type).  [count_after] is a Python int. *)
Fixpoint zip_points (z tw : list num) : res (list point) :=
  match z, tw with
  | _, [] => Ok []
  | [], _ :: _ => Raise IndexError
  | a :: z', w :: tw' => l <- zip_points z' tw' ;; Ok ((a, w) :: l)
  end.

Definition reduce_points (count_after : Z) (z tw fw : list num)
  : res (list num * list num * list num) :=
  let n := length tw in
  points <- zip_points z tw ;;
  let all := repeat true n in
  index <- (if (count_after <? Z.of_nat n)%Z then
              match from_number_index points count_after with
              | Raise NonTermination => Raise NonTermination
              | Raise _ => Ok (Some all)
              | Ok m => Ok m
              end
            else Ok (Some all)) ;;
  match index with
  | None => Raise IndexError
  | Some mask =>
      z' <- mask_index mask z ;;
      tw' <- mask_index mask tw ;;
      fw' <- mask_index mask fw ;;
      Ok (z', tw', fw')
  end.
