(** numpy floating point values with exact rational arithmetic.

    [Fin q] is a finite value, [NaN] not-a-number, [PInf]/[NInf] infinities.
    Comparisons follow IEEE 754: every comparison with NaN is false.
    Simplifications: no rounding, no signed zero. *)
From Coq Require Import QArith Qround Qabs List Bool.
Import ListNotations.
Local Open Scope Q_scope.

Inductive num :=
| Fin (q : Q)
| NaN
| PInf
| NInf.

Definition Qltb (a b : Q) : bool := negb (Qle_bool b a).

(** x < y *)
Definition nltb (x y : num) : bool :=
  match x, y with
  | NaN, _ | _, NaN => false
  | Fin a, Fin b => Qltb a b
  | NInf, NInf => false
  | NInf, _ => true
  | _, NInf => false
  | PInf, _ => false
  | _, PInf => true
  end.

(** x <= y *)
Definition nleb (x y : num) : bool :=
  match x, y with
  | NaN, _ | _, NaN => false
  | Fin a, Fin b => Qle_bool a b
  | NInf, _ => true
  | _, NInf => false
  | _, PInf => true
  | PInf, _ => false
  end.

(** x == y *)
Definition neqb (x y : num) : bool :=
  match x, y with
  | Fin a, Fin b => Qeq_bool a b
  | PInf, PInf => true
  | NInf, NInf => true
  | _, _ => false
  end.

Definition isnan (x : num) : bool := match x with NaN => true | _ => false end.

Definition nneg (x : num) : num :=
  match x with Fin a => Fin (- a) | NaN => NaN | PInf => NInf | NInf => PInf end.

Definition nadd (x y : num) : num :=
  match x, y with
  | NaN, _ | _, NaN => NaN
  | Fin a, Fin b => Fin (a + b)
  | PInf, NInf | NInf, PInf => NaN
  | PInf, _ | _, PInf => PInf
  | NInf, _ | _, NInf => NInf
  end.

Definition nsub (x y : num) : num := nadd x (nneg y).

Definition nabs (x : num) : num :=
  match x with Fin a => Fin (Qabs a) | NaN => NaN | _ => PInf end.

(** sign of a rational as an infinity / NaN when multiplied by infinity *)
Definition inf_times (positive : bool) (a : Q) : num :=
  if Qeq_bool a 0 then NaN
  else if Qltb 0 a then (if positive then PInf else NInf)
  else (if positive then NInf else PInf).

Definition nmul (x y : num) : num :=
  match x, y with
  | NaN, _ | _, NaN => NaN
  | Fin a, Fin b => Fin (a * b)
  | PInf, Fin a | Fin a, PInf => inf_times true a
  | NInf, Fin a | Fin a, NInf => inf_times false a
  | PInf, PInf | NInf, NInf => PInf
  | PInf, NInf | NInf, PInf => NInf
  end.

(** numpy division: x/0 is inf or NaN, never an exception. *)
Definition ndiv (x y : num) : num :=
  match x, y with
  | NaN, _ | _, NaN => NaN
  | Fin a, Fin b =>
      if Qeq_bool b 0
      then (if Qeq_bool a 0 then NaN else if Qltb 0 a then PInf else NInf)
      else Fin (a / b)
  | Fin _, _ => Fin 0
  | PInf, Fin b => if Qltb b 0 then NInf else PInf
  | NInf, Fin b => if Qltb b 0 then PInf else NInf
  | _, _ => NaN
  end.

(** np.min([x, y]) / np.max([x, y]): NaN if either is NaN. *)
Definition npmin (x y : num) : num :=
  if isnan x then NaN else if isnan y then NaN else if nltb y x then y else x.
Definition npmax (x y : num) : num :=
  if isnan x then NaN else if isnan y then NaN else if nltb x y then y else x.

(** np.sum and np.nansum of a list. *)
Definition npsum (l : list num) : num := fold_left nadd l (Fin 0).
Definition nansum (l : list num) : num :=
  fold_left nadd (filter (fun x => negb (isnan x)) l) (Fin 0).

(** np.nanmin / np.nanmax: NaN (with a warning) if there is no number. *)
Definition nanmin (l : list num) : num :=
  match filter (fun x => negb (isnan x)) l with
  | [] => NaN
  | x :: l' => fold_left npmin l' x
  end.

Definition nofnat (n : nat) : num := Fin (inject_Z (Z.of_nat n)).

(** Mean ignoring NaN (pandas mean, np.nanmean): NaN if there is no number. *)
Definition nanmean (l : list num) : num :=
  let l' := filter (fun x => negb (isnan x)) l in
  match l' with
  | [] => NaN
  | _ => ndiv (npsum l') (nofnat (length l'))
  end.
