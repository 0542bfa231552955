(** Visvalingam-Whyatt line simplification as a process, independent of the
    program (Visvalingam and Whyatt 1993). *)
From Coq Require Import List QArith Qabs Qminmax.
Import ListNotations.
Local Open Scope Q_scope.

Definition qpoint := (Q * Q)%type.

(** Area of a triangle (shoelace formula). *)
Definition qtri (p1 p2 p3 : qpoint) : Q :=
  Qabs (fst p1 * (snd p2 - snd p3) + fst p2 * (snd p3 - snd p1)
        + fst p3 * (snd p1 - snd p2)) / 2.

(** [elimination area rem last trace]: starting from the remaining vertices
    [rem] (in order along the line), with [last] the significance of the vertex
    removed before, interior vertices are removed one by one until only the end
    points are left; [trace] lists them with their significance.  The vertex
    removed has the least effective area: the larger of [last] and the area of
    the triangle with its two current neighbours. *)
Inductive elimination (area : nat -> nat -> nat -> Q)
  : list nat -> Q -> list (nat * Q) -> Prop :=
| elim_done : forall rem last,
    (length rem <= 2)%nat -> elimination area rem last []
| elim_step : forall l a v b r last s rest,
    s == Qmax last (area a v b) ->
    (forall l' a' v' b' r',
       l ++ a :: v :: b :: r = l' ++ a' :: v' :: b' :: r' ->
       s <= Qmax last (area a' v' b')) ->
    elimination area (l ++ a :: b :: r) s rest ->
    elimination area (l ++ a :: v :: b :: r) last ((v, s) :: rest).
