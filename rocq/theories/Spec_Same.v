(** Specification: two sets of 2D results that describe the same river, with
    the faces listed in another order or the levels measured from another
    datum.  No reference to the model of the geometry. *)
From Coq Require Import List QArith Bool Permutation.
From Verif Require Import Num.
Import ListNotations.
Local Open Scope Q_scope.

(** The same number (a fraction may be written in several ways). *)
Definition num_eq (x y : num) : Prop :=
  match x, y with
  | Fin a, Fin b => a == b
  | NaN, NaN | PInf, PInf | NInf, NInf => True
  | _, _ => False
  end.

(** [y] is the level [x] measured from a datum that lies [h] lower. *)
Definition raised (h : Q) (x y : num) : Prop :=
  match x, y with
  | Fin a, Fin b => b == a + h
  | NaN, NaN | PInf, PInf | NInf, NInf => True
  | _, _ => False
  end.

Definition same_column : list num -> list num -> Prop := Forall2 num_eq.
Definition raised_column (h : Q) : list num -> list num -> Prop := Forall2 (raised h).

(** A water level in the map file: the no-data value stays what it is. *)
Definition raised_level (h : Q) (x y : num) : Prop :=
  (x = Fin (-999) /\ y = Fin (-999)) \/
  (~ num_eq x (Fin (-999)) /\ ~ num_eq y (Fin (-999)) /\ raised h x y).

(** The same list of things, in another order. *)
Definition reordered {A B} (R : A -> B -> Prop) (l : list A) (l' : list B) : Prop :=
  exists m, Permutation l m /\ Forall2 R m l'.

(** An ordinary number. *)
Definition finite (x : num) : Prop := match x with Fin _ => True | _ => False end.
