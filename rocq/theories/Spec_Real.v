(** Vocabulary for columns of real numbers. *)
From Coq Require Import List Reals.
Import ListNotations.
Local Open Scope R_scope.

Definition Rnondecreasing (l : list R) : Prop :=
  forall i j a b, (i <= j)%nat -> nth_error l i = Some a -> nth_error l j = Some b -> a <= b.

(** An optimum of a function of any argument. *)
Definition is_minimum {A} (f : A -> R) (x : A) : Prop := forall y, f x <= f y.
