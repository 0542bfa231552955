(** Vocabulary used in theorem statements.  Independent of the model. *)
From Coq Require Import List QArith Qabs ZArith.
Import ListNotations.
Local Open Scope Q_scope.

(** Index based notions on columns of rational numbers. *)
Definition strictly_increasing (l : list Q) : Prop :=
  forall i j a b, (i < j)%nat -> nth_error l i = Some a -> nth_error l j = Some b -> a < b.

Definition nondecreasing (l : list Q) : Prop :=
  forall i j a b, (i <= j)%nat -> nth_error l i = Some a -> nth_error l j = Some b -> a <= b.

(** [Forall2] on columns: same length and related row by row. *)
Definition rowwise {A B} (R : A -> B -> Prop) (l : list A) (m : list B) : Prop := Forall2 R l m.

(** [l] is obtained from [m] by deleting entries. *)
Inductive subsequence {A} : list A -> list A -> Prop :=
| sub_nil : subsequence [] []
| sub_keep : forall x l m, subsequence l m -> subsequence (x :: l) (x :: m)
| sub_drop : forall x l m, subsequence l m -> subsequence l (x :: m).

(** Sum of a list of rationals. *)
Definition Qsum (l : list Q) : Q := fold_right Qplus 0 l.

(** Sum over the elements that satisfy a (decidable) condition. *)
Definition Qsum_if {A} (f : A -> Q) (p : A -> bool) (l : list A) : Q :=
  Qsum (map f (filter p l)).

(** Square of the Euclidean distance of two points; it orders points as the
    distance does. *)
Definition sq_dist (a b : Q * Q) : Q :=
  (fst a - fst b) * (fst a - fst b) + (snd a - snd b) * (snd a - snd b).
