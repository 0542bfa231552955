(** Python values that are common to all model files: results with
    exceptions, list indexing and slicing, boolean mask selection. *)
From Coq Require Import String List ZArith Bool.
Import ListNotations.

(** Exceptions that the modelled code raises or lets through.  Messages are
    not modelled. *)
Inductive exn :=
| ValueError | KeyError | IndexError | TypeError | AttributeError
| FileNotFoundError | FileExistsError | OSError | JSONDecodeError
| PolygonError | ConfigurationFileError | ConfigParserError | InitializationError
| UnboundLocalError | NotImplementedError | QhullError
(* not a Python exception: a modelled loop has used up its iteration bound *)
| NonTermination.

Inductive res (A : Type) :=
| Ok (a : A)
| Raise (e : exn).
Arguments Ok {A} a.
Arguments Raise {A} e.

Definition bind {A B} (m : res A) (f : A -> res B) : res B :=
  match m with Ok a => f a | Raise e => Raise e end.

Notation "x <- m ;; k" := (bind m (fun x => k))
  (at level 61, m at next level, right associativity).

Definition res_map {A B} (f : A -> B) (m : res A) : res B :=
  match m with Ok a => Ok (f a) | Raise e => Raise e end.

(** [for x in l: acc = f(acc, x)] where the body may raise. *)
Fixpoint fold_res {A B} (f : B -> A -> res B) (l : list A) (b : B) : res B :=
  match l with
  | [] => Ok b
  | x :: l' => match f b x with Ok b' => fold_res f l' b' | Raise e => Raise e end
  end.

(** List comprehension whose body may raise. *)
Fixpoint map_res {A B} (f : A -> res B) (l : list A) : res (list B) :=
  match l with
  | [] => Ok []
  | x :: l' =>
      match f x with
      | Raise e => Raise e
      | Ok y => match map_res f l' with Ok ys => Ok (y :: ys) | Raise e => Raise e end
      end
  end.

(** [l[k]] for an integer [k]: negative indices count from the end. *)
Definition py_index {A} (l : list A) (k : Z) : res A :=
  let n := Z.of_nat (length l) in
  let k' := if (k <? 0)%Z then (k + n)%Z else k in
  if (k' <? 0)%Z then Raise IndexError
  else match nth_error l (Z.to_nat k') with
       | Some a => Ok a
       | None => Raise IndexError
       end.

(** Normalised slice bound: Python clips slice bounds to [0, len]. *)
Definition slice_bound (n : nat) (k : Z) : nat :=
  let k' := if (k <? 0)%Z then (k + Z.of_nat n)%Z else k in
  Nat.min n (Z.to_nat k').

(** [l[k:]] and [l[:k]] *)
Definition slice_from {A} (k : Z) (l : list A) : list A :=
  skipn (slice_bound (length l) k) l.
Definition slice_to {A} (k : Z) (l : list A) : list A :=
  firstn (slice_bound (length l) k) l.

(** Boolean mask selection [arr[mask]]. *)
Fixpoint select {A} (mask : list bool) (l : list A) : list A :=
  match mask, l with
  | true :: m', x :: l' => x :: select m' l'
  | false :: m', _ :: l' => select m' l'
  | _, _ => []
  end.

(** numpy raises IndexError when the mask length differs. *)
Definition mask_index {A} (mask : list bool) (l : list A) : res (list A) :=
  if Nat.eqb (length mask) (length l) then Ok (select mask l) else Raise IndexError.

Fixpoint update_nth {A} (i : nat) (v : A) (l : list A) : list A :=
  match i, l with
  | _, [] => []
  | O, _ :: l' => v :: l'
  | S i', x :: l' => x :: update_nth i' v l'
  end.

Fixpoint map2 {A B C} (f : A -> B -> C) (l : list A) (m : list B) : list C :=
  match l, m with
  | x :: l', y :: m' => f x y :: map2 f l' m'
  | _, _ => []
  end.

(** [list.pop(i)] without the returned value *)
Fixpoint remove_nth {A} (i : nat) (l : list A) : list A :=
  match i, l with
  | _, [] => []
  | O, _ :: l' => l'
  | S i', x :: l' => x :: remove_nth i' l'
  end.

(** Association lists (Python dicts, insertion ordered) keyed by strings. *)
Fixpoint assoc {A} (k : string) (d : list (string * A)) : option A :=
  match d with
  | [] => None
  | (k', v) :: d' => if String.eqb k k' then Some v else assoc k d'
  end.

(** [d[k] = v]: overwrite in place, or append. *)
Fixpoint assoc_set {A} (k : string) (v : A) (d : list (string * A)) : list (string * A) :=
  match d with
  | [] => [(k, v)]
  | (k', v') :: d' =>
      if String.eqb k k' then (k', v) :: d' else (k', v') :: assoc_set k v d'
  end.
