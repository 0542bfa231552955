(** Fixed-point formatting and reading of numbers (the format specification
    [.nf] and [float] on plain decimal texts).  A Python float is the rational
    number it stands for; infinities, NaN and the sign of zero are left out. *)
From Coq Require Import String List Ascii ZArith QArith Qround Bool.
From Verif Require Import PyBase Num Text.
Import ListNotations.
Local Open Scope Z_scope.

(** Nearest integer, ties to even. *)
Definition round_even (q : Q) : Z :=
  let f := Qfloor q in
  let r := (q - inject_Z f)%Q in
  if Qltb r (1 # 2) then f
  else if Qltb (1 # 2) r then f + 1
  else if Z.even f then f else f + 1.

Definition digit (k : Z) : ascii := ascii_of_N (Z.to_N (48 + k)).

(** The last [d] digits of [n]. *)
Fixpoint digits (d : nat) (n : Z) : text :=
  match d with
  | O => []
  | S d' => digits d' (n / 10) ++ [digit (n mod 10)]
  end.

Definition pow10 (d : nat) : Z := 10 ^ Z.of_nat d.

(** The number [q] in units of the last decimal. *)
Definition scaled (d : nat) (q : Q) : Z := round_even (q * inject_Z (pow10 d)).

(** [f"{q:.df}"] for d > 0: decimal rounding of the exact value, ties to even.
    A negative number that rounds to zero keeps its sign. *)
Definition show_fixed (d : nat) (q : Q) : text :=
  let n := Z.abs (scaled d q) in
  (if Qltb q 0 then ["-"%char] else []) ++ show_Z (n / pow10 d) ++ "."%char :: digits d n.

(** Value of a text of decimal digits. *)
Definition digit_val (c : ascii) : option Z :=
  if between 48 57 c then Some (Z.of_N (N_of_ascii c) - 48) else None.
Fixpoint digits_val (acc : Z) (t : text) : option Z :=
  match t with
  | [] => Some acc
  | c :: t' =>
      match digit_val c with
      | Some k => digits_val (10 * acc + k) t'
      | None => None
      end
  end.

(** The value of a plain decimal text: blanks, sign, digits, and optionally a
    point and more digits.  Simplification of [float]: exponents, underscores,
    a missing integer or fractional part, inf and nan are not read. *)
Definition unsigned_decimal (t : text) : option Q :=
  match split_on "." t with
  | [i] =>
      match i with
      | [] => None
      | _ => option_map inject_Z (digits_val 0 i)
      end
  | [i; f] =>
      match i, f with
      | _ :: _, _ :: _ =>
          option_map (fun n => (inject_Z n / inject_Z (pow10 (length f)))%Q) (digits_val 0 (i ++ f))
      | _, _ => None
      end
  | _ => None
  end.
Definition read_decimal (t : text) : option Q :=
  match strip t with
  | "-"%char :: t' => option_map Qopp (unsigned_decimal t')
  | "+"%char :: t' => unsigned_decimal t'
  | t' => unsigned_decimal t'
  end.

(** The number that a fixed-point text stands for. *)
Definition rounded (d : nat) (q : Q) : Q := (inject_Z (scaled d q) / inject_Z (pow10 d))%Q.
