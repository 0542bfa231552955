(** Python text (ASCII only) as lists of characters, with the string methods
    used by the modelled code. *)
From Coq Require Import String List Ascii ZArith Bool DecimalString DecimalZ.
Import ListNotations.

Definition text := list ascii.

(** Literals: [T "abc"]. *)
Definition T (s : string) : text := list_ascii_of_string s.
Arguments T : simpl never.

Definition between (lo hi : N) (c : ascii) : bool :=
  let n := N_of_ascii c in (N.leb lo n && N.leb n hi)%bool.

(** str.isspace: tab, newline, vertical tab, form feed, carriage return, the
    separators 28-31 and the blank. *)
Definition is_space (c : ascii) : bool := between 9 13 c || between 28 32 c.

Definition lower_char (c : ascii) : ascii :=
  if between 65 90 c then ascii_of_N (N_of_ascii c + 32) else c.
(** str.lower *)
Definition lower (t : text) : text := map lower_char t.

Fixpoint teqb (a b : text) : bool :=
  match a, b with
  | [], [] => true
  | x :: a', y :: b' => Ascii.eqb x y && teqb a' b'
  | _, _ => false
  end.

Fixpoint dropwhile (p : ascii -> bool) (t : text) : text :=
  match t with
  | [] => []
  | c :: t' => if p c then dropwhile p t' else t
  end.
(** str.lstrip, rstrip, strip; [strip_chars] is [str.strip(chars)]. *)
Definition lstrip (t : text) : text := dropwhile is_space t.
Definition rstrip_by (p : ascii -> bool) (t : text) : text := rev (dropwhile p (rev t)).
Definition rstrip (t : text) : text := rstrip_by is_space t.
Definition strip_by (p : ascii -> bool) (t : text) : text := rstrip_by p (dropwhile p t).
Definition strip (t : text) : text := strip_by is_space t.
Definition char_in (cs : text) (c : ascii) : bool := existsb (Ascii.eqb c) cs.
Definition strip_chars (cs : text) (t : text) : text := strip_by (char_in cs) t.

(** str.split(c) for one character: always at least one piece. *)
Fixpoint split_on (c : ascii) (t : text) : list text :=
  match t with
  | [] => [[]]
  | x :: t' =>
      if Ascii.eqb x c then [] :: split_on c t'
      else match split_on c t' with
           | [] => [[x]]
           | w :: ws => (x :: w) :: ws
           end
  end.

(** sep.join(ts) *)
Fixpoint join (sep : text) (ts : list text) : text :=
  match ts with
  | [] => []
  | [t] => t
  | t :: ts' => t ++ sep ++ join sep ts'
  end.

Fixpoint startswith (p t : text) : bool :=
  match p, t with
  | [], _ => true
  | x :: p', y :: t' => Ascii.eqb x y && startswith p' t'
  | _ :: _, [] => false
  end.

(** format(t, '<n') *)
Definition ljust (n : nat) (t : text) : text := t ++ repeat " "%char (n - length t).

Definition newline : ascii := ascii_of_N 10.

(** The lines of an open text file, without their line ends: a final line end
    does not start another line. *)
Definition file_lines (t : text) : list text :=
  match rev (split_on newline t) with
  | [] :: ls => rev ls
  | ls => rev ls
  end.

(** str(int) *)
Definition show_Z (z : Z) : text := T (NilZero.string_of_int (Z.to_int z)).

(** int(str): surrounding blanks, one sign.  Simplification: underscores
    between digits are not accepted. *)
Definition unsigned (t : text) : option Z :=
  option_map (fun u => Z.of_int (Decimal.Pos u)) (NilZero.uint_of_string (string_of_list_ascii t)).
Definition parse_Z (t : text) : option Z :=
  match strip t with
  | "-"%char :: t' => option_map Z.opp (unsigned t')
  | "+"%char :: t' => unsigned t'
  | t' => unsigned t'
  end.
