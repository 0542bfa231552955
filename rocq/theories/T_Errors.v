(** Theorems for C92: data that do not fit are refused. *)
From Coq Require Import String List Ascii ZArith QArith Qround Bool Lia.
From Verif Require Import PyBase Num Text M_Ini L_Text M_Friction M_Geometry M_Pipeline M_Simplify M_Network M_Classify M_Compare M_Import M_Data M_Visual.
From Verif Require M_Polygon M_Json L_Require.
Import ListNotations.

(** The outcome of an operation with a condition on its data: the result if the
    condition holds, else the error. *)
Definition if_else {A} (P : Prop) (r : res A) (x : A) (e : exn) : Prop := (P /\ r = Ok x) \/ (~ P /\ r = Raise e).

Ltac by_length := unfold if_else; match goal with |- context [Nat.eqb ?a ?b] => destruct (Nat.eqb_spec a b) end; auto.

(** Columns and tables have as many rows as the table they are put in, lines and
    areas of a figure as many values in each direction. *)
Theorem C92_lengths :
  (forall A B (rows : list A) (col : list B), if_else (length col = length rows) (M_Data.column rows col) col ValueError) /\
  (forall time v, if_else (length (m_steps v) = length time) (frame time v) (transpose v) ValueError) /\
  (forall label x y, if_else (length x = length y) (line label x y) (Line label x y) ValueError) /\
  (forall label z lo hi, if_else (length z = length lo /\ length z = length hi) (area label z lo hi) (Area label z lo hi) ValueError) /\
  (forall search x xp fp, if_else (xp <> [] /\ length xp = length fp) (interp search x xp fp) (np_interp search xp fp x) ValueError).
Proof.
  repeat split.
  - intros. unfold M_Data.column. by_length.
  - intros. unfold frame. by_length.
  - intros. unfold line. by_length.
  - intros. unfold area, if_else. destruct (Nat.eqb_spec (length z) (length lo)), (Nat.eqb_spec (length z) (length hi)); cbn; [left| | |]; auto; right; split; auto; intros []; contradiction.
  - intros. unfold interp, if_else. destruct xp as [|a xp]; cbn [length Nat.eqb]; [right; split; [intros [N _]; congruence|reflexivity]|].
    destruct fp as [|b fp]; cbn [length Nat.eqb negb]; [right; split; [intros [_ N]; discriminate|reflexivity]|].
    destruct (Nat.eqb_spec (length xp) (length fp)); cbn [negb]; [left|right]; split; auto; [split; [discriminate|congruence]|].
    intros [_ N]. injection N. contradiction.
Qed.
Print Assumptions C92_lengths.

(** Nothing is computed from an empty list. *)
Theorem C92_empty_lists :
  np_min [] = Raise ValueError /\ np_max [] = Raise ValueError /\ py_min [] = Raise ValueError /\ py_max [] = Raise ValueError /\
  (forall t, idxmin_below t [] = Raise ValueError) /\ argmax_bool [] = Raise ValueError /\
  (forall depth, fill_centre_level depth [] = Raise ValueError) /\
  (forall rows, end_values 0 rows = Raise IndexError) /\
  (forall nearest c points, predict nearest [] c points = Raise ValueError) /\
  (forall nearest xy c, predict nearest xy c [] = Raise ValueError) /\
  (forall within u prop p ps, M_Polygon.get_points_in_polygon within u prop [] (p :: ps) = Raise ValueError) /\
  (forall inside u prop nodes, M_Polygon.node_labels inside u prop [] nodes = Raise ValueError).
Proof. repeat split. intros nearest [|x xy] c; reflexivity. Qed.
Print Assumptions C92_empty_lists.

(** Texts that must be numbers are numbers; numbers that must be finite are
    finite. *)
Theorem C92_numbers :
  (forall read t,
     (exists xs, read_floats read t = Ok xs /\ map Some xs = map read (words t)) \/
     (read_floats read t = Raise ValueError /\ In None (map read (words t)))) /\
  (forall x, (exists q, x = Fin q /\ py_floor x = Ok (Qfloor q)) \/ ((forall q, x <> Fin q) /\ py_floor x = Raise ValueError)) /\
  (forall lo hi, if_else (exists a b, lo = Fin a /\ hi = Fin b) (limits lo hi) tt ValueError) /\
  (forall lo hi, (forall a b, lo = Fin a -> hi <> Fin b) -> arange1 lo hi = Raise ValueError).
Proof.
  split; [|split; [|split]].
  - intros read t. unfold read_floats. induction (words t) as [|w ws IH]; cbn [map_res map].
    + left. exists []. auto.
    + destruct (read w) as [x|]; cbn [of_option bind]; [|right; split; [reflexivity|left; reflexivity]].
      destruct IH as [(xs & E & M)|(E & M)]; rewrite E; cbn [bind].
      * left. exists (x :: xs). split; [reflexivity|]. cbn [map]. rewrite M. reflexivity.
      * right. split; [reflexivity|right; exact M].
  - intros [q| | |]; [left; exists q; auto|right|right|right]; (split; [discriminate|reflexivity]).
  - intros lo hi. unfold if_else, limits. destruct lo as [a| | |]; [destruct hi as [b| | |]; [left; eauto|..]|..];
      right; (split; [intros (x & y & E1 & E2); discriminate|reflexivity]).
  - intros lo hi H. unfold arange1. destruct lo as [a| | |]; auto. destruct hi as [b| | |]; auto. exfalso. apply (H a b); reflexivity.
Qed.
Print Assumptions C92_numbers.

(** Names and positions that are not there. *)
Theorem C92_names_and_positions :
  (forall data s, (exists c, M_Compare.column data s = Ok c /\ In (s, c) data) \/
                  (M_Compare.column data s = Raise KeyError /\ ~ In s (map fst data))) /\
  (forall c l, (exists k, M_Network.index_of c l = Ok k /\ nth_error l k = Some c) \/ (M_Network.index_of c l = Raise ValueError /\ ~ In c l)) /\
  (forall i k, if_else (k < length i)%nat (pop_index i k) (remove_nth k i) IndexError) /\
  (forall A k (l : list A), if_else (k < length l)%nat (pop k l) (remove_nth k l) IndexError) /\
  (forall k v l, (exists x, nth_error l k = Some x /\ add_at k v l = Ok (update_nth k (x + v)%Q l)) \/
                 ((length l <= k)%nat /\ add_at k v l = Raise IndexError)) /\
  (forall n, range0 n 0 = Raise ValueError).
Proof.
  split; [|split; [|split; [|split; [|split]]]].
  - intros data s. induction data as [|[n c] data IH]; cbn [M_Compare.column map fst]; [right; split; [reflexivity|intros []]|].
    destruct (teqb_spec n s) as [->|N]; [left; exists c; split; [reflexivity|left; reflexivity]|].
    destruct IH as [(c' & E & I)|(E & I)]; [left; exists c'; split; [exact E|right; exact I]|right; split; [exact E|]].
    intros [X|X]; [congruence|contradiction].
  - intros c l. induction l as [|x l IH]; cbn [M_Network.index_of]; [right; split; [reflexivity|intros []]|].
    destruct (teqb_spec x c) as [->|N]; [left; exists 0%nat; auto|].
    destruct IH as [(k & E & I)|(E & I)]; rewrite E; cbn [bind]; [left; exists (S k); auto|right; split; [reflexivity|]].
    intros [X|X]; [congruence|contradiction].
  - intros i k. unfold if_else, pop_index. destruct (nth_error i k) eqn:E.
    + left. split; [apply nth_error_Some; congruence|reflexivity].
    + right. split; [intro H; apply nth_error_Some in H; congruence|reflexivity].
  - intros A k l. unfold if_else, pop. destruct (Nat.ltb_spec k (length l)); [left; auto|right; split; [lia|reflexivity]].
  - intros k v l. unfold add_at. destruct (nth_error l k) as [x|] eqn:E; [left; exists x; auto|right; split; [apply nth_error_None; exact E|reflexivity]].
  - reflexivity.
Qed.
Print Assumptions C92_names_and_positions.

(** Sections and keys of a configuration. *)
Theorem C92_configuration (F : Type) : forall (c : config F) s k,
  (tassoc c s = None -> get_from c s k = Raise AttributeError) /\
  (forall sec, tassoc c s = Some sec -> find_key sec k = None -> get_from c s k = Raise KeyError) /\
  (forall v, (forall sec, tassoc c (T "output") = Some sec -> tassoc sec (T "OutputDirectory") = None) -> set_output_value c v = Raise KeyError).
Proof.
  intros c s k. split; [|split].
  - intro E. unfold get_from. rewrite E. reflexivity.
  - intros sec E N. unfold get_from. rewrite E, N. reflexivity.
  - intros v H. unfold set_output_value. destruct (tassoc c (T "output")) as [sec|]; [|reflexivity].
    change outdir_key with (T "OutputDirectory"). rewrite (H sec eq_refl). reflexivity.
Qed.
Print Assumptions C92_configuration.

(** Of a region file, a type error in the file is reported as a polygon error;
    other errors pass. *)
Theorem C92_region_file : forall intersects name doc,
  match M_Polygon.from_file name doc with
  | Ok ps => exists w, M_Polygon.region_polygon intersects name doc = Ok (ps, w)
  | Raise TypeError => M_Polygon.region_polygon intersects name doc = Raise PolygonError
  | Raise e => M_Polygon.region_polygon intersects name doc = Raise e
  end.
Proof. intros intersects name doc. unfold M_Polygon.region_polygon. destruct (M_Polygon.from_file name doc) as [ps|[]]; eauto. Qed.
Print Assumptions C92_region_file.

(** A value of a json file is used as what it is: an object has keys; an object,
    a list and a text have entries and a length, and a list and a text have a
    first entry. *)
Theorem C92_json_values :
  (forall v k, match v with
     | M_Json.JObj d => exists x, M_Json.j_get v k = Ok x /\
         (M_Json.j_item v k = Ok x \/ (x = M_Json.JNull /\ M_Json.j_item v k = Raise KeyError))
     | _ => M_Json.j_get v k = Raise AttributeError /\ M_Json.j_item v k = Raise TypeError
     end) /\
  (forall v, match v with
     | M_Json.JObj d => M_Json.j_len v = Ok (length d) /\
         M_Json.j_iter v = Ok (map (fun e => M_Json.JStr (fst e)) d) /\ M_Json.j_first v = Raise KeyError
     | M_Json.JArr l => M_Json.j_len v = Ok (length l) /\ M_Json.j_iter v = Ok l /\
         match l with [] => M_Json.j_first v = Raise IndexError | x :: _ => M_Json.j_first v = Ok x end
     | M_Json.JStr s => M_Json.j_len v = Ok (length s) /\ M_Json.j_iter v = Ok (map (fun c => M_Json.JStr [c]) s) /\
         match s with [] => M_Json.j_first v = Raise IndexError | c :: _ => M_Json.j_first v = Ok (M_Json.JStr [c]) end
     | _ => M_Json.j_len v = Raise TypeError /\ M_Json.j_iter v = Raise TypeError /\ M_Json.j_first v = Raise TypeError
     end).
Proof.
  split.
  - intros [| | | | | |d] k; auto. cbn. destruct (M_Json.dict_get k d) as [x|]; eexists; split; auto.
  - intros [| | | |s|l|d]; auto; [destruct s|destruct l]; auto.
Qed.
Print Assumptions C92_json_values.

(** The row at which the total width is not zero for the first time, at least 1;
    without one an IndexError. *)
Theorem C92_first_width_that_is_not_zero :
  forall tw,
    (exists i w, nth_error tw i = Some w /\ neqb w (Fin 0) = false /\
       (forall k v, (k < i)%nat -> nth_error tw k = Some v -> neqb v (Fin 0) = true) /\
       check_remove_duplicate_zeroes tw = Ok (Nat.max 1 i)) \/
    (Forall (fun w => neqb w (Fin 0) = true) tw /\ check_remove_duplicate_zeroes tw = Raise IndexError).
Proof.
  intro tw. unfold check_remove_duplicate_zeroes. destruct (find_index _ tw) as [i|] eqn:E.
  - left. apply L_Require.find_index_Some in E. destruct E as ((x & A & B) & C). exists i, x. split; [exact A|].
    split; [apply negb_true_iff; exact B|]. split; [|reflexivity].
    intros k v L K. specialize (C k v L K). apply negb_false_iff in C. exact C.
  - right. split; [|reflexivity]. apply L_Require.find_index_None in E. eapply Forall_impl; [|exact E].
    intros w N. apply negb_false_iff. exact N.
Qed.
Print Assumptions C92_first_width_that_is_not_zero.

(** The output directory of a project is refused unless it is a text or a path. *)
Theorem C92_output_directory (F : Type) : forall cwd (i : ini F),
  match tassoc (i_cfg i) (T "output") with
  | None => get_output_directory cwd i = Raise KeyError
  | Some sec =>
      match tassoc sec outdir_key with
      | None => get_output_directory cwd i = Raise KeyError
      | Some e =>
          (exists p, (e_value e = VPath p \/ exists t, e_value e = VStr t /\ p = parse_path t) /\
             get_output_directory cwd i = Ok (joinpath (file_dir cwd i) p)) \/
          ((forall t, e_value e <> VStr t) /\ (forall p, e_value e <> VPath p) /\
             get_output_directory cwd i = Raise TypeError)
      end
  end.
Proof.
  intros cwd i. unfold get_output_directory. destruct (tassoc (i_cfg i) (T "output")) as [sec|]; [|reflexivity].
  destruct (tassoc sec outdir_key) as [e|]; [|reflexivity].
  destruct (e_value e); try (right; split; [discriminate|]; split; [discriminate|]; reflexivity); left; eexists;
    (split; [first [left; reflexivity | right; eexists; split; reflexivity]|reflexivity]).
Qed.
Print Assumptions C92_output_directory.
