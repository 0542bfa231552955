(** Model of utils.py GenerateCrossSectionLocationFile (79-416): reading the
    network definition and branch rule files, the branch rules, and writing the
    location file.

    Numbers are exact rationals, [float(text)] is the oracle [read_float].  Text
    is ASCII; log messages are left out. *)
From Coq Require Import String List Ascii ZArith QArith Bool.
From Verif Require Import PyBase Num Text Fixed M_Friction M_Import M_Ini.
Import ListNotations.
Local Open Scope char_scope.

(** [l[a:b]] *)
Definition py_slice {A} (a b : Z) (l : list A) : list A :=
  let n := length l in
  firstn (slice_bound n b - slice_bound n a) (skipn (slice_bound n a) l).

Definition sum (l : list Q) : Q := fold_left Qplus l 0%Q.

(** The six columns of a branch. *)
Record branch := mk_branch {
  b_x : list Q; b_y : list Q; b_cid : list text; b_cdis : list Q; b_bid : list text;
  b_coff : list Q }.

(** utils.py 344-355: the points that a rule keeps; the outer [None] is an
    unknown rule. *)
Definition keep_points {A} (rule : text) (l : list A) : option (res (list A)) :=
  if teqb rule (T "norule") then Some (Ok l)
  else if teqb rule (T "onlyedges") then
    Some (a <- py_index l 0 ;; b <- py_index l (-1) ;; Ok [a; b])
  else if teqb rule (T "ignoreedges") then Some (Ok (py_slice 1 (-1) l))
  else if teqb rule (T "ignorelast") then Some (Ok (slice_to (-1) l))
  else if teqb rule (T "ignorefirst") then Some (Ok (slice_from 1 l))
  else if teqb rule (T "onlyfirst") then Some (a <- py_index l 0 ;; Ok [a])
  else if teqb rule (T "onlylast") then Some (a <- py_index l (-1) ;; Ok [a])
  else None.

(** utils.py 357-365: the lengths after a rule. *)
Definition keep_lengths (rule : text) (l : list Q) : option (list Q) :=
  if teqb rule (T "onlyedges") then Some [(sum l / 2)%Q; (sum l / 2)%Q]
  else if teqb rule (T "ignoreedges") then
    Some (sum (slice_to 2 l) :: py_slice 2 (-2) l ++ [sum (slice_from (-2) l)])
  else if teqb rule (T "ignorelast") then Some (slice_to (-2) l ++ [sum (slice_from (-2) l)])
  else if teqb rule (T "ignorefirst") then Some (sum (slice_to 2 l) :: slice_from 2 l)
  else if teqb rule (T "onlyfirst") then Some [sum l]
  else if teqb rule (T "onlylast") then Some [sum l]
  else if teqb rule (T "norule") then Some l
  else None.

(** utils.py 326-375 _apply_branch_rules; [None] for an unknown rule. *)
Definition apply_branch_rules (rule : text) (b : branch) : res (option branch) :=
  let r := strip (lower rule) in
  match keep_points r (b_x b), keep_points r (b_y b), keep_points r (b_cid b),
        keep_lengths r (b_cdis b), keep_points r (b_bid b), keep_points r (b_coff b) with
  | Some kx, Some ky, Some kc, Some d, Some kb, Some ko =>
      x <- kx ;; y <- ky ;; c <- kc ;; bi <- kb ;; o <- ko ;;
      Ok (Some (mk_branch x y c d bi o))
  | _, _, _, _, _, _ => Ok None
  end.

(** The caller unpacks the result: [None] is TypeError. *)
Definition rules_unpacked (rule : text) (b : branch) : res branch :=
  r <- apply_branch_rules rule b ;;
  match r with Some b' => Ok b' | None => Raise TypeError end.

(** [cid.index(exc)] *)
Fixpoint index_of (c : text) (l : list text) : res nat :=
  match l with
  | [] => Raise ValueError
  | x :: l' => if teqb x c then Ok 0%nat else k <- index_of c l' ;; Ok (S k)
  end.

(** [sorted(l, reverse=True)] *)
Fixpoint insert_down (x : nat) (l : list nat) : list nat :=
  match l with
  | [] => [x]
  | y :: l' => if Nat.leb x y then y :: insert_down x l' else x :: l
  end.
Definition sorted_down (l : list nat) : list nat := fold_right insert_down [] l.

(** [list.pop(i)] *)
Definition pop {A} (i : nat) (l : list A) : res (list A) :=
  if Nat.ltb i (length l) then Ok (remove_nth i l) else Raise IndexError.

(** [l[i] += v] *)
Definition add_at (i : nat) (v : Q) (l : list Q) : res (list Q) :=
  match nth_error l i with
  | Some x => Ok (update_nth i (x + v)%Q l)
  | None => Raise IndexError
  end.

(** utils.py 296-322: removal of one point. *)
Definition remove_point (b : branch) (k : nat) : res branch :=
  if Nat.eqb k 0 then rules_unpacked (T "ignorefirst") b
  else if Nat.eqb (S k) (length (b_x b)) then rules_unpacked (T "ignorelast") b
  else
    v <- py_index (b_cdis b) (Z.of_nat k) ;;
    d1 <- add_at (k - 1) (v / 2)%Q (b_cdis b) ;;
    v' <- py_index d1 (Z.of_nat k) ;;
    d2 <- add_at (k + 1) (v' / 2)%Q d1 ;;
    x <- pop k (b_x b) ;; y <- pop k (b_y b) ;; c <- pop k (b_cid b) ;;
    d <- pop k d2 ;; bi <- pop k (b_bid b) ;; o <- pop k (b_coff b) ;;
    Ok (mk_branch x y c d bi o).

(** utils.py 279-324 _apply_branch_exceptions: an unknown id is logged, and
    then raises in [cid.index]. *)
Definition apply_branch_exceptions (exceptions : list text) (b : branch) : res branch :=
  pops <- map_res (fun e => index_of e (b_cid b)) exceptions ;;
  fold_res remove_point (sorted_down pops) b.

(** np.diff *)
Fixpoint diff (l : list Q) : list Q :=
  match l with
  | a :: ((b :: _) as l') => (b - a)%Q :: diff l'
  | _ => []
  end.

(** utils.py 210: half the distance to the neighbours. *)
Definition half_distances (off : list Q) : list Q :=
  let h := map (fun d => (d / 2)%Q) (diff off) in
  map2 Qplus (h ++ [0%Q]) (0%Q :: h).

(** np.interp: lengths must agree and not be zero. *)
Definition interp (search : list Q -> Q -> nat) (x : Q) (xp fp : list Q) : res Q :=
  if Nat.eqb (length xp) 0 then Raise ValueError
  else if negb (Nat.eqb (length xp) (length fp)) then Raise ValueError
  else Ok (np_interp search xp fp x).

(** utils.py 219-226: the end points are moved one metre inward.  [l[0] = v]
    of an empty list raises, but then np.interp has raised already. *)
Definition move_ends (search : list Q -> Q -> nat) (off x y : list Q) : res (list Q * list Q) :=
  x0 <- interp search 1%Q off x ;;
  let x' := update_nth 0 x0 x in
  y0 <- interp search 1%Q off y ;;
  let y' := update_nth 0 y0 y in
  l <- py_index off (-1) ;;
  xl <- interp search (l - 1)%Q off x' ;;
  let x'' := update_nth (length x' - 1) xl x' in
  yl <- interp search (l - 1)%Q off y' ;;
  Ok (x'', update_nth (length y' - 1) yl y').

Definition nonempty_list {A} (l : list A) : bool := match l with [] => false | _ => true end.

(** A branch rule file: branch to rule and exceptions. *)
Definition rules := list (text * (text * list text)).

(** utils.py 229-252: rules and exceptions of the branch, and the check of the
    column lengths. *)
Definition apply_rules (br : rules) (id : text) (b : branch) : res branch :=
  match tassoc br id with
  | None => Ok b
  | Some (rule, exceptions) =>
      b1 <- (if nonempty rule then rules_unpacked rule b else Ok b) ;;
      b2 <- (if nonempty_list exceptions then apply_branch_exceptions exceptions b1 else Ok b1) ;;
      let c := length (b_x b2) in
      if Nat.eqb (length (b_y b2)) c && Nat.eqb (length (b_cid b2)) c
         && Nat.eqb (length (b_cdis b2)) c && Nat.eqb (length (b_bid b2)) c
         && Nat.eqb (length (b_coff b2)) c
      then Ok b2 else Raise ValueError
  end.

(** Text: [str.split()] at white space. *)
Fixpoint words_from (cur : text) (t : text) : list text :=
  match t with
  | [] => match cur with [] => [] | _ => [rev cur] end
  | c :: t' =>
      if is_space c then match cur with [] => words_from [] t' | _ => rev cur :: words_from [] t' end
      else words_from (c :: cur) t'
  end.
Definition words (t : text) : list text := words_from [] t.

Section Network.
  Variable read_float : text -> option Q.
  Variable search : list Q -> Q -> nat.

  Definition read_floats (t : text) : res (list Q) :=
    map_res (fun w => of_option ValueError (read_float w)) (words t).

  (** The local variables xtmp, ytmp, cidtmp, cofftmp, cdistmp: they keep their
      values from one branch to the next. *)
  Record tmp := mk_tmp {
    t_x : option (list Q); t_y : option (list Q); t_cid : option (list text);
    t_coff : option (list Q); t_cdis : option (list Q) }.

  (** utils.py 199-210: one line of a branch block. *)
  Definition block_line (t : tmp) (line : text) : res tmp :=
    let parts := split_on "=" (lower (strip line)) in
    let key := strip (hd [] parts) in
    if teqb key (T "gridpointx") then
      v <- py_index parts 1 ;; l <- read_floats v ;;
      Ok (mk_tmp (Some l) (t_y t) (t_cid t) (t_coff t) (t_cdis t))
    else if teqb key (T "gridpointy") then
      v <- py_index parts 1 ;; l <- read_floats v ;;
      Ok (mk_tmp (t_x t) (Some l) (t_cid t) (t_coff t) (t_cdis t))
    else if teqb key (T "gridpointids") then
      v <- py_index parts 1 ;;
      Ok (mk_tmp (t_x t) (t_y t) (Some (split_on ";" v)) (t_coff t) (t_cdis t))
    else if teqb key (T "gridpointoffsets") then
      v <- py_index parts 1 ;; l <- read_floats v ;;
      Ok (mk_tmp (t_x t) (t_y t) (t_cid t) (Some l) (Some (half_distances l)))
    else Ok t.

  (** utils.py 197-261: one branch block; a variable that was never set is an
      UnboundLocalError. *)
  Definition read_branch (br : rules) (idline : text) (block : list text) (t : tmp)
    : res (branch * tmp) :=
    idpart <- py_index (split_on "=" idline) 1 ;;
    let id := strip idpart in
    t <- fold_res block_line block t ;;
    cdis <- of_option UnboundLocalError (t_cdis t) ;;
    x <- of_option UnboundLocalError (t_x t) ;;
    cid <- of_option UnboundLocalError (t_cid t) ;;
    coff <- of_option UnboundLocalError (t_coff t) ;;
    y <- of_option UnboundLocalError (t_y t) ;;
    xy <- move_ends search coff x y ;;
    b <- apply_rules br id (mk_branch (fst xy) (snd xy) (map strip cid) cdis
                                      (repeat id (length x)) coff) ;;
    Ok (b, mk_tmp (Some (b_x b)) (Some (b_y b)) (Some (b_cid b)) (Some (b_coff b)) (Some (b_cdis b))).

  Definition app_branch (a b : branch) : branch :=
    mk_branch (b_x a ++ b_x b) (b_y a ++ b_y b) (b_cid a ++ b_cid b) (b_cdis a ++ b_cdis b)
              (b_bid a ++ b_bid b) (b_coff a ++ b_coff b).
  Definition no_branch : branch := mk_branch [] [] [] [] [] [].

  (** utils.py 171-262 _parse_network_definition_file.  [fuel] bounds the number
      of lines; [readline] at the end of the file gives empty text. *)
  Fixpoint parse_network (fuel : nat) (br : rules) (lines : list text) (t : tmp) (acc : branch)
    : res branch :=
    match fuel, lines with
    | O, _ | _, [] => Ok acc
    | S fuel', l :: lines' =>
        if teqb (lower (strip l)) (T "[branch]") then
          r <- read_branch br (hd [] lines') (firstn 10 (tl lines')) t ;;
          parse_network fuel' br (skipn 10 (tl lines')) (snd r) (app_branch acc (fst r))
        else parse_network fuel' br lines' t acc
    end.

  Definition parse_network_file (br : rules) (content : text) : res branch :=
    let lines := file_lines content in
    parse_network (length lines) br lines (mk_tmp None None None None None) no_branch.
End Network.

(** utils.py 377-392 _parse_branch_rule_file. *)
Definition rule_line (d : rules) (line : text) : res rules :=
  let parts := split_on "," (strip line) in
  b <- py_index parts 0 ;;
  r <- py_index parts 1 ;;
  Ok (tassoc_set d (strip b) (strip r, map strip (skipn 2 parts))).
Definition parse_rule_file (content : text) : res rules :=
  fold_res rule_line (filter (fun l => Nat.ltb 1 (length l)) (raw_lines content)) [].

(** utils.py 394-416 _write_cross_section_location_file: one line per x
    coordinate. *)
Definition location_line (b : branch) (i : nat) : res text :=
  let k := Z.of_nat i in
  cid <- py_index (b_cid b) k ;; x <- py_index (b_x b) k ;; y <- py_index (b_y b) k ;;
  d <- py_index (b_cdis b) k ;; bid <- py_index (b_bid b) k ;; o <- py_index (b_coff b) k ;;
  Ok (cid ++ T ", " ++ show_fixed 4 x ++ T ", " ++ show_fixed 4 y ++ T ", " ++ show_fixed 2 d
      ++ T ", " ++ bid ++ T ", " ++ show_fixed 2 o).
Definition write_locations (b : branch) : res text :=
  ls <- map_res (location_line b) (seq 0 (length (b_x b))) ;;
  Ok (concat (map (fun l => l ++ [newline]) (T "name,x,y,length,branch,offset" :: ls))).
