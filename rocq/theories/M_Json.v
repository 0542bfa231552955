(** Model of json.dump and json.load of the Python standard library as the
    code uses them (fm2prof/polygon_file.py 253-270 and 360-362), and of the
    code that reads a polygon file from its text and keeps its cache as text
    (polygon_file.py 92-142, 174-223, 253-270, 345-405).

    A text of a JSON file is a list of characters (ASCII or Latin-1; other
    characters can only occur as escapes).  A Python string is a list of code
    points.  The limit on the nesting of brackets (RecursionError) is not
    modelled. *)
From Coq Require Import String List Ascii ZArith QArith Bool.
From Verif Require Import PyBase Num Text M_Polygon.
Import ListNotations.
Local Open Scope char_scope.

Definition str := list N.

(** The code points of a text. *)
Definition codes (t : text) : str := map N_of_ascii t.

(** A float is kept as the text of its number: json.load calls float() on it. *)
Inductive json :=
| JNull
| JBool (b : bool)
| JInt (z : Z)
| JFloat (token : text)
| JStr (s : str)
| JArr (l : list json)
| JObj (d : list (str * json)).

Fixpoint seqb (a b : str) : bool :=
  match a, b with
  | [], [] => true
  | x :: a', y :: b' => N.eqb x y && seqb a' b'
  | _, _ => false
  end.

(** [d[k] = v]: a key that is there keeps its place. *)
Fixpoint dict_set {A} (k : str) (v : A) (d : list (str * A)) : list (str * A) :=
  match d with
  | [] => [(k, v)]
  | (k', v') :: d' => if seqb k' k then (k', v) :: d' else (k', v') :: dict_set k v d'
  end.

Fixpoint dict_get {A} (k : str) (d : list (str * A)) : option A :=
  match d with
  | [] => None
  | (k', v) :: d' => if seqb k' k then Some v else dict_get k d'
  end.

(** dict(pairs) *)
Definition dict_of {A} (pairs : list (str * A)) : list (str * A) :=
  fold_left (fun d kv => dict_set (fst kv) (snd kv) d) pairs [].

(** * Writing: json.dump with its default arguments *)

Definition quote : ascii := """".
Definition backslash : ascii := "\".

Definition hex_digit (n : N) : ascii :=
  if N.ltb n 10 then ascii_of_N (48 + n) else ascii_of_N (87 + n).

(** '\\u{0:04x}' *)
Definition unicode_escape (n : N) : text :=
  [backslash; "u"; hex_digit (n / 4096); hex_digit (n / 256 mod 16);
   hex_digit (n / 16 mod 16); hex_digit (n mod 16)].

(** json/encoder.py py_encode_basestring_ascii: one code point. *)
Definition dump_char (n : N) : text :=
  if N.eqb n 34 then [backslash; quote]
  else if N.eqb n 92 then [backslash; backslash]
  else if N.eqb n 10 then [backslash; "n"]
  else if N.eqb n 13 then [backslash; "r"]
  else if N.eqb n 9 then [backslash; "t"]
  else if N.eqb n 12 then [backslash; "f"]
  else if N.eqb n 8 then [backslash; "b"]
  else if (N.leb 32 n && N.leb n 126) then [ascii_of_N n]
  else if N.ltb n 65536 then unicode_escape n
  else unicode_escape (55296 + (n - 65536) / 1024) ++ unicode_escape (56320 + (n - 65536) mod 1024).

Definition dump_str (s : str) : text := quote :: flat_map dump_char s ++ [quote].

(** json/encoder.py _iterencode, with the separators ", " and ": ". *)
Fixpoint dump (v : json) : text :=
  match v with
  | JNull => T "null"
  | JBool true => T "true"
  | JBool false => T "false"
  | JInt z => show_Z z
  | JFloat t => t
  | JStr s => dump_str s
  | JArr l => "[" :: join (T ", ") (map dump l) ++ ["]"]
  | JObj d => "{" :: join (T ", ") (map (fun kv => dump_str (fst kv) ++ T ": " ++ dump (snd kv)) d) ++ ["}"]
  end.

(** * Reading: json.load *)

(** Blanks between the parts: WHITESPACE_STR of json/decoder.py. *)
Definition is_blank (c : ascii) : bool :=
  Ascii.eqb c " " || Ascii.eqb c (ascii_of_N 9) || Ascii.eqb c (ascii_of_N 10) || Ascii.eqb c (ascii_of_N 13).
Definition skip (t : text) : text := dropwhile is_blank t.

Definition is_digit (c : ascii) : bool := between 48 57 c.

Definition hex_value (c : ascii) : option N :=
  let n := N_of_ascii c in
  if between 48 57 c then Some (n - 48)%N
  else if between 97 102 c then Some (n - 87)%N
  else if between 65 70 c then Some (n - 55)%N
  else None.

Definition hex4 (a b c d : ascii) : option N :=
  match hex_value a, hex_value b, hex_value c, hex_value d with
  | Some a, Some b, Some c, Some d => Some (((a * 16 + b) * 16 + c) * 16 + d)%N
  | _, _, _, _ => None
  end.

(** BACKSLASH of json/decoder.py *)
Definition unescape (c : ascii) : option N :=
  if Ascii.eqb c quote then Some 34%N
  else if Ascii.eqb c backslash then Some 92%N
  else if Ascii.eqb c "/" then Some 47%N
  else if Ascii.eqb c "b" then Some 8%N
  else if Ascii.eqb c "f" then Some 12%N
  else if Ascii.eqb c "n" then Some 10%N
  else if Ascii.eqb c "r" then Some 13%N
  else if Ascii.eqb c "t" then Some 9%N
  else None.

Definition high (u : N) : bool := N.leb 55296 u && N.leb u 56319.
Definition low (u : N) : bool := N.leb 56320 u && N.leb u 57343.
Definition pair_value (u v : N) : N := (65536 + ((u - 55296) * 1024 + (v - 56320)))%N.

Definition push {A B} (x : A) (r : option (list A * B)) : option (list A * B) :=
  match r with Some (l, t) => Some (x :: l, t) | None => None end.

(** json/decoder.py scanstring, behind the opening quote. *)
Fixpoint scan_str (t : text) : option (str * text) :=
  match t with
  | [] => None
  | c :: t1 =>
      if Ascii.eqb c quote then Some ([], t1)
      else if Ascii.eqb c backslash then
        match t1 with
        | [] => None
        | e :: t2 =>
            if Ascii.eqb e "u" then
              match t2 with
              | h1 :: h2 :: h3 :: h4 :: t3 =>
                  match hex4 h1 h2 h3 h4 with
                  | None => None
                  | Some u =>
                      if high u then
                        match t3 with
                        | b :: e' :: k1 :: k2 :: k3 :: k4 :: t4 =>
                            if Ascii.eqb b backslash && Ascii.eqb e' "u" then
                              match hex4 k1 k2 k3 k4 with
                              | None => None
                              | Some v => if low v then push (pair_value u v) (scan_str t4)
                                          else push u (scan_str t3)
                              end
                            else push u (scan_str t3)
                        | _ => push u (scan_str t3)
                        end
                      else push u (scan_str t3)
                  end
              | _ => None
              end
            else match unescape e with
                 | None => None
                 | Some n => push n (scan_str t2)
                 end
        end
      else if N.ltb (N_of_ascii c) 32 then None
      else push (N_of_ascii c) (scan_str t1)
  end.

Fixpoint digits (t : text) : text * text :=
  match t with
  | [] => ([], [])
  | c :: t' => if is_digit c then (c :: fst (digits t'), snd (digits t')) else ([], t)
  end.

(** NUMBER_RE of json/scanner.py: the fraction and the exponent, if any. *)
Definition scan_fraction (t : text) : text * text :=
  match t with
  | c :: t' =>
      if Ascii.eqb c "." then
        match digits t' with
        | ([], _) => ([], t)
        | (ds, r) => (c :: ds, r)
        end
      else ([], t)
  | [] => ([], t)
  end.

Definition scan_exponent (t : text) : text * text :=
  match t with
  | c :: t' =>
      if Ascii.eqb c "e" || Ascii.eqb c "E" then
        let (sign, t2) := match t' with
                          | s :: t2 => if Ascii.eqb s "-" || Ascii.eqb s "+" then ([s], t2) else ([], t')
                          | [] => ([], t')
                          end in
        match digits t2 with
        | ([], _) => ([], t)
        | (ds, r) => (c :: sign ++ ds, r)
        end
      else ([], t)
  | [] => ([], t)
  end.

Definition finish_number (whole t : text) : option (json * text) :=
  let (fraction, t1) := scan_fraction t in
  let (exponent, t2) := scan_exponent t1 in
  match fraction ++ exponent with
  | [] => match parse_Z whole with Some z => Some (JInt z, t2) | None => None end
  | _ => Some (JFloat (whole ++ fraction ++ exponent), t2)
  end.

Definition scan_minus (t : text) : text * text :=
  match t with
  | c :: t' => if Ascii.eqb c "-" then ([c], t') else ([], t)
  | [] => ([], t)
  end.

Definition scan_number (t : text) : option (json * text) :=
  let (sign, t1) := scan_minus t in
  match t1 with
  | [] => None
  | c :: t2 =>
      if Ascii.eqb c "0" then finish_number (sign ++ [c]) t2
      else if is_digit c then
        let (ds, t3) := digits t2 in finish_number (sign ++ c :: ds) t3
      else None
  end.

(** json/scanner.py: a literal, or a number, or the three names of floats that
    are no numbers. *)
Definition scan_word (t : text) : option (json * text) :=
  if startswith (T "null") t then Some (JNull, skipn 4 t)
  else if startswith (T "true") t then Some (JBool true, skipn 4 t)
  else if startswith (T "false") t then Some (JBool false, skipn 5 t)
  else match scan_number t with
       | Some r => Some r
       | None =>
           if startswith (T "NaN") t then Some (JFloat (T "NaN"), skipn 3 t)
           else if startswith (T "Infinity") t then Some (JFloat (T "Infinity"), skipn 8 t)
           else if startswith (T "-Infinity") t then Some (JFloat (T "-Infinity"), skipn 9 t)
           else None
       end.

(** json/scanner.py scan_once, json/decoder.py JSONArray and JSONObject.  The
    number bounds the recursion; T_Json.v shows that the bound of [loads] is
    always enough. *)
Fixpoint scan (n : nat) (t : text) : option (json * text) :=
  match n with
  | O => None
  | S n =>
      match t with
      | [] => None
      | c :: t' =>
          if Ascii.eqb c quote then
            match scan_str t' with Some (s, r) => Some (JStr s, r) | None => None end
          else if Ascii.eqb c "{" then
            match skip t' with
            | [] => None
            | x :: r => if Ascii.eqb x "}" then Some (JObj [], r)
                        else match scan_pairs n (x :: r) with
                             | Some (d, r') => Some (JObj (dict_of d), r')
                             | None => None
                             end
            end
          else if Ascii.eqb c "[" then
            match skip t' with
            | [] => None
            | x :: r => if Ascii.eqb x "]" then Some (JArr [], r)
                        else match scan_items n (x :: r) with
                             | Some (l, r') => Some (JArr l, r')
                             | None => None
                             end
            end
          else scan_word t
      end
  end
with scan_items (n : nat) (t : text) : option (list json * text) :=
  match n with
  | O => None
  | S n =>
      match scan n t with
      | None => None
      | Some (v, r) =>
          match skip r with
          | [] => None
          | x :: r' => if Ascii.eqb x "]" then Some ([v], r')
                       else if Ascii.eqb x "," then push v (scan_items n (skip r'))
                       else None
          end
      end
  end
with scan_pairs (n : nat) (t : text) : option (list (str * json) * text) :=
  match n with
  | O => None
  | S n =>
      match t with
      | [] => None
      | q :: t1 =>
          if Ascii.eqb q quote then
            match scan_str t1 with
            | None => None
            | Some (k, t2) =>
                match skip t2 with
                | [] => None
                | x :: t3 =>
                    if Ascii.eqb x ":" then
                      match scan n (skip t3) with
                      | None => None
                      | Some (v, r) =>
                          match skip r with
                          | [] => None
                          | y :: r' => if Ascii.eqb y "}" then Some ([(k, v)], r')
                                       else if Ascii.eqb y "," then push (k, v) (scan_pairs n (skip r'))
                                       else None
                          end
                      end
                    else None
                end
            end
          else None
      end
  end.

(** json/decoder.py JSONDecoder.decode: nothing but blanks may follow. *)
Definition loads (t : text) : res json :=
  match scan (S (2 * length t)) (skip t) with
  | Some (v, r) => match skip r with [] => Ok v | _ => Raise JSONDecodeError end
  | None => Raise JSONDecodeError
  end.

(** * The polygon file *)

Definition key (s : string) : str := codes (T s).

(** [v.get(k)]: only an object has it. *)
Definition j_get (v : json) (k : str) : res json :=
  match v with
  | JObj d => Ok (match dict_get k d with Some x => x | None => JNull end)
  | _ => Raise AttributeError
  end.

(** [v[k]] for a text [k] *)
Definition j_item (v : json) (k : str) : res json :=
  match v with
  | JObj d => match dict_get k d with Some x => Ok x | None => Raise KeyError end
  | _ => Raise TypeError
  end.

(** [v[0]].  The keys of an object are texts. *)
Definition j_first (v : json) : res json :=
  match v with
  | JArr l => match l with x :: _ => Ok x | [] => Raise IndexError end
  | JStr s => match s with x :: _ => Ok (JStr [x]) | [] => Raise IndexError end
  | JObj _ => Raise KeyError
  | _ => Raise TypeError
  end.

(** [len(v)] *)
Definition j_len (v : json) : res nat :=
  match v with
  | JArr l => Ok (length l)
  | JStr s => Ok (length s)
  | JObj d => Ok (length d)
  | _ => Raise TypeError
  end.

(** [for x in v] *)
Definition j_iter (v : json) : res (list json) :=
  match v with
  | JArr l => Ok l
  | JStr s => Ok (map (fun c => JStr [c]) s)
  | JObj d => Ok (map (fun kv => JStr (fst kv)) d)
  | _ => Raise TypeError
  end.

Definition j_is (v : json) (s : str) : bool := match v with JStr t => seqb t s | _ => false end.

(** A polygon as it is read: its coordinates and its properties. *)
Record j_polygon := mk_j_polygon { jp_coordinates : json; jp_props : list (str * json) }.

Section Reading.
  (** str.lower on code points, and the value of a float. *)
  Variable lower_str : str -> str.
  Variable float_of : text -> num.

  (** polygon_file.py 373-395: the body of the loop. *)
  Definition j_polygon_of_feature (f : json) : res j_polygon :=
    raw <- j_get f (key "properties") ;;
    match raw with
    | JObj d =>
        let props := dict_of (map (fun kv => (lower_str (fst kv), snd kv)) d) in
        match dict_get (key "name") props with
        | None => Raise PolygonError
        | Some _ =>
            g <- j_item f (key "geometry") ;;
            t <- j_item g (key "type") ;;
            if negb (j_is t (key "Polygon") || j_is t (key "MultiPolygon")) then Raise PolygonError
            else
              c <- j_item g (key "coordinates") ;;
              n <- j_len c ;;
              if j_is t (key "Polygon") then
                if negb (Nat.eqb n 1) then Raise PolygonError
                else r <- j_first c ;; Ok (mk_j_polygon r props)
              else if Nat.eqb n 1 then
                p <- j_first c ;; r <- j_first p ;; Ok (mk_j_polygon r props)
              else
                p <- j_first c ;;
                m <- j_len p ;;
                if negb (Nat.eqb m 1) then Raise PolygonError
                else r <- j_first p ;; Ok (mk_j_polygon r props)
        end
    | _ => Raise AttributeError
    end.

  (** The number a value is equal to, if it is one. *)
  Definition j_number (v : json) : option num :=
    match v with
    | JInt z => Some (Fin (inject_Z z))
    | JBool b => Some (Fin (if b then 1 else 0))
    | JFloat t => Some (float_of t)
    | _ => None
    end.

  (** bool(v) *)
  Definition j_truthy (v : json) : bool :=
    match v with
    | JNull => false
    | JStr s => match s with [] => false | _ => true end
    | JArr l => match l with [] => false | _ => true end
    | JObj d => match d with [] => false | _ => true end
    | _ => match j_number v with Some (Fin q) => negb (Qeq_bool q 0) | _ => true end
    end.

  Definition j_hashable (v : json) : bool :=
    match v with JArr _ | JObj _ => false | _ => true end.

  (** [a == b] of hashable values: numbers by their value. *)
  Definition j_eqb (a b : json) : bool :=
    match a, b with
    | JNull, JNull => true
    | JStr s, JStr t => seqb s t
    | _, _ => match j_number a, j_number b with
              | Some (Fin x), Some (Fin y) => Qeq_bool x y
              | Some PInf, Some PInf | Some NInf, Some NInf => true
              | _, _ => false
              end
    end.

  Fixpoint j_distinct (l : list json) : bool :=
    match l with
    | [] => true
    | v :: l' => negb (existsb (j_eqb v) l') && j_distinct l'
    end.

  (** polygon_file.py 128-142: the setter of [polygons]. *)
  Definition j_set_polygons (ps : list j_polygon) : res (list j_polygon) :=
    let names := map (fun p => match dict_get (key "name") (jp_props p) with Some v => v | None => JNull end) ps in
    if negb (forallb j_truthy names) then Raise ValueError
    else if negb (forallb j_hashable names) then Raise TypeError
    else if negb (j_distinct names) then Raise ValueError
    else Ok ps.

  (** polygon_file.py 345-397 and 399-405 MultiPolygon.from_file, from the
      text of the file.  [None]: there is no such file. *)
  Definition j_from_file (name : text) (file : option text) : res (list j_polygon) :=
    if negb (teqb (suffix name) (T ".json") || teqb (suffix name) (T ".geojson")) then Raise OSError
    else
      match file with
      | None => Raise FileNotFoundError
      | Some t =>
          match loads t with
          | Raise _ => Raise PolygonError
          | Ok doc =>
              data <- j_get doc (key "features") ;;
              if negb (j_truthy data) then Raise PolygonError
              else
                fs <- j_iter data ;;
                ps <- map_res j_polygon_of_feature fs ;;
                j_set_polygons ps
          end
      end.
End Reading.

(** * The cache as text *)

Section Cache_text.
  (** repr of the time of a file, and the value of such a text: the float of
      [st_mtime] is only written, read and compared. *)
  Variable time_repr : Z -> text.
  Variable time_of : text -> option Z.

  Definition json_of_value (v : value) : json :=
    match v with
    | VNull => JNull
    | VInt z => JInt z
    | VStr t => JStr (codes t)
    | VMany => JArr []
    end.

  (** A label that is read back.  Simplification: a float, a list or an object
      counts as [VMany]. *)
  Definition value_of_json (v : json) : value :=
    match v with
    | JNull => VNull
    | JBool b => VInt (if b then 1 else 0)
    | JInt z => VInt z
    | JStr s => VStr (map ascii_of_N s)
    | JFloat _ | JArr _ | JObj _ => VMany
    end.

  (** polygon_file.py 259-270 _write_cache: the text of the file. *)
  Definition cache_json (m : meta) (faces edges : list value) : json :=
    JObj [(key "meta", JObj [(key "last_modified", JFloat (time_repr (fst m)));
                             (key "file_size", JInt (snd m))]);
          (key "faces", JArr (map json_of_value faces));
          (key "edges", JArr (map json_of_value edges))].
  Definition cache_text (m : meta) (faces edges : list value) : text := dump (cache_json m faces edges).

  (** polygon_file.py 253-257 _load_cache and the comparison of line 209:
      [meta == meta_cache] for a dictionary with these two keys. *)
  Definition same_meta (m : meta) (cached : json) : bool :=
    match cached with
    | JObj d =>
        Nat.eqb (length d) 2 &&
        match dict_get (key "last_modified") d, dict_get (key "file_size") d with
        | Some (JFloat t), Some (JInt z) =>
            match time_of t with Some x => Z.eqb (fst m) x | None => false end && Z.eqb (snd m) z
        | _, _ => false
        end
    | _ => false
    end.

  (** The labels of a cache that are handed on.  Simplification: what is no
      list counts as a list without labels; json.dump never writes it. *)
  Definition labels_of_json (v : json) : list value :=
    match v with JArr l => map value_of_json l | _ => [] end.

  Definition load_cache (t : text) : res (json * (list value * list value)) :=
    doc <- loads t ;;
    m <- j_get doc (key "meta") ;;
    f <- j_get doc (key "faces") ;;
    e <- j_get doc (key "edges") ;;
    Ok (m, (labels_of_json f, labels_of_json e)).

  (** The directory with the texts of the cache files. *)
  Definition directory := text -> option text.
  Definition put_file (name t : text) (d : directory) : directory :=
    fun n => if teqb n name then Some t else d n.

  (** polygon_file.py 174-223 get_gridpoints_in_polygon.  [cut] is the number
      of characters that reach the disk if the call is interrupted while it
      writes; [None]: the call returns. *)
  Definition get_gridpoints_text (cut : option nat) (d : directory) (k : call) :
      directory * res (list value * list value) :=
    let name := cache_name (c_file k) (c_prop k) in
    let recompute (d : directory) :=
      match c_labels k with
      | Ok (f, e) =>
          let t := cache_text (c_meta k) f e in
          (put_file name (match cut with Some n => firstn n t | None => t end) d, Ok (f, e))
      | Raise x => (d, Raise x)
      end in
    match d name with
    | None => recompute d
    | Some t =>
        if c_force k then recompute (fun n => if teqb n name then None else d n)
        else
          match load_cache t with
          | Raise x => (d, Raise x)
          | Ok (m, labels) => if same_meta (c_meta k) m then (d, Ok labels) else recompute d
          end
    end.

  (** A history of calls; an interrupted call hands on nothing. *)
  Fixpoint history_text (d : directory) (es : list (call * option nat)) : list (res (list value * list value)) :=
    match es with
    | [] => []
    | (k, None) :: es' => snd (get_gridpoints_text None d k) :: history_text (fst (get_gridpoints_text None d k)) es'
    | (k, Some n) :: es' => history_text (fst (get_gridpoints_text (Some n) d k)) es'
    end.
End Cache_text.
