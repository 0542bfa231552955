(** Model of how the comparison of 1D and 2D results gets its data
    (fm2prof/utils.py 1150-1553 ModelOutputReader and 1594-1712
    Compare1D2D.__init__, digitize_data): the netCDF files, the csv files in
    the output directory that are written the first time and read after that,
    and the time window on what was read.

    Times are whole microseconds, the resolution of a datetime.  A netCDF
    variable is given by its columns, one for each station, of one value per
    time.  The csv files are modelled by their cells. *)
From Coq Require Import String List Ascii ZArith QArith Bool.
From Verif Require Import PyBase Num Text M_Compare.
Import ListNotations.
Local Open Scope Z_scope.

(** * Times in a csv file *)

Definition second_us : Z := 1000000.
Definition day_us : Z := 86400 * second_us.

(** How DataFrame.to_csv writes a time of the index: only the date, the date
    and the time in seconds, or with a fraction. *)
Inductive token := Date (d : Z) | Second (s : Z) | Fraction (us : Z).

(** All times of an index are written in the same way: pandas leaves out the
    time if all times are midnight and the fraction if all are whole seconds. *)
Definition write_times (ts : list Z) : list token :=
  if forallb (fun t => t mod day_us =? 0) ts then map (fun t => Date (t / day_us)) ts
  else if forallb (fun t => t mod second_us =? 0) ts then map (fun t => Second (t / second_us)) ts
  else map Fraction ts.

(** The index of a table in memory: datetimes or strings *)
Inductive stamps := Moments (ts : list Z) | Words (ws : list token).

Definition seconds_of (ws : list token) : option (list Z) :=
  fold_right (fun w acc => match w, acc with
                           | Second s, Some ts => Some (s * second_us :: ts)
                           | _, _ => None
                           end) (Some []) ws.

(** pd.read_csv with parse_dates=True and date_format="%Y-%m-%d %H:%M:%S"
    (utils.py 1188, 1274-1285): an index of which one entry does not have the
    format is left as strings. *)
Definition read_times (ws : list token) : stamps :=
  match seconds_of ws with Some ts => Moments ts | None => Words ws end.

(** * Tables and files *)

Record frame := mk_frame { f_index : stamps; f_cols : list (text * list num) }.
Record csv := mk_csv { v_index : list token; v_cols : list (text * list num) }.

(** DataFrame.__getitem__ with a label: the first column of that name (the
    names are taken to be different). *)
Fixpoint column_of (cols : list (text * list num)) (name : text) : res (list num) :=
  match cols with
  | [] => Raise KeyError
  | (n, c) :: cols' => if teqb n name then Ok c else column_of cols' name
  end.

(** utils.py 1494-1515: observations.nc, and 1466-1492: the 2D history file *)
Record his1 := mk_his1 {
  o_names : list text; o_times : list Z; o_h : list (list num); o_q : list (list num) }.
Record his2 := mk_his2 {
  t_times : list Z; t_hnames : list text; t_h : list (list num);
  t_qnames : list text; t_q : list (list num) }.

(** utils.py 1171-1175, 1187, 1688-1696: the files in the output directory *)
Record store := mk_store {
  s_1dq : option csv; s_1dh : option csv; s_2dq : option csv; s_2dh : option csv;
  s_map : option (list (text * text * text));
  s_d1 : option (list (text * list num)); s_d2 : option (list (text * list num)) }.
Definition empty_store : store := mk_store None None None None None None None.

(** ** What pandas makes of a csv file *)
Section Pandas.
  (** a number that is written and read again *)
  Variable through : num -> num.
  (** the column names of a header that is written and read again (pandas
      numbers repeated names) *)
  Variable heads : list text -> list text.
  (** a cell of the map file, [None] for a missing value *)
  Variable cell : text -> option text.
  (** a row label of the map file *)
  Variable label : text -> text.

  Definition reread (cols : list (text * list num)) : list (text * list num) :=
    combine (heads (map fst cols)) (map (fun c => map through (snd c)) cols).

  Definition to_csv (ts : list Z) (cols : list (text * list num)) : csv :=
    mk_csv (write_times ts) cols.
  Definition read_csv (c : csv) : frame :=
    mk_frame (read_times (v_index c)) (reread (v_cols c)).

  (** utils.py 1494-1515 _import_1d_observations: water levels and discharges,
      with the index shifted by [offset].  [None] is a path that was not set,
      which is the directory '.'. *)
  Definition import_1d (offset : Z) (src : option his1) : res (list Z * (list (text * list num)) * (list (text * list num))) :=
    match src with
    | None => Raise OSError
    | Some f => Ok (map (fun t => t + offset) (o_times f), combine (o_names f) (o_h f), combine (o_names f) (o_q f))
    end.

  (** utils.py 1264-1293 load_flow1d_data: (levels, discharges) *)
  Definition load_flow1d (offset : Z) (src : option his1) (st : store) : store * res (frame * frame) :=
    match s_1dq st, s_1dh st with
    | Some q, Some h => (st, Ok (read_csv h, read_csv q))
    | _, _ =>
        match import_1d offset src with
        | Raise e => (st, Raise e)
        | Ok (ts, h, q) =>
            (mk_store (Some (to_csv ts q)) (Some (to_csv ts h)) (s_2dq st) (s_2dh st) (s_map st) (s_d1 st) (s_d2 st),
             Ok (mk_frame (Moments ts) h, mk_frame (Moments ts) q))
        end
    end.

  (** utils.py 1336-1344 get_1d2d_map, 1530-1553: the names of the 2D file are
      matched with the columns of the 1D water levels. *)
  Definition get_map (stations : list text) (src : option his2) (st : store) : store * res unit :=
    match s_map st with
    | Some _ => (st, Ok tt)
    | None =>
        match src with
        | None => (st, Raise OSError)
        | Some f =>
            (mk_store (s_1dq st) (s_1dh st) (s_2dq st) (s_2dh st)
               (Some (map_1d2d stations (t_hnames f) (t_qnames f))) (s_d1 st) (s_d2 st), Ok tt)
        end
    end.

  (** utils.py 1481-1490: a column for each row of the map; a station without
      match keeps the missing values of the new table. *)
  Definition matched (names : list text) (columns : list (list num)) (rows : nat)
      (station_map : list (text * text)) : list (text * list num) :=
    map (fun e => (label (fst e), match snd e with Some c => c | None => repeat NaN rows end))
        (import_2d cell names columns station_map).

  Definition table_q (f : his2) (m : list (text * text * text)) : csv :=
    to_csv (t_times f) (matched (t_qnames f) (t_q f) (length (t_times f)) (map (fun r => (fst (fst r), snd r)) m)).
  Definition table_h (f : his2) (m : list (text * text * text)) : csv :=
    to_csv (t_times f) (matched (t_hnames f) (t_h f) (length (t_times f)) (map (fun r => fst r) m)).

  (** utils.py 1466-1492 _import_2d_observations: the discharges are written
      first; the file and the map are there or not for both. *)
  Definition import_2d_observations (src : option his2) (st : store) : store * res unit :=
    match src with
    | None => (st, Raise OSError)
    | Some f =>
        match s_map st with
        | None => (st, Raise FileNotFoundError)
        | Some m =>
            (mk_store (s_1dq st) (s_1dh st) (Some (table_q f m)) (Some (table_h f m)) (s_map st) (s_d1 st) (s_d2 st), Ok tt)
        end
    end.

  Definition read_2d (st : store) : res (frame * frame) :=
    match s_2dq st, s_2dh st with
    | Some q, Some h => Ok (read_csv h, read_csv q)
    | _, _ => Raise FileNotFoundError
    end.

  (** utils.py 1295-1334 load_flow2d_data: (levels, discharges) *)
  Definition load_flow2d (src : option his2) (st : store) : store * res (frame * frame) :=
    match s_2dq st, s_2dh st with
    | Some _, Some _ => (st, read_2d st)
    | _, _ =>
        let (st1, r) := import_2d_observations src st in
        (st1, _ <- r ;; read_2d st1)
    end.

  (** utils.py 1719-1731 _digitize_data *)
  Definition digitize_data (h q : frame) (bins : list num) : res (list (text * list num)) :=
    map_res (fun c =>
               qs <- column_of (f_cols q) (fst c) ;;
               r <- digitize_station (snd c) qs bins ;;
               Ok (fst c, r)) (f_cols h).

  (** utils.py 1698-1712 digitize_data, once for 1D and once for 2D: the file
      if it is there, else computed and written *)
  Definition digitized (old : option (list (text * list num))) (h q : frame)
    : option (list (text * list num)) * res (list (text * list num)) :=
    match old with
    | Some d => (old, Ok (reread d))
    | None =>
        match digitize_data h q qsteps with
        | Ok d => (Some d, Ok d)
        | Raise e => (None, Raise e)
        end
    end.

  Record compared := mk_compared {
    c_1dh : frame; c_1dq : frame; c_2dh : frame; c_2dq : frame;
    c_d1 : list (text * list num); c_d2 : list (text * list num) }.

  (** utils.py 1346-1350 read_all_data and 1698-1712 digitize_data.  The
      attribute time_offset_1d is 0 when the constructor reads the data
      (1208, 1644). *)
  Definition read_all (src1 : option his1) (src2 : option his2) (st : store) : store * res compared :=
    match load_flow1d 0 src1 st with
    | (st1, Raise e) => (st1, Raise e)
    | (st1, Ok (h1, q1)) =>
        match get_map (map fst (f_cols h1)) src2 st1 with
        | (st2, Raise e) => (st2, Raise e)
        | (st2, Ok _) =>
            match load_flow2d src2 st2 with
            | (st3, Raise e) => (st3, Raise e)
            | (st3, Ok (h2, q2)) =>
                let (d1, r1) := digitized (s_d1 st3) h1 q1 in
                let st4 := mk_store (s_1dq st3) (s_1dh st3) (s_2dq st3) (s_2dh st3) (s_map st3) d1 (s_d2 st3) in
                match r1 with
                | Raise e => (st4, Raise e)
                | Ok x1 =>
                    let (d2, r2) := digitized (s_d2 st4) h2 q2 in
                    let st5 := mk_store (s_1dq st4) (s_1dh st4) (s_2dq st4) (s_2dh st4) (s_map st4) (s_d1 st4) d2 in
                    match r2 with
                    | Raise e => (st5, Raise e)
                    | Ok x2 => (st5, Ok (mk_compared h1 q1 h2 q2 x1 x2))
                    end
                end
            end
        end
    end.

  (** utils.py 1611-1624: which of the two paths the object uses.  An argument
      is missing, a path that is no file, or a file.  The type of [path_1d] is
      tested for both; Path(None) is a TypeError. *)
  Inductive argument (F : Type) := NotGiven | NoFile | File (f : F).
  Arguments NotGiven {F}.
  Arguments NoFile {F}.
  Arguments File {F} f.

  Definition sources (a1 : argument his1) (a2 : argument his2) : res (option his1 * option his2) :=
    let p1 := match a1 with File f => Some f | _ => None end in
    match a1, a2 with
    | NotGiven, _ => Ok (p1, None)
    | _, NotGiven => Raise TypeError
    | _, NoFile => Ok (p1, None)
    | _, File f => Ok (p1, Some f)
    end.

  (** utils.py 1594-1645 Compare1D2D.__init__ *)
  Definition compare_1d2d (a1 : argument his1) (a2 : argument his2) (st : store) : store * res compared :=
    match sources a1 a2 with
    | Raise e => (st, Raise e)
    | Ok (p1, p2) => read_all p1 p2 st
    end.
End Pandas.
Arguments NotGiven {F}.
Arguments NoFile {F}.
Arguments File {F} f.

(** * Time window *)

(** utils.py 1400-1418, 1424-1461: the rows of one column of a table within the
    window.  The setters ignore a label that is a string, and a datetime can
    not be compared with None or with a string. *)
Definition access (w : window) (index : stamps) (col : list num) : window * res (list (Z * num)) :=
  match index with
  | Moments ts => apply_startstop_time w (combine ts col)
  | Words [] => (w, match w_stop w, w_start w with
                    | None, _ => Raise IndexError
                    | Some _, None => Raise IndexError
                    | Some b, Some a => if b <=? a then Raise ValueError else Raise IndexError
                    end)
  | Words _ => (w, match w_stop w, w_start w with
                   | Some b, Some a => if b <=? a then Raise ValueError else Raise TypeError
                   | _, _ => Raise TypeError
                   end)
  end.
