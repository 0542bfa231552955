(** Model of the log: common.py TqdmLoggingHandler (27-45), ElapsedFormatter
    (48-157), ElapsedFileFormatter (160-175), FM2ProfBase.create_logger (203-222),
    set_logger_message (243-282), start_new_log_task (284-295), finish_log_task
    (297-304), set_logfile (314-330), and of Fm2ProfRunner._print_log_report
    (fm2prof_runner.py 958-961).

    [logging.getLogger(__name__)] returns one logger per process; the model
    therefore has one logger shared by all projects.  Formatters are objects
    that logger and handlers refer to: they live in a list and are referred to by
    position.  Clock readings, colours and progress bars are left out; a line
    keeps its kind, its level and its message.  Exceptions raised while a handler
    formats a record are swallowed by [Handler.handleError], so the handler then
    writes nothing. *)
From Coq Require Import String List Ascii ZArith Bool.
From Verif Require Import PyBase Text.
Import ListNotations.
Local Open Scope char_scope.

Inductive level := Info | Debug | Warning | Error | Critical.
Inductive line := LIntro (m : text) | LHeader (m : text) | LFooter | LMessage (l : level) (m : text).

(** An ElapsedFormatter: the attribute [_intro] is only created by [set_intro];
    [f_new] is [__new_iteration]; the counters are [_loglibrary]; a file formatter
    has no colour for CRITICAL. *)
Record formatter := mk_formatter {
  f_intro : option bool; f_new : Z; f_warnings : nat; f_errors : nat; f_is_file : bool }.
Definition new_formatter (is_file : bool) : formatter := mk_formatter None 1 0 0 is_file.

(** common.py 135-143 *)
Definition new_task (f : formatter) : formatter :=
  mk_formatter (f_intro f) 1 (f_warnings f) (f_errors f) (f_is_file f).
Definition finish_task (f : formatter) : formatter :=
  mk_formatter (f_intro f) (-1) (f_warnings f) (f_errors f) (f_is_file f).
(** common.py 151-153 *)
Definition set_intro (b : bool) (f : formatter) : formatter :=
  mk_formatter (Some b) (f_new f) (f_warnings f) (f_errors f) (f_is_file f).
Definition step_iteration (f : formatter) : formatter :=
  mk_formatter (f_intro f) (f_new f - 1) (f_warnings f) (f_errors f) (f_is_file f).
Definition count (l : level) (f : formatter) : formatter :=
  mk_formatter (f_intro f) (f_new f)
    (match l with Warning => S (f_warnings f) | _ => f_warnings f end)
    (match l with Error => S (f_errors f) | _ => f_errors f end) (f_is_file f).

(** common.py 86-124 format *)
Definition format (f : formatter) (l : level) (m : text) : formatter * res line :=
  match f_intro f with
  | None => (f, Raise AttributeError)
  | Some true => (f, Ok (LIntro m))
  | Some false =>
      if (0 <? f_new f)%Z then (step_iteration f, Ok (LHeader m))
      else if (f_new f =? -1)%Z then (step_iteration f, Ok LFooter)
      else (count l f,
            match l with
            | Critical => if f_is_file f then Raise KeyError else Ok (LMessage l m)
            | _ => Ok (LMessage l m)
            end)
  end.

Inductive sink := Console | LogFile (p : text).
Record logger := mk_logger {
  lg_formatters : list formatter;
  lg_handlers : list (sink * nat);      (* where to, and the handler's formatter *)
  lg_console : nat;                     (* logger.__logformatter *)
  lg_file : nat }.                      (* logger._Filelogformatter *)
Definition no_logger : logger := mk_logger [] [] 0 0.

Definition the_formatter (lg : logger) (n : nat) : formatter := nth n (lg_formatters lg) (new_formatter false).
Definition with_formatter (lg : logger) (n : nat) (g : formatter -> formatter) : logger :=
  mk_logger (firstn n (lg_formatters lg) ++ [g (the_formatter lg n)] ++ skipn (S n) (lg_formatters lg))
    (lg_handlers lg) (lg_console lg) (lg_file lg).

Definition is_console (h : sink * nat) : bool := match fst h with Console => true | LogFile _ => false end.

(** common.py 203-222 create_logger *)
Definition create_logger (lg : logger) : logger :=
  let n := length (lg_formatters lg) in
  mk_logger (lg_formatters lg ++ [new_formatter false; new_formatter true])
    (if existsb is_console (lg_handlers lg) then lg_handlers lg else lg_handlers lg ++ [(Console, n)])
    n (S n).

(** common.py 314-330 set_logfile *)
Definition set_logfile (p : text) (lg : logger) : logger :=
  mk_logger (lg_formatters lg) (lg_handlers lg ++ [(LogFile p, lg_file lg)]) (lg_console lg) (lg_file lg).

(** One record passes all handlers in order. *)
Fixpoint emit (hs : list (sink * nat)) (lg : logger) (l : level) (m : text) : logger * list (sink * line) :=
  match hs with
  | [] => (lg, [])
  | (s, n) :: hs' =>
      let r := format (the_formatter lg n) l m in
      let r' := emit hs' (with_formatter lg n (fun _ => fst r)) l m in
      (fst r', match snd r with Ok x => (s, x) :: snd r' | Raise _ => snd r' end)
  end.

Definition level_of (t : text) : option level :=
  let t := lower t in
  if teqb t (T "info") then Some Info else if teqb t (T "debug") then Some Debug
  else if teqb t (T "warning") then Some Warning else if teqb t (T "error") then Some Error
  else if teqb t (T "critical") then Some Critical else None.

(** common.py 243-282 set_logger_message; the last component is the exception. *)
Definition set_logger_message (lg : logger) (m lv : text) (header : bool)
  : logger * list (sink * line) * res unit :=
  let lg1 := with_formatter lg (lg_console lg) (set_intro header) in
  let lg2 := with_formatter lg1 (lg_file lg1) (set_intro header) in
  match level_of lv with
  | None => (lg2, [], Raise ValueError)
  | Some l => let r := emit (lg_handlers lg2) lg2 l m in (fst r, snd r, Ok tt)
  end.

(** common.py 284-304 *)
Definition start_new_log_task (lg : logger) (name : text) :=
  let lg1 := with_formatter lg (lg_console lg) new_task in
  let lg2 := with_formatter lg1 (lg_file lg1) new_task in
  set_logger_message lg2 (T "Starting new task: " ++ name) (T "info") false.
Definition finish_log_task (lg : logger) :=
  set_logger_message (with_formatter lg (lg_console lg) finish_task) [] (T "info") false.

(** fm2prof_runner.py 958-961: the numbers the report prints. *)
Definition report (lg : logger) : nat * nat :=
  let f := the_formatter lg (lg_console lg) in (f_warnings f, f_errors f).

(** Calls of the log methods in the order they are made. *)
Inductive op := Msg (header : bool) (lv m : text) | Start (name : text) | Finish | SetLogfile (p : text).
Definition step (lg : logger) (o : op) : logger * list (sink * line) :=
  match o with
  | Msg h lv m => fst (set_logger_message lg m lv h)
  | Start name => fst (start_new_log_task lg name)
  | Finish => fst (finish_log_task lg)
  | SetLogfile p => (set_logfile p lg, [])
  end.
Fixpoint run (lg : logger) (ops : list op) : logger * list (sink * line) :=
  match ops with
  | [] => (lg, [])
  | o :: ops' => let r := step lg o in let r' := run (fst r) ops' in (fst r', snd r ++ snd r')
  end.
(** The lines that arrive at one place. *)
Definition sink_eqb (a b : sink) : bool :=
  match a, b with Console, Console => true | LogFile p, LogFile q => teqb p q | _, _ => false end.
Definition lines_at (s : sink) (out : list (sink * line)) : list line :=
  map snd (filter (fun x => sink_eqb s (fst x)) out).
