(** Theorems for C49 and C50: the log and its report. *)
From Coq Require Import String List Ascii ZArith Bool Lia.
From Verif Require Import PyBase Text L_Text M_Log.
Import ListNotations.
Local Open Scope char_scope.

(** ** What the console and the log file are expected to show *)

Definition plain_op (o : op) : Prop := match o with SetLogfile _ => False | _ => True end.

(** The line a call puts on the console. *)
Definition console_line (o : op) : list line :=
  match o with
  | Msg h lv m => match level_of lv with
                  | None => []
                  | Some l => [if h then LIntro m else LMessage l m]
                  end
  | Start name => [LHeader (T "Starting new task: " ++ name)]
  | Finish => [LFooter]
  | SetLogfile _ => []
  end.

(** The lines in the log file; [pending] tells that the file formatter still has a header to
    write, because a task was started before the file was attached. *)
Fixpoint file_lines_of (pending : bool) (ops : list op) : list line :=
  match ops with
  | [] => []
  | Msg h lv m :: ops' =>
      match level_of lv with
      | None => file_lines_of pending ops'
      | Some l => if h then LIntro m :: file_lines_of pending ops'
                  else if pending then LHeader m :: file_lines_of false ops'
                  else match l with
                       | Critical => file_lines_of false ops'
                       | _ => LMessage l m :: file_lines_of false ops'
                       end
      end
  | Start name :: ops' => LHeader (T "Starting new task: " ++ name) :: file_lines_of false ops'
  | Finish :: ops' => (if pending then LHeader [] else LMessage Info []) :: file_lines_of false ops'
  | SetLogfile _ :: ops' => file_lines_of pending ops'
  end.

Definition is_level (l : level) (o : op) : bool :=
  match o with
  | Msg false lv _ => match level_of lv, l with
                      | Some Warning, Warning | Some Error, Error => true
                      | _, _ => false
                      end
  | _ => false
  end.
Definition number (l : level) (ops : list op) : nat := length (filter (is_level l) ops).

(** ** One project *)

(** The logger of the only project of a process, without and with its log file. *)
Definition state0 (c f : formatter) : logger := mk_logger [c; f] [(Console, 0)] 0 1.
Definition state1 (p : text) (c f : formatter) : logger := mk_logger [c; f] [(Console, 0); (LogFile p, 1)] 0 1.

(** The console formatter between calls. *)
Definition settled (f : formatter) : Prop := ((f_new f <= 0)%Z /\ f_new f <> (-1)%Z) /\ f_is_file f = false.

Lemma settled_header f : settled f -> (0 <? f_new f)%Z = false /\ (f_new f =? -1)%Z = false.
Proof. intros [[A B] _]. split; [apply Z.ltb_ge; auto|apply Z.eqb_neq; auto]. Qed.

Definition counted (f : formatter) (ops : list op) : nat * nat :=
  (f_warnings f + number Warning ops, f_errors f + number Error ops)%nat.

Lemma step0 c f o : settled c -> plain_op o -> exists c' f',
  step (state0 c f) o = (state0 c' f', map (pair Console) (console_line o)) /\ settled c' /\
  f_is_file f' = f_is_file f /\
  f_new f' = (match o with Start _ => 1%Z | _ => f_new f end) /\
  f_warnings c' = (f_warnings c + number Warning [o])%nat /\ f_errors c' = (f_errors c + number Error [o])%nat.
Proof.
  intros S P. destruct (settled_header c S) as [E1 E2]. destruct S as [[S1 S2] S3].
  destruct o as [h lv m|name| |p]; [| | |destruct P]; unfold number.
  - unfold step, set_logger_message, console_line.
    destruct (level_of lv) as [l|] eqn:El.
    + destruct h.
      * eexists. eexists. split; [reflexivity|]. cbn. repeat split; auto; lia.
      * unfold emit, state0. cbn -[Z.ltb Z.eqb]. unfold format. cbn -[Z.ltb Z.eqb]. rewrite E1, E2.
        cbn -[Z.ltb Z.eqb]. rewrite El, S3. exists (count l (set_intro false c)), (set_intro false f). split.
        { destruct l; reflexivity. }
        split; [unfold settled; auto|]. cbn. rewrite ?El. destruct l; cbn; repeat split; lia.
    + eexists. eexists. split; [reflexivity|]. cbn -[Z.ltb]. rewrite El. repeat split; auto; destruct h; cbn; lia.
  - eexists. eexists. split; [reflexivity|]. unfold settled; cbn; repeat split; auto; lia.
  - eexists. eexists. split; [reflexivity|]. unfold settled; cbn; repeat split; auto; lia.
Qed.

Lemma step1 p c f o : settled c -> plain_op o -> f_is_file f = true -> (f_new f = 1 \/ f_new f = 0)%Z -> exists c' f',
  (let r := step (state1 p c f) o in
   fst r = state1 p c' f' /\ lines_at Console (snd r) = console_line o /\
   forall rest, lines_at (LogFile p) (snd r) ++ file_lines_of (f_new f' =? 1)%Z rest = file_lines_of (f_new f =? 1)%Z (o :: rest)) /\
  settled c' /\ f_is_file f' = true /\ (f_new f' = 1 \/ f_new f' = 0)%Z /\
  f_warnings c' = (f_warnings c + number Warning [o])%nat /\ f_errors c' = (f_errors c + number Error [o])%nat.
Proof.
  intros S P Ff Fn. destruct (settled_header c S) as [E1 E2]. destruct S as [[S1 S2] S3].
  destruct o as [h lv m|name| |q]; [| | |destruct P]; unfold number.
  - unfold step, set_logger_message, console_line, lines_at.
    destruct (level_of lv) as [l|] eqn:El.
    + destruct h.
      * exists (set_intro true c), (set_intro true f). cbn. rewrite teqb_refl, El. unfold settled. cbn. repeat split; auto; lia.
      * unfold emit, state1. cbn -[Z.ltb Z.eqb]. unfold format. cbn -[Z.ltb Z.eqb]. rewrite E1, E2.
        exists (count l (set_intro false c)).
        destruct Fn as [Fn|Fn]; rewrite Fn.
        -- exists (step_iteration (set_intro false f)). cbn -[Z.ltb Z.eqb]. rewrite !El, S3, Fn.
           destruct l; cbn; rewrite ?teqb_refl; unfold settled; cbn; repeat split; auto; lia.
        -- exists (count l (set_intro false f)). cbn -[Z.ltb Z.eqb]. rewrite !El, S3, Fn, Ff.
           destruct l; cbn; rewrite ?teqb_refl, ?Fn; unfold settled; cbn; repeat split; auto; lia.
    + exists (set_intro h c), (set_intro h f). cbn -[Z.eqb]. rewrite El.
      repeat split; auto; destruct h; cbn; lia.
  - unfold step, start_new_log_task, set_logger_message, lines_at.
    change (level_of (T "info")) with (Some Info). exists (step_iteration (set_intro false (new_task c))), (step_iteration (set_intro false (new_task f))).
    unfold settled. cbn. rewrite ?teqb_refl. unfold settled. cbn. repeat split; auto; lia.
  - unfold step, finish_log_task, set_logger_message, lines_at.
    change (level_of (T "info")) with (Some Info). exists (step_iteration (set_intro false (finish_task c))).
    destruct Fn as [Fn|Fn].
    + exists (step_iteration (set_intro false f)). unfold state1. cbn -[Z.ltb Z.eqb]. unfold format. cbn -[Z.ltb Z.eqb]. rewrite Fn. cbn.
      rewrite ?teqb_refl, ?Fn. unfold settled. cbn. repeat split; auto; lia.
    + exists (count Info (set_intro false f)). unfold state1. cbn -[Z.ltb Z.eqb]. unfold format. cbn -[Z.ltb Z.eqb]. rewrite Fn. cbn.
      rewrite ?teqb_refl, ?Fn. unfold settled. cbn. repeat split; auto; lia.
Qed.

Lemma number_cons l o ops : number l (o :: ops) = (number l [o] + number l ops)%nat.
Proof. unfold number. cbn [filter]. destruct (is_level l o); reflexivity. Qed.
Lemma number_app l a b : number l (a ++ b) = (number l a + number l b)%nat.
Proof. unfold number. rewrite filter_app, app_length. reflexivity. Qed.

Lemma run0 ops : Forall plain_op ops -> forall c f, settled c -> f_new f = 1%Z -> exists c' f',
  run (state0 c f) ops = (state0 c' f', map (pair Console) (flat_map console_line ops)) /\ settled c' /\
  f_is_file f' = f_is_file f /\ f_new f' = 1%Z /\
  f_warnings c' = (f_warnings c + number Warning ops)%nat /\ f_errors c' = (f_errors c + number Error ops)%nat.
Proof.
  induction 1 as [|o ops P F IH]; intros c f S N.
  - exists c, f. cbn. repeat split; try apply S; auto.
  - destruct (step0 c f o S P) as (c1 & f1 & E & S1 & I1 & N1 & W1 & X1).
    destruct (IH c1 f1 S1) as (c2 & f2 & E' & S2 & I2 & N2 & W2 & X2).
    { rewrite N1. destruct o; auto. }
    exists c2, f2. cbn [run]. rewrite E. cbn [fst snd]. rewrite E'. cbn [fst snd flat_map].
    rewrite <- map_app, (number_cons Warning), (number_cons Error). repeat split; try apply S2; try congruence; lia.
Qed.

Lemma lines_at_app s a b : lines_at s (a ++ b) = lines_at s a ++ lines_at s b.
Proof. unfold lines_at. rewrite filter_app, map_app. reflexivity. Qed.
Lemma lines_at_console l : lines_at Console (map (pair Console) l) = l.
Proof. unfold lines_at. induction l as [|x l IH]; [reflexivity|]. cbn. f_equal. exact IH. Qed.
Lemma lines_at_none p l : lines_at (LogFile p) (map (pair Console) l) = [].
Proof. unfold lines_at. induction l as [|x l IH]; cbn; auto. Qed.

Lemma run1 p ops : Forall plain_op ops -> forall c f, settled c -> f_is_file f = true ->
  (f_new f = 1 \/ f_new f = 0)%Z -> exists c' f',
  let r := run (state1 p c f) ops in
  fst r = state1 p c' f' /\ lines_at Console (snd r) = flat_map console_line ops /\
  lines_at (LogFile p) (snd r) = file_lines_of (f_new f =? 1)%Z ops /\
  f_warnings c' = (f_warnings c + number Warning ops)%nat /\ f_errors c' = (f_errors c + number Error ops)%nat.
Proof.
  induction 1 as [|o ops P F IH]; intros c f S Ff N.
  - exists c, f. cbn. repeat split; auto.
  - destruct (step1 p c f o S P Ff N) as (c1 & f1 & (E & C1 & L1) & S1 & I1 & N1 & W1 & X1).
    destruct (IH c1 f1 S1 I1 N1) as (c2 & f2 & E2 & C2 & L2 & W2 & X2).
    exists c2, f2. cbn [run]. cbv zeta in *. rewrite E. cbn [fst snd flat_map].
    rewrite !lines_at_app, C1, C2, L2, (number_cons Warning), (number_cons Error). repeat split; auto; lia.
Qed.

Lemma run_app a : forall lg b, run lg (a ++ b) = (fst (run (fst (run lg a)) b), snd (run lg a) ++ snd (run (fst (run lg a)) b)).
Proof.
  induction a as [|o a IH]; intros lg b; cbn [app run].
  - cbn. destruct (run lg b); reflexivity.
  - rewrite IH. cbn [fst snd]. rewrite app_assoc. reflexivity.
Qed.

(** The log of a process with one project: it starts a task, may log before the
    log file is attached, and logs after that. *)
Theorem C49_log_of_a_project : forall name p before after, Forall plain_op before -> Forall plain_op after ->
  let calls := Start name :: before ++ SetLogfile p :: after in
  let r := run (create_logger no_logger) calls in
  report (fst r) = (number Warning calls, number Error calls) /\
  lines_at Console (snd r) = flat_map console_line calls /\
  lines_at (LogFile p) (snd r) = file_lines_of true after.
Proof.
  intros name p before after Fb Fa. cbv zeta.
  change (create_logger no_logger) with (state0 (new_formatter false) (new_formatter true)).
  cbn [run].
  set (c0 := mk_formatter (Some false) 0 0 0 false). set (f0 := mk_formatter (Some false) 1 0 0 true).
  assert (E0 : step (state0 (new_formatter false) (new_formatter true)) (Start name) =
    (state0 c0 f0, [(Console, LHeader (T "Starting new task: " ++ name))])) by reflexivity.
  rewrite E0. cbn [fst snd]. rewrite run_app.
  destruct (run0 before Fb c0 f0) as (c1 & f1 & E1 & S1 & I1 & N1 & W1 & X1); [repeat split; cbn; lia|reflexivity|].
  rewrite E1. cbn [fst snd run]. change (step (state0 c1 f1) (SetLogfile p)) with (state1 p c1 f1, @nil (sink * line)).
  cbn [fst snd].
  destruct (run1 p after Fa c1 f1 S1) as (c2 & f2 & E2 & C2 & L2 & W2 & X2); [rewrite I1; reflexivity|left; auto|].
  cbv zeta in E2. rewrite E2.
  rewrite (number_cons Warning), (number_cons Error), (number_app Warning), (number_app Error),
    (number_cons Warning (SetLogfile p)), (number_cons Error (SetLogfile p)).
  split; [unfold report; cbn; rewrite W2, X2, W1, X1; f_equal; cbn; lia|].
  rewrite !app_nil_l. cbn [app flat_map]. rewrite flat_map_app. cbn [flat_map console_line app].
  change ((Console, LHeader (T "Starting new task: " ++ name)) :: ?l) with
    (map (pair Console) [LHeader (T "Starting new task: " ++ name)] ++ l).
  rewrite !lines_at_app, !lines_at_console, !lines_at_none, C2, L2, N1. auto.
Qed.
Print Assumptions C49_log_of_a_project.

(** On the console: one header per started task and one footer per finished task. *)
Definition is_header (l : line) : bool := match l with LHeader _ => true | _ => false end.
Definition is_footer (l : line) : bool := match l with LFooter => true | _ => false end.
Definition is_start (o : op) : bool := match o with Start _ => true | _ => false end.
Definition is_finish (o : op) : bool := match o with Finish => true | _ => false end.
Theorem C49_headers_and_footers : forall name p before after, Forall plain_op before -> Forall plain_op after ->
  let calls := Start name :: before ++ SetLogfile p :: after in
  let lines := lines_at Console (snd (run (create_logger no_logger) calls)) in
  length (filter is_header lines) = length (filter is_start calls) /\
  length (filter is_footer lines) = length (filter is_finish calls).
Proof.
  intros name p before after Fb Fa. cbv zeta.
  destruct (C49_log_of_a_project name p before after Fb Fa) as (_ & E & _). cbv zeta in E. rewrite E. clear E.
  generalize (Start name :: before ++ SetLogfile p :: after) as ops.
  induction ops as [|o ops [IH1 IH2]]; [auto|]. cbn [flat_map]. rewrite !filter_app, !app_length, IH1, IH2.
  destruct o as [h lv m|n| |q]; cbn; auto. destruct (level_of lv); [destruct h|]; cbn; auto.
Qed.
Print Assumptions C49_headers_and_footers.

(** The log file never shows the end of a task. *)
Theorem C49_file_footers_refuted : forall name p before after, Forall plain_op before -> Forall plain_op after ->
  ~ In LFooter (lines_at (LogFile p) (snd (run (create_logger no_logger) (Start name :: before ++ SetLogfile p :: after)))).
Proof.
  intros name p before after Fb Fa. destruct (C49_log_of_a_project name p before after Fb Fa) as (_ & _ & E).
  cbv zeta in E. rewrite E. clear. generalize true as b. induction after as [|o ops IH]; intros b I; [destruct I|].
  destruct o as [h lv m|n| |q]; cbn [file_lines_of] in I.
  - destruct (level_of lv) as [l|]; [|eapply IH; eauto]. destruct h; [destruct I as [I|I]; [discriminate|eapply IH; eauto]|].
    destruct b; [destruct I as [I|I]; [discriminate|eapply IH; eauto]|].
    destruct l; try (destruct I as [I|I]; [discriminate|eapply IH; eauto]). eapply IH; eauto.
  - destruct I as [I|I]; [discriminate|eapply IH; eauto].
  - destruct I as [I|I]; [destruct b; discriminate|eapply IH; eauto].
  - eapply IH; eauto.
Qed.
Print Assumptions C49_file_footers_refuted.

Example C49_example :
  let r := run (create_logger no_logger)
    [Start (T "Load"); Msg false (T "Warning") (T "w"); SetLogfile (T "log"); Finish; Msg true (T "info") (T "version");
     Msg false (T "error") (T "e")] in
  report (fst r) = (1, 1)%nat /\
  lines_at Console (snd r) = [LHeader (T "Starting new task: Load"); LMessage Warning (T "w"); LFooter; LIntro (T "version");
                              LMessage Error (T "e")] /\
  lines_at (LogFile (T "log")) (snd r) = [LHeader []; LIntro (T "version"); LMessage Error (T "e")].
Proof. vm_compute. auto. Qed.

(** ** Two projects in one process *)

(** The logger after the second project is created, however long the first one logged. *)
Definition state2 (p q : text) (c f c' f' : formatter) : logger :=
  mk_logger [c; f; c'; f'] [(Console, 0); (LogFile p, 1); (LogFile q, 3)] 2 3.


(** Calls from now on: nothing writes through the formatters 2. *)
Lemma step2 p q c f c' f' o : plain_op o -> exists c1 f1 c2 f2,
  fst (step (state2 p q c f c' f') o) = state2 p q c1 f1 c2 f2 /\
  f_warnings c2 = f_warnings c' /\ f_errors c2 = f_errors c' /\
  f_intro c1 = f_intro c /\ f_intro f1 = f_intro f.
Proof.
  assert (K : forall l m (b : bool) c f c2 f2, f_intro f2 = Some b -> exists c1 f1 f3,
    fst (emit [(Console, 0); (LogFile p, 1); (LogFile q, 3)] (state2 p q c f c2 f2) l m) = state2 p q c1 f1 c2 f3 /\
    f_intro c1 = f_intro c /\ f_intro f1 = f_intro f).
  { clear. intros l m b c f c2 f2 H. unfold emit, state2. cbn -[format].
    do 3 eexists. split; [reflexivity|].
    assert (I : forall x, f_intro (fst (format x l m)) = f_intro x).
    { intro x. unfold format. destruct (f_intro x) as [[|]|] eqn:E; cbn -[Z.ltb Z.eqb]; auto.
      destruct (0 <? f_new x)%Z; cbn -[Z.eqb]; auto. destruct (f_new x =? -1)%Z; cbn; auto. }
    auto. }
  intro P. destruct o as [h lv m|name| |r]; [| | |destruct P].
  - unfold step, set_logger_message. destruct (level_of lv) as [l|].
    + destruct (K l m h c f (set_intro h c') (set_intro h f') eq_refl) as (c1 & f1 & f3 & E & I1 & I2).
      exists c1, f1, (set_intro h c'), f3. split; [exact E|]. auto.
    + exists c, f, (set_intro h c'), (set_intro h f'). auto.
  - destruct (K Info (T "Starting new task: " ++ name) false c f (set_intro false (new_task c')) (set_intro false (new_task f')) eq_refl)
      as (c1 & f1 & f3 & E & I1 & I2).
    exists c1, f1, (set_intro false (new_task c')), f3. split; [exact E|]. auto.
  - destruct (K Info [] false c f (set_intro false (finish_task c')) (set_intro false f') eq_refl)
      as (c1 & f1 & f3 & E & I1 & I2).
    exists c1, f1, (set_intro false (finish_task c')), f3. split; [exact E|]. auto.
Qed.

Lemma run2 p q ops : Forall plain_op ops -> forall c f c' f', exists c1 f1 c2 f2,
  fst (run (state2 p q c f c' f') ops) = state2 p q c1 f1 c2 f2 /\
  f_warnings c2 = f_warnings c' /\ f_errors c2 = f_errors c' /\
  f_intro c1 = f_intro c /\ f_intro f1 = f_intro f.
Proof.
  induction 1 as [|o ops P F IH]; intros c f c' f'.
  - exists c, f, c', f'. auto.
  - destruct (step2 p q c f c' f' o P) as (c1 & f1 & c2 & f2 & E & W & X & I1 & I2).
    destruct (IH c1 f1 c2 f2) as (c3 & f3 & c4 & f4 & E' & W' & X' & I1' & I2').
    exists c3, f3, c4, f4. cbn [run fst]. rewrite E, E'. repeat split; congruence.
Qed.

(** The state of the only project. *)
Lemma one_project name p before after : Forall plain_op before -> Forall plain_op after -> exists c f,
  fst (run (create_logger no_logger) (Start name :: before ++ SetLogfile p :: after)) = state1 p c f.
Proof.
  intros Fb Fa. change (create_logger no_logger) with (state0 (new_formatter false) (new_formatter true)). cbn [run].
  set (c0 := mk_formatter (Some false) 0 0 0 false). set (f0 := mk_formatter (Some false) 1 0 0 true).
  assert (E0 : step (state0 (new_formatter false) (new_formatter true)) (Start name) =
    (state0 c0 f0, [(Console, LHeader (T "Starting new task: " ++ name))])) by reflexivity.
  rewrite E0. cbn [fst snd]. rewrite run_app.
  destruct (run0 before Fb c0 f0) as (c1 & f1 & E1 & S1 & I1 & N1 & W1 & X1); [repeat split; cbn; lia|reflexivity|].
  rewrite E1. cbn [fst snd run]. change (step (state0 c1 f1) (SetLogfile p)) with (state1 p c1 f1, @nil (sink * line)).
  cbn [fst snd].
  destruct (run1 p after Fa c1 f1 S1) as (c2 & f2 & E2 & _); [rewrite I1; reflexivity|left; auto|].
  exists c2, f2. exact E2.
Qed.

Lemma second_project p q name c f : exists c1 f1 c2 f2,
  fst (run (create_logger (state1 p c f)) [Start name; SetLogfile q]) = state2 p q c1 f1 c2 f2 /\
  f_warnings c2 = 0%nat /\ f_errors c2 = 0%nat.
Proof.
  unfold create_logger, state1. cbn [existsb is_console fst orb length lg_formatters lg_handlers app].
  cbn [run fst step]. unfold start_new_log_task, set_logger_message.
  change (level_of (T "info")) with (Some Info). unfold emit, set_logfile, with_formatter, the_formatter.
  cbn -[format]. do 4 eexists. split; [reflexivity|]. auto.
Qed.

(** After a second project has been created in the same process, the report of either project
    shows no warnings and no errors, however many are logged. *)
Theorem C50_report_refuted : forall name p before after name2 q calls,
  Forall plain_op before -> Forall plain_op after -> Forall plain_op calls ->
  let first := fst (run (create_logger no_logger) (Start name :: before ++ SetLogfile p :: after)) in
  let second := fst (run (create_logger first) [Start name2; SetLogfile q]) in
  report (fst (run second calls)) = (0, 0)%nat.
Proof.
  intros name p before after name2 q calls Fb Fa Fc. cbv zeta.
  destruct (one_project name p before after Fb Fa) as (c & f & ->).
  destruct (second_project p q name2 c f) as (c1 & f1 & c2 & f2 & -> & W & X).
  destruct (run2 p q calls Fc c1 f1 c2 f2) as (c3 & f3 & c4 & f4 & -> & W' & X' & _).
  unfold report, state2, the_formatter. cbn. congruence.
Qed.
Print Assumptions C50_report_refuted.

(** If the first project was only opened (its last line is the printed configuration), all later
    messages of both projects appear in the first log and on the console without level and time, and
    those of the first project also in the log of the second. *)
Lemma step2_lines p q c f c' f' o l m : f_intro c = Some true -> f_intro f = Some true ->
  level_of l = Some Info \/ level_of l = Some Warning \/ level_of l = Some Error -> o = Msg false l m -> p <> q ->
  (f_new f' <= 0)%Z -> f_new f' <> (-1)%Z ->
  lines_at Console (snd (step (state2 p q c f c' f') o)) = [LIntro m] /\
  lines_at (LogFile p) (snd (step (state2 p q c f c' f') o)) = [LIntro m] /\
  exists k, level_of l = Some k /\ lines_at (LogFile q) (snd (step (state2 p q c f c' f') o)) = [LMessage k m].
Proof.
  intros H1 H2 H3 -> D N1 N2. apply Z.ltb_ge in N1. apply Z.eqb_neq in N2.
  assert (Dp : teqb p q = false) by (destruct (teqb_spec p q); congruence).
  assert (Dq : teqb q p = false) by (destruct (teqb_spec q p); congruence).
  unfold step, set_logger_message.
  destruct H3 as [-> | [-> | ->]]; unfold emit, state2, with_formatter, the_formatter; cbn -[Z.ltb Z.eqb format];
    unfold format; cbn -[Z.ltb Z.eqb]; rewrite H1, H2; cbn -[Z.ltb Z.eqb]; rewrite N1, N2; unfold lines_at; cbn;
    rewrite Dp, Dq, !teqb_refl; cbn; repeat split; eauto.
Qed.

Theorem C50_messages_refuted : exists name p name2 q m,
  let first := fst (run (create_logger no_logger) [Start name; SetLogfile p; Finish; Msg true (T "info") (T "configuration")]) in
  let second := fst (run (create_logger first) [Start name2; SetLogfile q; Finish; Msg true (T "info") (T "configuration")]) in
  let out := snd (run second [Msg false (T "warning") m]) in
  p <> q /\ lines_at Console out = [LIntro m] /\ lines_at (LogFile p) out = [LIntro m] /\
  lines_at (LogFile q) out = [LMessage Warning m] /\
  report (fst (run second [Msg false (T "warning") m])) = (0, 0)%nat.
Proof.
  exists (T "Loading"), (T "a.log"), (T "Loading"), (T "b.log"), (T "lake").
  cbv zeta. split; [discriminate|]. vm_compute. auto.
Qed.
Print Assumptions C50_messages_refuted.

(** What does hold: no message is lost.  Every message with a level of the two projects still
    reaches the first log file once the first formatter has settled. *)
Definition writes_line (o : op) : bool :=
  match o with Msg _ lv _ => match level_of lv with None | Some Critical => false | _ => true end | _ => true end.
Theorem C50_no_message_lost_partial : forall p q c f c' f' o, plain_op o -> writes_line o = true -> p <> q ->
  f_intro f <> None -> length (lines_at (LogFile p) (snd (step (state2 p q c f c' f') o))) = 1%nat.
Proof.
  intros p q c f c' f' o P Wl D Fi.
  assert (Dp : teqb p q = false) by (destruct (teqb_spec p q); congruence).
  assert (K : forall l m c f c2 f2, l <> Critical -> f_intro f <> None ->
    length (lines_at (LogFile p) (snd (emit [(Console, 0); (LogFile p, 1); (LogFile q, 3)] (state2 p q c f c2 f2) l m))) = 1%nat).
  { clear - Dp. intros l m c f c2 f2 Nl Fi. unfold emit, state2, with_formatter, the_formatter. cbn -[format].
    assert (B : exists x, snd (format f l m) = Ok x).
    { unfold format. destruct (f_intro f) as [[|]|]; [eexists; reflexivity| |congruence].
      destruct (0 <? f_new f)%Z; [eexists; reflexivity|]. destruct (f_new f =? -1)%Z; [eexists; reflexivity|].
      destruct l; try (eexists; reflexivity). congruence. }
    destruct B as (x & ->). destruct (snd (format c l m)), (snd (format f2 l m)); cbn; rewrite ?teqb_refl, ?Dp; reflexivity. }
  destruct o as [h lv m|name| |r]; [| | |destruct P].
  - unfold step, set_logger_message. cbn [writes_line] in Wl. destruct (level_of lv) as [l|]; [|discriminate].
    cbn [fst snd]. apply (K l m c f (set_intro h c') (set_intro h f')); auto. destruct l; discriminate.
  - apply (K Info (T "Starting new task: " ++ name) c f (set_intro false (new_task c')) (set_intro false (new_task f'))); auto. discriminate.
  - apply (K Info [] c f (set_intro false (finish_task c')) (set_intro false f')); auto. discriminate.
Qed.
Print Assumptions C50_no_message_lost_partial.

(** C49.  The five names of a level, in small or capital letters; another name
    is refused and nothing is written. *)
Theorem C49_names_of_the_levels : forall lv,
  (level_of lv = Some Info <-> lower lv = T "info") /\ (level_of lv = Some Debug <-> lower lv = T "debug") /\
  (level_of lv = Some Warning <-> lower lv = T "warning") /\ (level_of lv = Some Error <-> lower lv = T "error") /\
  (level_of lv = Some Critical <-> lower lv = T "critical") /\
  (level_of lv = None -> forall lg m h, snd (set_logger_message lg m lv h) = Raise ValueError /\
     snd (fst (set_logger_message lg m lv h)) = [] /\ report (fst (fst (set_logger_message lg m lv h))) =
     report (with_formatter (with_formatter lg (lg_console lg) (set_intro h)) (lg_file lg) (set_intro h))).
Proof.
  intro lv. assert (E : level_of lv = level_of lv) by reflexivity. unfold level_of at 2 in E. cbv zeta in E.
  assert (X : forall s t : text, teqb s t = true <-> s = t).
  { intros s t. destruct (teqb_spec s t); split; congruence. }
  do 5 (split; [split; intro H; [
    rewrite H in E; repeat match type of E with context [if teqb ?a ?b then _ else _] =>
      let Y := fresh in destruct (teqb a b) eqn:Y; [apply X in Y|] end; congruence
    |rewrite H in E; cbn in E; exact E]|]).
  intros H lg m h. unfold set_logger_message. rewrite H. repeat split.
Qed.
Print Assumptions C49_names_of_the_levels.

(** A formatter that was not told whether it is in the introduction refuses
    every message, and its counts stay. *)
Theorem C49_new_formatter_refuses :
  forall is_file l m, format (new_formatter is_file) l m = (new_formatter is_file, Raise AttributeError).
Proof. reflexivity. Qed.
Print Assumptions C49_new_formatter_refuses.
