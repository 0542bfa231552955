(** C107: a comparison of 1D and 2D results can be repeated from the csv files
    that it wrote the first time (fm2prof/utils.py 1150-1553, 1594-1712). *)
From Coq Require Import String List Ascii ZArith QArith Bool Lia.
From Verif Require Import PyBase Num Text L_Text M_Compare M_Reader.
Import ListNotations.
Local Open Scope Z_scope.

(** ** Times through a csv file *)

(** The index can be written with the date and the time in whole seconds. *)
Definition plain_times (ts : list Z) : Prop :=
  (forall t, In t ts -> t mod second_us = 0) /\ (ts = [] \/ exists t, In t ts /\ t mod day_us <> 0).

Lemma seconds_of_seconds ss : seconds_of (map Second ss) = Some (map (fun s => s * second_us) ss).
Proof. induction ss as [|s ss IH]; [reflexivity|]. cbn. unfold seconds_of in IH. rewrite IH. reflexivity. Qed.

Lemma seconds_of_none w ws : In w ws -> (forall s, w <> Second s) -> seconds_of ws = None.
Proof.
  intros H N. induction ws as [|v ws IH]; [destruct H|]. cbn.
  destruct H as [->|H].
  - destruct w; try reflexivity. exfalso. eapply N. reflexivity.
  - unfold seconds_of in IH. rewrite (IH H). destruct v; reflexivity.
Qed.

Lemma forallb_ex {A} (p : A -> bool) l : forallb p l = false -> exists x, In x l /\ p x = false.
Proof.
  induction l as [|x l IH]; [discriminate|]. cbn. destruct (p x) eqn:E; cbn.
  - intros H. destruct (IH H) as (y & I & F). exists y. auto.
  - intros _. exists x. auto.
Qed.

(** The times that are read are the times that were written exactly if they
    are whole seconds and not all midnight; otherwise the index is strings. *)
Theorem C107_times ts :
  (plain_times ts -> read_times (write_times ts) = Moments ts) /\
  (~ plain_times ts -> exists ws, read_times (write_times ts) = Words ws /\ length ws = length ts /\ ws <> []).
Proof.
  unfold write_times, read_times.
  destruct (forallb (fun t => t mod day_us =? 0) ts) eqn:D.
  - rewrite forallb_forall in D. split.
    + intros (_ & [->|(t & I & N)]); [reflexivity|]. apply D in I. apply Z.eqb_eq in I. contradiction.
    + intros N. destruct ts as [|t ts].
      * exfalso. apply N. split; [intros t []|left; reflexivity].
      * rewrite (seconds_of_none (Date (t / day_us))); [|left; reflexivity|discriminate].
        eexists. split; [reflexivity|]. split; [cbn; rewrite map_length; reflexivity|discriminate].
  - destruct (forallb_ex _ _ D) as (t & I & F). apply Z.eqb_neq in F.
    destruct (forallb (fun t => t mod second_us =? 0) ts) eqn:S.
    + rewrite forallb_forall in S. split.
      * intros _. rewrite <- (map_map (fun t => t / second_us) Second), seconds_of_seconds, map_map. f_equal.
        transitivity (map (fun x : Z => x) ts); [|apply map_id].
        apply map_ext_in. intros x X. apply S in X. apply Z.eqb_eq in X.
        rewrite Z.mul_comm. symmetry. apply Z_div_exact_full_2; [unfold second_us; lia|exact X].
      * intros N. exfalso. apply N. split.
        -- intros x X. apply S in X. apply Z.eqb_eq in X. exact X.
        -- right. exists t. auto.
    + destruct (forallb_ex _ _ S) as (u & J & G). apply Z.eqb_neq in G. split.
      * intros (W & _). apply W in J. contradiction.
      * intros _. destruct ts as [|x ts]; [destruct I|].
        rewrite (seconds_of_none (Fraction x)); [|left; reflexivity|discriminate].
        eexists. split; [reflexivity|]. split; [cbn; rewrite map_length; reflexivity|discriminate].
Qed.
Print Assumptions C107_times.

Lemma digitize_names h q bins d : digitize_data h q bins = Ok d -> map fst d = map fst (f_cols h).
Proof.
  unfold digitize_data. revert d. induction (f_cols h) as [|(n & x) l IH]; intros d D.
  - injection D as <-. reflexivity.
  - cbn [map_res fst snd] in D.
    destruct (column_of (f_cols q) n) as [qs|]; [|discriminate]. cbn [bind] in D.
    destruct (digitize_station x qs bins) as [r|]; [|discriminate]. cbn [bind] in D.
    destruct (map_res _ l) as [ys|] eqn:E; [|discriminate]. injection D as <-.
    cbn [map fst]. f_equal. apply IH. reflexivity.
Qed.

(** A station with levels and without discharges: the statistics per discharge
    are not computed, for which the reader stops. *)
Theorem C107_station_without_discharge :
  forall h q bins before n x after,
    f_cols h = before ++ (n, x) :: after ->
    (forall n' x', In (n', x') before -> exists qs r, column_of (f_cols q) n' = Ok qs /\ digitize_station x' qs bins = Ok r) ->
    ~ In n (map fst (f_cols q)) ->
    digitize_data h q bins = Raise KeyError.
Proof.
  intros h q bins before n x after E B N. unfold digitize_data. rewrite E. clear E.
  assert (C : column_of (f_cols q) n = Raise KeyError).
  { clear B. induction (f_cols q) as [|(m & y) l IH]; [reflexivity|]. cbn [column_of]. cbn [map fst In] in N.
    destruct (teqb m n) eqn:T.
    - apply teqb_eq in T. elim N. left. exact T.
    - apply IH. intro I. apply N. right. exact I. }
  induction before as [|(m & y) l IH]; cbn [app map_res fst snd].
  - rewrite C. reflexivity.
  - destruct (B m y (or_introl eq_refl)) as (qs & r & -> & D). cbn [bind]. rewrite D. cbn [bind].
    rewrite IH; [reflexivity|]. intros m' y' I. apply B. right. exact I.
Qed.
Print Assumptions C107_station_without_discharge.

Section Reader.
  Variable through : num -> num.
  Variable heads : list text -> list text.
  Variable cell : text -> option text.
  Variable label : text -> text.

  Notation read_csv := (read_csv through heads).
  Notation reread := (reread through heads).
  Notation load_flow1d := (load_flow1d through heads).
  Notation load_flow2d := (load_flow2d through heads cell label).
  Notation read_all := (read_all through heads cell label).
  Notation compare_1d2d := (compare_1d2d through heads cell label).
  Notation digitized := (digitized through heads).

  (** A table of times after it was written and read. *)
  Definition reread_frame (f : frame) : frame :=
    mk_frame (match f_index f with Moments ts => read_times (write_times ts) | Words ws => Words ws end)
             (reread (f_cols f)).

  (** ** The first time *)

  (** In an empty directory the data is what the two files contain: the 1D
      results themselves, and for each 1D station the 2D results of the
      matching station, read from the csv file. *)
  Theorem C107_first f1 f2 st' c :
    read_all (Some f1) (Some f2) empty_store = (st', Ok c) ->
    let h1 := combine (o_names f1) (o_h f1) in
    let q1 := combine (o_names f1) (o_q f1) in
    let ts := map (fun t => t + 0) (o_times f1) in
    let m := map_1d2d (map fst h1) (t_hnames f2) (t_qnames f2) in
    c_1dh c = mk_frame (Moments ts) h1 /\ c_1dq c = mk_frame (Moments ts) q1 /\
    c_2dh c = read_csv (table_h cell label f2 m) /\ c_2dq c = read_csv (table_q cell label f2 m) /\
    digitize_data (c_1dh c) (c_1dq c) qsteps = Ok (c_d1 c) /\
    digitize_data (c_2dh c) (c_2dq c) qsteps = Ok (c_d2 c) /\
    st' = mk_store (Some (to_csv ts q1)) (Some (to_csv ts h1))
                   (Some (table_q cell label f2 m)) (Some (table_h cell label f2 m)) (Some m)
                   (Some (c_d1 c)) (Some (c_d2 c)).
  Proof.
    intros H. unfold M_Reader.read_all, M_Reader.load_flow1d, M_Reader.import_1d, empty_store in H.
    cbn [s_1dq s_1dh s_2dq s_2dh s_map s_d1 s_d2 f_cols f_index] in H.
    unfold get_map in H. cbn [s_1dq s_1dh s_2dq s_2dh s_map s_d1 s_d2 f_cols f_index] in H.
    unfold M_Reader.load_flow2d, import_2d_observations in H.
    cbn [s_1dq s_1dh s_2dq s_2dh s_map s_d1 s_d2 f_cols f_index bind read_2d] in H.
    unfold M_Reader.digitized in H.
    set (h1 := combine (o_names f1) (o_h f1)) in *.
    set (q1 := combine (o_names f1) (o_q f1)) in *.
    set (ts := map (fun t => t + 0) (o_times f1)) in *.
    set (m := map_1d2d (map fst h1) (t_hnames f2) (t_qnames f2)) in *.
    destruct (digitize_data (mk_frame (Moments ts) h1) (mk_frame (Moments ts) q1) qsteps) as [d1|e] eqn:E1; [|discriminate].
    cbn [s_1dq s_1dh s_2dq s_2dh s_map s_d1 s_d2] in H.
    destruct (digitize_data (read_csv (table_h cell label f2 m)) (read_csv (table_q cell label f2 m)) qsteps) as [d2|e] eqn:E2; [|discriminate].
    injection H as <- <-. cbn [c_1dh c_1dq c_2dh c_2dq c_d1 c_d2].
    repeat match goal with |- _ /\ _ => split end; try reflexivity; assumption.
  Qed.

  (** ** Again *)

  (** The directory has everything that a comparison needs. *)
  Definition complete (st : store) : Prop :=
    (exists q h, s_1dq st = Some q /\ s_1dh st = Some h) /\
    (exists q h, s_2dq st = Some q /\ s_2dh st = Some h) /\
    s_map st <> None /\ s_d1 st <> None /\ s_d2 st <> None.

  Lemma digitized_some old h q d r : digitized old h q = (d, Ok r) -> d <> None.
  Proof.
    unfold M_Reader.digitized. destruct old; [intros H; injection H as <- _; discriminate|].
    destruct (digitize_data h q qsteps); intros H; [injection H as <- _; discriminate|discriminate].
  Qed.

  (** After a comparison that succeeded the directory is complete, from
      whatever it started. *)
  Lemma read_all_complete src1 src2 st st' c : read_all src1 src2 st = (st', Ok c) -> complete st'.
  Proof.
    unfold M_Reader.read_all. intros H.
    destruct (load_flow1d 0 src1 st) as (st1 & [(h1 & q1)|e]) eqn:E1; [|discriminate].
    destruct (get_map (map fst (f_cols h1)) src2 st1) as (st2 & [u|e]) eqn:E2; [|discriminate].
    destruct (load_flow2d src2 st2) as (st3 & [(h2 & q2)|e]) eqn:E3; [|discriminate].
    destruct (digitized (s_d1 st3) h1 q1) as (d1 & [x1|e]) eqn:E4; [|discriminate].
    cbn [s_1dq s_1dh s_2dq s_2dh s_map s_d1 s_d2] in H.
    destruct (digitized (s_d2 st3) h2 q2) as (d2 & [x2|e]) eqn:E5; [|discriminate].
    injection H as <- _.
    assert (A1 : exists q h, s_1dq st1 = Some q /\ s_1dh st1 = Some h).
    { unfold M_Reader.load_flow1d in E1.
      destruct (s_1dq st) as [q|] eqn:Q; [destruct (s_1dh st) as [h|] eqn:H1|].
      - injection E1 as <- _ _. exists q, h. auto.
      - destruct (import_1d 0 src1) as [[(ts & h) q']|e]; [|discriminate].
        injection E1 as <- _ _. cbn. eauto.
      - destruct (import_1d 0 src1) as [[(ts & h) q']|e]; [|discriminate].
        injection E1 as <- _ _. cbn. eauto. }
    assert (A2 : s_map st2 <> None /\ s_1dq st2 = s_1dq st1 /\ s_1dh st2 = s_1dh st1).
    { unfold get_map in E2. destruct (s_map st1) eqn:M.
      - injection E2 as <- _. rewrite M. repeat split; discriminate.
      - destruct src2; [|discriminate]. injection E2 as <- _. cbn. repeat split; discriminate. }
    assert (A3 : (exists q h, s_2dq st3 = Some q /\ s_2dh st3 = Some h) /\
                 s_map st3 = s_map st2 /\ s_1dq st3 = s_1dq st2 /\ s_1dh st3 = s_1dh st2).
    { assert (B : load_flow2d src2 st2 = (st3, Ok (h2, q2)) ->
                  (exists q h, s_2dq st2 = Some q /\ s_2dh st2 = Some h /\ st3 = st2) \/
                  (exists f m, s_map st2 = Some m /\
                     st3 = mk_store (s_1dq st2) (s_1dh st2) (Some (table_q cell label f m))
                             (Some (table_h cell label f m)) (s_map st2) (s_d1 st2) (s_d2 st2))).
      { unfold M_Reader.load_flow2d, import_2d_observations.
        destruct (s_2dq st2) as [q|] eqn:Q; [destruct (s_2dh st2) as [h|] eqn:H1|].
        - intros X. injection X as <- _. left. eauto.
        - destruct src2 as [f|]; [|discriminate]. destruct (s_map st2) as [m|] eqn:M; [|discriminate].
          intros X. injection X as <- _. right. exists f, m. auto.
        - destruct src2 as [f|]; [|discriminate]. destruct (s_map st2) as [m|] eqn:M; [|discriminate].
          intros X. injection X as <- _. right. exists f, m. auto. }
      destruct (B E3) as [(q & h & Q & H1 & ->)|(f & m & M & ->)].
      - split; [eauto|auto].
      - cbn. split; [eauto|auto]. }
    destruct A2 as (A2 & A2q & A2h). destruct A3 as (A3 & A3m & A3q & A3h).
    unfold complete. cbn. rewrite A3q, A2q, A3h, A2h, A3m.
    repeat split; auto.
    - eapply digitized_some, E4.
    - eapply digitized_some, E5.
  Qed.

  (** In a complete directory the comparison reads only the csv files: it does
      not depend on the netCDF files, writes nothing and cannot fail. *)
  Theorem C107_csv_only st : complete st ->
    exists c, forall src1 src2, read_all src1 src2 st = (st, Ok c).
  Proof.
    destruct st as [q1 h1 q2 h2 m d1 d2]. intros ((cq1 & ch1 & Q1 & H1) & (cq2 & ch2 & Q2 & H2) & M & D1 & D2).
    cbn in *. subst. destruct m as [m|]; [|contradiction]. destruct d1 as [d1|]; [|contradiction].
    destruct d2 as [d2|]; [|contradiction].
    eexists. intros src1 src2. reflexivity.
  Qed.

  (** So after a comparison that succeeded, every later one in that directory
      gives the same as the second one, whatever files are named. *)
  Theorem C107_repeat src1 src2 st st' c : read_all src1 src2 st = (st', Ok c) ->
    exists c', forall src1' src2', read_all src1' src2' st' = (st', Ok c').
  Proof. intros H. apply C107_csv_only. eapply read_all_complete, H. Qed.

  (** And the second one in a new directory has the data of the first one,
      with the 1D tables and the rating curves as they come from a csv file;
      the 2D tables are the same. *)
  Theorem C107_second f1 f2 st' c :
    read_all (Some f1) (Some f2) empty_store = (st', Ok c) ->
    forall src1 src2, read_all src1 src2 st' =
      (st', Ok (mk_compared (reread_frame (c_1dh c)) (reread_frame (c_1dq c)) (c_2dh c) (c_2dq c)
                  (reread (c_d1 c)) (reread (c_d2 c)))).
  Proof.
    intros H src1 src2. apply C107_first in H. cbv zeta in H.
    destruct H as (H1 & Q1 & H2 & Q2 & _ & _ & ->). rewrite H1, Q1, H2, Q2. reflexivity.
  Qed.

  (** If numbers and names survive a csv file and the times are whole seconds
      and not all midnight, the second comparison is the first one. *)
  Theorem C107_same f1 f2 st' c :
    (forall x, through x = x) ->
    heads (map fst (c_d2 c)) = map fst (c_d2 c) ->
    heads (o_names f1) = o_names f1 ->
    length (o_h f1) = length (o_names f1) -> length (o_q f1) = length (o_names f1) ->
    plain_times (o_times f1) ->
    read_all (Some f1) (Some f2) empty_store = (st', Ok c) ->
    forall src1 src2, read_all src1 src2 st' = (st', Ok c).
  Proof.
    intros Tr N2 N1 Lh Lq P H src1 src2. rewrite (C107_second _ _ _ _ H).
    apply C107_first in H. cbv zeta in H. destruct H as (H1 & Q1 & _ & _ & D1 & _ & _).
    assert (R : forall cols : list (text * list num), heads (map fst cols) = map fst cols -> reread cols = cols).
    { intros cols E. unfold M_Reader.reread. rewrite E. clear E.
      induction cols as [|(n & l) cols IH]; [reflexivity|]. cbn. rewrite IH. f_equal. f_equal.
      transitivity (map (fun x : num => x) l); [apply map_ext; exact Tr|apply map_id]. }
    assert (C : forall (ns : list text) (ls : list (list num)), length ls = length ns -> map fst (combine ns ls) = ns).
    { induction ns as [|n ns IH]; intros [|l ls] L; try reflexivity; try discriminate.
      cbn. rewrite IH; [reflexivity|]. injection L. auto. }
    assert (Z0 : map (fun t => t + 0) (o_times f1) = o_times f1).
    { transitivity (map (fun t : Z => t) (o_times f1)); [apply map_ext; intros; lia|apply map_id]. }
    rewrite Z0 in *. rewrite H1, Q1 in *.
    assert (K : map fst (c_d1 c) = o_names f1).
    { rewrite <- (C _ _ Lh). exact (digitize_names _ _ _ _ D1). }
    assert (F : forall ls, length ls = length (o_names f1) ->
                reread_frame (mk_frame (Moments (o_times f1)) (combine (o_names f1) ls)) =
                mk_frame (Moments (o_times f1)) (combine (o_names f1) ls)).
    { intros ls L. unfold reread_frame. cbn [f_index f_cols]. rewrite (proj1 (C107_times _) P), R; [reflexivity|].
      rewrite C by exact L. exact N1. }
    rewrite (F _ Lh), (F _ Lq), (R _ N2), (R (c_d1 c)); [|rewrite K; exact N1].
    clear D1. destruct c as [a1 a2 a3 a4 a5 a6]. cbn [c_1dh c_1dq c_2dh c_2dq c_d1 c_d2] in *. subst. reflexivity.
  Qed.

  (** ** Half a pair of files is not used *)

  (** If only one of the two 1D files or one of the two 2D files is there, both
      are imported, so the levels and the discharges always belong together. *)
  Theorem C107_pairs offset f1 f2 st m :
    (s_1dq st = None \/ s_1dh st = None ->
     snd (load_flow1d offset (Some f1) st) =
     snd (load_flow1d offset (Some f1) empty_store)) /\
    (s_map st = Some m -> s_2dq st = None \/ s_2dh st = None ->
     snd (load_flow2d (Some f2) st) = Ok (read_csv (table_h cell label f2 m), read_csv (table_q cell label f2 m))).
  Proof.
    split.
    - intros H. unfold M_Reader.load_flow1d. destruct H as [->| ->]; [reflexivity|]. destruct (s_1dq st); reflexivity.
    - intros M H. unfold M_Reader.load_flow2d, import_2d_observations. rewrite M.
      destruct H as [->| ->]; [reflexivity|]. destruct (s_2dq st); reflexivity.
  Qed.

  (** ** Shift of the 1D times *)

  (** The shift is applied when the file is imported, and not when the csv
      files are there. *)
  Theorem C107_offset offset f1 st q h :
    snd (load_flow1d offset (Some f1) empty_store) =
      Ok (mk_frame (Moments (map (fun t => t + offset) (o_times f1))) (combine (o_names f1) (o_h f1)),
          mk_frame (Moments (map (fun t => t + offset) (o_times f1))) (combine (o_names f1) (o_q f1))) /\
    (s_1dq st = Some q -> s_1dh st = Some h ->
     forall o src, load_flow1d o src st = (st, Ok (read_csv h, read_csv q))).
  Proof.
    split; [reflexivity|]. intros Q H o src. unfold M_Reader.load_flow1d. rewrite Q, H. reflexivity.
  Qed.

  (** ** Arguments *)

  (** Without netCDF files, as documented, and with both files, the arguments
      are used as given.  A 2D file alone is ignored; a 1D file alone is an
      error, even if the directory is complete. *)
  Theorem C107_arguments st f1 f2 :
    compare_1d2d NotGiven NotGiven st = read_all None None st /\
    compare_1d2d (File f1) (File f2) st = read_all (Some f1) (Some f2) st /\
    compare_1d2d NotGiven (File f2) st = read_all None None st /\
    compare_1d2d (File f1) NotGiven st = (st, Raise TypeError).
  Proof. repeat split. Qed.

  (** ** A comparison that failed *)

  (** Without files nothing is written. *)
  Theorem C107_no_files : read_all None None empty_store = (empty_store, Raise OSError).
  Proof. reflexivity. Qed.

  (** What was written before the failure is not changed by a later run. *)
  Definition keeps {A} (old new : option A) : Prop := forall x, old = Some x -> new = Some x.

  Theorem C107_kept src1 src2 st st' r :
    read_all src1 src2 st = (st', r) ->
    keeps (s_map st) (s_map st') /\ keeps (s_d1 st) (s_d1 st') /\ keeps (s_d2 st) (s_d2 st') /\
    (forall q h, s_1dq st = Some q -> s_1dh st = Some h -> s_1dq st' = Some q /\ s_1dh st' = Some h) /\
    (forall q h, s_2dq st = Some q -> s_2dh st = Some h -> s_2dq st' = Some q /\ s_2dh st' = Some h).
  Proof.
    destruct st as [q1 h1 q2 h2 m d1 d2]. unfold keeps. cbn [s_1dq s_1dh s_2dq s_2dh s_map s_d1 s_d2].
    assert (D : forall (old : option (list (text * list num))) hh qq,
                forall x, old = Some x -> fst (digitized old hh qq) = Some x).
    { intros old hh qq x ->. reflexivity. }
    unfold M_Reader.read_all, M_Reader.load_flow1d, M_Reader.load_flow2d, get_map, import_2d_observations, M_Reader.import_1d.
    cbn [s_1dq s_1dh s_2dq s_2dh s_map s_d1 s_d2].
    destruct q1 as [q1|], h1 as [h1|], q2 as [q2|], h2 as [h2|], m as [m|], src1 as [f1|], src2 as [f2|];
      cbn -[M_Reader.digitized];
      repeat match goal with
      | |- context [M_Reader.digitized through heads ?o ?a ?b] =>
          let E := fresh "E" in let X := fresh "X" in
          pose proof (D o a b) as X;
          destruct (M_Reader.digitized through heads o a b) as (? & [?|?]) eqn:E; cbn -[M_Reader.digitized] in X |- *; clear E
      end;
      intros R; injection R as <- _; cbn;
      (split; [|split; [|split; [|split]]]); try (intros ? ? ? ?; split; congruence); auto;
      try (intros ? Y; congruence).
  Qed.
End Reader.
Print Assumptions C107_first.
Print Assumptions C107_csv_only.
Print Assumptions C107_repeat.
Print Assumptions C107_second.
Print Assumptions C107_same.
Print Assumptions C107_pairs.
Print Assumptions C107_offset.
Print Assumptions C107_arguments.
Print Assumptions C107_no_files.
Print Assumptions C107_kept.

(** The 2D tables have one column for each row of the map: the results of the
    2D station in that row, or missing values at all times. *)
Theorem C107_columns cell label f m i n hn qn :
  nth_error m i = Some (n, hn, qn) ->
  let missing := repeat NaN (length (t_times f)) in
  let found name names cols c :=
    (exists x k, cell name = Some x /\ index_of x names = Some k /\ nth_error cols k = Some c) \/
    ((forall x k, cell name = Some x -> index_of x names = Some k -> nth_error cols k = None) /\ c = missing) in
  exists h q,
    nth_error (v_cols (table_h cell label f m)) i = Some (label n, h) /\ found hn (t_hnames f) (t_h f) h /\
    nth_error (v_cols (table_q cell label f m)) i = Some (label n, q) /\ found qn (t_qnames f) (t_q f) q.
Proof.
  intros H missing found.
  assert (G : forall names cols (pick : text * text * text -> text * text) nm,
             pick (n, hn, qn) = (n, nm) ->
             exists c, nth_error (matched cell label names cols (length (t_times f)) (map pick m)) i = Some (label n, c) /\
                       found nm names cols c).
  { intros names cols pick nm P. unfold matched, import_2d. rewrite !map_map.
    rewrite (map_nth_error _ _ _ H), P. cbn [fst snd]. eexists. split; [reflexivity|].
    unfold found. destruct (cell nm) as [x|].
    - destruct (index_of x names) as [k|] eqn:K.
      + destruct (nth_error cols k) as [c|] eqn:C.
        * left. exists x, k. auto.
        * right. split; [|reflexivity]. intros y j Y J. injection Y as <-. rewrite K in J. injection J as <-. exact C.
      + right. split; [|reflexivity]. intros y j Y J. injection Y as <-. rewrite K in J. discriminate J.
    - right. split; [|reflexivity]. intros y j Y. discriminate Y. }
  destruct (G (t_hnames f) (t_h f) (fun r => fst r) hn eq_refl) as (h & H1 & H2).
  destruct (G (t_qnames f) (t_q f) (fun r => (fst (fst r), snd r)) qn eq_refl) as (q & Q1 & Q2).
  exists h, q. auto.
Qed.
Print Assumptions C107_columns.

(** ** Use of the tables *)

(** A table whose times survived gives the rows of the window; of one with
    strings as index no row can be asked. *)
Theorem C107_access ts w col :
  (plain_times ts -> access w (read_times (write_times ts)) col = apply_startstop_time w (combine ts col)) /\
  (~ plain_times ts -> exists e, access w (read_times (write_times ts)) col = (w, Raise e) /\
     (e = TypeError \/ (e = ValueError /\ exists a b, w = mk_window (Some a) (Some b) /\ b <= a))).
Proof.
  destruct (C107_times ts) as (P & N). split.
  - intros H. rewrite (P H). reflexivity.
  - intros H. destruct (N H) as (ws & -> & _ & NE). destruct ws as [|x ws]; [contradiction|].
    unfold access. destruct w as [[a|] [b|]]; cbn; eauto.
    destruct (b <=? a) eqn:E; eexists; split; eauto. right. split; [reflexivity|].
    exists a, b. split; [reflexivity|apply Z.leb_le; exact E].
Qed.
Print Assumptions C107_access.

(** Which exception it is: a window that ends before it begins is found first,
    then a table without rows, then the strings. *)
Theorem C107_times_that_are_no_times :
  forall w ws col, exists e, access w (Words ws) col = (w, Raise e) /\
    (e = ValueError <-> exists a b, w = mk_window (Some a) (Some b) /\ b <= a) /\
    (e <> ValueError -> (e = IndexError <-> ws = []) /\ (e = TypeError <-> ws <> [])).
Proof.
  intros w ws col. unfold access.
  assert (N : ~ (exists a b, w = mk_window (Some a) (Some b) /\ b <= a) -> forall e, e <> ValueError ->
    (e = ValueError <-> exists a b, w = mk_window (Some a) (Some b) /\ b <= a)) by (intros; split; [congruence|tauto]).
  destruct ws as [|x ws]; destruct w as [[a|] [b|]]; cbn [w_start w_stop];
    try (eexists; split; [reflexivity|]; split;
         [apply N; [intros (a' & b' & E & _); discriminate|discriminate]|intros _; split; split; congruence]).
  all: destruct (Z.leb_spec b a) as [L|L]; eexists; (split; [reflexivity|]).
  all: try (split; [split; [intros _; eauto|reflexivity]|intro X; contradiction X; reflexivity]).
  all: split; [apply N; [intros (a' & b' & E & L'); injection E as <- <-; lia|discriminate]|intros _; split; split; congruence].
Qed.
Print Assumptions C107_times_that_are_no_times.

(** ** Daily results *)

Definition daily : list Z := [0; day_us; 2 * day_us].
Definition st1 : text := T "NR_919.00".
Definition daily1 : his1 :=
  mk_his1 [st1] daily [[Fin 10; Fin 11; Fin 12]] [[Fin 100; Fin 300; Fin 500]].
Definition daily2 : his2 :=
  mk_his2 daily [T "NR_919.00_H"] [[Fin 10; Fin 11; Fin 13]] [T "NR_919.00_Q"] [[Fin 100; Fin 300; Fin 510]].

Definition own_cell (t : text) : option text := match t with [] => None | _ => Some t end.

(** With results at midnight of each day the comparison is made, and the 1D
    levels can be used; the 2D levels cannot; and made a second time from the
    csv files neither can. *)
Theorem C107_refuted :
  exists st c c',
    read_all (fun x => x) (fun ns => ns) own_cell (fun t => t) (Some daily1) (Some daily2) empty_store = (st, Ok c) /\
    read_all (fun x => x) (fun ns => ns) own_cell (fun t => t) None None st = (st, Ok c') /\
    f_cols (c_1dh c') = f_cols (c_1dh c) /\
    snd (access (mk_window None None) (f_index (c_1dh c)) [Fin 10; Fin 11; Fin 12]) =
      Ok [(0, Fin 10); (day_us, Fin 11); (2 * day_us, Fin 12)] /\
    snd (access (mk_window None None) (f_index (c_2dh c)) [Fin 10; Fin 11; Fin 13]) = Raise TypeError /\
    snd (access (mk_window None None) (f_index (c_1dh c')) [Fin 10; Fin 11; Fin 12]) = Raise TypeError.
Proof.
  destruct (read_all (fun x => x) (fun ns => ns) own_cell (fun t => t) (Some daily1) (Some daily2) empty_store)
    as (st & [c|e]) eqn:E; [|exfalso; vm_compute in E; discriminate].
  exists st, c. eexists. split; [reflexivity|].
  rewrite (C107_second _ _ _ _ _ _ _ _ E). split; [reflexivity|].
  apply C107_first in E. cbv zeta in E. destruct E as (H1 & _ & H2 & _). rewrite H1, H2.
  repeat split; vm_compute; reflexivity.
Qed.
Print Assumptions C107_refuted.

(** Midnight is a multiple of 86 400 000 000 microseconds: such times alone lose
    their time of day in the csv file, one time of day keeps them all. *)
Theorem C107_midnight :
  write_times [0; 86400000000] = [Date 0; Date 1] /\
  write_times [0; 43200000000] = [Second 0; Second 43200] /\
  write_times [0; 86400000000; 129600000000] = [Second 0; Second 86400; Second 129600].
Proof. repeat split. Qed.
Print Assumptions C107_midnight.

(** With results of every six hours it works, and the second comparison is
    the first one. *)
Definition quarter : list Z := [0; 21600 * second_us; 43200 * second_us].
Definition quarter1 : his1 := mk_his1 [st1] quarter (o_h daily1) (o_q daily1).
Definition quarter2 : his2 :=
  mk_his2 quarter (t_hnames daily2) (t_h daily2) (t_qnames daily2) (t_q daily2).

Theorem C107_case :
  exists st c,
    read_all (fun x => x) (fun ns => ns) own_cell (fun t => t) (Some quarter1) (Some quarter2) empty_store = (st, Ok c) /\
    (forall src1 src2, read_all (fun x => x) (fun ns => ns) own_cell (fun t => t) src1 src2 st = (st, Ok c)) /\
    c_2dh c = mk_frame (Moments quarter) [(st1, [Fin 10; Fin 11; Fin 13])] /\
    c_2dq c = mk_frame (Moments quarter) [(st1, [Fin 100; Fin 300; Fin 510])].
Proof.
  destruct (read_all (fun x => x) (fun ns => ns) own_cell (fun t => t) (Some quarter1) (Some quarter2) empty_store)
    as (st & [c|e]) eqn:E; [|exfalso; vm_compute in E; discriminate].
  exists st, c. split; [reflexivity|]. split.
  - apply (C107_same _ _ _ _ quarter1 quarter2); try reflexivity; [|exact E].
    split.
    + intros t [<-|[<-|[<-|[]]]]; reflexivity.
    + right. exists (21600 * second_us). split; [right; left; reflexivity|discriminate].
  - apply C107_first in E. cbv zeta in E. destruct E as (_ & _ & H2 & Q2 & _). rewrite H2, Q2.
    split; vm_compute; reflexivity.
Qed.
Print Assumptions C107_case.
