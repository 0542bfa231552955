(** Theorems for C117: a run that overwrites leaves nothing of an earlier run. *)
From Coq Require Import String List Ascii ZArith QArith Bool Lia.
From Verif Require Import PyBase Num Text L_Text Fixed M_Ini M_Friction M_Import M_Network M_Export L_Export M_Log M_Run T_Run T_Generate T_Report.
Import ListNotations.
Local Open Scope char_scope.

(** ** Specification *)

(** A directory without files. *)
Definition nothing : directory := fun _ => None.

(** The first thing that is done with the file is to open it for writing. *)
Fixpoint opens_first (f : text) (acts : list action) : Prop :=
  match acts with
  | [] => True
  | Create g :: r => g = f \/ opens_first f r
  | Write g _ :: r => g <> f /\ opens_first f r
  | Log _ _ :: r => log_file <> f /\ opens_first f r
  end.
Definition opened (f : text) (acts : list action) : Prop := In (Create f) acts.

(** The same input, but reading it touches other files (the cache is there). *)
Definition with_read (acts : list action) (i : input) : input :=
  mk_input (r_ini i) (r_map_exists i) (r_css_exists i) (acts, snd (r_read i)) (r_skip i) (r_no_edge_faces i) (r_weighing i)
    (r_selection i) (r_export_data i) (r_css i) (r_interpolate i) (r_dir_exists i) (r_export_maps i) (r_maps i) (r_envelope i).

(** ** Proofs *)

Lemma opens_first_app f a b : opens_first f a -> opens_first f b -> opens_first f (a ++ b).
Proof. induction a as [|[g|g t|l t] a IH]; cbn; intros A B; auto; destruct A; auto. Qed.

Lemma opens_first_untouched f acts : (forall a, In a acts -> touches a <> f) -> opens_first f acts.
Proof.
  induction acts as [|[g|g t|l t] r IH]; cbn [opens_first]; intro H; auto.
  - right. apply IH. intros a I. apply H. right. exact I.
  - split; [apply (H (Write g t)); left; reflexivity|]. apply IH. intros a I. apply H. right. exact I.
  - split; [apply (H (Log l t)); left; reflexivity|]. apply IH. intros a I. apply H. right. exact I.
Qed.

(** Either the file is opened, and what it held is gone, or it stays as it is. *)
Lemma opens_first_play f acts : opens_first f acts ->
  (opened f acts -> exists t, forall d, play acts d f = Some t) /\
  (~ opened f acts -> forall d, play acts d f = d f).
Proof.
  unfold opened. induction acts as [|[g|g t|l t] r IH]; cbn [opens_first In]; intro H.
  - split; [intros []|reflexivity].
  - destruct (teqb_spec g f) as [E|N].
    + subst g. split; [|intro X; contradiction X; left; reflexivity]. intros _.
      destruct (play r (put f [] nothing) f) as [t|] eqn:P.
      * exists t. intro d. rewrite play_cons. cbn [apply]. rewrite <- P. apply play_ext. rewrite !put_same. reflexivity.
      * exfalso. apply (play_keeps r f (put f [] nothing)); [rewrite put_same; discriminate|exact P].
    + destruct H as [H|H]; [contradiction|]. destruct (IH H) as [A B]. split.
      * intros [X|X]; [congruence|]. destruct (A X) as (t & T0). exists t. intro d. rewrite play_cons. apply T0.
      * intros X d. rewrite play_cons, B by tauto. apply apply_other. exact N.
  - destruct H as [N H]. destruct (IH H) as [A B]. split.
    + intros [X|X]; [discriminate|]. destruct (A X) as (u & U). exists u. intro d. rewrite play_cons. apply U.
    + intros X d. rewrite play_cons, B by tauto. apply apply_other. exact N.
  - destruct H as [N H]. destruct (IH H) as [A B]. split.
    + intros [X|X]; [discriminate|]. destruct (A X) as (u & U). exists u. intro d. rewrite play_cons. apply U.
    + intros X d. rewrite play_cons, B by tauto. apply apply_other. exact N.
Qed.

Lemma opened_dec f acts : opened f acts \/ ~ opened f acts.
Proof.
  unfold opened. induction acts as [|a r IH]; [right; intros []|].
  destruct IH as [IH|IH]; [left; right; exact IH|].
  destruct a as [g|g t|l t]; [destruct (teqb_spec g f) as [->|M]; [left; left; reflexivity|]| |];
    right; intros [X|X]; congruence || contradiction.
Qed.

Section Rerun.
  Variable show_float : num -> text.
  Variable show4 : num -> text.
  Variable can_open : text -> bool.
  Variable log_line : level -> text -> text.
  Variable pickled : text -> text.
  Notation job_actions := (job_actions can_open).
  Notation group := (group can_open).
  Notation guarded := (guarded can_open log_line).
  Notation write_output := (write_output show_float show4 can_open log_line).
  Notation run := (run show_float show4 can_open log_line pickled).
  Notation logged := (logged log_line).

  Lemma write_actions_opens f g ws : g <> f -> opens_first f (fst (write_actions g ws)).
  Proof. intro N. apply opens_first_untouched. intros a I. apply write_actions_touch in I; auto; congruence. Qed.
  Lemma job_opens f j : opens_first f (fst (job_actions j)).
  Proof.
    unfold M_Run.job_actions. destruct (can_open (fst j)); cbn [fst opens_first]; [|exact I].
    destruct (teqb_spec (fst j) f) as [E|N]; [left; exact E|right; apply write_actions_opens; exact N].
  Qed.
  Lemma group_opens f js : opens_first f (fst (group js)).
  Proof.
    induction js as [|[j|e] js IH]; cbn [M_Run.group fst]; try exact I.
    destruct (snd (job_actions j)); cbn [fst]; [apply job_opens|]. apply opens_first_app; [apply job_opens|exact IH].
  Qed.
  Lemma logged_opens f l m : f <> log_file -> opens_first f [logged l m].
  Proof. intro N. cbn. auto. Qed.
  Lemma log_only f acts : f <> log_file -> (forall a, In a acts -> touches a = log_file) -> opens_first f acts.
  Proof. intros N H. apply opens_first_untouched. intros a I. rewrite (H a I). congruence. Qed.
  Lemma guarded_opens f js m : f <> log_file -> opens_first f (guarded js m).
  Proof.
    intro N. unfold M_Run.guarded. apply opens_first_app; [apply group_opens|].
    destruct (snd (group js)); [apply logged_opens; exact N|exact I].
  Qed.
  Lemma output_opens f css e : f <> log_file -> opens_first f (write_output css e).
  Proof.
    intro N. unfold M_Run.write_output. destruct css as [|c css]; [exact I|]. destruct e; [|exact I].
    apply opens_first_app; [apply guarded_opens; exact N|].
    apply opens_first_app; [apply log_only; [exact N|apply sobek_messages_touch]|].
    apply opens_first_app; [apply guarded_opens; exact N|].
    apply opens_first_app; [apply guarded_opens; exact N|apply logged_opens; exact N].
  Qed.
  Lemma generate_opens f ed l : f <> log_file -> opens_first f (fst (generate_all log_line pickled ed l)).
  Proof.
    intro N. induction l as [|c l IH]; cbn [generate_all fst]; [exact I|].
    assert (K : opens_first f (fst (generate_cross_section log_line pickled ed c))).
    { unfold generate_cross_section. set (p1 := cd_id c ++ T ".pickle"). set (p2 := cd_id c ++ T "_flowmask.pickle").
      clearbody p1 p2.
      assert (P : forall p t, opens_first f [Create p; Write p t]).
      { intros p t. cbn. destruct (teqb_spec p f) as [E|M]; [left; exact E|right; auto]. }
      destruct (cd_id c) as [|x xs0]; [apply logged_opens; exact N|].
      destruct (negb (cd_complete c)); [apply logged_opens; exact N|].
      destruct (Nat.ltb (cd_faces c) 10); cbn [fst]; repeat apply opens_first_app;
        try (apply logged_opens; exact N); destruct ed; try exact I; try apply P.
      all: cbn; auto. }
    destruct (snd (generate_cross_section log_line pickled ed c)); cbn [fst]; [apply opens_first_app|]; assumption.
  Qed.
  Lemma generate_list_opens f sel ed l : f <> log_file -> opens_first f (fst (generate_list log_line pickled sel ed l)).
  Proof. intro N. unfold generate_list. destruct (selected sel l); [apply generate_opens; exact N|exact I]. Qed.
  Lemma initialise_opens f i : f <> log_file -> opens_first f (fst (r_read i)) -> opens_first f (fst (initialise log_line i)).
  Proof.
    intros N R. unfold initialise. destruct (negb (r_map_exists i) || negb (r_css_exists i)).
    { cbn [fst]. destruct (r_map_exists i), (r_css_exists i); cbn; auto. }
    assert (M : forall ls, opens_first f (map (fun l => logged l (T "Validating settings")) ls)).
    { intro ls. apply log_only; [exact N|]. intros a I. apply in_map_iff in I. destruct I as (l & <- & _). reflexivity. }
    destruct (snd (r_read i)) as [n|e].
    - destruct (fst (validate _ _ _ _)); cbn [fst]; repeat apply opens_first_app; auto. apply logged_opens. exact N.
    - destruct e; cbn [fst]; auto; repeat apply opens_first_app; auto; apply logged_opens; exact N.
  Qed.
  Definition oracles_open_first (f : text) (i : input) : Prop :=
    opens_first f (fst (r_read i)) /\ opens_first f (r_maps i) /\ opens_first f (r_envelope i).

  Lemma run_opens f i ow d : f <> log_file -> oracles_open_first f i -> opens_first f (fst (run i ow d)).
  Proof.
    intros N (R & M & V). unfold M_Run.run. destruct (negb (r_ini i)); [exact I|].
    destruct (output_exists d && negb ow); [apply logged_opens; exact N|]. cbn [fst]. apply opens_first_app.
    2:{ destruct (snd (run_inifile _ _ _ _ _ _)) as [[|]|]; try exact I; apply logged_opens; exact N. }
    unfold run_inifile. pose proof (initialise_opens f i N R) as A.
    destruct (snd (initialise log_line i)) as [[]|e].
    - destruct (snd (generate_list _ _ _ _ _)) as [css|e]; cbn [fst]; repeat apply opens_first_app; auto;
        try (apply generate_list_opens; exact N).
      + apply output_opens. exact N.
      + destruct (r_export_maps i); [exact M|exact I].
    - destruct e; cbn [fst]; auto. apply opens_first_app; [exact A|apply logged_opens; exact N].
  Qed.

  (** With overwrite the actions do not depend on what is in the directory. *)
  Lemma overwriting_actions i d d' : run i true d = run i true d'.
  Proof. unfold M_Run.run. rewrite !andb_false_r. reflexivity. Qed.

  (** For every file but the log: the file is the one of a run in an empty
      directory exactly if the run opens it or it was not there; a file that is
      not opened stays as it was. *)
  Theorem C117_files_of_an_overwriting_run_partial : forall i d f, f <> log_file -> oracles_open_first f i ->
    let acts := fst (run i true d) in
    (play acts d f = play acts nothing f <-> opened f acts \/ d f = None) /\
    (~ opened f acts -> play acts d f = d f) /\ fst (run i true nothing) = acts.
  Proof.
    intros i d f N O acts. destruct (opens_first_play f acts (run_opens f i true d N O)) as [A B].
    split; [|split; [intro X; apply B; exact X|unfold acts; now rewrite (overwriting_actions i nothing d)]].
    destruct (opened_dec f acts) as [X|X].
    - split; [auto|]. intros _. destruct (A X) as (t & U). rewrite !U. reflexivity.
    - rewrite !B by exact X. unfold nothing. split; [auto|]. intros [Y|Y]; [contradiction|exact Y].
  Qed.

  (** A second run, for which the cache may be there, changes no file. *)
  Theorem C117_running_twice_is_running_once : forall i cache d f, f <> log_file -> oracles_open_first f i ->
    (forall a, In a (fst (r_read i)) \/ In a cache -> touches a <> f) ->
    let d' := play (fst (run i true d)) d in
    play (fst (run (with_read cache i) true d')) d' f = d' f.
  Proof.
    intros i cache d f N O U d'.
    assert (E : forall acts, (forall a, In a acts -> touches a <> f) ->
      forall e, play (fst (run (with_read acts i) true d)) e f =
                play (fst (run (with_read [] i) true d)) e f).
    { intros acts H e. unfold M_Run.run. cbn [with_read r_ini]. destruct (negb (r_ini i)); [reflexivity|].
      rewrite !andb_false_r. cbn [fst].
      assert (K : snd (run_inifile show_float show4 can_open log_line pickled (with_read acts i)) =
                  snd (run_inifile show_float show4 can_open log_line pickled (with_read [] i)) /\
                  forall e', play (fst (run_inifile show_float show4 can_open log_line pickled (with_read acts i))) e' f =
                             play (fst (run_inifile show_float show4 can_open log_line pickled (with_read [] i))) e' f).
      { unfold run_inifile.
        assert (A : snd (initialise log_line (with_read acts i)) = snd (initialise log_line (with_read [] i)) /\
                    forall e', play (fst (initialise log_line (with_read acts i))) e' f =
                               play (fst (initialise log_line (with_read [] i))) e' f).
        { unfold initialise. cbn [with_read r_map_exists r_css_exists r_read r_skip r_no_edge_faces r_weighing fst snd].
          destruct (negb (r_map_exists i) || negb (r_css_exists i)); [split; reflexivity|].
          destruct (snd (r_read i)) as [n|ex].
          - destruct (fst (validate _ _ _ _)); cbn [fst snd]; (split; [reflexivity|]); intro e'; rewrite play_app; cbn [app];
              apply play_ext; apply play_untouched; exact H.
          - destruct ex; cbn [fst snd]; (split; [reflexivity|]); intro e'; rewrite ?play_app; cbn [app];
              try (apply play_untouched; exact H); apply play_ext, play_untouched; exact H. }
        destruct A as [A1 A2]. rewrite A1. destruct (snd (initialise log_line (with_read [] i))) as [[]|ex].
        - cbn [with_read r_selection r_export_data r_css].
          destruct (snd (generate_list _ _ _ _ _)); cbn [fst snd]; (split; [reflexivity|]); intro e'; rewrite !play_app;
            repeat (apply play_ext); apply A2.
        - destruct ex; cbn [fst snd]; (split; [reflexivity|]); intro e'; rewrite ?play_app; try apply A2; apply play_ext, A2. }
      destruct K as [K1 K2]. rewrite K1. rewrite !play_app. apply play_ext. apply K2. }
    assert (Ei : with_read (fst (r_read i)) i = i) by (destruct i as [? ? ? [? ?]]; reflexivity).
    rewrite (overwriting_actions _ d' d), E by (intros a I; apply U; right; exact I).
    rewrite <- (E (fst (r_read i))) by (intros a I; apply U; left; exact I). rewrite Ei.
    destruct (opens_first_play f _ (run_opens f i true d N O)) as [A B].
    unfold d'. destruct (opened_dec f (fst (run i true d))) as [X|X].
    - destruct (A X) as (t & T0). rewrite !T0. reflexivity.
    - rewrite !B by exact X. reflexivity.
  Qed.

  Lemma no_pickle f l : In f output_files -> ~ In f (pickle_files l).
  Proof.
    intros F X. unfold pickle_files in X. apply in_flat_map in X. destruct X as (c & _ & X).
    assert (E : exists r, rev f = "e" :: r).
    { destruct X as [X|[X|[]]]; rewrite <- X, rev_app_distr; eexists; reflexivity. }
    destruct E as (r & E). cbn in F. repeat (destruct F as [<-|F]; [discriminate|]). exact F.
  Qed.

  (** After a run that returns True without an error message, and has generated
      cross-sections, a result file is that of a run in an empty directory unless
      it was there already and is [roughness_test.csv], which no run writes, or
      the roughness file of a section that has no table. *)
  Theorem C117_what_is_left_of_an_earlier_run : forall i d,
    snd (run i true d) = Ok true -> ~ error_logged (fst (run i true d)) -> apart i ->
    (forall a, In a (fst (r_read i)) -> ~ In (touches a) output_files) -> r_dir_exists i = true ->
    exists s css, selected (r_selection i) (r_css i) = Ok s /\ map cd_build s = map Ok css /\
      (r_interpolate i css <> [] -> forall f, In f output_files ->
         let acts := fst (run i true d) in
         (play acts d f = play acts nothing f <->
          d f = None \/
          (f <> T "roughness_test.csv" /\
           forall x label, In (x, f, label) roughness_files -> In x (sections_of (r_interpolate i css))))).
  Proof.
    intros i d OKT NE AP RD DE.
    destruct (run_true show_float show4 can_open log_line pickled i true d OKT) as (s & css & Es & Eg & Ea & _).
    assert (C := C96_clean_log_means_complete show_float show4 can_open log_line pickled i true nothing).
    rewrite (overwriting_actions i nothing d) in C. destruct (C OKT NE AP) as (s' & css' & Es' & _ & Eb & Whole). clear C.
    rewrite Es in Es'. injection Es' as <-.
    assert (EC : css' = css).
    { assert (K : forall l c1 c2, snd (generate_all log_line pickled (r_export_data i) l) = Ok c1 ->
        map cd_build l = map Ok c2 -> ~ error_logged (fst (generate_all log_line pickled (r_export_data i) l)) -> c2 = c1).
      { intros l c1 c2 G M N. destruct (generate_error can_open log_line pickled _ _ _ G) as [A B].
        assert (W : Forall (fun c => wanted c = true) l).
        { apply Forall_forall. intros c Ic. destruct (wanted c) eqn:X; [reflexivity|]. exfalso. apply N. apply A. eauto. }
        specialize (B W). rewrite B in M. clear - M. revert c2 M. induction c1 as [|x c1 IH]; intros [|y c2] M; try discriminate; [reflexivity|].
        injection M as <- M. f_equal. apply IH. exact M. }
      apply (K s); auto. intro X. apply NE. rewrite Ea, !error_app. auto. }
    subst css'. exists s, css. split; [exact Es|]. split; [exact Eb|]. intros NN f F acts.
    specialize (Whole NN DE). rename Whole into WH.
    assert (NL : f <> log_file) by (intro E; subst f; cbn in F; intuition discriminate).
    assert (O : oracles_open_first f i).
    { repeat split; apply opens_first_untouched; intros a J X; [apply (RD a J)|apply (AP a); [auto|]|apply (AP a); [auto|]]; rewrite X; exact F. }
    destruct (C117_files_of_an_overwriting_run_partial i d f NL O) as (IFF & KEEP & _). fold acts in IFF, KEEP.
    destruct (opens_first_play f acts (run_opens f i true d NL O)) as [_ KEEP2].
    assert (W : forall ws, whole (play acts nothing) f ws -> opened f acts).
    { intros ws (t & X & _). destruct (opened_dec f acts) as [Y|Y]; [exact Y|]. rewrite KEEP2 in X by exact Y. discriminate. }
    rewrite IFF. clear IFF KEEP KEEP2.
    assert (OP : opened f acts <-> f <> T "roughness_test.csv" /\
      forall x label, In (x, f, label) roughness_files -> In x (sections_of (r_interpolate i css))).
    { split.
      - intro X. unfold opened, acts in X. rewrite Ea in X. apply in_app_or in X. destruct X as [X|X].
        { apply initialise_touch in X; destruct X as [Y|Y]; [contradiction|]. exfalso. apply (RD _ Y). exact F. }
        apply in_app_or in X. destruct X as [X|X].
        { exfalso. apply (generate_touch can_open) in X. destruct X as [X|X]; [contradiction|]. exact (no_pickle _ _ F X). }
        apply in_app_or in X. destruct X as [X|[X|[]]]; [|discriminate].
        apply in_app_or in X. destruct X as [X|X].
        2:{ exfalso. apply in_app_or in X. destruct X as [X|X]; [destruct (r_export_maps i); [|destruct X]|]; apply (AP _ (ltac:(eauto))); exact F. }
        rewrite DE in X. unfold M_Run.write_output in X. destruct (r_interpolate i css) as [|c0 cs] eqn:EI; [contradiction|].
        set (xs := c0 :: cs) in *.
        assert (J : exists ws, In (Ok (f, ws)) (dimr_jobs show_float show4 xs) \/ In (Ok (f, ws)) (sobek_jobs show_float xs) \/
                               In (Ok (f, ws)) (other_jobs show_float xs)).
        { apply in_app_or in X; destruct X as [X|X].
          { apply (guarded_touch can_open log_line pickled) in X. destruct X as [X|(ws & X)]; [contradiction|eauto]. }
          apply in_app_or in X; destruct X as [X|X]; [apply sobek_messages_touch in X; contradiction|].
          apply in_app_or in X; destruct X as [X|X].
          { apply (guarded_touch can_open log_line pickled) in X. destruct X as [X|(ws & X)]; [contradiction|eauto]. }
          apply in_app_or in X; destruct X as [X|[X|[]]]; [|discriminate].
          apply (guarded_touch can_open log_line pickled) in X. destruct X as [X|(ws & X)]; [contradiction|eauto]. }
        clear X. destruct J as (ws & [J|[J|J]]).
        + destruct J as [J|[J|J]]; [injection J as <- _|injection J as <- _|].
          * split; [discriminate|]. intros x label [Y|[Y|[Y|[]]]]; discriminate.
          * split; [discriminate|]. intros x label [Y|[Y|[Y|[]]]]; discriminate.
          * apply in_map_iff in J. destruct J as (sec & J & IS). unfold roughness_job in J.
            destruct (teqb_spec sec (T "main")); [|destruct (teqb_spec sec (T "floodplain1")); [|destruct (teqb_spec sec (T "floodplain2")); [|discriminate]]];
              injection J as <- _; (split; [discriminate|]); intros x label [Y|[Y|[Y|[]]]]; try discriminate; injection Y as <- _; subst sec; exact IS.
        + destruct J as [J|[J|[]]]; injection J as <- _; (split; [discriminate|]); intros x label [Y|[Y|[Y|[]]]]; discriminate.
        + destruct J as [J|[J|[]]]; injection J as <- _; (split; [discriminate|]); intros x label [Y|[Y|[Y|[]]]]; discriminate.
      - intros (NT & SEC). destruct WH as ((D1 & D2 & D3) & (S1 & _ & S3) & (O1 & O2)).
        cbn in F. destruct F as [F|[F|[F|[F|[F|[F|[F|[F|[F|[F|[]]]]]]]]]]]; subst f; try (eapply W; eassumption).
        + destruct (D3 _ (SEC _ _ (or_introl eq_refl))) as (g & lab & Y & Z).
          destruct Y as [Y|[Y|[Y|[]]]]; try discriminate; injection Y as <- <-; eapply W; exact Z.
        + destruct (D3 _ (SEC _ _ (or_intror (or_introl eq_refl)))) as (g & lab & Y & Z).
          destruct Y as [Y|[Y|[Y|[]]]]; try discriminate; injection Y as <- <-; eapply W; exact Z.
        + destruct (D3 _ (SEC _ _ (or_intror (or_intror (or_introl eq_refl))))) as (g & lab & Y & Z).
          destruct Y as [Y|[Y|[Y|[]]]]; try discriminate; injection Y as <- <-; eapply W; exact Z.
        + contradiction NT. reflexivity. }
    rewrite OP. tauto.
  Qed.
End Rerun.
Print Assumptions C117_files_of_an_overwriting_run_partial.
Print Assumptions C117_running_twice_is_running_once.
Print Assumptions C117_what_is_left_of_an_earlier_run.

(** ** Refutations *)

Definition rerun_css : xs :=
  mk_xs (T "waal_1") (T "waal") (Fin 1) [Fin 0; Fin 1] [Fin 10; Fin 20] [Fin 10; Fin 30] NaN (Fin 0) (Fin 0) (Fin 0) NaN
    [(T "main", Fin 10); (T "floodplain1", Fin 20); (T "floodplain2", Fin 0)]
    [(T "main", ([Fin 1; Fin 2], [Fin 45; Fin 40]))]
    (mk_volumes [Fin 1] [Fin 2] [Fin 3] [Fin 4] [Fin 5] [Fin 6] [Fin 7] [Fin 8] [Fin 9] [Fin 10] [NaN]).
Definition rerun_input (faces : nat) : input :=
  mk_input true true true ([], Ok 5%nat) 0 false 0 [] false [mk_css_data (T "waal_1") true faces (Ok rerun_css)]
    (fun l => l) true false [] [].
Definition rerun (faces : nat) (d : directory) :=
  run (show_num 3) (show_num 3) (fun _ => true) (fun _ m => m ++ [newline]) (fun _ => []) (rerun_input faces) true d.

(** The floodplain is in a section of its own in the first run and not in the
    second: its roughness file stays with the new files of the main channel. *)
Theorem C117_old_roughness_refuted :
  let d := put roughness_fp2 (T "old") nothing in
  snd (rerun 12 d) = Ok true /\ ~ error_logged (fst (rerun 12 d)) /\
  play (fst (rerun 12 d)) d roughness_fp2 = Some (T "old") /\
  play (fst (rerun 12 nothing)) nothing roughness_fp2 = None /\
  exists t, play (fst (rerun 12 d)) d roughness_main = Some t /\ t <> [].
Proof.
  intro d. split; [vm_compute; reflexivity|]. split.
  { intros (t & X). vm_compute in X. repeat (destruct X as [X|X]; [discriminate|]). exact X. }
  split; [vm_compute; reflexivity|]. split; [vm_compute; reflexivity|].
  eexists. split; [vm_compute; reflexivity|discriminate].
Qed.
Print Assumptions C117_old_roughness_refuted.

(** If no cross-section is generated all results of the earlier run stay, and
    the run returns True. *)
Theorem C117_no_cross_sections_refuted :
  forall d, snd (rerun 9 d) = Ok true /\ forall f, f <> log_file -> play (fst (rerun 9 d)) d f = d f.
Proof.
  intro d. unfold rerun, run. rewrite andb_false_r. cbn [negb r_ini rerun_input].
  set (r := run_inifile _ _ _ _ _ _). vm_compute in r. subst r. cbn [fst snd]. split; [reflexivity|].
  intros f N. apply play_untouched. intros a X. cbn in X.
  repeat (destruct X as [<-|X]; [cbn; congruence|]). destruct X.
Qed.
Print Assumptions C117_no_cross_sections_refuted.
