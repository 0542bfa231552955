(** Theorems for C96: what the result and the log of a run say about its output. *)
From Coq Require Import String List Ascii ZArith QArith Bool Lia.
From Verif Require Import PyBase Num Text L_Text Fixed M_Ini M_Friction M_Import M_Network M_Export L_Export M_Log M_Run T_Run T_Generate.
Import ListNotations.
Local Open Scope char_scope.

(** ** Specification *)

Definition error_logged (acts : list action) : Prop := exists t, In (Log Error t) acts.
Definition warning_logged (acts : list action) : Prop := exists t, In (Log Warning t) acts.

(** All writes succeed and [t] is all that is written. *)
Definition written (ws : list (res text)) (t : text) : Prop := exists ts, ws = map Ok ts /\ t = concat ts.
(** The file holds everything that its writer writes. *)
Definition whole (d : directory) (f : text) (ws : list (res text)) : Prop := exists t, d f = Some t /\ written ws t.

(** The roughness files by section: the name in the tables, the file and the name in the file. *)
Definition roughness_files : list (text * text * text) :=
  [(T "main", T "roughness-Main.ini", T "Main"); (T "floodplain1", T "roughness-FloodPlain1.ini", T "FloodPlain1");
   (T "floodplain2", T "roughness-FloodPlain2.ini", T "FloodPlain2")].

Definition dimr_complete (sf s4 : num -> text) (css : list xs) (d : directory) : Prop :=
  whole d (T "CrossSectionLocations.ini") (write_css_locations sf css) /\
  whole d (T "CrossSectionDefinitions.ini") (write_geometry_fm1d sf css) /\
  (forall s, In s (sections_of css) -> exists f label,
     In (s, f, label) roughness_files /\ whole d f (write_roughness_fm1d sf s4 css label)).
Definition sobek_complete (sf : num -> text) (css : list xs) (d : directory) : Prop :=
  whole d (T "geometry.csv") (write_geometry_sobek3 sf css) /\
  (forall c, In c css -> exists t, written (sobek_writes sf c) t) /\
  whole d (T "roughness.csv") (write_roughness_sobek3 sf css).
Definition others_complete (sf : num -> text) (css : list xs) (d : directory) : Prop :=
  whole d (T "geometry_test.csv") (write_geometry_test sf css) /\ whole d (T "volumes.csv") (write_volumes sf css).
Definition complete_output (sf s4 : num -> text) (css : list xs) (d : directory) : Prop :=
  dimr_complete sf s4 css d /\ sobek_complete sf css d /\ others_complete sf css d.

(** A row of the cross-section list that can be generated: an id, all fields, at least ten faces. *)
Definition usable (c : css_data) : Prop := cd_id c <> [] /\ cd_complete c = true /\ (10 <= cd_faces c)%nat.

(** ** Proofs *)

Lemma error_app a b : error_logged (a ++ b) <-> error_logged a \/ error_logged b.
Proof.
  split.
  - intros (t & I). apply in_app_or in I. destruct I; [left|right]; exists t; auto.
  - intros [(t & I)|(t & I)]; exists t; apply in_or_app; auto.
Qed.
Lemma no_error_nil : ~ error_logged [].
Proof. intros (t & []). Qed.
Lemma no_error_files acts : (forall a, In a acts -> forall l t, a <> Log l t) -> ~ error_logged acts.
Proof. intros H (t & I). apply (H _ I Error t). reflexivity. Qed.

Lemma run_writes_written ws : snd (run_writes ws) = None <-> exists t, written ws t.
Proof.
  split.
  - induction ws as [|[t|e] ws IH]; cbn [run_writes snd]; intro H; [exists [], []; auto| |discriminate].
    destruct (IH H) as (u & ts & -> & ->). exists (t ++ concat ts), (t :: ts). auto.
  - intros (t & ts & -> & _). induction ts as [|x ts IH]; cbn; auto.
Qed.
Lemma run_writes_text ws : snd (run_writes ws) = None -> written ws (fst (run_writes ws)).
Proof.
  induction ws as [|[t|e] ws IH]; cbn [run_writes snd fst]; intro H; [exists []; auto| |discriminate].
  destruct (IH H) as (ts & -> & E). exists (t :: ts). split; auto. rewrite E. reflexivity.
Qed.
Lemma written_text ws t : written ws t -> run_writes ws = (t, None).
Proof.
  intros (ts & -> & ->). induction ts as [|x ts IH]; [reflexivity|]. cbn [map run_writes]. rewrite IH. reflexivity.
Qed.
Lemma wanted_usable c : wanted c = true <-> usable c.
Proof.
  unfold wanted, usable. destruct (cd_id c); [split; [discriminate|intros (H & _); congruence]|].
  rewrite andb_true_iff, Nat.leb_le. intuition discriminate.
Qed.

Section Report.
  Variable show_float : num -> text.
  Variable show4 : num -> text.
  Variable can_open : text -> bool.
  Variable log_line : level -> text -> text.
  Variable pickled : text -> text.
  Notation group := (group can_open).
  Notation guarded := (guarded can_open log_line).
  Notation write_output := (write_output show_float show4 can_open log_line).
  Notation dimr_jobs := (dimr_jobs show_float show4).
  Notation sobek_jobs := (sobek_jobs show_float).
  Notation other_jobs := (other_jobs show_float).
  Notation run := (run show_float show4 can_open log_line pickled).
  Notation generate_list := (generate_list log_line pickled).
  Notation sobek_messages := (sobek_messages show_float can_open log_line).

  Lemma group_no_log js a : In a (fst (group js)) -> forall l t, a <> Log l t.
  Proof.
    assert (W : forall f ws a, In a (fst (write_actions f ws)) -> forall l t, a <> Log l t).
    { intros f ws. induction ws as [|[t|e] ws IH]; cbn; try tauto. intros b [<-|I]; [discriminate|auto]. }
    assert (J : forall j a, In a (fst (job_actions can_open j)) -> forall l t, a <> Log l t).
    { intros j b I. unfold job_actions in I. destruct (can_open (fst j)); cbn in I; [|destruct I].
      destruct I as [<-|I]; [discriminate|eauto]. }
    induction js as [|[j|e] js IH]; cbn [M_Run.group fst]; try (intros []).
    destruct (snd (job_actions can_open j)); cbn [fst]; intro I; [eauto|].
    apply in_app_or in I. destruct I; eauto.
  Qed.
  Lemma guarded_error js m : error_logged (guarded js m) <-> snd (group js) <> None.
  Proof.
    unfold M_Run.guarded. rewrite error_app. split.
    - intros [H|H]; [exfalso; revert H; apply no_error_files, group_no_log|].
      intro E. rewrite E in H. destruct H as (t & []).
    - intro H. right. destruct (snd (group js)); [|congruence]. exists (log_line Error m). left. reflexivity.
  Qed.
  Lemma sobek_messages_error css : error_logged (sobek_messages css) <->
    can_open sobek_geometry = true /\ exists c, In c css /\ snd (run_writes (sobek_writes show_float c)) <> None.
  Proof.
    unfold M_Run.sobek_messages. destruct (can_open sobek_geometry); [|split; [intros (t & [])|intros (H & _); discriminate]].
    split.
    - intros (t & I). apply in_flat_map in I. destruct I as (c & Ic & I). split; auto. exists c. split; auto.
      intro E. rewrite E in I. destruct I.
    - intros (_ & c & Ic & H). destruct (snd (run_writes (sobek_writes show_float c))) as [e|] eqn:E; [|congruence].
      eexists. apply in_flat_map. exists c. split; [exact Ic|]. rewrite E. left. reflexivity.
  Qed.

  Lemma group_jobs js : snd (group js) = None -> forall r, In r js ->
    exists f ws, r = Ok (f, ws) /\ can_open f = true /\ snd (run_writes ws) = None.
  Proof.
    induction js as [|[[f ws]|e] js IH]; intros E r I; cbn [M_Run.group] in E; [destruct I| |discriminate].
    destruct (snd (job_actions can_open (f, ws))) eqn:Ej; [discriminate|]. cbn [snd] in E.
    destruct I as [<-|I]; [|auto]. exists f, ws. split; auto. unfold job_actions in Ej. cbn [fst snd] in Ej.
    destruct (can_open f); [|discriminate]. cbn [snd] in Ej. rewrite write_actions_exn in Ej. auto.
  Qed.

  (** After writing without an error message everything is there. *)
  Lemma output_complete css d : css <> [] -> ~ error_logged (write_output css true) ->
    complete_output show_float show4 css (play (write_output css true) d).
  Proof.
    intros Hc H.
    assert (N : snd (group (dimr_jobs css)) = None /\ snd (group (sobek_jobs css)) = None /\ snd (group (other_jobs css)) = None /\
      ~ error_logged (sobek_messages css)).
    { unfold M_Run.write_output in H. destruct css as [|c css]; [congruence|]. rewrite !error_app, !guarded_error in H.
      destruct (snd (group (dimr_jobs (c :: css)))); [exfalso; apply H; left; discriminate|].
      destruct (snd (group (sobek_jobs (c :: css)))); [exfalso; apply H; right; right; left; discriminate|].
      destruct (snd (group (other_jobs (c :: css)))); [exfalso; apply H; right; right; right; left; discriminate|].
      repeat split; auto. }
    destruct N as (ND & NS & NO & NM). unfold complete_output.
    assert (R : forall js f ws, snd (group js) = None -> In (Ok (f, ws)) js ->
      NoDup (flat_map (fun j => match j with Ok j => [fst j] | Raise _ => [] end) js) ->
      play (write_output css true) d f = play (fst (group js)) d f -> whole (play (write_output css true) d) f ws).
    { intros js f ws E I Nd P. destruct (group_result can_open pickled js f ws d E I Nd) as [A B].
      exists (fst (run_writes ws)). split; [rewrite P; exact A|apply run_writes_text; exact B]. }
    split; [|split].
    - assert (D : forall f ws, In (Ok (f, ws)) (dimr_jobs css) -> whole (play (write_output css true) d) f ws).
      { intros f ws I. destruct (C45_dimr_files_complete show_float show4 can_open log_line pickled css d f ws Hc ND I) as [A B].
        exists (fst (run_writes ws)). split; [exact A|apply run_writes_text; exact B]. }
      split; [apply D; left; reflexivity|]. split; [apply D; right; left; reflexivity|].
      intros s Is.
      assert (Ij : In (roughness_job show_float show4 css s) (dimr_jobs css)) by (right; right; apply in_map; exact Is).
      destruct (group_jobs _ ND _ Ij) as (f & ws & Ej & _). rewrite Ej in Ij. apply D in Ij.
      unfold roughness_job in Ej.
      destruct (teqb_spec s (T "main")) as [->|]; [injection Ej as <- <-; exists roughness_main, (T "Main"); split; [left; reflexivity|exact Ij]|].
      destruct (teqb_spec s (T "floodplain1")) as [->|];
        [injection Ej as <- <-; exists roughness_fp1, (T "FloodPlain1"); split; [right; left; reflexivity|exact Ij]|].
      destruct (teqb_spec s (T "floodplain2")) as [->|];
        [injection Ej as <- <-; exists roughness_fp2, (T "FloodPlain2"); split; [right; right; left; reflexivity|exact Ij]|discriminate].
    - assert (Nd : NoDup (flat_map (fun j : res job => match j with Ok j => [fst j] | Raise _ => [] end) (sobek_jobs css))).
      { cbn. constructor; [|constructor; [intros []|constructor]]. intros [X|[]]. discriminate. }
      split; [|split].
      + apply (R (sobek_jobs css)); auto; [left; reflexivity|]. apply (C45_groups_are_independent show_float show4 can_open log_line pickled); auto. left. reflexivity.
      + intros c Ic. apply run_writes_written. destruct (snd (run_writes (sobek_writes show_float c))) eqn:E; auto.
        exfalso. apply NM, sobek_messages_error. split; [|exists c; split; auto; congruence].
        destruct (group_jobs _ NS _ (or_introl eq_refl)) as (f & ws & Ej & Co & _). injection Ej as <- <-. exact Co.
      + apply (R (sobek_jobs css)); auto; [right; left; reflexivity|]. apply (C45_groups_are_independent show_float show4 can_open log_line pickled); auto. right. left. reflexivity.
    - assert (Nd : NoDup (flat_map (fun j : res job => match j with Ok j => [fst j] | Raise _ => [] end) (other_jobs css))).
      { cbn. constructor; [|constructor; [intros []|constructor]]. intros [X|[]]. discriminate. }
      split.
      + apply (R (other_jobs css)); auto; [left; reflexivity|]. apply (C45_groups_are_independent show_float show4 can_open log_line pickled); auto. left. reflexivity.
      + apply (R (other_jobs css)); auto; [right; left; reflexivity|]. apply (C45_groups_are_independent show_float show4 can_open log_line pickled); auto. right. left. reflexivity.
  Qed.

  (** Something that is not there was reported. *)
  Lemma output_incomplete css d : css <> [] -> error_logged (write_output css true) ->
    ~ complete_output show_float show4 css (play (write_output css true) d) \/
    exists f, In f output_files /\ can_open f = false.
  Proof.
    intros Hc H.
    destruct (forallb can_open output_files) eqn:Co.
    2: { right. apply Bool.not_true_iff_false in Co. rewrite forallb_forall in Co.
         destruct (existsb (fun f => negb (can_open f)) output_files) eqn:X.
         - apply existsb_exists in X. destruct X as (f & I & X). exists f. split; auto. destruct (can_open f); [discriminate|reflexivity].
         - exfalso. apply Co. intros f I. destruct (can_open f) eqn:Y; auto. exfalso.
           assert (Z : existsb (fun f => negb (can_open f)) output_files = true).
           { apply existsb_exists. exists f. rewrite Y. auto. }
           congruence. }
    rewrite forallb_forall in Co. left. intros (D & (_ & S2 & S3) & (O1 & O2)).
    destruct D as (D1 & D2 & D3).
    assert (OK : forall f ws d', can_open f = true -> whole d' f ws -> snd (job_actions can_open (f, ws)) = None).
    { intros f ws d' C (t & _ & W). unfold job_actions. cbn [fst]. rewrite C. cbn [snd]. rewrite write_actions_exn.
      apply run_writes_written. eauto. }
    assert (G : forall js, (forall r, In r js -> exists f ws d', r = Ok (f, ws) /\ can_open f = true /\ whole d' f ws) -> snd (group js) = None).
    { induction js as [|r js IH]; intro F; [reflexivity|].
      destruct (F r (or_introl eq_refl)) as (f & ws & d' & -> & C & W). cbn [M_Run.group]. rewrite (OK f ws d' C W). cbn [snd].
      apply IH. intros r I. apply F. right. exact I. }
    unfold M_Run.write_output in H. destruct css as [|c css]; [congruence|]. set (l := c :: css) in *.
    rewrite !error_app, !guarded_error in H.
    destruct H as [H|[H|[H|[H|H]]]].
    - apply H, G. intros r [<-|[<-|I]].
      + eexists _, _, _. split; [reflexivity|]. split; [apply Co; left; reflexivity|exact D1].
      + eexists _, _, _. split; [reflexivity|]. split; [apply Co; right; left; reflexivity|exact D2].
      + apply in_map_iff in I. destruct I as (s & <- & Is). destruct (D3 s Is) as (f & lab & Ir & W).
        assert (E : roughness_job show_float show4 l s = Ok (f, write_roughness_fm1d show_float show4 l lab) /\ In f output_files).
        { destruct Ir as [X|[X|[X|[]]]]; injection X as <- <- <-; (split; [reflexivity|cbn; auto 7]). }
        destruct E as [-> If]. eexists _, _, _. split; [reflexivity|]. split; [apply Co; exact If|exact W].
    - apply sobek_messages_error in H. destruct H as (_ & x & Ix & Nx). apply Nx, run_writes_written. auto.
    - apply H, G. intros r [<-|[<-|[]]].
      + eexists _, _, (put sobek_geometry (fst (run_writes (write_geometry_sobek3 show_float l))) d).
        split; [reflexivity|]. split; [apply Co; cbn; auto 10|].
        exists (fst (run_writes (write_geometry_sobek3 show_float l))). split; [apply put_same|]. apply run_writes_text.
        unfold write_geometry_sobek3. cbn [run_writes snd]. clear. generalize l. intro k. induction k; cbn; auto.
      + eexists _, _, _. split; [reflexivity|]. split; [apply Co; cbn; auto 10|exact S3].
    - apply H, G. intros r [<-|[<-|[]]].
      + eexists _, _, _. split; [reflexivity|]. split; [apply Co; cbn; auto 12|exact O1].
      + eexists _, _, _. split; [reflexivity|]. split; [apply Co; cbn; auto 12|exact O2].
    - destruct H as (t & [X|[]]). discriminate.
  Qed.

  (** ** Generation *)

  Lemma generate_one_error ed c : error_logged (fst (generate_cross_section log_line pickled ed c)) <-> wanted c = false.
  Proof.
    unfold generate_cross_section, wanted. destruct (cd_id c) as [|a l].
    { split; auto. intros _. eexists. left. reflexivity. }
    destruct (cd_complete c); cbn [negb andb].
    2: { split; auto. intros _. eexists. left. reflexivity. }
    destruct (Nat.ltb_spec (cd_faces c) 10), (Nat.leb_spec 10 (cd_faces c)); try lia; cbn [fst].
    - split; auto. intros _. eexists. apply in_or_app. right. left. reflexivity.
    - split; [|discriminate]. intros (t & I). destruct ed; cbn in I; intuition discriminate.
  Qed.
  Lemma generate_error ed s css : snd (generate_all log_line pickled ed s) = Ok css ->
    (error_logged (fst (generate_all log_line pickled ed s)) <-> exists c, In c s /\ wanted c = false) /\
    (Forall (fun c => wanted c = true) s -> map cd_build s = map Ok css).
  Proof.
    revert css. induction s as [|c s IH]; intros css E; cbn [generate_all] in *.
    - injection E as <-. split; [split; [intros (t & [])|intros (c & [] & _)]|reflexivity].
    - pose proof (generate_one log_line pickled ed c) as G1.
      destruct (snd (generate_cross_section log_line pickled ed c)) as [x|e] eqn:Ex; [|discriminate].
      cbn [fst snd] in *. destruct (snd (generate_all log_line pickled ed s)) as [css'|e] eqn:Es; [|discriminate].
      cbn [res_map] in E. injection E as <-. destruct (IH css' eq_refl) as [A B]. split.
      + rewrite error_app, A, generate_one_error. split.
        * intros [H|(b & I & H)]; [exists c|exists b]; split; auto; [left|right]; auto.
        * intros (b & [<-|I] & H); [left; auto|right; exists b; auto].
      + intro F. inversion F as [|? ? F1 F2]; subst. rewrite F1 in G1. destruct (cd_build c) as [y|e] eqn:Ey; [|discriminate].
        cbn [res_map] in G1. injection G1 as ->. cbn [map]. rewrite Ey, (B F2). reflexivity.
  Qed.

  (** ** The run *)

  (** What a run does that returns True. *)
  Lemma run_true i ow d : snd (run i ow d) = Ok true ->
    exists s css, selected (r_selection i) (r_css i) = Ok s /\ snd (generate_all log_line pickled (r_export_data i) s) = Ok css /\
      fst (run i ow d) = fst (initialise log_line i) ++ fst (generate_all log_line pickled (r_export_data i) s) ++
        (write_output (r_interpolate i css) (r_dir_exists i) ++ (if r_export_maps i then r_maps i else []) ++ r_envelope i) ++
        [logged log_line Info (T "Program finished")] /\
      exists n, snd (r_read i) = Ok n /\ fst (validate (r_skip i) n (r_no_edge_faces i) (r_weighing i)) = true /\
        r_map_exists i = true /\ r_css_exists i = true.
  Proof.
    unfold M_Run.run. destruct (negb (r_ini i)); [discriminate|]. destruct (output_exists d && negb ow); [discriminate|].
    cbn [fst snd]. unfold run_inifile. intro H.
    destruct (snd (initialise log_line i)) as [[]|e] eqn:Ei; [|destruct e; discriminate H].
    unfold M_Run.generate_list in H |- *. destruct (selected (r_selection i) (r_css i)) as [s|e] eqn:Es; [|discriminate H].
    destruct (snd (generate_all log_line pickled (r_export_data i) s)) as [css|e] eqn:Eg; [|discriminate H].
    exists s, css. repeat split; auto.
    - cbn [fst snd finalise res_map]. rewrite <- !app_assoc. reflexivity.
    - unfold initialise in Ei. destruct (r_map_exists i), (r_css_exists i); cbn [negb orb] in Ei; try discriminate Ei.
      destruct (snd (r_read i)) as [n|e]; [|destruct e; discriminate Ei]. cbv zeta in Ei. exists n.
      destruct (fst (validate (r_skip i) n (r_no_edge_faces i) (r_weighing i))); [auto|discriminate Ei].
  Qed.

  (** The files with faces, links and envelopes are no output files of the exporter. *)
  Definition apart (i : input) : Prop :=
    forall a, In a (r_maps i) \/ In a (r_envelope i) -> ~ In (touches a) output_files.

  (** A run that returns True without an error message has generated every selected row and has written every file
      of the generated cross-sections completely, unless the output directory has disappeared. *)
  Theorem C96_clean_log_means_complete : forall i ow d, snd (run i ow d) = Ok true -> ~ error_logged (fst (run i ow d)) ->
    apart i ->
    exists s css, selected (r_selection i) (r_css i) = Ok s /\ Forall usable s /\ map cd_build s = map Ok css /\
      (r_interpolate i css <> [] -> r_dir_exists i = true ->
       complete_output show_float show4 (r_interpolate i css) (play (fst (run i ow d)) d)).
  Proof.
    intros i ow d H N Ap. destruct (run_true i ow d H) as (s & css & Es & Eg & E & _).
    rewrite E in N. rewrite !error_app in N. exists s, css. split; [exact Es|].
    destruct (generate_error _ _ _ Eg) as [A B].
    assert (W : Forall (fun c => wanted c = true) s).
    { apply Forall_forall. intros c Ic. destruct (wanted c) eqn:X; auto. exfalso. apply N. right. left. apply A. eauto. }
    split; [eapply Forall_impl; [|exact W]; intros c; apply wanted_usable|]. split; [auto|].
    intros Hn Hd. rewrite E, !play_app. rewrite Hd in N |- *.
    set (d0 := play (fst (generate_all _ _ _ _)) _).
    pose proof (output_complete (r_interpolate i css) d0 Hn ltac:(tauto)) as C.
    set (d1 := play (write_output _ true) d0) in *.
    assert (K : forall f, In f output_files -> play [logged log_line Info (T "Program finished")]
       (play (r_envelope i) (play (if r_export_maps i then r_maps i else []) d1)) f = d1 f).
    { intros f If. rewrite play_untouched.
      - rewrite play_untouched; [|intros a I X; apply (Ap a); [auto|congruence]].
        apply play_untouched. intros a I X. destruct (r_export_maps i); [|destruct I]. apply (Ap a); [auto|congruence].
      - intros a [<-|[]] X. cbn [touches logged] in X. subst f. cbn in If. intuition discriminate. }
    assert (Wh : forall f ws, In f output_files -> whole d1 f ws -> whole (play [logged log_line Info (T "Program finished")]
       (play (r_envelope i) (play (if r_export_maps i then r_maps i else []) d1))) f ws).
    { intros f ws If (t & X & Y). exists t. rewrite (K f If). auto. }
    destruct C as ((D1 & D2 & D3) & (S1 & S2 & S3) & (O1 & O2)).
    split; [split; [|split]|split; [split; [|split]|split]]; auto; try (apply Wh; auto; cbn; auto 12; fail).
    intros x Ix. destruct (D3 x Ix) as (f & lab & Ir & Wf). exists f, lab. split; auto. apply Wh; auto.
    destruct Ir as [X|[X|[X|[]]]]; injection X as <- <- <-; cbn; auto 7.
  Qed.

  Lemma validate_ok_error skip n nof w : fst (validate skip n nof w) = true -> ~ In Error (snd (validate skip n nof w)).
  Proof.
    intros H I. destruct (C48_decision_rule skip n nof w) as (A & B & _). cbv zeta in A, B.
    apply B, A in I. congruence.
  Qed.

  (** No false alarm: an error message of a run that returns True stands for a row without a cross-section, for
      incomplete output or a file that cannot be opened, or comes from reading, the map files or the envelopes. *)
  Theorem C96_errors_are_real : forall i ow d, snd (run i ow d) = Ok true -> error_logged (fst (run i ow d)) ->
    error_logged (fst (r_read i)) \/ error_logged (r_maps i) \/ error_logged (r_envelope i) \/
    exists s css, selected (r_selection i) (r_css i) = Ok s /\
      snd (generate_all log_line pickled (r_export_data i) s) = Ok css /\
      ((exists c, In c s /\ ~ usable c) \/
       (r_interpolate i css <> [] /\ r_dir_exists i = true /\
        forall d', ~ complete_output show_float show4 (r_interpolate i css) (play (write_output (r_interpolate i css) true) d') \/
                   exists f, In f output_files /\ can_open f = false)).
  Proof.
    intros i ow d H L. destruct (run_true i ow d H) as (s & css & Es & Eg & E & n & Er & Ev & Em & Ec).
    rewrite E in L. rewrite !error_app in L. destruct L as [L|[L|[[L|[L|L]]|L]]]; auto.
    - unfold initialise in L. rewrite Em, Ec, Er in L. cbn [negb orb] in L. cbv zeta in L. rewrite Ev in L. cbn [fst] in L.
      apply error_app in L. destruct L as [L|(t & L)]; auto. apply in_map_iff in L. destruct L as (l & X & I).
      unfold logged in X. injection X as -> _. exfalso. eapply validate_ok_error; eauto.
    - right. right. right. exists s, css. repeat split; auto. left. destruct (generate_error _ _ _ Eg) as [A _].
      apply A in L. destruct L as (c & Ic & Wc). exists c. split; auto. rewrite <- wanted_usable. congruence.
    - right. right. right. exists s, css. repeat split; auto. right.
      assert (Hn : r_interpolate i css <> []). { intro X. rewrite X in L. destruct L as (t & []). }
      destruct (r_dir_exists i) eqn:Hd.
      2: { exfalso. destruct (r_interpolate i css); destruct L as (t & []). }
      split; [exact Hn|]. split; auto. intro d'. apply output_incomplete; auto.
    - destruct (r_export_maps i); [auto|destruct L as (t & [])].
    - destruct L as (t & [X|[]]). discriminate.
  Qed.

  (** A run that returns False says so with a warning and leaves the output as it was; unless it stops because of
      existing output there is an error message as well. *)
  Theorem C96_false_means_nothing_done : forall i ow d, r_ini i = true -> snd (run i ow d) = Ok false ->
    (forall a, In a (fst (r_read i)) -> ~ In (touches a) output_files) ->
    warning_logged (fst (run i ow d)) /\
    (error_logged (fst (run i ow d)) \/ (ow = false /\ exists f, In f output_files /\ d f <> None)) /\
    (forall f, In f output_files -> play (fst (run i ow d)) d f = d f).
  Proof.
    intros i ow d Hi H Hr. unfold M_Run.run in *. rewrite Hi in *. cbn [negb] in *.
    assert (NL : forall f, In f output_files -> f <> log_file) by (intros f If ->; cbn in If; intuition discriminate).
    destruct (output_exists d && negb ow) eqn:Eo.
    - apply andb_true_iff in Eo. destruct Eo as [Eo Ew]. split; [eexists; left; reflexivity|]. split.
      + right. split; [destruct ow; auto; discriminate|]. apply output_exists_spec. exact Eo.
      + intros f If. apply play_untouched. intros a [<-|[]] X. apply (NL f If). rewrite <- X. reflexivity.
    - cbn [fst snd] in *. rewrite H. unfold run_inifile in *.
      destruct (snd (initialise log_line i)) as [[]|e] eqn:Ei.
      { destruct (snd (generate_list (r_selection i) (r_export_data i) (r_css i))) as [css|e]; [|discriminate H].
        cbn in H. discriminate H. }
      destruct e; try discriminate H. cbn [fst].
      split; [eexists; apply in_or_app; right; left; reflexivity|].
      split; [left; eexists; apply in_or_app; left; apply in_or_app; right; left; reflexivity|].
      intros f If. apply play_untouched. intros a I X. rewrite !in_app_iff in I.
      destruct I as [[I|[<-|[]]]|[<-|[]]]; [|apply (NL f If); rewrite <- X; reflexivity..].
      apply initialise_touch in I. destruct I as [I|I]; [apply (NL f If); congruence|]. apply (Hr a I). congruence.
  Qed.
End Report.
Print Assumptions C96_clean_log_means_complete.
Print Assumptions C96_errors_are_real.
Print Assumptions C96_false_means_nothing_done.

(** ** Cases *)

Definition report_css : xs :=
  mk_xs (T "waal_1") (T "waal") (Fin 1) [Fin 0; Fin 1] [Fin 10; Fin 20] [Fin 10; Fin 30] NaN (Fin 0) (Fin 0) (Fin 0) NaN
    [(T "main", Fin 10); (T "floodplain1", Fin 20); (T "floodplain2", Fin 0)]
    [(T "main", ([Fin 1; Fin 2], [Fin 45; Fin 40]))]
    (mk_volumes [Fin 1] [Fin 2] [Fin 3] [Fin 4] [Fin 5] [Fin 6] [Fin 7] [Fin 8] [Fin 9] [Fin 10] [NaN]).
Definition report_input (faces : nat) (dir_exists : bool) : input :=
  mk_input true true true ([], Ok 5%nat) 0 false 0 [] false
    [mk_css_data (T "waal_1") true faces (Ok report_css)] (fun l => l) dir_exists false [] [].
Definition report_run (can_open : text -> bool) (i : input) :=
  run (show_num 3) (show_num 3) can_open (fun _ m => m ++ [newline]) (fun _ => []) i false (fun _ => None).

Theorem C96_case : snd (report_run (fun _ => true) (report_input 12 true)) = Ok true /\
  existsb (fun a => match a with Log Error _ => true | _ => false end) (fst (report_run (fun _ => true) (report_input 12 true))) = false /\
  apart (report_input 12 true).
Proof. split; [vm_compute; reflexivity|]. split; [vm_compute; reflexivity|]. intros a [[]|[]]. Qed.
Print Assumptions C96_case.

(** The documented result (True if the run was successful, False if errors occurred) is not returned: with too few
    faces, or with no file that can be opened, errors are logged, nothing is written and the result is True. *)
Theorem C96_true_after_errors_refuted : forall f,
  (exists i, snd (report_run (fun _ => true) i) = Ok true /\ error_logged (fst (report_run (fun _ => true) i)) /\
     (f <> log_file -> play (fst (report_run (fun _ => true) i)) (fun _ => None) f = None)) /\
  (exists i, snd (report_run (fun _ => false) i) = Ok true /\ error_logged (fst (report_run (fun _ => false) i)) /\
     (f <> log_file -> play (fst (report_run (fun _ => false) i)) (fun _ => None) f = None)).
Proof.
  intro f. split.
  - exists (report_input 9 true). split; [vm_compute; reflexivity|]. split; [eexists; vm_compute; left; reflexivity|].
    intro N. apply play_untouched. intros a I X. vm_compute in I. destruct I as [<-|[<-|[]]]; apply N; rewrite <- X; reflexivity.
  - exists (report_input 12 true). split; [vm_compute; reflexivity|]. split; [eexists; vm_compute; right; left; reflexivity|].
    intro N. apply play_untouched. intros a I X. vm_compute in I.
    repeat (destruct I as [<-|I]; [apply N; rewrite <- X; reflexivity|]). destruct I.
Qed.
Print Assumptions C96_true_after_errors_refuted.

(** If the output directory is removed during the run nothing is written; no error is logged and the result is True. *)
Theorem C96_missing_directory_refuted : forall f,
  exists i, snd (report_run (fun _ => true) i) = Ok true /\ ~ error_logged (fst (report_run (fun _ => true) i)) /\
     (f <> log_file -> play (fst (report_run (fun _ => true) i)) (fun _ => None) f = None).
Proof.
  intro f. exists (report_input 12 false). split; [vm_compute; reflexivity|]. split.
  - intros (t & I). vm_compute in I. intuition discriminate.
  - intro N. apply play_untouched. intros a I X. vm_compute in I. repeat (destruct I as [<-|I]; [apply N; rewrite <- X; reflexivity|]). destruct I.
Qed.
Print Assumptions C96_missing_directory_refuted.
