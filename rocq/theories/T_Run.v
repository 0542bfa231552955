(** Theorems for C44, C45 and C46: files written by a run. *)
From Coq Require Import String List Ascii ZArith QArith Bool Lia FinFun.
From Verif Require Import PyBase Num Text L_Text Fixed M_Ini M_Friction T_Friction M_Import M_Network M_Export L_Export M_Log M_Run.
Import ListNotations.
Local Open Scope char_scope.

(** ** Files and actions *)

Lemma put_same f t d : put f t d f = Some t.
Proof. unfold put. rewrite teqb_refl. reflexivity. Qed.
Lemma put_other f g t d : f <> g -> put f t d g = d g.
Proof. intro H. unfold put. destruct (teqb_spec f g); congruence. Qed.

Lemma apply_other d a g : touches a <> g -> apply d a g = d g.
Proof. destruct a; cbn; intro H; apply put_other; auto. Qed.

Lemma play_app a b d : play (a ++ b) d = play b (play a d).
Proof. apply fold_left_app. Qed.
Lemma play_cons a b d : play (a :: b) d = play b (apply d a).
Proof. reflexivity. Qed.

Lemma play_untouched acts g : (forall a, In a acts -> touches a <> g) -> forall d, play acts d g = d g.
Proof.
  induction acts as [|a acts IH]; intros H d; auto. rewrite play_cons, IH by (intros; apply H; right; auto).
  apply apply_other, H. left. auto.
Qed.

(** Only the directory entry of the file itself matters. *)
Lemma play_ext acts g : forall d d', d g = d' g -> play acts d g = play acts d' g.
Proof.
  induction acts as [|a acts IH]; intros d d' E; auto. rewrite !play_cons. apply IH.
  destruct a as [f|f t|l t]; cbn; unfold put; match goal with |- context [teqb ?f g] => destruct (teqb_spec f g) as [X|X] end; auto; unfold contents;
    rewrite X, E; auto.
Qed.

(** No action removes a file. *)
Lemma play_keeps acts g : forall d, d g <> None -> play acts d g <> None.
Proof.
  induction acts as [|a acts IH]; intros d H; auto. rewrite play_cons. apply IH.
  destruct a as [f|f t|l t]; cbn; unfold put; match goal with |- context [teqb ?f g] => destruct (teqb f g) end; auto; discriminate.
Qed.
Lemma play_creates acts g : forall d, In (Create g) acts -> play acts d g <> None.
Proof.
  induction acts as [|a acts IH]; intros d I; [destruct I|]. rewrite play_cons. destruct I as [->|I]; [|auto].
  apply play_keeps. cbn. rewrite put_same. discriminate.
Qed.

Section Writing.
  Variable show_float : num -> text.
  Variable show4 : num -> text.
  Variable can_open : text -> bool.
  Variable log_line : level -> text -> text.
  Variable pickled : text -> text.
  Notation job_actions := (job_actions can_open).
  Notation group := (group can_open).
  Notation guarded := (guarded can_open log_line).
  Notation write_output := (write_output show_float show4 can_open log_line).
  Notation dimr_jobs := (dimr_jobs show_float show4).
  Notation sobek_jobs := (sobek_jobs show_float).
  Notation other_jobs := (other_jobs show_float).
  Notation run := (run show_float show4 can_open log_line pickled).
  Notation generate_list := (generate_list log_line pickled).

  Lemma write_actions_touch f ws a : In a (fst (write_actions f ws)) -> touches a = f.
  Proof.
    induction ws as [|[t|e] ws IH]; cbn; try tauto. intros [<-|I]; auto.
  Qed.
  Lemma write_actions_exn f ws : snd (write_actions f ws) = snd (run_writes ws).
  Proof. induction ws as [|[t|e] ws IH]; cbn; auto. Qed.
  Lemma write_actions_play f ws : forall d t0, d f = Some t0 ->
    play (fst (write_actions f ws)) d f = Some (t0 ++ fst (run_writes ws)).
  Proof.
    induction ws as [|[t|e] ws IH]; intros d t0 E; cbn [write_actions run_writes fst snd].
    - rewrite app_nil_r. exact E.
    - rewrite play_cons. cbn [apply]. rewrite (IH _ (t0 ++ t)).
      + rewrite app_assoc. reflexivity.
      + unfold contents. rewrite E, put_same. reflexivity.
    - rewrite app_nil_r. exact E.
  Qed.

  (** A job that can be opened leaves its file with exactly what was written before the exception, if any. *)
  Lemma job_result f ws d : can_open f = true ->
    play (fst (job_actions (f, ws))) d f = Some (fst (run_writes ws)) /\
    snd (job_actions (f, ws)) = snd (run_writes ws).
  Proof.
    intro C. unfold M_Run.job_actions. cbn [fst snd]. rewrite C. cbn [fst snd]. rewrite play_cons. cbn [apply].
    split; [apply (write_actions_play f ws (put f [] d) []), put_same|apply write_actions_exn].
  Qed.
  Lemma job_touch j a : In a (fst (job_actions j)) -> touches a = fst j.
  Proof.
    unfold M_Run.job_actions. destruct (can_open (fst j)); cbn; try tauto. intros [<-|I]; auto.
    apply write_actions_touch in I. auto.
  Qed.
  Lemma group_touch js a : In a (fst (group js)) -> exists ws, In (Ok (touches a, ws)) js.
  Proof.
    induction js as [|[[f ws]|e] js IH]; cbn [M_Run.group fst]; try (intros []).
    destruct (snd (job_actions (f, ws))) eqn:E; cbn [fst]; intro I.
    - apply job_touch in I. exists ws. left. rewrite I. reflexivity.
    - apply in_app_or in I. destruct I as [I|I].
      + apply job_touch in I. exists ws. left. rewrite I. reflexivity.
      + destruct (IH I) as (ws' & I'). exists ws'. right. auto.
  Qed.

  (** A group without exception leaves every file with what its writer writes. *)
  Lemma group_result js f ws d : snd (group js) = None -> In (Ok (f, ws)) js ->
    NoDup (flat_map (fun j => match j with Ok j => [fst j] | Raise _ => [] end) js) ->
    play (fst (group js)) d f = Some (fst (run_writes ws)) /\ snd (run_writes ws) = None.
  Proof.
    revert d. induction js as [|[[g us]|e] js IH]; intros d E I N; cbn [M_Run.group flat_map fst app] in *;
      [destruct I| |discriminate].
    inversion N as [|? ? N1 N2]; subst.
    destruct (snd (job_actions (g, us))) eqn:Ej; [discriminate|]. cbn [fst snd] in *. rewrite play_app.
    destruct I as [I|I].
    - injection I as -> ->.
      assert (C : can_open f = true).
      { unfold M_Run.job_actions in Ej. cbn [fst] in Ej. destruct (can_open f); auto. discriminate. }
      destruct (job_result f ws d C) as [A B]. split; [|congruence].
      rewrite play_untouched; auto. intros a Ia. apply group_touch in Ia. destruct Ia as (vs & Ia) in *. intro X.
      apply N1. apply in_flat_map. exists (Ok (touches a, vs)). split; auto. left. auto.
    - apply IH; auto.
  Qed.

  (** ** C45 *)

  Definition dimr_files := [css_locations; css_definitions; roughness_main; roughness_fp1; roughness_fp2].
  Definition sobek_files := [sobek_geometry; sobek_roughness].
  Definition other_files := [test_geometry; volumes_file].

  Lemma roughness_job_name css s j : roughness_job show_float show4 css s = Ok j ->
    In (fst j) [roughness_main; roughness_fp1; roughness_fp2].
  Proof.
    unfold roughness_job. destruct (teqb s (T "main")); [intro H; injection H as <-; left; auto|].
    destruct (teqb s (T "floodplain1")); [intro H; injection H as <-; right; left; auto|].
    destruct (teqb s (T "floodplain2")); [intro H; injection H as <-; right; right; left; auto|discriminate].
  Qed.
  Lemma dimr_names css f ws : In (Ok (f, ws)) (dimr_jobs css) -> In f dimr_files.
  Proof.
    intros [H|[H|H]].
    - injection H as <- _. left. auto.
    - injection H as <- _. right. left. auto.
    - apply in_map_iff in H. destruct H as (s & E & _). apply roughness_job_name in E. right. right. exact E.
  Qed.
  Lemma sobek_names css f ws : In (Ok (f, ws)) (sobek_jobs css) -> In f sobek_files.
  Proof. intros [H|[H|[]]]; injection H as <- _; [left|right; left]; auto. Qed.
  Lemma other_names css f ws : In (Ok (f, ws)) (other_jobs css) -> In f other_files.
  Proof. intros [H|[H|[]]]; injection H as <- _; [left|right; left]; auto. Qed.

  Lemma guarded_touch js m a : In a (guarded js m) -> touches a = log_file \/ exists ws, In (Ok (touches a, ws)) js.
  Proof.
    unfold M_Run.guarded. intro I. apply in_app_or in I. destruct I as [I|I]; [right; apply group_touch; auto|].
    destruct (snd (group js)); [|destruct I]. destruct I as [<-|[]]. left. auto.
  Qed.

  Lemma sobek_messages_touch css a : In a (sobek_messages show_float can_open log_line css) -> touches a = log_file.
  Proof.
    unfold sobek_messages. destruct (can_open sobek_geometry); [|intros []]. intro I. apply in_flat_map in I.
    destruct I as (c & _ & I). destruct (snd (run_writes (sobek_writes show_float c))); [|destruct I].
    destruct I as [<-|[]]. reflexivity.
  Qed.
  Lemma sobek_messages_alone css d f : f <> log_file -> play (sobek_messages show_float can_open log_line css) d f = d f.
  Proof. intro N. apply play_untouched. intros a I. rewrite (sobek_messages_touch css a I). congruence. Qed.

  Theorem C45_output_is_confined : forall css e a, In a (write_output css e) ->
    In (touches a) (log_file :: dimr_files ++ sobek_files ++ other_files).
  Proof.
    intros css e a I. unfold M_Run.write_output in I. destruct css as [|c css]; [destruct I|].
    destruct e; [|destruct I].
    apply in_app_or in I; destruct I as [I|I]; [|apply in_app_or in I; destruct I as [I|I];
      [apply sobek_messages_touch in I; rewrite I; left; auto|apply in_app_or in I; destruct I as [I|I];
      [|apply in_app_or in I; destruct I as [I|I]]]].
    - apply guarded_touch in I. destruct I as [->|(ws & I)]; [left; auto|]. right. apply in_or_app. left.
      eapply dimr_names; eauto.
    - apply guarded_touch in I. destruct I as [->|(ws & I)]; [left; auto|]. right. apply in_or_app. right.
      apply in_or_app. left. eapply sobek_names; eauto.
    - apply guarded_touch in I. destruct I as [->|(ws & I)]; [left; auto|]. right. apply in_or_app. right.
      apply in_or_app. right. eapply other_names; eauto.
    - destruct I as [<-|[]]. left. auto.
  Qed.

  Theorem C45_nothing_without_cross_sections : forall css e, (css = [] \/ e = false) -> write_output css e = [].
  Proof. intros css e [->| ->]; [reflexivity|]. destruct css; reflexivity. Qed.

  Lemma guarded_alone js m f d : f <> log_file -> play (guarded js m) d f = play (fst (group js)) d f.
  Proof.
    intro N. unfold M_Run.guarded. rewrite play_app. apply play_untouched.
    intros a I. destruct (snd (group js)); [|destruct I]. destruct I as [<-|[]]. cbn. congruence.
  Qed.
  Lemma guarded_elsewhere js m f d : f <> log_file -> (forall ws, ~ In (Ok (f, ws)) js) -> play (guarded js m) d f = d f.
  Proof.
    intros N H. apply play_untouched. intros a I X. apply guarded_touch in I. destruct I as [I|(ws & I)]; [congruence|].
    apply (H ws). rewrite <- X. exact I.
  Qed.

  (** No group depends on what happens to the others: every file ends up as if its own group had been
      exported alone, whether or not the other groups fail. *)
  Theorem C45_groups_are_independent : forall css d f, css <> [] ->
    (In f dimr_files -> play (write_output css true) d f = play (fst (group (dimr_jobs css))) d f) /\
    (In f sobek_files -> play (write_output css true) d f = play (fst (group (sobek_jobs css))) d f) /\
    (In f other_files -> play (write_output css true) d f = play (fst (group (other_jobs css))) d f).
  Proof.
    intros css d f Hc.
    assert (E : write_output css true = guarded (dimr_jobs css) dimr_error ++ sobek_messages show_float can_open log_line css ++ guarded (sobek_jobs css) sobek_error ++
             guarded (other_jobs css) other_error ++ [logged log_line Info (T "Exported output files, FM2PROF finished")]).
    { destruct css; [congruence|reflexivity]. }
    rewrite E, !play_app.
    assert (L : forall x, f <> log_file -> play [logged log_line Info (T "Exported output files, FM2PROF finished")] x f = x f).
    { intros x N. apply play_untouched. intros a [<-|[]]. cbn. congruence. }
    split; [|split]; intro I.
    - assert (N : f <> log_file) by (repeat (destruct I as [<-|I]; [discriminate|]); destruct I).
      rewrite L, (guarded_elsewhere (other_jobs css)), (guarded_elsewhere (sobek_jobs css)), sobek_messages_alone; auto;
        [apply guarded_alone; auto| |].
      + intros ws X. apply sobek_names in X. cbn in I, X. intuition subst; discriminate.
      + intros ws X. apply other_names in X. cbn in I, X. intuition subst; discriminate.
    - assert (N : f <> log_file) by (repeat (destruct I as [<-|I]; [discriminate|]); destruct I).
      rewrite L, (guarded_elsewhere (other_jobs css)), guarded_alone; auto.
      + apply play_ext. rewrite sobek_messages_alone; auto. apply guarded_elsewhere; auto.
        intros ws X. apply dimr_names in X. cbn in I, X. intuition subst; discriminate.
      + intros ws X. apply other_names in X. cbn in I, X. intuition subst; discriminate.
    - assert (N : f <> log_file) by (repeat (destruct I as [<-|I]; [discriminate|]); destruct I).
      rewrite L, guarded_alone; auto. apply play_ext. rewrite guarded_elsewhere, sobek_messages_alone, guarded_elsewhere; auto.
      + intros ws X. apply dimr_names in X. cbn in I, X. intuition subst; discriminate.
      + intros ws X. apply sobek_names in X. cbn in I, X. intuition subst; discriminate.
  Qed.

  (** The SOBEK files are written whatever happens to the others; the geometry file is always complete. *)
  Theorem C45_sobek_files_written : forall css d, css <> [] -> can_open sobek_geometry = true -> can_open sobek_roughness = true ->
    play (write_output css true) d sobek_geometry = Some (fst (run_writes (write_geometry_sobek3 show_float css))) /\
    play (write_output css true) d sobek_roughness = Some (fst (run_writes (write_roughness_sobek3 show_float css))).
  Proof.
    intros css d Hc C1 C2.
    destruct (C45_groups_are_independent css d sobek_geometry Hc) as (_ & E1 & _). rewrite E1 by (left; auto).
    destruct (C45_groups_are_independent css d sobek_roughness Hc) as (_ & E2 & _). rewrite E2 by (right; left; auto).
    assert (G : snd (run_writes (write_geometry_sobek3 show_float css)) = None).
    { unfold write_geometry_sobek3. cbn [run_writes snd].
      generalize (sobek_writes show_float) as w. intro w. induction css as [|c cs IH]; [reflexivity|].
      clear - w. set (l := c :: cs). clearbody l. induction l as [|x l IH]; cbn [map run_writes snd]; auto. }
    unfold M_Run.sobek_jobs. cbn [M_Run.group].
    destruct (job_result sobek_geometry (write_geometry_sobek3 show_float css) d C1) as [A1 B1].
    rewrite B1, G. cbn [fst]. rewrite !play_app. 
    assert (U : forall acts, (forall a, In a acts -> touches a = sobek_roughness) -> forall x, play acts x sobek_geometry = x sobek_geometry).
    { intros acts H x. apply play_untouched. intros a I X. rewrite (H a I) in X. discriminate. }
    split.
    - rewrite U, A1; auto. intros a I.
      apply (group_touch [Ok (sobek_roughness, write_roughness_sobek3 show_float css)]) in I.
      destruct I as (ws & [X|[]]). injection X as X _. auto.
    - destruct (job_result sobek_roughness (write_roughness_sobek3 show_float css)
        (play (fst (job_actions (sobek_geometry, write_geometry_sobek3 show_float css))) d) C2) as [A2 B2].
      cbn [M_Run.group] in *. destruct (snd (job_actions (sobek_roughness, write_roughness_sobek3 show_float css)));
        cbn [fst]; rewrite ?app_nil_r; exact A2.
  Qed.

  (** So are the volumes, if the test file, which is written first, does not fail. *)
  Theorem C45_other_files_written : forall css d, css <> [] -> can_open test_geometry = true -> can_open volumes_file = true ->
    play (write_output css true) d test_geometry = Some (fst (run_writes (write_geometry_test show_float css))) /\
    (snd (run_writes (write_geometry_test show_float css)) = None ->
     play (write_output css true) d volumes_file = Some (fst (run_writes (write_volumes show_float css)))).
  Proof.
    intros css d Hc C1 C2.
    destruct (C45_groups_are_independent css d test_geometry Hc) as (_ & _ & E1). rewrite E1 by (left; auto).
    destruct (C45_groups_are_independent css d volumes_file Hc) as (_ & _ & E2). rewrite E2 by (right; left; auto).
    unfold M_Run.other_jobs. cbn [M_Run.group].
    destruct (job_result test_geometry (write_geometry_test show_float css) d C1) as [A1 B1].
    destruct (snd (job_actions (test_geometry, write_geometry_test show_float css))) eqn:Ej.
    - cbn [fst]. rewrite <- B1. split; [exact A1|discriminate].
    - cbn [fst]. rewrite !play_app. split.
      + rewrite play_untouched; auto. intros a I X.
        apply (group_touch [Ok (volumes_file, write_volumes show_float css)]) in I.
        destruct I as (ws & [Y|[]]). injection Y as Y _. rewrite X in Y. discriminate.
      + intros _. destruct (job_result volumes_file (write_volumes show_float css)
          (play (fst (job_actions (test_geometry, write_geometry_test show_float css))) d) C2) as [A2 B2].
        destruct (snd (job_actions (volumes_file, write_volumes show_float css)));
          cbn [fst]; rewrite ?app_nil_r; exact A2.
  Qed.

  (** A D-Flow 1D export without exception leaves exactly the texts of its writers: locations, definitions
      and one roughness file per section. *)
  Lemma sections_nodup css : NoDup (sections_of css).
  Proof.
    unfold sections_of, unique_texts. apply FinFun.Injective_map_NoDup; [|apply np_unique_NoDup].
    intros a b E. unfold T in E. rewrite <- (string_of_list_ascii_of_string a), <- (string_of_list_ascii_of_string b), E. auto.
  Qed.

  Theorem C45_dimr_files_complete : forall css d f ws, css <> [] -> snd (group (dimr_jobs css)) = None ->
    In (Ok (f, ws)) (dimr_jobs css) ->
    play (write_output css true) d f = Some (fst (run_writes ws)) /\ snd (run_writes ws) = None.
  Proof.
    intros css d f ws Hc E I.
    destruct (C45_groups_are_independent css d f Hc) as (E1 & _). rewrite E1 by (eapply dimr_names; eauto).
    apply group_result; auto.
    unfold M_Run.dimr_jobs. cbn [flat_map fst app].
    assert (K : forall l, NoDup l -> NoDup (flat_map (fun j => match j with Ok j => [fst j] | Raise _ => [] end)
                                       (map (roughness_job show_float show4 css) l)) /\
       forall x, In x (flat_map (fun j => match j with Ok j => [fst j] | Raise _ => [] end) (map (roughness_job show_float show4 css) l)) ->
         exists s j, In s l /\ roughness_job show_float show4 css s = Ok j /\ fst j = x).
    { induction l as [|s l IH]; intro N; cbn [map flat_map]; [split; [constructor|intros x []]|].
      inversion N as [|? ? N1 N2]; subst. destruct (IH N2) as [A B].
      destruct (roughness_job show_float show4 css s) as [j|e] eqn:Ej.
      - split.
        + cbn [app]. constructor; auto. intro X. apply B in X. destruct X as (s' & j' & Is & Ej' & Ef).
          apply N1. replace s with s'; auto. clear - Ej Ej' Ef. unfold roughness_job in *.
          destruct (teqb_spec s (T "main")), (teqb_spec s' (T "main")); try congruence;
          try (destruct (teqb_spec s (T "floodplain1"))); try (destruct (teqb_spec s' (T "floodplain1"))); try congruence;
          try (destruct (teqb_spec s (T "floodplain2"))); try (destruct (teqb_spec s' (T "floodplain2"))); try congruence;
          injection Ej as <-; injection Ej' as <-; discriminate.
        + cbn [app]. intros x [X|X]; [exists s, j; repeat split; auto; left; auto|].
          destruct (B x X) as (s' & j' & Is & Ej' & Ef). exists s', j'. repeat split; auto. right. auto.
      - cbn [app]. split; auto. intros x X. destruct (B x X) as (s' & j' & Is & Ej' & Ef). exists s', j'.
        repeat split; auto. right. auto. }
    destruct (K _ (sections_nodup css)) as [A B].
    assert (R : forall x, In x (flat_map (fun j => match j with Ok j => [fst j] | Raise _ => [] end)
                  (map (roughness_job show_float show4 css) (sections_of css))) -> In x [roughness_main; roughness_fp1; roughness_fp2]).
    { intros x X. destruct (B x X) as (s & j & _ & Ej & <-). eapply roughness_job_name; eauto. }
    constructor; [|constructor; auto].
    - intros [X|X]; [discriminate|]. apply R in X. cbn in X. intuition discriminate.
    - intro X. apply R in X. cbn in X. intuition discriminate.
  Qed.

  (** Roughness files of sections that are no longer there keep their old contents. *)
  Theorem C45_stale_roughness_survives : forall css e d, ~ In (T "floodplain2") (sections_of css) ->
    play (write_output css e) d roughness_fp2 = d roughness_fp2.
  Proof.
    intros css e d N. destruct css as [|c css]; [reflexivity|]. destruct e; [|reflexivity].
    destruct (C45_groups_are_independent (c :: css) d roughness_fp2) as (E & _); [discriminate|].
    rewrite E by (right; right; right; right; left; auto).
    apply play_untouched. intros a I X. apply group_touch in I. destruct I as (ws & I). rewrite X in I.
    destruct I as [I|[I|I]]; [discriminate|discriminate|].
    apply in_map_iff in I. destruct I as (s & Es & Is). unfold roughness_job in Es.
    destruct (teqb_spec s (T "main")); [discriminate|]. destruct (teqb_spec s (T "floodplain1")); [discriminate|].
    destruct (teqb_spec s (T "floodplain2")); [subst s; contradiction|discriminate].
  Qed.

  (** ** The whole run *)

  Definition pickle_files (l : list css_data) : list text :=
    flat_map (fun c => [cd_id c ++ T ".pickle"; cd_id c ++ T "_flowmask.pickle"]) l.

  Lemma selected_in {A} sel (l s : list A) x : selected sel l = Ok s -> In x s -> In x l.
  Proof.
    unfold selected. generalize (css_range sel (length l)) as ks. intro ks. revert s. induction ks as [|k ks IH]; intros s E I; cbn in E.
    - injection E as <-. destruct I.
    - destruct (py_index l k) as [y|] eqn:Ey; [|discriminate]. destruct (map_res (py_index l) ks) as [ys|] eqn:Es; [|discriminate].
      injection E as <-. destruct I as [<-|I]; [|eapply IH; eauto].
      unfold py_index in Ey. cbv zeta in Ey. destruct (_ <? 0)%Z in Ey; [discriminate|].
      destruct (nth_error l _) eqn:En in Ey; [|discriminate]. injection Ey as <-. eapply nth_error_In; eauto.
  Qed.

  Lemma generate_touch ed l a : In a (fst (generate_all log_line pickled ed l)) ->
    touches a = log_file \/ In (touches a) (pickle_files l).
  Proof.
    induction l as [|c l IH]; cbn [generate_all fst]; [intros []|]. intro I.
    assert (I' : In a (fst (generate_cross_section log_line pickled ed c)) \/ In a (fst (generate_all log_line pickled ed l))).
    { destruct (snd (generate_cross_section log_line pickled ed c)); cbn [fst] in I; auto. apply in_app_or in I. auto. }
    destruct I' as [J|J].
    - assert (K : touches a = log_file \/ touches a = cd_id c ++ T ".pickle" \/ touches a = cd_id c ++ T "_flowmask.pickle").
      { unfold generate_cross_section in J.
        set (p1 := cd_id c ++ T ".pickle") in *. set (p2 := cd_id c ++ T "_flowmask.pickle") in *. clearbody p1 p2.
        destruct (cd_id c) as [|x xs0]; [cbn in J; intuition subst; auto|].
        destruct (negb (cd_complete c)); [cbn in J; intuition subst; auto|].
        destruct (Nat.ltb (cd_faces c) 10), ed; cbn in J; intuition subst; cbn; auto. }
      destruct K as [K|[K|K]]; auto; right; rewrite K; cbn; auto.
    - destruct (IH J) as [K|K]; auto. right. cbn. right. right. exact K.
  Qed.

  Lemma initialise_touch i a : In a (fst (initialise log_line i)) -> touches a = log_file \/ In a (fst (r_read i)).
  Proof.
    unfold initialise. intro J. destruct (negb (r_map_exists i) || negb (r_css_exists i)).
    { cbn [fst] in J. destruct (r_map_exists i), (r_css_exists i); cbn in J; intuition (subst; auto). }
    destruct (snd (r_read i)) as [n|e].
    - assert (M : forall ls b, In b (map (fun l => logged log_line l (T "Validating settings")) ls) -> touches b = log_file).
      { intros ls b I. apply in_map_iff in I. destruct I as (l & <- & _). reflexivity. }
      destruct (fst (validate (r_skip i) n (r_no_edge_faces i) (r_weighing i))); cbn [fst] in J; apply in_app_or in J;
        destruct J as [J|J]; auto; [left; eapply M; eauto|].
      apply in_app_or in J. destruct J as [J|J]; [left; eapply M; eauto|]. destruct J as [<-|[]]. auto.
    - destruct e; cbn [fst] in J; auto. apply in_app_or in J. destruct J as [J|[<-|[]]]; auto.
  Qed.

  (** Every file a run touches: results, log, map output, bounding boxes, pickles, and whatever reading the
      input touches (the cache files). *)
  Theorem C45_run_is_confined : forall i ow d a, In a (fst (run i ow d)) ->
    In (touches a) (log_file :: output_files) \/ In (touches a) (pickle_files (r_css i)) \/
    In a (fst (r_read i)) \/ In a (r_maps i) \/ In a (r_envelope i).
  Proof.
    intros i ow d a I. unfold M_Run.run in I. destruct (negb (r_ini i)); [destruct I|].
    destruct (output_exists d && negb ow); [destruct I as [<-|[]]; left; left; auto|]. cbn [fst] in I.
    apply in_app_or in I. destruct I as [I|I].
    2: { destruct (snd (run_inifile _ _ _ _ _ i)) as [[|]|]; [| |destruct I]; destruct I as [<-|[]]; left; left; auto. }
    unfold run_inifile in I.
    assert (A : forall a, In a (fst (initialise log_line i)) -> In (touches a) (log_file :: output_files) \/ In a (fst (r_read i))).
    { intros b J. destruct (initialise_touch i b J) as [->|J']; [left; left|]; auto. }
    assert (G : forall a, In a (fst (generate_list (r_selection i) (r_export_data i) (r_css i))) ->
      touches a = log_file \/ In (touches a) (pickle_files (r_css i))).
    { intros b J. unfold M_Run.generate_list in J. destruct (selected (r_selection i) (r_css i)) as [s|] eqn:Es; [|destruct J].
      apply generate_touch in J. destruct J as [J|J]; auto. right. unfold pickle_files in *. apply in_flat_map in J.
      destruct J as (c & Ic & J). apply in_flat_map. exists c. split; auto. eapply selected_in; eauto. }
    assert (F : forall css a, In a (fst (finalise show_float show4 can_open log_line i css)) ->
      In (touches a) (log_file :: output_files) \/ In a (r_maps i) \/ In a (r_envelope i)).
    { intros css b J. unfold finalise in J. cbn [fst] in J.
      apply in_app_or in J. destruct J as [J|J].
      - apply C45_output_is_confined in J. left. cbn in J |- *. intuition.
      - apply in_app_or in J. destruct J as [J|J]; auto. destruct (r_export_maps i); [auto|destruct J]. }
    destruct (snd (initialise log_line i)) as [[]|e].
    - destruct (snd (generate_list (r_selection i) (r_export_data i) (r_css i))) as [css|e] eqn:Eg;
        [apply in_app_or in I; destruct I as [I|I]; [apply A in I; tauto|]; apply in_app_or in I; destruct I as [I|I]|
         cbn [fst] in I; apply in_app_or in I; destruct I as [I|I]; [apply A in I; tauto|]].
      + apply G in I. destruct I as [->|I]; auto. left. left. auto.
      + apply F in I. tauto.
      + apply G in I. destruct I as [->|I]; auto. left. left. auto.
    - destruct e; cbn [fst] in I; try (apply A in I; tauto). apply in_app_or in I. destruct I as [I|I]; [apply A in I; tauto|].
      destruct I as [<-|[]]. left. left. auto.
  Qed.

  (** ** C44 *)

  Lemma output_exists_spec d : output_exists d = true <-> exists f, In f output_files /\ d f <> None.
  Proof.
    unfold output_exists. rewrite existsb_exists. split; intros (f & I & H); exists f; split; auto; destruct (d f); congruence.
  Qed.

  Theorem C44_existing_output_is_left_alone : forall i d f, r_ini i = true -> In f output_files -> d f <> None ->
    snd (run i false d) = Ok false /\ forall g, g <> log_file -> play (fst (run i false d)) d g = d g.
  Proof.
    intros i d f Hi If Hf. unfold M_Run.run. rewrite Hi. cbn [negb].
    rewrite (proj2 (output_exists_spec d)) by eauto. cbn [andb negb fst snd]. split; auto.
    intros g Hg. apply play_untouched. intros a [<-|[]]. cbn. congruence.
  Qed.

  (** Whatever happens, a run without overwrite does not change an existing result. *)
  Theorem C44_results_survive : forall i d f, In f output_files -> d f <> None ->
    play (fst (run i false d)) d f = d f.
  Proof.
    intros i d f If Hf. destruct (r_ini i) eqn:Hi.
    - apply (C44_existing_output_is_left_alone i d f); auto. intro X. subst f. cbn in If. intuition discriminate.
    - unfold M_Run.run. rewrite Hi. reflexivity.
  Qed.

  (** The log file in the output directory does change. *)
  Theorem C44_log_file_refuted : forall i d f, r_ini i = true -> In f output_files -> d f <> None ->
    (forall m, log_line Warning m <> []) -> play (fst (run i false d)) d log_file <> d log_file.
  Proof.
    intros i d f Hi If Hf Hl. unfold M_Run.run. rewrite Hi. cbn [negb].
    rewrite (proj2 (output_exists_spec d)) by eauto. cbn [andb negb fst]. unfold logged. cbn [play fold_left apply].
    rewrite put_same. unfold contents. intro E. destruct (d log_file) as [t|]; [|discriminate]. injection E as E.
    apply (Hl (T "Output already exists. Use overwrite option if you want to re-run the program")).
    apply (app_inv_head t). rewrite app_nil_r. auto.
  Qed.

  (** ** C46 *)

  (** A run that is stopped after it has opened a result file is noticed by the next run. *)
  Theorem C46_interrupted_run_is_noticed : forall i ow d done rest f i',
    fst (run i ow d) = done ++ rest -> In (Create f) done -> In f output_files -> r_ini i' = true ->
    let d' := play done d in
    snd (run i' false d') = Ok false /\ forall g, g <> log_file -> play (fst (run i' false d')) d' g = d' g.
  Proof.
    intros i ow d done rest f i' _ Ic If Hi d'. apply (C44_existing_output_is_left_alone i' d' f); auto.
    apply play_creates. auto.
  Qed.

  (** Output writing starts with opening a result file: every proper start of it is noticed. *)
  Theorem C46_first_action : forall css done rest, css <> [] -> can_open css_locations = true ->
    write_output css true = done ++ rest -> done <> [] -> In (Create css_locations) done.
  Proof.
    intros css done rest Hc Co E Hd. destruct css as [|c css]; [congruence|].
    assert (S : exists r, write_output (c :: css) true = Create css_locations :: r).
    { unfold M_Run.write_output, M_Run.guarded, M_Run.dimr_jobs. cbn [M_Run.group].
      unfold M_Run.job_actions at 1 2 3. cbn [fst snd]. rewrite Co. cbn [fst snd].
      destruct (snd (write_actions css_locations (write_css_locations show_float (c :: css)))) eqn:X; cbn [fst app]; eauto. }
    destruct S as (r & S). rewrite S in E. destruct done as [|a done]; [congruence|]. injection E as <- _. left. auto.
  Qed.

  Theorem C46_interrupted_output_is_noticed : forall css d before done rest i',
    css <> [] -> can_open css_locations = true -> write_output css true = done ++ rest -> done <> [] -> r_ini i' = true ->
    let d' := play done (play before d) in
    snd (run i' false d') = Ok false /\ forall g, g <> log_file -> play (fst (run i' false d')) d' g = d' g.
  Proof.
    intros css d before done rest i' Hc Co E Hd Hi d'.
    apply (C44_existing_output_is_left_alone i' d' css_locations); auto.
    - left. auto.
    - apply play_creates. eapply C46_first_action; eauto.
  Qed.
End Writing.
Print Assumptions C44_existing_output_is_left_alone.
Print Assumptions C44_results_survive.
Print Assumptions C44_log_file_refuted.
Print Assumptions C45_output_is_confined.
Print Assumptions C45_nothing_without_cross_sections.
Print Assumptions C45_groups_are_independent.
Print Assumptions C45_sobek_files_written.
Print Assumptions C45_other_files_written.
Print Assumptions C45_dimr_files_complete.
Print Assumptions C45_stale_roughness_survives.
Print Assumptions C45_run_is_confined.
Print Assumptions C46_interrupted_run_is_noticed.
Print Assumptions C46_interrupted_output_is_noticed.

(** ** Examples *)

(** Map output is not among the guarded results: a run without overwrite replaces it. *)
Definition face_output := T "face_output.geojson".
Definition example_css : xs :=
  mk_xs (T "waal_1") (T "waal") (Fin 1) [Fin 0; Fin 1] [Fin 10; Fin 20] [Fin 10; Fin 30] NaN (Fin 0) (Fin 0) (Fin 0) NaN
    [(T "main", Fin 10); (T "floodplain1", Fin 20); (T "floodplain2", Fin 0)]
    [(T "main", ([Fin 1; Fin 2], [Fin 45; Fin 40])); (T "1", ([Fin 1], [Fin 45]))]
    (mk_volumes [Fin 1] [Fin 2] [Fin 3] [Fin 4] [Fin 5] [Fin 6] [Fin 7] [Fin 8] [Fin 9] [Fin 10] [NaN]).
Definition example_input : input :=
  mk_input true true true ([], Ok 5%nat) 0 false 0 [] false
    [mk_css_data (T "waal_1") true 12 (Ok example_css); mk_css_data (T "waal_2") true 9 (Ok example_css)]
    (fun l => l) true true [Create face_output; Write face_output (T "new")] [].
Definition example_run (ow : bool) (d : directory) :=
  run (show_num 3) (show_num 3) (fun _ => true) (fun _ m => m ++ [newline]) (fun _ => []) example_input ow d.

Theorem C44_map_output_refuted : exists d i, r_ini i = true /\ d face_output = Some (T "old") /\
  play (fst (run (show_num 3) (show_num 3) (fun _ => true) (fun _ m => m ++ [newline]) (fun _ => []) i false d)) d face_output
  = Some (T "new").
Proof.
  exists (put face_output (T "old") (fun _ => None)), example_input. split; [reflexivity|]. split; [apply put_same|].
  vm_compute. reflexivity.
Qed.
Print Assumptions C44_map_output_refuted.

(** The label "1" of the variance classification is no known section: the D-Flow 1D group stops with KeyError
    (sections in order "1", "main": no roughness file at all), the other groups are written. *)
Example C45_example :
  let d := play (fst (example_run false (fun _ => None))) (fun _ => None) in
  snd (example_run false (fun _ => None)) = Ok true /\
  d roughness_main = None /\ d css_definitions <> None /\ d sobek_geometry <> None /\ d volumes_file <> None /\
  snd (example_run false d) = Ok false.
Proof. vm_compute. repeat split; congruence. Qed.
