(** Theorems for C59 (mask output files) and C60 (project names). *)
From Coq Require Import String List Ascii ZArith QArith Bool Lia.
From Verif Require Import PyBase Text L_Text M_Ini L_Ini T_Ini L_IniPrint T_IniPrint M_Polygon M_Cli.
Import ListNotations.
Local Open Scope char_scope.

(** * C59 *)

Theorem C59_mask_files_round_trip :
  forall coord (clean : coord -> coord) props (d d' : mask_dir coord props) name ms,
    (* points as create_mask_point makes them *)
    (forall m, In m ms -> map clean (m_coords m) = m_coords m) ->
    write_mask_output_file d name ms = (d', Ok tt) ->
    read_mask_output_file clean d' name = Ok ms /\
    (forall n, n <> name -> d' n = d n).
Proof.
  intros coord clean props d d' name ms C H.
  unfold write_mask_output_file in H. destruct name as [|c name]; [discriminate|].
  destruct ms as [|m ms]; [discriminate|].
  destruct (validate_extension (c :: name)) as [u|e] eqn:E; [|discriminate]. injection H as <-.
  split.
  - unfold read_mask_output_file. rewrite teqb_refl, E. cbn [bind]. f_equal.
    rewrite <- (map_id (m :: ms)) at 2. apply map_ext_in. intros x I. unfold reload. rewrite (C x I).
    destruct x; reflexivity.
  - intros n N. cbv beta. destruct (teqb n (c :: name)) eqn:T1; auto. apply teqb_eq in T1. contradiction.
Qed.
Print Assumptions C59_mask_files_round_trip.

(** The rounding of the library is idempotent, so points that are made by
    create_mask_point meet the condition. *)
Theorem C59_created_points :
  forall coord (clean : coord -> coord) props (none : props) truthy coords p,
    (forall x, clean (clean x) = clean x) ->
    match coords with
    | [] => create_mask_point clean none truthy coords p = Raise ValueError
    | _ => exists m, create_mask_point clean none truthy coords p = Ok m /\
             m_coords m = map clean coords /\ map clean (m_coords m) = m_coords m /\
             m_props m = match p with Some q => if truthy q then q else none | None => none end
    end.
Proof.
  intros coord clean props none truthy coords p I. destruct coords as [|c coords]; [reflexivity|].
  eexists. split; [reflexivity|]. cbn [m_coords m_props]. repeat split.
  rewrite map_map. apply map_ext. auto.
Qed.
Print Assumptions C59_created_points.

(** An empty name, an empty list or another extension: nothing is written. *)
Theorem C59_rejected_before_writing :
  forall coord props (d : mask_dir coord props) name ms,
    (name = [] \/ ms = [] -> write_mask_output_file d name ms = (d, Raise ValueError)) /\
    (name <> [] -> ms <> [] -> suffix name <> T ".json" -> suffix name <> T ".geojson" ->
       write_mask_output_file d name ms = (d, Raise OSError)) /\
    (name <> [] -> ms <> [] -> suffix name = T ".json" \/ suffix name = T ".geojson" ->
       exists d', write_mask_output_file d name ms = (d', Ok tt)) /\
    (forall d' e, write_mask_output_file d name ms = (d', Raise e) -> d' = d).
Proof.
  intros coord props d name ms. unfold write_mask_output_file, validate_extension.
  split; [|split; [|split]].
  - intros [->| ->]; [reflexivity|]. destruct name; reflexivity.
  - intros N M A B. destruct name as [|c name]; [congruence|]. destruct ms as [|m ms]; [congruence|].
    destruct (teqb (suffix (c :: name)) (T ".json")) eqn:E1; [apply teqb_eq in E1; contradiction|].
    destruct (teqb (suffix (c :: name)) (T ".geojson")) eqn:E2; [apply teqb_eq in E2; contradiction|].
    reflexivity.
  - intros N M A. destruct name as [|c name]; [congruence|]. destruct ms as [|m ms]; [congruence|].
    destruct A as [A|A]; rewrite A, teqb_refl; rewrite ?orb_true_r; cbn [orb]; eexists; reflexivity.
  - intros d' e. destruct name as [|c name]; [congruence|]. destruct ms as [|m ms]; [congruence|].
    destruct (teqb (suffix (c :: name)) (T ".json") || teqb (suffix (c :: name)) (T ".geojson")); congruence.
Qed.
Print Assumptions C59_rejected_before_writing.

(** Reading: the exact results. *)
Theorem C59_reading :
  forall coord (clean : coord -> coord) props (d : mask_dir coord props) name,
    read_mask_output_file clean d name =
    match d name with
    | None => Raise FileNotFoundError
    | Some doc =>
        if teqb (suffix name) (T ".json") || teqb (suffix name) (T ".geojson")
        then match doc with
             | Collection ms => Ok (map (fun m => mk_mask (map clean (m_coords m)) (m_props m)) ms)
             | OtherJson => Raise OSError
             | NotJson => Raise JSONDecodeError
             end
        else Raise OSError
    end.
Proof.
  intros coord clean props d name. unfold read_mask_output_file, validate_extension.
  destruct (d name) as [doc|]; [|reflexivity].
  destruct (teqb (suffix name) (T ".json") || teqb (suffix name) (T ".geojson")); [|reflexivity].
  destruct doc; reflexivity.
Qed.
Print Assumptions C59_reading.

(** * C60 *)

Lemma split_on_nonempty c t : split_on c t <> [].
Proof.
  destruct t as [|a t]; cbn; [discriminate|]. destruct (Ascii.eqb a c); [discriminate|].
  destruct (split_on c t); discriminate.
Qed.

(** Text appended to a name that has no slash itself goes to the last
    component. *)
Lemma split_on_snoc c t s : Forall (fun a => Ascii.eqb a c = false) s ->
  exists before l, split_on c t = before ++ [l] /\ split_on c (t ++ s) = before ++ [l ++ s].
Proof.
  intro H. induction t as [|a t IH].
  - exists [], []. split; [reflexivity|]. cbn [app]. induction H as [|b s Hb Hs IHs]; [reflexivity|].
    cbn [split_on]. rewrite Hb, IHs. reflexivity.
  - destruct IH as (b & l & E1 & E2). cbn [split_on app]. destruct (Ascii.eqb a c).
    + exists ([] :: b), l. rewrite E1, E2. auto.
    + rewrite E1, E2. destruct b as [|x b]; cbn [app].
      * exists [], (a :: l). auto.
      * exists ((a :: x) :: b), l. auto.
Qed.

Lemma last_dot_length t : forall i f k, last_dot i t f = Some k ->
  f = Some k \/ (i <= k < i + length t)%nat.
Proof.
  induction t as [|a t IH]; intros i f k H; cbn in *; [auto|].
  apply IH in H. destruct H as [H|H]; [|right; lia].
  destruct (Ascii.eqb a "."); [|auto]. injection H as <-. right. lia.
Qed.

Lemma suffix_at_le name : (suffix_at name <= length name)%nat.
Proof.
  unfold suffix_at. destruct (last_dot 0 name None) as [i|] eqn:E; [|lia].
  apply last_dot_length in E. destruct E as [E|E]; [discriminate|].
  destruct ((0 <? i) && (i <? length name - 1))%nat; lia.
Qed.

Lemma stem_suffix name : stem name ++ suffix name = name.
Proof. apply firstn_skipn. Qed.

(** The last component of a project name. *)
Definition last_part (name : text) : text := last (split_on "/" name) [].

Definition is_part (c : text) : bool := negb (teqb c []) && negb (teqb c (T ".")).

Lemma slash_free_ini : Forall (fun a => Ascii.eqb a "/" = false) (T ".ini").
Proof. repeat constructor. Qed.

(** The created file is the one that is looked for exactly if the name has a
    last component and that component has no suffix. *)
Theorem C60_project_is_found_again_iff :
  forall name,
    run_path name = Ok (create_path name) <->
    last_part name <> [] /\ last_part name <> T "." /\ suffix (last_part name) = [].
Proof.
  intro name. unfold run_path, create_path, parse_path, path_with_suffix, last_part.
  destruct (split_on_snoc "/" name (T ".ini") slash_free_ini) as (before & l & E1 & E2).
  rewrite E1, E2, last_last. fold is_part.
  change (fun c : text => negb (teqb c []) && negb (teqb c (T "."))) with is_part.
  rewrite !filter_app. cbn [p_parts p_abs].
  assert (A : startswith (T "/") (name ++ T ".ini") = startswith (T "/") name)
    by (destruct name; reflexivity).
  rewrite A.
  assert (P : is_part (l ++ T ".ini") = true).
  { unfold is_part. apply andb_true_intro. split; apply negb_true_iff.
    - destruct (teqb (l ++ T ".ini") []) eqn:E; auto. apply teqb_eq in E. apply app_eq_nil in E. destruct E; discriminate.
    - destruct (teqb (l ++ T ".ini") (T ".")) eqn:E; auto. apply teqb_eq in E.
      apply (f_equal (@length _)) in E. rewrite app_length in E. vm_compute length in E. change (length (T ".ini")) with 4%nat in E. lia. }
  assert (F2 : filter is_part [l ++ T ".ini"] = [l ++ T ".ini"]) by (cbn [filter]; rewrite P; reflexivity).
  rewrite F2. set (b := filter is_part before).
  destruct (is_part l) eqn:Q.
  - assert (F1 : filter is_part [l] = [l]) by (cbn [filter]; rewrite Q; reflexivity).
    rewrite F1, rev_app_distr. cbn [rev app]. rewrite rev_involutive.
    unfold is_part in Q. apply andb_prop in Q. destruct Q as [Q1 Q2].
    apply negb_true_iff in Q1. apply negb_true_iff in Q2.
    assert (N1 : l <> []) by (intro; subst; rewrite teqb_refl in Q1; discriminate).
    assert (N2 : l <> T ".") by (intro; subst; rewrite teqb_refl in Q2; discriminate).
    split.
    + intro H. split; auto. split; auto. injection H as H. apply app_inv_head in H. injection H as H.
      unfold with_suffix in H. apply app_inv_tail in H.
      pose proof (stem_suffix l) as X. rewrite H in X.
      rewrite <- (app_nil_r l) in X at 3. apply app_inv_head in X. exact X.
    + intros (_ & _ & H). unfold with_suffix. do 4 f_equal.
      pose proof (stem_suffix l) as X. rewrite H, app_nil_r in X. rewrite X. reflexivity.
  - assert (F1 : filter is_part [l] = []) by (cbn [filter]; rewrite Q; reflexivity).
    rewrite F1, app_nil_r. split.
    + intro H. exfalso. destruct (rev b) as [|x r] eqn:R; [discriminate|].
      injection H as H. apply (f_equal (@length _)) in H. rewrite !app_length in H. cbn [length] in H.
      apply (f_equal (@length _)) in R. rewrite rev_length in R. cbn [length] in R.
      rewrite rev_length in H. lia.
    + intros (N1 & N2 & _). exfalso. unfold is_part in Q. apply andb_false_iff in Q.
      destruct Q as [Q|Q]; apply negb_false_iff in Q; apply teqb_eq in Q; contradiction.
Qed.
Print Assumptions C60_project_is_found_again_iff.

(** In particular for a name without dots that does not end in a slash. *)
Lemma last_dot_none t : forall i, existsb (fun a => Ascii.eqb a ".") t = false -> last_dot i t None = None.
Proof.
  induction t as [|a t IH]; intros i H; cbn in *; auto. apply orb_false_iff in H. destruct H as [H1 H2].
  rewrite H1. auto.
Qed.

Lemma suffix_no_dot t : existsb (fun a => Ascii.eqb a ".") t = false -> suffix t = [].
Proof.
  intro H. unfold suffix, suffix_at. rewrite last_dot_none by auto. apply skipn_all.
Qed.

Theorem C60_names_without_dots_partial :
  forall name, last_part name <> [] -> existsb (fun a => Ascii.eqb a ".") (last_part name) = false ->
    run_path name = Ok (create_path name).
Proof.
  intros name N H. apply C60_project_is_found_again_iff. split; auto. split.
  - intro E. rewrite E in H. discriminate.
  - apply suffix_no_dot. auto.
Qed.
Print Assumptions C60_names_without_dots_partial.

(** The default configuration can be printed and read. *)
Definition cleanb (t : text) : bool := trimmedb t && freeb newline t && freeb "#" t && freeb "%" t.

Lemma cleanb_clean t : cleanb t = true -> clean t.
Proof.
  unfold cleanb. rewrite !andb_true_iff. intros [[[H1 H2] H3] H4].
  split; [apply trimmedb_trimmed; auto| | |]; apply freeb_free; auto.
Qed.

Definition survivesb (s : text) (ke : text * entry text) : bool :=
  match e_kind (snd ke), e_value (snd ke) with
  | KStr, M_Ini.VStr t => cleanb t
  | KInt, M_Ini.VInt _ => true
  | KFloat, M_Ini.VFloat x => cleanb x
  | KBool, M_Ini.VBool _ => true
  | KList, M_Ini.VStr t =>
      cleanb t && teqb s (T "debug") && teqb (fst ke) (T "CssSelection") && teqb t []
  | _, _ => false
  end.

Lemma survivesb_survives s ke : survivesb s ke = true ->
  survives (fun t => t) (fun t => Some t) template s ke.
Proof.
  unfold survivesb, survives, restorable. destruct ke as [k [kd h v]]. cbn [fst snd e_kind e_value].
  destruct kd, v; try discriminate; intro H; try (left; auto using cleanb_clean; fail).
  right. apply andb_prop in H. destruct H as [H H4]. apply andb_prop in H. destruct H as [H H3].
  apply andb_prop in H. destruct H as [H1 H2]. apply teqb_eq in H2, H3, H4. subst.
  split; [apply cleanb_clean; auto|]. split; [vm_compute; reflexivity|vm_compute; reflexivity].
Qed.

Lemma template_survives :
  Forall (fun ns => if teqb (fst ns) (T "parameters") || teqb (fst ns) (T "debug")
                    then Forall (survives (fun t => t) (fun t => Some t) template (fst ns)) (snd ns)
                    else Forall (fun ke => clean (show_value (fun t : text => t) (e_value (snd ke)))) (snd ns)) template.
Proof.
  assert (B : forallb (fun ns => if teqb (fst ns) (T "parameters") || teqb (fst ns) (T "debug")
                    then forallb (survivesb (fst ns)) (snd ns)
                    else forallb (fun ke => cleanb (show_value (fun t : text => t) (e_value (snd ke)))) (snd ns)) template = true)
    by (vm_compute; reflexivity).
  rewrite forallb_forall in B. apply Forall_forall. intros ns I. specialize (B ns I). cbv beta in B.
  destruct (teqb (fst ns) (T "parameters") || teqb (fst ns) (T "debug")); rewrite forallb_forall in B;
    apply Forall_forall; intros ke Ik.
  - apply survivesb_survives. auto.
  - apply cleanb_clean. auto.
Qed.

(** The created project is loaded from the file that was written, with every
    parameter of the default configuration. *)
Theorem C60_created_project_is_loaded :
  forall w cwd name w', run_path name = Ok (create_path name) ->
    cli_create w cwd name = Ok w' ->
    cli_load w' cwd name = project_init (fun t => Some t) template cwd w' (create_path name) /\
    is_file w' (resolve cwd (create_path name)) = true /\
    lookup_file (files w') (resolve cwd (create_path name))
      = Some (print_configuration (fun t : text => t) template) /\
    forall i, load_configuration (fun t => Some t) template cwd (mk_ini template None w') (create_path name) = Ok i ->
      forall k v, k <> [] -> get_parameter template k = Ok (Some v) -> get_parameter (i_cfg i) k = Ok (Some v).
Proof.
  intros w cwd name w' R C. unfold cli_create, write_text in C.
  set (t := print_configuration (fun t : text => t) template) in *.
  set (q := resolve cwd (create_path name)) in *.
  assert (L : lookup_file (files w') q = Some t).
  { destruct (is_dir w q); [discriminate|]. destruct (is_dir w (removelast q)); [|discriminate].
    injection C as <-. cbn [files lookup_file]. rewrite parts_eqb_refl. reflexivity. }
  split; [unfold cli_load; rewrite R; reflexivity|]. split; [unfold is_file; rewrite L; reflexivity|].
  split; [exact L|]. intros i Hi k v Hk Hg.
  eapply (C23_printed_configuration_loads_back text (fun t => t) (fun t => Some t) template cwd
            (mk_ini template None w') i (create_path name) template); eauto.
  - apply template_shape_ok.
  - apply template_survives.
Qed.
Print Assumptions C60_created_project_is_loaded.

(** A dot in the name: the created file is not the one that is looked for, and
    if there is no such file the default configuration is used instead. *)
Theorem C60_dotted_name_refuted :
  exists w cwd name w' i,
    cli_create w cwd name = Ok w' /\
    run_path name <> Ok (create_path name) /\
    (* with any change of the created file *)
    forall t, cli_load (mk_fs ((resolve cwd (create_path name), t) :: files w) (dirs w)) cwd name = Ok (Some (i t)) /\
      i_file (i t) = None /\ i_cfg (i t) = template.
Proof.
  exists (mk_fs [] [[T "home"]; [T "home"; T "output"]]), [T "home"], (T "v1.2").
  do 2 eexists. split; [vm_compute; reflexivity|]. split; [vm_compute; discriminate|].
  intro t. split; [|split].
  - instantiate (1 := fun t => mk_ini template None
      (mk_fs [([T "home"; T "v1.2.ini"], t)] [[T "home"]; [T "home"; T "output"]])).
    unfold cli_load. replace (run_path (T "v1.2")) with (Ok (parse_path (T "v1.ini"))) by (vm_compute; reflexivity).
    cbn [bind]. reflexivity.
  - reflexivity.
  - reflexivity.
Qed.
Print Assumptions C60_dotted_name_refuted.

(** A name that ends in a slash or has the extension already. *)
Theorem C60_other_names_refuted :
  create_path (T "dir/") = parse_path (T "dir/.ini") /\ run_path (T "dir/") = Ok (parse_path (T "dir.ini")) /\
  create_path (T "case.ini") = parse_path (T "case.ini.ini") /\ run_path (T "case.ini") = Ok (parse_path (T "case.ini")) /\
  run_path [] = Raise ValueError.
Proof. repeat split. Qed.
Print Assumptions C60_other_names_refuted.

(** A created project is loaded and its configuration is the default one. *)
Example created_and_loaded :
  exists w i, cli_create (mk_fs [] [[]; [T "home"]]) [T "home"] (T "case") = Ok w /\
    cli_load w [T "home"] (T "case") = Ok (Some i) /\
    i_file i = Some (parse_path (T "case.ini")) /\
    get_parameter (i_cfg i) (T "MaximumPointsInProfile") = get_parameter template (T "MaximumPointsInProfile") /\
    is_dir (i_fs i) [T "home"; T "output"] = true.
Proof.
  do 2 eexists. split; [vm_compute; reflexivity|]. split; [vm_compute; reflexivity|].
  split; [vm_compute; reflexivity|]. split; vm_compute; reflexivity.
Qed.
