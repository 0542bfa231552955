(** Theorems for C88: input files of a configuration, loaded, printed and
    loaded again. *)
From Coq Require Import String List Ascii ZArith Bool Lia.
From Verif Require Import PyBase Text L_Text M_Ini L_Ini L_IniPrint T_Ini T_IniPrint.
Import ListNotations.
Local Open Scope char_scope.

(** What a file makes of an input key: the path of the named file, seen from
    the directory [fd] of the configuration file, if there is such a file. *)
Definition input_value {F} (cwd : list text) (fd : path) (w : fs) (d : inidict) (k : text) (old : value F) : value F :=
  match tassoc d (T "input") with
  | None => old
  | Some opts =>
      match find_key opts k with
      | None => old
      | Some (_, t) =>
          if is_file w (resolve cwd (joinpath fd (parse_path t))) then VPath (joinpath fd (parse_path t)) else old
      end
  end.

Lemma get_input_writes F (tpl : config F) cwd fd w opts (c : config F) k key kd v0 :
  distinct_keys opts -> nonempty k = true ->
  key_from_template tpl (T "input") k = Some (key, kd) -> get_from c (T "input") k = Ok v0 ->
  get_from (writes F c (T "input") (input_writes F tpl cwd fd w opts)) (T "input") k =
  Ok (match find_key opts k with
      | None => v0
      | Some (_, t) =>
          if is_file w (resolve cwd (joinpath fd (parse_path t))) then VPath (joinpath fd (parse_path t)) else v0
      end).
Proof.
  intros Hd Hk Ht Hg.
  assert (Hlk : lower k = lower key) by (symmetry; eapply key_from_template_lower; eauto).
  assert (Inv : forall x, In x (map (fun kv : text * value F => lower (fst kv)) (input_writes F tpl cwd fd w opts)) ->
    exists k2 t2, In (k2, t2) opts /\ lower k2 = x /\ is_file w (resolve cwd (joinpath fd (parse_path t2))) = true).
  { clear. intro x. unfold input_writes. induction opts as [|[k' t] opts IH]; simpl; [intros []|].
    rewrite map_app, in_app_iff. intros [H|H].
    - destruct (key_from_template tpl (T "input") k') as [[key kd]|] eqn:E; [|destruct H].
      destruct (is_file w (resolve cwd (joinpath fd (parse_path t)))) eqn:Ef; [|destruct H]. simpl in H. destruct H as [<-|[]].
      exists k', t. split; [auto|]. split; [|auto]. symmetry. eapply key_from_template_lower; eauto.
    - destruct (IH H) as (k2 & t2 & A & B). eauto. }
  destruct (find_key opts k) as [[k' t]|] eqn:Ef.
  - destruct (find_key_spec _ _ _ _ Ef) as [Hl _]. pose proof (find_key_In _ _ _ _ Ef) as Hin.
    destruct (is_file w (resolve cwd (joinpath fd (parse_path t)))) eqn:Ei.
    + apply (get_writes_same F c (T "input") _ key (VPath (joinpath fd (parse_path t))) v0).
      * apply input_writes_distinct. auto.
      * unfold input_writes. apply in_concat. exists [(key, VPath (joinpath fd (parse_path t)))].
        split; [|left; auto]. apply in_map_iff. exists (k', t). split; auto. cbn [fst snd].
        replace (key_from_template tpl (T "input") k') with (Some (key, kd)).
        2:{ rewrite <- Ht. unfold key_from_template. destruct (tassoc tpl (T "input")); auto. rewrite (find_key_lower _ k' k); auto. }
        cbv zeta. rewrite Ei. auto.
      * rewrite <- Hk. symmetry. apply lower_nonempty. auto.
      * unfold get_from in *. destruct (tassoc c (T "input")); [|discriminate]. rewrite (find_key_lower _ key k); eauto.
      * auto.
    + rewrite get_writes_other; auto. right. intros I. destruct (Inv _ I) as (k2 & t2 & I2 & L2 & F2).
      assert (E2 : find_key opts k2 = Some (k2, t2)) by (apply find_key_complete; auto).
      rewrite (find_key_lower _ k2 k) in E2 by auto. congruence.
  - rewrite get_writes_other; auto. right. intros I. destruct (Inv _ I) as (k2 & t2 & I2 & L2 & F2).
    assert (E2 : find_key opts k2 = Some (k2, t2)) by (apply find_key_complete; auto).
    rewrite (find_key_lower _ k2 k) in E2 by auto. congruence.
Qed.

Lemma read_dict_inputs F (read_float : text -> option F) tpl cwd d (i i' : ini F) k key kd v0 :
  Forall (fun s => distinct_keys (snd s)) d -> read_dict read_float tpl cwd d i = Ok i' -> k <> [] ->
  key_from_template tpl (T "input") k = Some (key, kd) -> get_from (i_cfg i) (T "input") k = Ok v0 ->
  get_from (i_cfg i') (T "input") k = Ok (input_value cwd (file_dir cwd i) (i_fs i) d k v0).
Proof.
  intros Hd H Hk Ht Hg. destruct (read_dict_ok _ _ _ _ _ _ _ H) as (opts & Ho & Hws & Hout). clear H.
  assert (Hk' : nonempty k = true) by (destruct k; [congruence|auto]).
  assert (Hdist : forall s opts, tassoc d s = Some opts -> distinct_keys opts).
  { intros s' o E. apply tassoc_In in E. rewrite Forall_forall in Hd. apply (Hd _ E). }
  cbv zeta in Hout.
  destruct (extract_output_dir_spec _ _ _ _ _ (Hdist (T "output")) Hout) as (_ & _ & _ & P4).
  pose proof (get_input_writes F tpl cwd (file_dir cwd i) (i_fs i) opts (i_cfg i) k key kd v0 (Hdist _ _ Ho) Hk' Ht Hg) as G1.
  assert (Gother : forall c s' v, s' <> T "input" -> get_from c (T "input") k = Ok v ->
    get_from (param_part F read_float tpl d s' c) (T "input") k = Ok v).
  { intros c s' v N Hc. unfold param_part. destruct (tassoc d s'); auto. rewrite get_writes_other; auto. }
  apply (Gother _ (T "parameters")) in G1; [|discriminate]. apply (Gother _ (T "debug")) in G1; [|discriminate].
  unfold input_value. rewrite Ho.
  destruct P4 as [->|(sec' & E & Hne)]; [exact G1|]. rewrite E. unfold get_from.
  rewrite tassoc_set_other by discriminate. exact G1.
Qed.

(** ** Loading *)

(** Every known input key refers to the named file, seen from the directory of
    the configuration file, if it exists, and keeps its value otherwise. *)
Theorem C88_loaded_input_files (F : Type) (read_float : text -> option F) (tpl : config F) (cwd : list text)
    (i i' : ini F) (p : path) (t : text) (d : inidict) :
  lookup_file (files (i_fs i)) (resolve cwd p) = Some t -> get_inifile_params t = Ok d ->
  load_configuration read_float tpl cwd i p = Ok i' ->
  forall k key kd v0, k <> [] -> key_from_template tpl (T "input") k = Some (key, kd) ->
    get_input_file (i_cfg i) k = Ok v0 ->
    get_input_file (i_cfg i') k = Ok (input_value cwd (parent p) (i_fs i) d k v0).
Proof.
  intros Hf Hp Hl k key kd v0 Hk Ht Hg.
  destruct (C24_loading_twice_is_loading_once F read_float tpl cwd i p) as [A _].
  rewrite A, Hf in Hl. unfold read_inifile in Hl. rewrite Hp in Hl. cbn [bind] in Hl.
  destruct (get_inifile_params_keys _ _ Hp) as (_ & _ & Hdd).
  apply (read_dict_inputs F read_float tpl cwd d _ i' k key kd v0 Hdd Hl Hk Ht Hg).
Qed.

(** ** Printing and loading again *)

(** A path that [Path] can have. *)
Definition good_path (p : path) : Prop := Forall (fun c => c <> [] /\ c <> T "." /\ free "/" c) (p_parts p).

Lemma parse_show_path p : good_path p -> parse_path (show_path p) = p.
Proof.
  destruct p as [a ps]. unfold good_path. cbn [p_parts]. intro G.
  assert (Fl : filter (fun c => negb (teqb c []) && negb (teqb c (T "."))) ps = ps).
  { induction G as [|c ps (A & B & _) G IH]; auto. cbn [filter].
    destruct (teqb_spec c []); [congruence|]. destruct (teqb_spec c (T ".")); [congruence|]. cbn [negb andb]. rewrite IH. auto. }
  assert (Sp : ps <> [] -> split_on "/" (join (T "/") ps) = ps).
  { intro N. change (T "/") with ["/"]. apply split_join; auto. eapply Forall_impl; [|exact G]. intros ? (_ & _ & X); exact X. }
  destruct ps as [|c ps].
  - destruct a; reflexivity.
  - unfold parse_path, show_path. cbn [p_abs p_parts]. destruct a.
    + f_equal. change ("/" :: join (T "/") (c :: ps)) with ([] ++ "/" :: join (T "/") (c :: ps)).
      rewrite split_on_app by (intros []). rewrite Sp by discriminate.
      change (filter ?f ([] :: ?l)) with (filter f l). exact Fl.
    + rewrite Sp, Fl by discriminate. f_equal.
      inversion G as [|? ? (A & _ & B) _]; subst. destruct c as [|x c]; [congruence|].
      match goal with |- startswith _ ?j = _ => assert (E : exists r, j = x :: r) by (destruct ps; cbn [join app]; eauto) end.
      destruct E as (r & E). rewrite E. change (T "/") with ["/"]. cbn [startswith].
      destruct (Ascii.eqb_spec "/" x) as [<-|]; [|auto]. destruct B. left. auto.
Qed.

(** The value of an input key after the printed configuration [c] has been
    saved as [p] and loaded. *)
Theorem C88_printed_input_files (F : Type) (show_float : F -> text) (read_float : text -> option F)
    (tpl : config F) (cwd : list text) (i i' : ini F) (p : path) (c : config F) :
  shape_ok (shape tpl) -> shape c = shape tpl -> shape (i_cfg i) = shape tpl ->
  Forall (fun ns => Forall (fun ke => clean (show_value show_float (e_value (snd ke)))) (snd ns)) c ->
  lookup_file (files (i_fs i)) (resolve cwd p) = Some (print_configuration show_float c) ->
  load_configuration read_float tpl cwd i p = Ok i' ->
  forall k q v0, k <> [] -> get_input_file c k = Ok (VPath q) -> good_path q -> get_input_file (i_cfg i) k = Ok v0 ->
    get_input_file (i_cfg i') k =
      Ok (if is_file (i_fs i) (resolve cwd (joinpath (parent p) q)) then VPath (joinpath (parent p) q) else v0).
Proof.
  intros Hok Hc Hi Hclean Hf Hl k q v0 Hk Hg Hq Hv0.
  rewrite <- Hc in Hok. assert (Hp := shape_printable F show_float c Hok Hclean).
  assert (Hr := read_printed F show_float c Hp).
  assert (Hd : distinct_keys c) by apply Hp.
  unfold get_input_file, get_from in Hg. destruct (tassoc c (T "input")) as [sec|] eqn:Es; [|discriminate].
  destruct (find_key sec k) as [[ck e]|] eqn:Ek; [|discriminate]. injection Hg as Hg.
  assert (Ht : key_from_template tpl (T "input") k = Some (ck, e_kind e)).
  { rewrite <- (key_from_template_shape F c tpl) by auto. unfold key_from_template. rewrite Es, Ek. auto. }
  rewrite (C88_loaded_input_files F read_float tpl cwd i i' p _ _ Hf Hr Hl k ck (e_kind e) v0 Hk Ht Hv0).
  unfold input_value. rewrite (tassoc_read F show_float c (T "input") Hd eq_refl sec Es).
  rewrite find_read_entries, Ek. cbn [option_map fst snd]. rewrite Hg. cbn [show_value]. rewrite parse_show_path by auto. auto.
Qed.

(** The same file is found again if the configuration file is named by an
    absolute path or by its bare name. *)
Theorem C88_same_input_files_partial (F : Type) (show_float : F -> text) (read_float : text -> option F)
    (tpl : config F) (cwd : list text) (i i' : ini F) (p p0 : path) (c : config F) :
  shape_ok (shape tpl) -> shape c = shape tpl -> shape (i_cfg i) = shape tpl ->
  Forall (fun ns => Forall (fun ke => clean (show_value show_float (e_value (snd ke)))) (snd ns)) c ->
  lookup_file (files (i_fs i)) (resolve cwd p) = Some (print_configuration show_float c) ->
  load_configuration read_float tpl cwd i p = Ok i' ->
  forall k r v0, k <> [] -> get_input_file c k = Ok (VPath (joinpath p0 r)) -> good_path (joinpath p0 r) ->
    is_file (i_fs i) (resolve cwd (joinpath p0 r)) = true -> get_input_file (i_cfg i) k = Ok v0 ->
    p_abs p0 = true \/ p_abs r = true \/ (p_abs p = false /\ p_parts (parent p) = []) ->
    get_input_file (i_cfg i') k = get_input_file c k.
Proof.
  intros Hok Hc Hi Hclean Hf Hl k r v0 Hk Hg Hq Hfile Hv0 Hcase.
  rewrite (C88_printed_input_files F show_float read_float tpl cwd i i' p c Hok Hc Hi Hclean Hf Hl k _ v0 Hk Hg Hq Hv0).
  assert (E : joinpath (parent p) (joinpath p0 r) = joinpath p0 r).
  { set (q := joinpath p0 r) in *. unfold joinpath at 1. destruct (p_abs q) eqn:Ea; auto.
    destruct Hcase as [H|[H|[H1 H2]]].
    - unfold q, joinpath in Ea. destruct (p_abs r) eqn:Er; cbn [p_abs] in Ea; congruence.
    - unfold q, joinpath in Ea. rewrite H in Ea. congruence.
    - unfold parent in *. cbn [p_abs p_parts] in *. rewrite H1, H2. destruct q as [a ps]. cbn in *. congruence. }
  rewrite E, Hfile. auto.
Qed.

(** In a directory below the working directory the printed configuration loses
    its input files: the directory is put in front of the path once more. *)
Definition case_fs (contents : text) : fs :=
  mk_fs [([T "home"; T "case"; T "a.ini"], T "[input]" ++ [newline] ++ T "2DMapOutput = map.nc" ++ [newline] ++
            T "[output]" ++ [newline] ++ T "OutputDirectory = /home/out");
         ([T "home"; T "case"; T "map.nc"], []);
         ([T "home"; T "case"; T "b.ini"], contents)]
        [[T "home"]; [T "home"; T "case"]; [T "home"; T "out"]].

Theorem C88_same_input_files_refuted :
  exists (i i' : ini text) (contents : text),
    load_configuration (fun x => Some x) template [T "home"] (mk_ini template None (case_fs [])) (parse_path (T "case/a.ini")) = Ok i /\
    get_input_file (i_cfg i) (T "2DMapOutput") = Ok (VPath (parse_path (T "case/map.nc"))) /\
    contents = print_configuration (fun x => x) (i_cfg i) /\
    load_configuration (fun x => Some x) template [T "home"] (mk_ini template None (case_fs contents)) (parse_path (T "case/b.ini")) = Ok i' /\
    get_input_file (i_cfg i') (T "2DMapOutput") = get_input_file template (T "2DMapOutput") /\
    get_input_file template (T "2DMapOutput") <> get_input_file (i_cfg i) (T "2DMapOutput").
Proof.
  eexists. eexists. eexists. split; [vm_compute; reflexivity|]. split; [vm_compute; reflexivity|]. split; [reflexivity|].
  split; [vm_compute; reflexivity|]. split; [vm_compute; reflexivity|]. vm_compute. discriminate.
Qed.

(** Named by an absolute path the same files are found again. *)
Theorem C88_case :
  exists (i i' : ini text) (contents : text),
    load_configuration (fun x => Some x) template [T "home"] (mk_ini template None (case_fs [])) (parse_path (T "/home/case/a.ini")) = Ok i /\
    contents = print_configuration (fun x => x) (i_cfg i) /\
    load_configuration (fun x => Some x) template [T "home"] (mk_ini template None (case_fs contents)) (parse_path (T "/home/case/b.ini")) = Ok i' /\
    get_input_file (i_cfg i') (T "2dmapoutput") = Ok (VPath (parse_path (T "/home/case/map.nc"))).
Proof.
  eexists. eexists. eexists. split; [vm_compute; reflexivity|]. split; [reflexivity|].
  split; [vm_compute; reflexivity|]. vm_compute. reflexivity.
Qed.

Print Assumptions C88_loaded_input_files.
Print Assumptions C88_printed_input_files.
Print Assumptions C88_same_input_files_partial.
Print Assumptions C88_same_input_files_refuted.
Print Assumptions C88_case.

(** What is meant by the directory of the configuration file and by a place seen
    from there. *)
Theorem C88_places :
  (* the directory of a file, and a relative name in it *)
  (forall a ds n fs, joinpath (parent (mk_path a (ds ++ [n]))) (mk_path false fs) = mk_path a (ds ++ fs)) /\
  (forall d fs, joinpath d (mk_path true fs) = mk_path true fs) /\
  (* the place of a path *)
  (forall cwd ps, Forall (fun c => c <> T "..") ps -> resolve cwd (mk_path true ps) = ps) /\
  (forall cwd ps, Forall (fun c => c <> T "..") (cwd ++ ps) -> resolve cwd (mk_path false ps) = cwd ++ ps) /\
  (* one directory up *)
  (forall cwd a ds d fs, d <> T ".." ->
     resolve cwd (mk_path a (ds ++ d :: T ".." :: fs)) = resolve cwd (mk_path a (ds ++ fs))) /\
  (forall cwd fs, resolve cwd (mk_path true (T ".." :: fs)) = resolve cwd (mk_path true fs)).
Proof.
  assert (N : forall ps acc, Forall (fun c => c <> T "..") ps -> normalise acc ps = rev acc ++ ps).
  { induction ps as [|c ps IH]; intros acc H; cbn [normalise]; [rewrite app_nil_r; reflexivity|].
    inversion H as [|? ? Hc H']; subst. destruct (teqb_spec c (T "..")) as [E|_]; [contradiction|].
    rewrite IH by exact H'. cbn [rev]. rewrite <- app_assoc. reflexivity. }
  assert (D : forall d fs acc, d <> T ".." -> normalise acc (d :: T ".." :: fs) = normalise acc fs).
  { intros d fs acc H. cbn [normalise]. destruct (teqb_spec d (T "..")) as [E|_]; [contradiction|].
    rewrite teqb_refl. reflexivity. }
  split; [|split; [|split; [|split; [|split]]]].
  - intros a ds n fs. unfold joinpath, parent. cbn [p_abs p_parts]. rewrite removelast_last. reflexivity.
  - reflexivity.
  - intros cwd ps H. unfold resolve. cbn [p_abs p_parts]. apply N. exact H.
  - intros cwd ps H. unfold resolve. cbn [p_abs p_parts]. apply N. exact H.
  - intros cwd a ds d fs H. unfold resolve. cbn [p_abs p_parts]. destruct a.
    + rewrite !normalise_app. apply D. exact H.
    + rewrite !app_assoc, !(normalise_app (cwd ++ ds)). apply D. exact H.
  - intros cwd fs. reflexivity.
Qed.
Print Assumptions C88_places.

(** fm2prof_runner.py 223-226: the input files that the program asks for. *)
Definition asked_files : list string :=
  ["2DMapOutput"; "CrossSectionLocationFile"; "RegionPolygonFile"; "SectionPolygonFile"]%string.

(** In every project that can be opened each of these is a known key, and its
    value is either the empty text of the template or an existing file. *)
Theorem C88_asked_files_exist :
  forall (read_float : text -> option text) (cwd : list text) (w : fs) (p : path) (i : ini text),
    project_init read_float template cwd w p = Ok (Some i) ->
    forall k k', In k asked_files -> lower k' = lower (T k) ->
      get_input_file (i_cfg i) k' = Ok (VStr []) \/
      exists q, get_input_file (i_cfg i) k' = Ok (VPath q) /\ is_file w (resolve cwd q) = true.
Proof.
  intros rf cwd w p i H k k' Ik Lk.
  assert (L : exists j, i_cfg j = i_cfg i /\
    (if is_file w (resolve cwd p) then load_configuration rf template cwd (mk_ini template None w) p else Ok (mk_ini template None w)) = Ok j).
  { unfold project_init in H. cbv zeta in H.
    destruct (if is_file w (resolve cwd p) then _ else _) as [j|e] eqn:E; [|destruct e; discriminate].
    exists j. split; [|reflexivity]. unfold has_output_directory in H.
    destruct (get_output_directory cwd j) as [q|e]; cbn [bind] in H; [|discriminate].
    destruct (path_exists (i_fs j) (resolve cwd q)); [injection H as <-; reflexivity|].
    destruct (mkdir_parents (i_fs j) (resolve cwd q)) as [w'|e]; [injection H as <-; reflexivity|].
    destruct e; cbn in H; try discriminate; injection H as <-; reflexivity. }
  destruct L as (j & <- & E). clear H.
  assert (Nk : k' <> []) by (intros ->; unfold asked_files in Ik; cbn [In] in Ik;
    decompose [or] Ik; try subst k; try discriminate Lk; contradiction).
  assert (Tp : exists key kd, key_from_template template (T "input") k' = Some (key, kd) /\
                 get_input_file template k' = Ok (VStr [])).
  { unfold key_from_template, get_input_file, get_from.
    destruct (tassoc template (T "input")) as [s|] eqn:Es; [|vm_compute in Es; discriminate].
    rewrite (find_key_lower s k' (T k) Lk).
    assert (B : forallb (fun k => match find_key s (T k) with Some (_, e) => match e_value e with VStr [] => true | _ => false end | None => false end) asked_files = true)
      by (injection Es as <-; vm_compute; reflexivity).
    rewrite forallb_forall in B. specialize (B k Ik). destruct (find_key s (T k)) as [[key e]|]; [|discriminate].
    exists key, (e_kind e). split; [reflexivity|]. destruct (e_value e) as [[|]| | | | |]; try discriminate. reflexivity. }
  destruct Tp as (key & kd & T1 & T2).
  destruct (is_file w (resolve cwd p)) eqn:Ef; [|injection E as <-; left; exact T2].
  destruct (lookup_file (files w) (resolve cwd p)) as [t|] eqn:El.
  2:{ unfold load_configuration in E. cbn [i_fs] in E. rewrite El in E. discriminate. }
  assert (P : exists d, get_inifile_params t = Ok d).
  { unfold load_configuration in E. cbn [i_fs] in E. rewrite El in E. unfold read_inifile at 1 in E.
    destruct (get_inifile_params t) as [d|e]; cbn [bind] in E; [eauto|discriminate]. }
  destruct P as (d & Ed).
  rewrite (C88_loaded_input_files text rf template cwd (mk_ini template None w) j p t d El Ed E k' key kd _ Nk T1 T2).
  cbn [i_fs]. unfold input_value. destruct (tassoc d (T "input")) as [opts|]; [|left; reflexivity].
  destruct (find_key opts k') as [[k2 t2]|]; [|left; reflexivity].
  destruct (is_file w (resolve cwd (joinpath (parent p) (parse_path t2)))) eqn:F; [|left; reflexivity].
  right. eexists. split; [reflexivity|exact F].
Qed.
Print Assumptions C88_asked_files_exist.
