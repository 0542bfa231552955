(** Theorems about the configuration: C21 - C26. *)
From Coq Require Import String List Ascii ZArith Bool Lia.
From Verif Require Import PyBase Text L_Text M_Ini L_Ini L_IniPrint.
Import ListNotations.

(** ** C21: histories of set and get calls *)

(** Calls on a configuration. *)
Inductive call (F : Type) :=
| CSet (s k : text) (v : value F)          (* IniFile.set_parameter(k, v, section=s) *)
| CProjectSet (k : text) (v : value F)     (* Project.set_parameter(k, v) *)
| CSetInput (k : text) (v : value F)       (* set_input_file(k, v) *)
| CGet (k : text)                          (* get_parameter(k) *)
| CGetInput (k : text).                    (* get_input_file(k) *)
Arguments CSet {F}. Arguments CProjectSet {F}. Arguments CSetInput {F}.
Arguments CGet {F}. Arguments CGetInput {F}.

Definition keep_on_error {F} (c : config F) (r : res (config F)) : config F :=
  match r with Ok c' => c' | Raise _ => c end.

(** The configuration after one call; a call that raises changes nothing. *)
Definition do_call {F} (c : config F) (o : call F) : config F :=
  match o with
  | CSet s k v => keep_on_error c (set_parameter c k v s)
  | CProjectSet k v => keep_on_error c (project_set_parameter c k v)
  | CSetInput k v => keep_on_error c (set_input_file c k v)
  | CGet _ | CGetInput _ => c
  end.
Definition do_calls {F} (c : config F) (ops : list (call F)) : config F := fold_left do_call ops c.

(** Specification: the last value set in section [s] under a name equal to [k]
    up to case. *)
Definition target {F} (o : call F) : option (text * text * value F) :=
  match o with
  | CSet s k v => Some (s, k, v)
  | CProjectSet k v => Some (T "parameters", k, v)
  | CSetInput k v => Some (T "input", k, v)
  | _ => None
  end.
Definition last_set {F} (s k : text) (ops : list (call F)) (v0 : value F) : value F :=
  fold_left (fun v o => match target o with
                        | Some (s', k', v') => if teqb s' s && teqb (lower k') (lower k) then v' else v
                        | None => v
                        end) ops v0.

Section C21.
  Variable F : Type.

  Lemma keep_set (c : config F) s k v : keep_on_error c (set_parameter c k v s) = write F c s k v.
  Proof.
    unfold set_parameter. destruct (set_config_value_cases F c s k v) as [(_ & -> & ->)|[b ->]]; reflexivity.
  Qed.

  Lemma do_call_write (c : config F) o : do_call c o =
    match target o with Some (s, k, v) => write F c s k v | None => c end.
  Proof. destruct o; simpl; auto; apply keep_set. Qed.

  Lemma get_do_calls ops : forall (c : config F) s k v0, k <> [] -> get_from c s k = Ok v0 ->
    get_from (do_calls c ops) s k = Ok (last_set s k ops v0).
  Proof.
    induction ops as [|o ops IH]; intros c s k v0 Hk Hg; simpl; auto. rewrite do_call_write.
    destruct (target o) as [[[s' k'] v]|]; [|auto].
    destruct (teqb_spec s' s) as [->|Ns]; simpl.
    - destruct (teqb_spec (lower k') (lower k)) as [El|Nl].
      + apply IH; auto. assert (Hg' : get_from c s k' = Ok v0).
        { unfold get_from in *. destruct (tassoc c s); auto. rewrite (find_key_lower _ k' k); auto. }
        eapply get_write_same; eauto. destruct k'; [destruct k; [congruence|discriminate El]|reflexivity].
      + apply IH; auto. rewrite get_write_other; auto.
    - apply IH; auto. rewrite get_write_other; auto.
  Qed.

  Lemma get_do_calls_error ops : forall (c : config F) s k e, get_from c s k = Raise e ->
    get_from (do_calls c ops) s k = Raise e.
  Proof.
    induction ops as [|o ops IH]; intros c s k e Hg; simpl; auto. rewrite do_call_write.
    destruct (target o) as [[[s' k'] v]|]; [|auto]. apply IH.
    destruct (text_dec s' s) as [->|Ns]; [|rewrite get_write_other; auto].
    destruct (text_dec (lower k') (lower k)) as [El|Nl]; [|rewrite get_write_other; auto].
    unfold get_from in *. unfold write. destruct (tassoc c s) as [sec|] eqn:E; [|rewrite E; auto].
    rewrite tassoc_set_same. unfold secwrite.
    rewrite (find_key_lower _ k' k) by auto.
    destruct (find_key sec k) as [[ck e']|] eqn:E'; [discriminate|]. rewrite E'. auto.
  Qed.
End C21.

Theorem C21_reading_gives_the_last_value_set (F : Type) (c : config F) (ops : list (call F)) (k : text) (v0 : value F) :
  k <> [] ->
  (* a parameter *)
  (get_from c (T "parameters") k = Ok v0 ->
     get_parameter (do_calls c ops) k = Ok (Some (last_set (T "parameters") k ops v0))) /\
  (* a debug parameter *)
  (get_from c (T "parameters") k = Raise KeyError -> get_from c (T "debug") k = Ok v0 ->
     get_parameter (do_calls c ops) k = Ok (Some (last_set (T "debug") k ops v0))) /\
  (* an input file *)
  (get_input_file c k = Ok v0 -> get_input_file (do_calls c ops) k = Ok (last_set (T "input") k ops v0)).
Proof.
  intros Hk. split; [|split].
  - intros H. unfold get_parameter. rewrite (get_do_calls F ops c _ _ _ Hk H). auto.
  - intros H1 H2. unfold get_parameter. rewrite (get_do_calls_error F ops c _ _ _ H1), (get_do_calls F ops c _ _ _ Hk H2). auto.
  - intros H. unfold get_input_file in *. rewrite (get_do_calls F ops c _ _ _ Hk H). auto.
Qed.
Print Assumptions C21_reading_gives_the_last_value_set.

(** Project.set_parameter does not reach the debug parameters, although
    Project.get_parameter reads them. *)
Theorem C21_project_set_parameter_refuted : exists (k : text) (v v0 : value text),
  get_parameter template k = Ok (Some v0) /\
  keep_on_error template (project_set_parameter template k v) = template /\
  get_parameter (do_calls template [CProjectSet k v]) k = Ok (Some v0) /\ v <> v0.
Proof.
  exists (T "ExportMapFiles"), (VBool true), (VBool false). repeat split; try (vm_compute; reflexivity). discriminate.
Qed.
Print Assumptions C21_project_set_parameter_refuted.

Example C21_example :
  get_parameter (do_calls template
    [CProjectSet (T "laketimesteps") (VInt 3); CGet (T "CaseName"); CSet (T "debug") (T "CssSelection") (VList [1%Z]);
     CProjectSet (T "nonsense") (VInt 1); CSet (T "nosuchsection") (T "LakeTimesteps") (VInt 9);
     CSet (T "parameters") (T "LAKETIMESTEPS") (VInt 4)]) (T "LakeTimesteps") = Ok (Some (VInt 4)).
Proof. vm_compute. reflexivity. Qed.

(** ** Reading a configuration file *)

Lemma is_dir_add w p q : is_dir w q = true -> is_dir (mk_fs (files w) (dirs w ++ [p])) q = true.
Proof. unfold is_dir. destruct q; auto. cbn [dirs]. rewrite existsb_app. intros ->. auto. Qed.

Lemma parts_eqb_refl q : parts_eqb q q = true.
Proof. induction q as [|x q IH]; simpl; auto. rewrite teqb_refl. auto. Qed.

Lemma is_dir_new w p : is_dir (mk_fs (files w) (dirs w ++ [p])) p = true.
Proof. unfold is_dir. destruct p; auto. cbn [dirs]. rewrite existsb_app. simpl. rewrite teqb_refl, parts_eqb_refl. apply orb_true_r. Qed.


Section Reading.
  Variable F : Type.
  Notation config := (config F).

  Definition input_writes (tpl : config) (cwd : list text) (fd : path) (w : fs) (opts : list (text * text)) : list (text * value F) :=
    concat (map (fun kv => match key_from_template tpl (T "input") (fst kv) with
                           | None => []
                           | Some (key, _) =>
                               let p := joinpath fd (parse_path (snd kv)) in
                               if is_file w (resolve cwd p) then [(key, VPath p)] else []
                           end) opts).

  Lemma file_dir_cfg cwd (i : ini F) (c : config) : file_dir cwd (mk_ini c (i_file i) (i_fs i)) = file_dir cwd i.
  Proof. reflexivity. Qed.

  Lemma with_cfg_id (i : ini F) : with_cfg i (i_cfg i) = i.
  Proof. destruct i; reflexivity. Qed.

  Lemma extract_input_files_eq tpl cwd d (i : ini F) :
    extract_input_files tpl cwd d i =
    match tassoc d (T "input") with
    | None => Raise AttributeError
    | Some opts =>
        let ws := input_writes tpl cwd (file_dir cwd i) (i_fs i) opts in
        match tassoc (i_cfg i) (T "input"), ws with
        | None, _ :: _ => Raise KeyError
        | _, _ => Ok (with_cfg i (writes F (i_cfg i) (T "input") ws))
        end
    end.
  Proof.
    unfold extract_input_files. destruct (tassoc d (T "input")) as [opts|]; auto. cbv zeta.
    revert i. induction opts as [|[k t] opts IH]; intros i; cbn [fold_res].
    - simpl. rewrite with_cfg_id. destruct (tassoc (i_cfg i) _); auto.
    - unfold input_writes. cbn [map concat fst snd].
      destruct (key_from_template tpl (T "input") k) as [[key kd]|]; [|apply IH]. cbv zeta.
      set (p := joinpath (file_dir cwd i) (parse_path t)).
      destruct (is_file (i_fs i) (resolve cwd p)); [|apply IH].
      fold (input_writes tpl cwd (file_dir cwd i) (i_fs i) opts). cbn [app].
      destruct (set_config_value_cases F (i_cfg i) (T "input") key (VPath p)) as [(En & -> & Ew)|[b Eb]].
      + cbn [bind]. rewrite En. auto.
      + rewrite Eb. cbn [bind fst]. rewrite IH. cbn [i_cfg i_file i_fs]. rewrite file_dir_cfg.
        set (ws := input_writes tpl cwd (file_dir cwd i) (i_fs i) opts).
        destruct (tassoc (i_cfg i) (T "input")) as [sec|] eqn:E.
        * destruct (tassoc (write F (i_cfg i) (T "input") key (VPath p)) (T "input")) eqn:E2; auto.
          apply (proj1 (write_sections F _ _ _ _ _)) in E2. congruence.
        * unfold set_config_value in Eb. rewrite E in Eb. discriminate.
  Qed.

  Lemma input_writes_keys tpl cwd fd w opts k :
    In k (map (fun kv : text * value F => lower (fst kv)) (input_writes tpl cwd fd w opts)) ->
    In k (map (fun kv => lower (fst kv)) opts).
  Proof.
    unfold input_writes. induction opts as [|[k' t] opts IH]; simpl; auto.
    rewrite map_app, in_app_iff. intros [H|H]; [|auto]. left.
    destruct (key_from_template tpl (T "input") k') as [[key kd]|] eqn:E; [|destruct H].
    destruct (is_file w (resolve cwd (joinpath fd (parse_path t)))); [|destruct H]. simpl in H. destruct H as [<-|[]].
    symmetry. eapply key_from_template_lower; eauto.
  Qed.

  Lemma input_writes_distinct tpl cwd fd w opts : distinct_keys opts -> distinct_keys (input_writes tpl cwd fd w opts).
  Proof.
    unfold distinct_keys. induction opts as [|[k t] opts IH]; simpl; intros H; [constructor|].
    inversion H; subst. unfold input_writes. simpl. fold (input_writes tpl cwd fd w opts). rewrite map_app.
    destruct (key_from_template tpl (T "input") k) as [[key kd]|] eqn:E; simpl; auto.
    destruct (is_file w (resolve cwd (joinpath fd (parse_path t)))); simpl; auto. constructor; auto.
    intros Hin. apply input_writes_keys in Hin. rewrite (key_from_template_lower _ _ _ _ _ _ E) in Hin. auto.
  Qed.

  Lemma is_file_files w w' p : files w = files w' -> is_file w p = is_file w' p.
  Proof. unfold is_file. intros ->. auto. Qed.

  Lemma input_writes_files tpl cwd fd w w' opts : files w = files w' ->
    input_writes tpl cwd fd w opts = input_writes tpl cwd fd w' opts.
  Proof.
    intros H. unfold input_writes. f_equal. apply map_ext. intros kv.
    destruct (key_from_template _ _ _) as [[key kd]|]; auto. cbv zeta. rewrite (is_file_files w w') by auto. auto.
  Qed.

  (** *** Output directory *)

  Lemma mkdir_spec w p w' : mkdir w p = Ok w' -> files w' = files w /\ path_exists w' p = true /\
    (forall q, path_exists w q = true -> path_exists w' q = true).
  Proof.
    unfold mkdir. destruct (path_exists w p) eqn:E; [discriminate|].
    destruct (is_dir w (removelast p)); [|destruct (is_file w (removelast p)); discriminate].
    intros [= <-]. split; [reflexivity|]. unfold path_exists. split.
    - rewrite is_dir_new. apply orb_true_r.
    - intros q. rewrite !orb_true_iff. intros [H|H]; [left; exact H|right]. apply is_dir_add. auto.
  Qed.

  Lemma set_output_value_spec (c : config) v c' : set_output_value c v = Ok c' ->
    exists sec', c' = tassoc_set c (T "output") sec' /\ tassoc c (T "output") <> None /\
      set_output_value c' v = Ok c' /\
      exists e, tassoc sec' outdir_key = Some e /\ e_value e = v.
  Proof.
    unfold set_output_value. destruct (tassoc c (T "output")) as [sec|] eqn:E; [|discriminate].
    destruct (tassoc sec outdir_key) as [e|] eqn:E2; [|discriminate]. intros [= <-].
    eexists. split; [reflexivity|]. split; [congruence|].
    rewrite tassoc_set_same, tassoc_set_same. cbn [e_kind e_hint]. rewrite !tassoc_set_twice.
    split; [reflexivity|]. eexists. split; [reflexivity|]. reflexivity.
  Qed.

  Lemma set_output_directory_spec cwd (i : ini F) p i' : set_output_directory cwd i p = Ok i' ->
    i_file i' = i_file i /\ files (i_fs i') = files (i_fs i) /\ path_exists (i_fs i') (resolve cwd p) = true /\
    set_output_directory cwd i' p = Ok i' /\
    exists sec', i_cfg i' = tassoc_set (i_cfg i) (T "output") sec' /\ tassoc (i_cfg i) (T "output") <> None /\
      exists e, tassoc sec' outdir_key = Some e /\ e_value e = VPath p.
  Proof.
    unfold set_output_directory.
    assert (A : forall w, (if path_exists (i_fs i) (resolve cwd p) then Ok (i_fs i) else mkdir (i_fs i) (resolve cwd p)) = Ok w ->
      files w = files (i_fs i) /\ path_exists w (resolve cwd p) = true).
    { intros w. destruct (path_exists (i_fs i) (resolve cwd p)) eqn:E.
      - intros [= <-]. auto.
      - intros H. apply mkdir_spec in H. tauto. }
    destruct (if path_exists (i_fs i) (resolve cwd p) then Ok (i_fs i) else mkdir (i_fs i) (resolve cwd p)) as [w|e]; cbn [bind]; [|discriminate].
    destruct (A w eq_refl) as [A1 A2].
    destruct (set_output_value (i_cfg i) (VPath p)) as [c|e] eqn:E; cbn [bind]; [|discriminate].
    intros [= <-]. cbn [i_file i_fs i_cfg].
    destruct (set_output_value_spec _ _ _ E) as (sec' & E1 & E2 & E3 & E4).
    split; [reflexivity|]. split; [auto|]. split; [auto|]. rewrite A2. cbn [bind]. rewrite E3. cbn [bind].
    split; [reflexivity|]. exists sec'. auto.
  Qed.

  Definition out_step cwd (i : ini F) (kv : text * text) : res (ini F) :=
    if teqb (lower (fst kv)) (lower outdir_key) then set_output_directory cwd i (parse_path (snd kv)) else Ok i.

  Lemma out_step_other cwd (i : ini F) opts : ~ In (lower outdir_key) (map (fun kv => lower (fst kv)) opts) ->
    fold_res (out_step cwd) opts i = Ok i.
  Proof.
    induction opts as [|[k t] opts IH]; intros H; cbn [fold_res]; auto. unfold out_step at 1. cbn [fst].
    destruct (teqb_spec (lower k) (lower outdir_key)); [exfalso; apply H; left; auto|]. apply IH. simpl in H. tauto.
  Qed.

  (** The output step: at most one directory is set. *)
  Lemma extract_output_dir_spec cwd d (i i' : ini F) : (forall opts, tassoc d (T "output") = Some opts -> distinct_keys opts) ->
    extract_output_dir cwd d i = Ok i' ->
    i_file i' = i_file i /\ files (i_fs i') = files (i_fs i) /\ extract_output_dir cwd d i' = Ok i' /\
    (i' = i \/ exists sec', i_cfg i' = tassoc_set (i_cfg i) (T "output") sec' /\ tassoc (i_cfg i) (T "output") <> None).
  Proof.
    intros Hd. unfold extract_output_dir. destruct (tassoc d (T "output")) as [opts|]; [|discriminate].
    specialize (Hd opts eq_refl). fold (out_step cwd).
    change (fold_res (out_step cwd) opts i = Ok i' ->
      i_file i' = i_file i /\ files (i_fs i') = files (i_fs i) /\ fold_res (out_step cwd) opts i' = Ok i' /\
      (i' = i \/ exists sec', i_cfg i' = tassoc_set (i_cfg i) (T "output") sec' /\ tassoc (i_cfg i) (T "output") <> None)).
    induction opts as [|[k t] opts IH]; cbn [fold_res].
    - intros [= <-]. auto.
    - inversion Hd; subst. unfold out_step at 1 3. cbn [fst snd].
      destruct (teqb_spec (lower k) (lower outdir_key)) as [E|N].
      + assert (Hn : ~ In (lower outdir_key) (map (fun kv : text * text => lower (fst kv)) opts)) by (rewrite <- E; auto).
        destruct (set_output_directory cwd i (parse_path t)) as [i1|] eqn:E1; [|discriminate].
        rewrite out_step_other by auto. intros [= <-].
        destruct (set_output_directory_spec _ _ _ _ E1) as (P1 & P2 & P3 & P4 & sec' & P5 & P6 & _).
        rewrite P4. rewrite out_step_other by auto. repeat split; auto. right. eauto.
      + intros H. destruct (IH H2 H) as (P1 & P2 & P3 & P4). auto.
  Qed.

  (** *** The whole reading *)

  Variable read_float : text -> option F.

  Definition param_part (tpl : config) (d : inidict) (s : text) (c : config) : config :=
    match tassoc d s with None => c | Some opts => writes F c s (param_writes F read_float tpl s opts) end.

  Lemma read_dict_ok tpl cwd d (i i' : ini F) : read_dict read_float tpl cwd d i = Ok i' ->
    exists opts, tassoc d (T "input") = Some opts /\
      let ws := input_writes tpl cwd (file_dir cwd i) (i_fs i) opts in
      (tassoc (i_cfg i) (T "input") = None -> ws = []) /\
      let c1 := writes F (i_cfg i) (T "input") ws in
      let c3 := param_part tpl d (T "debug") (param_part tpl d (T "parameters") c1) in
      extract_output_dir cwd d (with_cfg i c3) = Ok i'.
  Proof.
    unfold read_dict. rewrite extract_input_files_eq.
    destruct (tassoc d (T "input")) as [opts|]; [|discriminate]. cbv zeta.
    set (ws := input_writes tpl cwd (file_dir cwd i) (i_fs i) opts). intros H. exists opts. split; [auto|]. fold ws. split.
    - intros E. revert H. rewrite E. clearbody ws. destruct ws; [reflexivity|]. intros H. cbn [bind] in H. discriminate H.
    - assert (E : match tassoc (i_cfg i) (T "input") with
                  | None => match ws with
                            | [] => Ok (with_cfg i (writes F (i_cfg i) (T "input") ws))
                            | _ :: _ => Raise KeyError
                            end
                  | Some _ => Ok (with_cfg i (writes F (i_cfg i) (T "input") ws))
                  end = Ok (with_cfg i (writes F (i_cfg i) (T "input") ws))).
      { destruct (tassoc (i_cfg i) (T "input")); auto. revert H. generalize ws. intros [|w0 ws0] H; [reflexivity|]. cbn [bind] in H. discriminate H. }
      rewrite E in H. cbn [bind] in H. cbn [with_cfg i_cfg i_file i_fs] in H.
      rewrite !extract_parameters_writes in H. exact H.
  Qed.

  Lemma read_dict_intro tpl cwd d (i : ini F) opts : tassoc d (T "input") = Some opts ->
    let ws := input_writes tpl cwd (file_dir cwd i) (i_fs i) opts in
    (tassoc (i_cfg i) (T "input") = None -> ws = []) ->
    let c1 := writes F (i_cfg i) (T "input") ws in
    let c3 := param_part tpl d (T "debug") (param_part tpl d (T "parameters") c1) in
    read_dict read_float tpl cwd d i = extract_output_dir cwd d (with_cfg i c3).
  Proof.
    intros Ho ws Hws. unfold read_dict. rewrite extract_input_files_eq, Ho. cbv zeta. fold ws.
    assert (E : match tassoc (i_cfg i) (T "input") with
                | None => match ws with
                          | [] => Ok (with_cfg i (writes F (i_cfg i) (T "input") ws))
                          | _ :: _ => Raise KeyError
                          end
                | Some _ => Ok (with_cfg i (writes F (i_cfg i) (T "input") ws))
                end = Ok (with_cfg i (writes F (i_cfg i) (T "input") ws))).
    { destruct (tassoc (i_cfg i) (T "input")); auto. rewrite Hws; auto. }
    rewrite E. cbn [bind]. cbn [with_cfg i_cfg i_file i_fs]. rewrite !extract_parameters_writes. reflexivity.
  Qed.

  Lemma param_part_sections tpl d s c s' : (tassoc (param_part tpl d s c) s' = None) <-> tassoc c s' = None.
  Proof. unfold param_part. destruct (tassoc d s); [apply writes_sections|tauto]. Qed.

  Lemma param_part_stable tpl d s c : (forall opts, tassoc d s = Some opts -> distinct_keys opts) ->
    forall opts, tassoc d s = Some opts ->
    Forall (fun kv => write F (param_part tpl d s c) s (fst kv) (snd kv) = param_part tpl d s c)
      (param_writes F read_float tpl s opts).
  Proof.
    intros Hd opts E. unfold param_part. rewrite E. apply writes_stable. apply param_writes_distinct. auto.
  Qed.

  Lemma write_stable_param c s k v tpl d s2 : write F c s k v = c -> s <> s2 ->
    write F (param_part tpl d s2 c) s k v = param_part tpl d s2 c.
  Proof. intros H N. unfold param_part. destruct (tassoc d s2); auto. apply write_stable_writes; auto. Qed.

  Lemma param_part_stable_id tpl d s c : (forall opts, tassoc d s = Some opts ->
      Forall (fun kv => write F c s (fst kv) (snd kv) = c) (param_writes F read_float tpl s opts)) ->
    param_part tpl d s c = c.
  Proof. intros H. unfold param_part. destruct (tassoc d s); auto. apply writes_stable_id. auto. Qed.

  Lemma read_dict_idempotent tpl cwd d (i i' : ini F) : Forall (fun s => distinct_keys (snd s)) d ->
    read_dict read_float tpl cwd d i = Ok i' ->
    i_file i' = i_file i /\ files (i_fs i') = files (i_fs i) /\ read_dict read_float tpl cwd d i' = Ok i'.
  Proof.
    intros Hd H. destruct (read_dict_ok _ _ _ _ _ H) as (opts & Ho & Hws & Hout). clear H.
    assert (Hdist : forall s opts, tassoc d s = Some opts -> distinct_keys opts).
    { intros s o E. apply tassoc_In in E. rewrite Forall_forall in Hd. apply (Hd _ E). }
    set (ws := input_writes tpl cwd (file_dir cwd i) (i_fs i) opts) in *.
    set (c1 := writes F (i_cfg i) (T "input") ws) in *.
    set (c2 := param_part tpl d (T "parameters") c1) in *.
    set (c3 := param_part tpl d (T "debug") c2) in *. cbv zeta in Hout, Hws.
    destruct (extract_output_dir_spec _ _ _ _ (Hdist (T "output")) Hout) as (P1 & P2 & P3 & P4).
    cbn [with_cfg i_file i_fs i_cfg] in P1, P2. split; [auto|]. split; [auto|].
    (* all earlier writes are stable in c3 *)
    assert (Nip : T "input" <> T "parameters") by discriminate.
    assert (Nid : T "input" <> T "debug") by discriminate.
    assert (Npd : T "parameters" <> T "debug") by discriminate.
    assert (S1 : Forall (fun kv => write F c3 (T "input") (fst kv) (snd kv) = c3) ws).
    { assert (S : Forall (fun kv => write F c1 (T "input") (fst kv) (snd kv) = c1) ws)
        by (apply writes_stable, input_writes_distinct; eauto).
      eapply Forall_impl; [|exact S]. intros kv Hkv. unfold c3, c2. apply write_stable_param; auto. apply write_stable_param; auto. }
    assert (S2 : forall o, tassoc d (T "parameters") = Some o ->
      Forall (fun kv => write F c3 (T "parameters") (fst kv) (snd kv) = c3) (param_writes F read_float tpl (T "parameters") o)).
    { intros o Eo. assert (S := param_part_stable tpl d (T "parameters") c1 (Hdist _) o Eo). fold c2 in S.
      eapply Forall_impl; [|exact S]. intros kv Hkv. unfold c3. apply write_stable_param; auto. }
    assert (S3 : forall o, tassoc d (T "debug") = Some o ->
      Forall (fun kv => write F c3 (T "debug") (fst kv) (snd kv) = c3) (param_writes F read_float tpl (T "debug") o)).
    { intros o Eo. apply (param_part_stable tpl d (T "debug") c2 (Hdist _) o Eo). }
    (* and in the final configuration *)
    assert (L : forall s k v, s <> T "output" -> write F c3 s k v = c3 -> write F (i_cfg i') s k v = i_cfg i').
    { intros s k v Ns Hw. destruct P4 as [->|(sec' & E & Hne)]; [exact Hw|]. rewrite E. cbn [with_cfg i_cfg].
      apply write_stable_setsec; auto. }
    assert (Hin : tassoc (i_cfg i') (T "input") = None <-> tassoc (i_cfg i) (T "input") = None).
    { assert (Q : tassoc c3 (T "input") = None <-> tassoc (i_cfg i) (T "input") = None).
      { unfold c3. rewrite param_part_sections. unfold c2. rewrite param_part_sections. unfold c1. apply writes_sections. }
      rewrite <- Q. destruct P4 as [->|(sec' & E & Hne)]; [reflexivity|]. rewrite E. cbn [with_cfg i_cfg].
      rewrite tassoc_set_other by discriminate. tauto. }
    assert (Ews : input_writes tpl cwd (file_dir cwd i') (i_fs i') opts = ws).
    { unfold ws. replace (file_dir cwd i') with (file_dir cwd i) by (unfold file_dir; rewrite P1; auto).
      apply input_writes_files. auto. }
    rewrite (read_dict_intro tpl cwd d i' opts Ho); [|rewrite Ews; tauto]. rewrite Ews.
    rewrite (writes_stable_id F (i_cfg i') (T "input") ws).
    2:{ eapply Forall_impl; [|exact S1]. intros kv Hkv. apply L; auto. discriminate. }
    rewrite (param_part_stable_id tpl d (T "parameters")).
    2:{ intros o Eo. eapply Forall_impl; [|exact (S2 o Eo)]. intros kv Hkv. apply L; auto. discriminate. }
    rewrite (param_part_stable_id tpl d (T "debug")).
    2:{ intros o Eo. eapply Forall_impl; [|exact (S3 o Eo)]. intros kv Hkv. apply L; auto. discriminate. }
    rewrite with_cfg_id. exact P3.
  Qed.

  Lemma read_inifile_idempotent tpl cwd t (i i' : ini F) : read_inifile read_float tpl cwd t i = Ok i' ->
    i_file i' = i_file i /\ files (i_fs i') = files (i_fs i) /\ read_inifile read_float tpl cwd t i' = Ok i'.
  Proof.
    unfold read_inifile. destruct (get_inifile_params t) as [d|e] eqn:E; cbn [bind]; [|discriminate].
    apply read_dict_idempotent. apply (get_inifile_params_keys t). auto.
  Qed.
End Reading.

(** ** C24 *)

Theorem C24_loading_twice_is_loading_once (F : Type) (read_float : text -> option F) (tpl : config F) (cwd : list text)
    (i : ini F) (p : path) :
  (* the double reading gives what a single reading gives, errors included *)
  load_configuration read_float tpl cwd i p =
    match lookup_file (files (i_fs i)) (resolve cwd p) with
    | None => Raise FileNotFoundError
    | Some t => read_inifile read_float tpl cwd t (mk_ini (i_cfg i) (Some p) (i_fs i))
    end /\
  (* loading again changes nothing *)
  (forall i', load_configuration read_float tpl cwd i p = Ok i' -> load_configuration read_float tpl cwd i' p = Ok i').
Proof.
  assert (A : load_configuration read_float tpl cwd i p =
    match lookup_file (files (i_fs i)) (resolve cwd p) with
    | None => Raise FileNotFoundError
    | Some t => read_inifile read_float tpl cwd t (mk_ini (i_cfg i) (Some p) (i_fs i))
    end).
  { unfold load_configuration. destruct (lookup_file _ _) as [t|]; auto.
    destruct (read_inifile read_float tpl cwd t (mk_ini (i_cfg i) (Some p) (i_fs i))) as [i1|e] eqn:E; cbn [bind]; auto.
    apply read_inifile_idempotent in E. tauto. }
  split; [exact A|]. intros i'. rewrite A. destruct (lookup_file (files (i_fs i)) (resolve cwd p)) as [t|] eqn:Ef; [|discriminate].
  intros H. destruct (read_inifile_idempotent _ _ _ _ _ _ _ H) as (H1 & H2 & H3).
  unfold load_configuration. rewrite H2. cbn [i_fs]. rewrite Ef.
  assert (Ei : mk_ini (i_cfg i') (Some p) (i_fs i') = i').
  { destruct i' as [c f w]. cbn [i_file] in H1. subst f. reflexivity. }
  rewrite Ei, H3. cbn [bind]. exact H3.
Qed.
Print Assumptions C24_loading_twice_is_loading_once.

(** ** C22 *)

(** What a file makes of a parameter: its text if the section has the key and
    the text can be converted, otherwise the old value. *)
Definition file_value {F} (read_float : text -> option F) (d : inidict) (s : text) (kd : kind) (k : text) (old : value F) : value F :=
  match tassoc d s with
  | None => old
  | Some opts =>
      match find_key opts k with
      | None => old
      | Some (_, t) => match cast read_float kd t with Some v => v | None => old end
      end
  end.

Lemma read_dict_values F (read_float : text -> option F) tpl cwd d (i i' : ini F) s k key kd v0 :
  Forall (fun s => distinct_keys (snd s)) d -> read_dict read_float tpl cwd d i = Ok i' ->
  s = T "parameters" \/ s = T "debug" -> k <> [] ->
  key_from_template tpl s k = Some (key, kd) -> get_from (i_cfg i) s k = Ok v0 ->
  get_from (i_cfg i') s k = Ok (file_value read_float d s kd k v0).
Proof.
  intros Hd H Hs Hk Ht Hg. destruct (read_dict_ok _ _ _ _ _ _ _ H) as (opts & Ho & Hws & Hout). clear H.
  assert (Hk' : nonempty k = true) by (destruct k; [congruence|auto]).
  assert (Hdist : forall s opts, tassoc d s = Some opts -> distinct_keys opts).
  { intros s' o E. apply tassoc_In in E. rewrite Forall_forall in Hd. apply (Hd _ E). }
  cbv zeta in Hout.
  destruct (extract_output_dir_spec _ _ _ _ _ (Hdist (T "output")) Hout) as (_ & _ & _ & P4).
  set (c1 := writes F (i_cfg i) (T "input") (input_writes F tpl cwd (file_dir cwd i) (i_fs i) opts)) in *.
  assert (G1 : get_from c1 s k = Ok v0).
  { unfold c1. rewrite get_writes_other; auto. left. destruct Hs as [->| ->]; discriminate. }
  assert (Gpart : forall c, get_from c s k = Ok v0 -> get_from (param_part F read_float tpl d s c) s k = Ok (file_value read_float d s kd k v0)).
  { intros c Hc. unfold param_part, file_value. destruct (tassoc d s) as [o|] eqn:Eo; auto.
    apply (get_param_writes F read_float tpl s o c k key kd v0); auto. eauto. }
  assert (Gother : forall c s' v, s' <> s -> get_from c s k = Ok v -> get_from (param_part F read_float tpl d s' c) s k = Ok v).
  { intros c s' v N Hc. unfold param_part. destruct (tassoc d s'); auto. rewrite get_writes_other; auto. }
  set (c3 := param_part F read_float tpl d (T "debug") (param_part F read_float tpl d (T "parameters") c1)) in *.
  assert (G3 : get_from c3 s k = Ok (file_value read_float d s kd k v0)).
  { unfold c3. destruct Hs as [->| ->].
    - apply Gother; [discriminate|]. apply Gpart. auto.
    - apply Gpart. apply Gother; [discriminate|]. auto. }
  assert (Ns : T "output" <> s) by (destruct Hs as [->| ->]; discriminate).
  destruct P4 as [->|(sec' & E & Hne)]; [exact G3|]. rewrite E. cbn [with_cfg i_cfg]. unfold get_from.
  rewrite tassoc_set_other by auto. exact G3.
Qed.

Theorem C22_unknown_names_are_harmless (F : Type) (c : config F) (s k : text) (v : value F) :
  (* setting an unknown name in a known section changes nothing *)
  (forall sec, tassoc c s = Some sec -> find_key sec k = None -> set_parameter c k v s = Ok c) /\
  (* reading an unknown name gives None *)
  (get_from c (T "parameters") k = Raise KeyError -> get_from c (T "debug") k = Raise KeyError ->
     get_parameter c k = Ok None).
Proof.
  split.
  - intros sec H1 H2. unfold set_parameter, set_config_value. rewrite H1, H2. reflexivity.
  - intros H1 H2. unfold get_parameter. rewrite H1, H2. reflexivity.
Qed.
Print Assumptions C22_unknown_names_are_harmless.

(** The answer of _set_config_value: true exactly for a name of the section, apart
    from case; else the configuration stays as it is. *)
Theorem C22_known_names (F : Type) (c c' : config F) (s k : text) (v : value F) (known : bool) :
  set_config_value c s k v = Ok (c', known) -> nonempty k = true ->
  exists sec, tassoc c s = Some sec /\
    (known = true <-> find_key sec k <> None) /\
    (known = true -> get_from c' s k = Ok v) /\
    (known = false -> c' = c).
Proof.
  intros H K. unfold set_config_value in H. destruct (tassoc c s) as [sec|] eqn:E; [|discriminate].
  exists sec. split; [reflexivity|]. destruct (find_key sec k) as [[ck e]|] eqn:Fk.
  - rewrite (find_key_nonempty _ _ _ _ Fk), K in H. injection H as <- <-. split; [split; [discriminate|reflexivity]|].
    split; [|discriminate]. intros _. unfold get_from. rewrite tassoc_set_same, (find_key_set_same _ _ _ _ _ Fk). reflexivity.
  - injection H as <- <-. split; [split; [discriminate|congruence]|]. split; [discriminate|reflexivity].
Qed.
Print Assumptions C22_known_names.

(** After loading a file, every parameter has the converted text of the file or
    its old value; all other names of the file have no influence. *)
Theorem C22_loaded_parameters (F : Type) (read_float : text -> option F) (tpl : config F) (cwd : list text)
    (i i' : ini F) (p : path) (t : text) (d : inidict) (k key : text) (kd : kind) (v0 : value F) :
  lookup_file (files (i_fs i)) (resolve cwd p) = Some t -> get_inifile_params t = Ok d ->
  load_configuration read_float tpl cwd i p = Ok i' -> k <> [] ->
  (key_from_template tpl (T "parameters") k = Some (key, kd) -> get_from (i_cfg i) (T "parameters") k = Ok v0 ->
     get_parameter (i_cfg i') k = Ok (Some (file_value read_float d (T "parameters") kd k v0))) /\
  (key_from_template tpl (T "debug") k = Some (key, kd) -> get_from (i_cfg i) (T "debug") k = Ok v0 ->
     get_from (i_cfg i') (T "debug") k = Ok (file_value read_float d (T "debug") kd k v0)).
Proof.
  intros Hf Hp Hl Hk. destruct (C24_loading_twice_is_loading_once F read_float tpl cwd i p) as [A _].
  rewrite A, Hf in Hl. unfold read_inifile in Hl. rewrite Hp in Hl. cbn [bind] in Hl.
  assert (Hd : Forall (fun s => distinct_keys (snd s)) d) by (apply (get_inifile_params_keys t); auto).
  split; intros Ht Hg.
  - unfold get_parameter.
    rewrite (read_dict_values F read_float tpl cwd d _ i' (T "parameters") k key kd v0 Hd Hl) by auto. reflexivity.
  - apply (read_dict_values F read_float tpl cwd d _ i' (T "debug") k key kd v0 Hd Hl); auto.
Qed.
Print Assumptions C22_loaded_parameters.

(** Sections and keys that the template does not have. *)
Definition known_section (tpl : list text) (s : text) : bool := existsb (teqb s) tpl.
Definition drop_unknown {F} (tpl : config F) (d : inidict) : inidict :=
  map (fun so => (fst so, filter (fun kv => match key_from_template tpl (fst so) (fst kv) with Some _ => true | None => false end) (snd so)))
      (filter (fun so => known_section [T "input"; T "parameters"; T "debug"; T "output"] (fst so)) d).

Lemma tassoc_drop_unknown F (tpl : config F) d s : known_section [T "input"; T "parameters"; T "debug"; T "output"] s = true ->
  tassoc (drop_unknown tpl d) s =
  option_map (filter (fun kv => match key_from_template tpl s (fst kv) with Some _ => true | None => false end)) (tassoc d s).
Proof.
  intros Hs. unfold drop_unknown. induction d as [|[s' o] d IH]; auto. cbn [filter fst].
  destruct (known_section _ s') eqn:E; cbn [map tassoc fst snd].
  - destruct (teqb_spec s' s) as [->|]; auto.
  - destruct (teqb_spec s' s) as [->|]; auto. congruence.
Qed.

Lemma fold_res_filter {A B} (f : B -> A -> res B) (p : A -> bool) l b :
  (forall b x, p x = false -> f b x = Ok b) -> fold_res f (filter p l) b = fold_res f l b.
Proof.
  intros H. revert b. induction l as [|x l IH]; intros b; simpl; auto.
  destruct (p x) eqn:E; simpl; [destruct (f b x); auto|]. rewrite H by auto. apply IH.
Qed.

Lemma fold_left_filter {A B} (f : B -> A -> B) (p : A -> bool) l b :
  (forall b x, p x = false -> f b x = b) -> fold_left f (filter p l) b = fold_left f l b.
Proof.
  intros H. revert b. induction l as [|x l IH]; intros b; simpl; auto.
  destruct (p x) eqn:E; simpl; auto. rewrite H by auto. apply IH.
Qed.

Theorem C22_unknown_file_names_are_ignored (F : Type) (read_float : text -> option F) (tpl : config F) (cwd : list text)
    (d : inidict) (i : ini F) :
  (* the template knows the output directory *)
  key_from_template tpl (T "output") outdir_key <> None ->
  read_dict read_float tpl cwd (drop_unknown tpl d) i = read_dict read_float tpl cwd d i.
Proof.
  intros Hout.
  assert (P : forall s c, s = T "parameters" \/ s = T "debug" ->
    extract_parameters read_float tpl (drop_unknown tpl d) s c = extract_parameters read_float tpl d s c).
  { intros s c Hs. unfold extract_parameters. rewrite tassoc_drop_unknown by (destruct Hs as [->| ->]; reflexivity).
    destruct (tassoc d s) as [o|]; auto. cbn [option_map]. apply fold_left_filter.
    intros b [k t]. cbn [fst snd]. destruct (key_from_template tpl s k); [discriminate|auto]. }
  assert (I : extract_input_files tpl cwd (drop_unknown tpl d) i = extract_input_files tpl cwd d i).
  { unfold extract_input_files. rewrite tassoc_drop_unknown by reflexivity.
    destruct (tassoc d (T "input")) as [o|]; auto. cbn [option_map]. apply fold_res_filter.
    intros b [k t]. cbn [fst snd]. destruct (key_from_template tpl (T "input") k); [discriminate|auto]. }
  assert (O : forall j : ini F, extract_output_dir cwd (drop_unknown tpl d) j = extract_output_dir cwd d j).
  { intros j. unfold extract_output_dir. rewrite tassoc_drop_unknown by reflexivity.
    destruct (tassoc d (T "output")) as [o|]; auto. cbn [option_map]. apply fold_res_filter.
    intros b [k t]. cbn [fst snd]. destruct (teqb_spec (lower k) (lower outdir_key)) as [E|]; auto.
    destruct (key_from_template tpl (T "output") k) eqn:Ek; [discriminate|]. exfalso. apply Hout. rewrite <- Ek.
    unfold key_from_template. destruct (tassoc tpl (T "output")); auto. rewrite (find_key_lower _ outdir_key k); auto. }
  unfold read_dict. rewrite I. destruct (extract_input_files tpl cwd d i) as [i1|e]; cbn [bind]; auto.
  cbv zeta. rewrite O. rewrite !P by auto. reflexivity.
Qed.
Print Assumptions C22_unknown_file_names_are_ignored.

(** ** C25 *)

Theorem C25_missing_sections_are_reported_refuted (F : Type) (read_float : text -> option F) (tpl : config F) (cwd : list text)
    (w : fs) (p : path) (t : text) (d : inidict) :
  lookup_file (files w) (resolve cwd p) = Some t -> get_inifile_params t = Ok d ->
  (* no input section: an internal error leaves the constructor *)
  (tassoc d (T "input") = None -> project_init read_float tpl cwd w p = Raise AttributeError) /\
  (* input files are all unknown or missing, and no output section: the same *)
  (forall opts, tassoc d (T "input") = Some opts ->
     input_writes F tpl cwd (parent p) w opts = [] -> tassoc d (T "output") = None ->
     project_init read_float tpl cwd w p = Raise AttributeError).
Proof.
  intros Hf Hp.
  assert (A : project_init read_float tpl cwd w p =
    match read_inifile read_float tpl cwd t (mk_ini tpl (Some p) w) with
    | Raise ConfigurationFileError | Raise FileNotFoundError => Ok None
    | Raise e => Raise e
    | Ok i => r <- has_output_directory cwd i ;; Ok (Some (fst r))
    end).
  { unfold project_init. unfold is_file. rewrite Hf. cbv zeta.
    destruct (C24_loading_twice_is_loading_once F read_float tpl cwd (mk_ini tpl None w) p) as [E _].
    cbn [i_fs i_cfg] in E. rewrite Hf in E. rewrite E. reflexivity. }
  rewrite A. unfold read_inifile. rewrite Hp. cbn [bind]. split.
  - intros Hi. unfold read_dict. rewrite extract_input_files_eq, Hi. reflexivity.
  - intros opts Hi Hw Ho. rewrite (read_dict_intro F read_float tpl cwd d _ opts Hi).
    + unfold extract_output_dir. rewrite Ho. reflexivity.
    + cbn [i_fs]. intros _. exact Hw.
Qed.
Print Assumptions C25_missing_sections_are_reported_refuted.

(** What does hold: a file that can be parsed and lacks one of the sections is never
    used, not even for the parameters that it does have, and a missing section is
    the only way to this internal error. *)
Lemma fold_res_no_error {A B} (f : B -> A -> res B) (e : exn) l : (forall b x, f b x <> Raise e) -> forall b, fold_res f l b <> Raise e.
Proof.
  intro H. induction l as [|x l IH]; intro b; cbn [fold_res]; [discriminate|].
  specialize (H b x). destruct (f b x) as [b'|e']; cbn [bind]; [apply IH|]. congruence.
Qed.
Theorem C25_internal_error_partial (F : Type) (read_float : text -> option F) (tpl : config F) (cwd : list text)
    (w : fs) (p : path) (t : text) (d : inidict) :
  lookup_file (files w) (resolve cwd p) = Some t -> get_inifile_params t = Ok d -> tassoc tpl (T "input") <> None ->
  (project_init read_float tpl cwd w p = Raise AttributeError <->
   tassoc d (T "input") = None \/ tassoc d (T "output") = None).
Proof.
  intros Hf Hp Ht.
  assert (A : project_init read_float tpl cwd w p =
    match read_inifile read_float tpl cwd t (mk_ini tpl (Some p) w) with
    | Raise ConfigurationFileError | Raise FileNotFoundError => Ok None
    | Raise e => Raise e
    | Ok i => r <- has_output_directory cwd i ;; Ok (Some (fst r))
    end).
  { unfold project_init. unfold is_file. rewrite Hf. cbv zeta.
    destruct (C24_loading_twice_is_loading_once F read_float tpl cwd (mk_ini tpl None w) p) as [E _].
    cbn [i_fs i_cfg] in E. rewrite Hf in E. rewrite E. reflexivity. }
  rewrite A. unfold read_inifile. rewrite Hp. cbn [bind].
  destruct (tassoc d (T "input")) as [opts|] eqn:Hi.
  2:{ unfold read_dict. rewrite extract_input_files_eq, Hi. cbn [bind]. split; auto. }
  rewrite (read_dict_intro F read_float tpl cwd d _ opts Hi).
  2:{ cbn [i_cfg]. intro H. contradiction. }
  unfold extract_output_dir. destruct (tassoc d (T "output")) as [o|] eqn:Ho; [|split; auto].
  split; [|intros [H|H]; discriminate]. intro H. exfalso.
  match type of H with context [fold_res ?f o ?b] => pose proof (fold_res_no_error f AttributeError o) as N; destruct (fold_res f o b) as [i|e] eqn:E end.
  - revert H. unfold has_output_directory. destruct (get_output_directory cwd i) as [q|e] eqn:G; cbn [bind].
    + destruct (path_exists (i_fs i) (resolve cwd q)); cbn [bind]; [discriminate|].
      assert (M : forall todo w base, mkdir_below w base todo <> Raise AttributeError).
      { induction todo as [|c todo IH]; intros w' base; cbn [mkdir_below]; [discriminate|]. cbv zeta.
        destruct (is_dir w' (base ++ [c])); [apply IH|]. destruct (is_file w' (base ++ [c])); [discriminate|apply IH]. }
      unfold mkdir_parents. pose proof (M (resolve cwd q) (i_fs i) []) as M'.
      destruct (mkdir_below (i_fs i) [] (resolve cwd q)) as [w'|[]]; cbn [bind]; congruence.
    + revert G. unfold get_output_directory. destruct (tassoc (i_cfg i) (T "output")) as [sec|]; [|intros G; injection G as <-; discriminate].
      destruct (tassoc sec outdir_key) as [en|]; [|intros G; injection G as <-; discriminate].
      destruct (e_value en); intro G; try discriminate G; injection G as <-; discriminate.
  - eapply N; [|rewrite E; destruct e; congruence]. intros b [k v]. cbn [fst snd]. destruct (teqb (lower k) (lower outdir_key)); [|discriminate].
    unfold set_output_directory, mkdir, set_output_value.
    destruct (path_exists (i_fs b) (resolve cwd (parse_path v))); cbn [bind].
    + destruct (tassoc (i_cfg b) (T "output")) as [sec|]; [|discriminate]. destruct (tassoc sec outdir_key); discriminate.
    + destruct (is_dir (i_fs b) (removelast (resolve cwd (parse_path v)))); cbn [bind].
      * destruct (tassoc (i_cfg b) (T "output")) as [sec|]; [|discriminate]. destruct (tassoc sec outdir_key); discriminate.
      * destruct (is_file (i_fs b) (removelast (resolve cwd (parse_path v)))); discriminate.
Qed.
Print Assumptions C25_internal_error_partial.

(** A file that does not exist is not an error: the default configuration is
    used.  A file with an unreadable layout is an error of the parser. *)
Example C25_example : exists w t,
  lookup_file (files w) (resolve [T "home"] (parse_path (T "p.ini"))) = Some t /\
  project_init (fun t => Some t) template [T "home"] w (parse_path (T "p.ini")) = Raise AttributeError.
Proof.
  exists (mk_fs [([T "home"; T "p.ini"], T "[parameters]")] [[T "home"]]). eexists. split; vm_compute; reflexivity.
Qed.

(** ** C26 *)

Lemma normalise_app a : forall acc b, normalise acc (a ++ b) = normalise (rev (normalise acc a)) b.
Proof.
  induction a as [|c a IH]; intros acc b; cbn [app normalise]; [rewrite rev_involutive; auto|].
  destruct (teqb c (T "..")); apply IH.
Qed.

Lemma get_output_directory_spec F (cwd : list text) (i : ini F) sec e p :
  tassoc (i_cfg i) (T "output") = Some sec -> tassoc sec outdir_key = Some e -> e_value e = VPath p ->
  get_output_directory cwd i = Ok (joinpath (file_dir cwd i) p).
Proof. intros H1 H2 H3. unfold get_output_directory. rewrite H1, H2, H3. reflexivity. Qed.

Lemma resolve_join cwd fd p : p_abs p = true \/ resolve cwd fd = normalise [] cwd ->
  resolve cwd (joinpath fd p) = resolve cwd p.
Proof.
  unfold resolve, joinpath. intros [H|H].
  - rewrite H. cbn. rewrite H. auto.
  - destruct (p_abs p) eqn:E; [rewrite E; auto|]. cbn [p_abs p_parts].
    destruct (p_abs fd).
    + rewrite normalise_app, H, <- normalise_app. auto.
    + rewrite app_assoc, normalise_app, H, <- normalise_app. auto.
Qed.

(** The directory exists and is the one of the getter, if the configuration
    file lies in the working directory or the value is an absolute path. *)
Theorem C26_output_directory_partial (F : Type) (cwd : list text) (i i' : ini F) (p : path) :
  set_output_directory cwd i p = Ok i' ->
  p_abs p = true \/ resolve cwd (file_dir cwd i) = normalise [] cwd ->
  exists q, get_output_directory cwd i' = Ok q /\ resolve cwd q = resolve cwd p /\
    path_exists (i_fs i') (resolve cwd q) = true.
Proof.
  intros H Hr. destruct (set_output_directory_spec _ _ _ _ _ H) as (P1 & P2 & P3 & P4 & sec' & P5 & P6 & e & P7 & P8).
  exists (joinpath (file_dir cwd i') p).
  replace (file_dir cwd i') with (file_dir cwd i) by (unfold file_dir; rewrite P1; auto).
  rewrite resolve_join by auto. split; [|auto].
  replace (file_dir cwd i) with (file_dir cwd i') by (unfold file_dir; rewrite P1; auto).
  eapply get_output_directory_spec; [rewrite P5; apply tassoc_set_same|eauto|auto].
Qed.
Print Assumptions C26_output_directory_partial.

(** Otherwise the directory that is created is not the one that is used. *)
Theorem C26_output_directory_refuted : exists (cwd : list text) (i i' : ini text) (p q : path),
  set_output_directory cwd i p = Ok i' /\ get_output_directory cwd i' = Ok q /\
  path_exists (i_fs i') (resolve cwd p) = true /\ path_exists (i_fs i') (resolve cwd q) = false.
Proof.
  exists [T "home"], (mk_ini template (Some (parse_path (T "case/p.ini"))) (mk_fs [] [[T "home"]; [T "home"; T "case"]])).
  eexists _, (parse_path (T "out")), _.
  split; [vm_compute; reflexivity|]. split; [vm_compute; reflexivity|]. split; vm_compute; reflexivity.
Qed.
Print Assumptions C26_output_directory_refuted.

Lemma mkdir_below_spec todo : forall w base w', mkdir_below w base todo = Ok w' -> is_dir w base = true ->
  is_dir w' (base ++ todo) = true.
Proof.
  induction todo as [|c todo IH]; intros w base w'; cbn [mkdir_below].
  - intros [= <-] H. rewrite app_nil_r. auto.
  - destruct (is_dir w (base ++ [c])) eqn:E.
    + intros H _. specialize (IH _ _ _ H E). rewrite <- app_assoc in IH. exact IH.
    + destruct (is_file w (base ++ [c])); [discriminate|].
      intros H _. specialize (IH _ _ _ H (is_dir_new _ _)). rewrite <- app_assoc in IH. exact IH.
Qed.

Lemma mkdir_below_no_filenotfound todo : forall w base, mkdir_below w base todo <> Raise FileNotFoundError.
Proof.
  induction todo as [|c todo IH]; intros w base; cbn [mkdir_below]; [discriminate|].
  destruct (is_dir w (base ++ [c])); auto. destruct (is_file w (base ++ [c])); [discriminate|auto].
Qed.

(** A project that has been opened has the output directory it will use. *)
Theorem C26_opened_project_has_its_output_directory (F : Type) (read_float : text -> option F) (tpl : config F) (cwd : list text)
    (w : fs) (p : path) (i : ini F) :
  project_init read_float tpl cwd w p = Ok (Some i) ->
  exists q, get_output_directory cwd i = Ok q /\ path_exists (i_fs i) (resolve cwd q) = true.
Proof.
  unfold project_init. cbv zeta.
  destruct (if is_file w (resolve cwd p) then load_configuration read_float tpl cwd (mk_ini tpl None w) p else Ok (mk_ini tpl None w)) as [j|e].
  2:{ destruct e; discriminate. }
  unfold has_output_directory. destruct (get_output_directory cwd j) as [q|e] eqn:Eq; cbn [bind]; [|discriminate].
  destruct (path_exists (i_fs j) (resolve cwd q)) eqn:Ex; cbn [bind fst].
  - intros [= <-]. eauto.
  - destruct (mkdir_parents (i_fs j) (resolve cwd q)) as [w'|e] eqn:Em.
    + cbn [bind fst]. intros [= <-]. exists q. split.
      * unfold get_output_directory in *. cbn [i_cfg]. exact Eq.
      * cbn [i_fs]. unfold path_exists. apply orb_true_iff. right. apply (mkdir_below_spec _ _ _ _ Em). reflexivity.
    + assert (e <> FileNotFoundError).
      { intros ->. apply (mkdir_below_no_filenotfound (resolve cwd q) (i_fs j) []). exact Em. }
      destruct e; cbn [bind]; congruence.
Qed.
Print Assumptions C26_opened_project_has_its_output_directory.

Lemma mkdir_below_adds todo : forall w base w', mkdir_below w base todo = Ok w' ->
  files w' = files w /\ exists new, dirs w' = dirs w ++ new /\
    Forall (fun d => exists a b, d = base ++ a /\ todo = a ++ b /\ is_file w d = false) new.
Proof.
  induction todo as [|c todo IH]; intros w base w'; cbn [mkdir_below].
  - intros [= <-]. split; auto. exists []. rewrite app_nil_r. split; auto.
  - destruct (is_dir w (base ++ [c])) eqn:E.
    + intros H. destruct (IH _ _ _ H) as (Hf & new & Hd & Hn). split; auto. exists new. split; auto.
      eapply Forall_impl; [|exact Hn]. cbn. intros d (a & b & -> & -> & N). exists (c :: a), b. rewrite <- app_assoc in *. auto.
    + destruct (is_file w (base ++ [c])) eqn:E2; [discriminate|]. intros H.
      destruct (IH _ _ _ H) as (Hf & new & Hd & Hn). cbn [files dirs] in *. split; auto.
      exists ((base ++ [c]) :: new). rewrite <- app_assoc in Hd. split; [exact Hd|]. constructor.
      * exists [c], todo. auto.
      * eapply Forall_impl; [|exact Hn]. cbn. intros d (a & b & -> & -> & N). exists (c :: a), b. rewrite <- app_assoc in *. auto.
Qed.

(** Asking a configuration whether it has an output directory makes that
    directory: the answer is then yes, no file changes, and the only directories
    made are the output directory and those above it. *)
Theorem C26_asking_makes_the_output_directory (F : Type) (cwd : list text) (i i' : ini F) (answer : bool) :
  has_output_directory cwd i = Ok (i', answer) ->
  exists q, get_output_directory cwd i = Ok q /\ answer = true /\
    path_exists (i_fs i') (resolve cwd q) = true /\
    i_cfg i' = i_cfg i /\ i_file i' = i_file i /\ files (i_fs i') = files (i_fs i) /\
    (exists new, dirs (i_fs i') = dirs (i_fs i) ++ new /\
       Forall (fun d => exists below, resolve cwd q = d ++ below) new) /\
    (path_exists (i_fs i) (resolve cwd q) = true -> i' = i).
Proof.
  unfold has_output_directory. destruct (get_output_directory cwd i) as [q|e] eqn:Eq; cbn [bind]; [|discriminate].
  intro H. exists q. split; auto. destruct (path_exists (i_fs i) (resolve cwd q)) eqn:Ex.
  - injection H as <- <-. repeat (split; auto). exists []. rewrite app_nil_r. auto.
  - destruct (mkdir_parents (i_fs i) (resolve cwd q)) as [w'|e] eqn:Em.
    + injection H as <- <-. cbn [i_fs i_cfg i_file]. destruct (mkdir_below_adds _ _ _ _ Em) as (Hf & new & Hd & Hn).
      split; auto. split; [|split; [|split; [|split; [|split]]]]; auto; [| |discriminate].
      * unfold path_exists. apply orb_true_iff. right. apply (mkdir_below_spec _ _ _ _ Em). reflexivity.
      * exists new. split; auto. eapply Forall_impl; [|exact Hn]. cbn. intros d (a & b & -> & E & _). exists b. exact E.
    + assert (e <> FileNotFoundError).
      { intros ->. apply (mkdir_below_no_filenotfound (resolve cwd q) (i_fs i) []). exact Em. }
      destruct e; congruence.
Qed.
Print Assumptions C26_asking_makes_the_output_directory.

Theorem C26_asking_case :
  let i := mk_ini template (Some (parse_path (T "p.ini"))) (mk_fs [([T "home"; T "p.ini"], [])] [[T "home"]]) in
  match set_output_directory [T "home"] i (parse_path (T "a")) with
  | Ok j =>
      let j := mk_ini (i_cfg j) (i_file j) (mk_fs (files (i_fs j)) [[T "home"]]) in
      exists j', has_output_directory [T "home"] j = Ok (j', true) /\ dirs (i_fs j') = [[T "home"]; [T "home"; T "a"]]
  | Raise _ => False
  end.
Proof. vm_compute. eexists. split; reflexivity. Qed.
Print Assumptions C26_asking_case.
