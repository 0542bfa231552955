(** Theorems for C90: the parameters the program reads. *)
From Coq Require Import String List Ascii ZArith Bool Lia.
From Verif Require Import PyBase Text L_Text M_Ini L_Ini L_IniPrint T_Ini T_IniPrint M_Params.
Import ListNotations.
Local Open Scope char_scope.

(** A value of a type; an empty text stands for the list without a selection. *)
Definition of_kind {F} (kd : kind) (v : value F) : Prop :=
  match kd, v with
  | KStr, VStr _ | KInt, VInt _ | KFloat, VFloat _ | KBool, VBool _ | KList, VList _ => True
  | KList, VStr [] => True
  | _, _ => False
  end.

Lemma cast_kind F (read_float : text -> option F) kd t v : cast read_float kd t = Some v -> of_kind kd v.
Proof.
  destruct kd; cbn [cast]; intro H.
  - injection H as <-. exact I.
  - destruct (parse_Z t); [|discriminate]. injection H as <-. exact I.
  - destruct (read_float t); [|discriminate]. injection H as <-. exact I.
  - injection H as <-. exact I.
  - destruct (opt_all _); [|discriminate]. injection H as <-. exact I.
Qed.

Lemma file_value_kind F (read_float : text -> option F) d s kd k v0 :
  of_kind kd v0 -> of_kind kd (file_value read_float d s kd k v0).
Proof.
  intro H. unfold file_value. destruct (tassoc d s); auto. destruct (find_key l k) as [[k' t]|]; auto.
  destruct (cast read_float kd t) eqn:E; auto. eapply cast_kind; eauto.
Qed.

Definition sections : list text := [T "parameters"; T "debug"].

(** Where the template has the parameters that are read. *)
Definition entry_of (k : text) : option (text * text * kind * value text) :=
  match find_key (match tassoc template (T "parameters") with Some s => s | None => [] end) k with
  | Some (key, e) => Some (T "parameters", key, e_kind e, e_value e)
  | None =>
      match find_key (match tassoc template (T "debug") with Some s => s | None => [] end) k with
      | Some (key, e) => Some (T "debug", key, e_kind e, e_value e)
      | None => None
      end
  end.
Definition ok_read (r : text * kind) : bool :=
  match fst r, entry_of (fst r) with
  | [], _ => false
  | _, Some (_, _, kd, v) =>
      match kd, snd r, v with
      | KStr, KStr, VStr _ | KInt, KInt, VInt _ | KFloat, KFloat, VFloat _ | KBool, KBool, VBool _ => true
      | KList, KList, VStr [] => true
      | _, _, _ => false
      end
  | _, None => false
  end.
Lemma reads_ok : forallb ok_read reads = true.
Proof. vm_compute. reflexivity. Qed.

Lemma ok_read_spec k kd : ok_read (k, kd) = true ->
  k <> [] /\ exists s key v, entry_of k = Some (s, key, kd, v) /\ of_kind kd v.
Proof.
  unfold ok_read. cbn [fst snd]. destruct k as [|c k]; [discriminate|].
  destruct (entry_of (c :: k)) as [[[[s key] kd'] v]|]; [|discriminate]. intro H. split; [discriminate|].
  exists s, key, v. destruct kd', kd, v as [[|]| | | | |]; try discriminate; split; try reflexivity; exact I.
Qed.

(** Every parameter that the program reads is known, and has a value of the type
    the program expects, in every project that can be opened. *)
Theorem C90_read_parameters_have_their_type :
  forall (read_float : text -> option text) (cwd : list text) (w : fs) (p : path) (i : ini text),
    project_init read_float template cwd w p = Ok (Some i) ->
    forall k kd, In (k, kd) reads ->
    exists v, get_parameter (i_cfg i) k = Ok (Some v) /\ of_kind kd v.
Proof.
  intros rf cwd w p i H k kd Ik.
  assert (Hr : ok_read (k, kd) = true) by (apply (proj1 (forallb_forall ok_read reads) reads_ok); exact Ik).
  destruct (ok_read_spec k kd Hr) as (Hk & s & key & v0 & He & Hv0).
  (* the configuration that was loaded *)
  assert (L : exists j, i_cfg j = i_cfg i /\
    (if is_file w (resolve cwd p) then load_configuration rf template cwd (mk_ini template None w) p else Ok (mk_ini template None w)) = Ok j).
  { unfold project_init in H. cbv zeta in H.
    destruct (if is_file w (resolve cwd p) then _ else _) as [j|e] eqn:E; [|destruct e; discriminate].
    exists j. split; [|reflexivity]. unfold has_output_directory in H.
    destruct (get_output_directory cwd j) as [q|e]; cbn [bind] in H; [|discriminate].
    destruct (path_exists (i_fs j) (resolve cwd q)); [injection H as <-; reflexivity|].
    destruct (mkdir_parents (i_fs j) (resolve cwd q)) as [w'|e]; [injection H as <-; reflexivity|].
    destruct e; cbn in H; try discriminate; injection H as <-; reflexivity. }
  destruct L as (j & <- & E). clear H.
  (* the template *)
  assert (Tp : (s = T "parameters" /\ key_from_template template (T "parameters") k = Some (key, kd) /\
                 get_from template (T "parameters") k = Ok v0) \/
               (s = T "debug" /\ key_from_template template (T "debug") k = Some (key, kd) /\
                 get_from template (T "debug") k = Ok v0 /\ get_from template (T "parameters") k = Raise KeyError)).
  { unfold entry_of in He. unfold key_from_template, get_from.
    destruct (tassoc template (T "parameters")) as [sp|] eqn:Ep; [|vm_compute in Ep; discriminate].
    destruct (tassoc template (T "debug")) as [sd|] eqn:Ed; [|vm_compute in Ed; discriminate].
    destruct (find_key sp k) as [[ck e]|].
    - injection He as <- <- <- <-. left. auto.
    - destruct (find_key sd k) as [[ck e]|]; [|discriminate]. injection He as <- <- <- <-. right. auto. }
  destruct (is_file w (resolve cwd p)) eqn:Ef.
  - destruct (lookup_file (files w) (resolve cwd p)) as [t|] eqn:El.
    2:{ unfold load_configuration in E. cbn [i_fs] in E. rewrite El in E. discriminate. }
    assert (P : exists d, get_inifile_params t = Ok d).
    { unfold load_configuration in E. cbn [i_fs] in E. rewrite El in E. unfold read_inifile at 1 in E.
      destruct (get_inifile_params t) as [d|e]; cbn [bind] in E; [eauto|discriminate]. }
    destruct P as (d & Ed).
    destruct (C22_loaded_parameters text rf template cwd (mk_ini template None w) j p t d k key kd v0 El Ed E Hk) as [G1 G2].
    destruct Tp as [(-> & T1 & T2)|(-> & T1 & T2 & T3)].
    + eexists. split; [apply G1; [exact T1|exact T2]|]. apply file_value_kind. exact Hv0.
    + eexists. split; [|apply file_value_kind; exact Hv0]. unfold get_parameter. rewrite (G2 T1 T2).
      assert (Hd : Forall (fun s => distinct_keys (snd s)) d) by (apply (get_inifile_params_keys t); auto).
      destruct (C24_loading_twice_is_loading_once text rf template cwd (mk_ini template None w) p) as [A _].
      rewrite A in E. cbn [i_fs] in E. rewrite El in E. unfold read_inifile in E. rewrite Ed in E. cbn [bind] in E.
      rewrite (read_dict_error text rf template cwd d _ j (T "parameters") k KeyError Hd E); [reflexivity|discriminate|exact T3].
  - injection E as <-. exists v0. split; [|exact Hv0]. cbn [i_cfg]. unfold get_parameter.
    destruct Tp as [(_ & _ & T2)|(_ & _ & T2 & T3)]; [rewrite T2; reflexivity|rewrite T3, T2; reflexivity].
Qed.
Print Assumptions C90_read_parameters_have_their_type.

(** The values without a configuration file, however the name is spelled. *)
Definition defaults : list (string * value text) :=
  [ ("CaseName", VStr []); ("MaximumPointsInProfile", VInt 20); ("ConveyanceDetectionMethod", VInt 1);
    ("AbsoluteVelocityThreshold", VFloat (T "0.1")); ("RelativeVelocityThreshold", VFloat (T "0.15"));
    ("MinimumDepthThreshold", VFloat (T "0.02")); ("BedlevelCriterium", VFloat (T "0.05")); ("LakeTimesteps", VInt 10);
    ("ExtrapolateStorage", VBool true); ("SDCorrection", VBool true); ("SDFloodplainBase", VFloat (T "0.5"));
    ("SDTransitionHeight", VFloat (T "0.5")); ("SDOptimisationMethod", VInt 0); ("FrictionWeighingMethod", VInt 0);
    ("SkipMaps", VInt 0); ("MinimumTotalWidth", VFloat (T "0.5")); ("DefaultSection", VStr (T "floodplain1"));
    ("DefaultRegion", VStr (T "undefined")); ("ExportCSSData", VBool false); ("ExportMapFiles", VBool false);
    ("CssSelection", VStr []) ]%string.

Theorem C90_defaults : forall k v k', In (k, v) defaults -> lower k' = lower (T k) ->
  get_parameter template k' = Ok (Some v).
Proof.
  intros k v k' I E.
  assert (G : get_parameter template k' = get_parameter template (T k)).
  { unfold get_parameter, get_from. destruct (tassoc template (T "parameters")) as [sp|]; [|reflexivity].
    destruct (tassoc template (T "debug")) as [sd|].
    - rewrite (find_key_lower sp k' (T k) E), (find_key_lower sd k' (T k) E). reflexivity.
    - rewrite (find_key_lower sp k' (T k) E). reflexivity. }
  rewrite G. clear G E k'. revert k v I.
  assert (A : Forall (fun kv => get_parameter template (T (fst kv)) = Ok (Some (snd kv))) defaults).
  { unfold defaults. repeat (apply Forall_cons; [vm_compute; reflexivity|]). apply Forall_nil. }
  intros k v I. rewrite Forall_forall in A. exact (A (k, v) I).
Qed.
Print Assumptions C90_defaults.

(** Three parameters of the template are never read: a project does the same
    whatever they are set to. *)
Definition unread : list string := ["CaseName"; "MinimumDepthThreshold"; "BedlevelCriterium"]%string.

Theorem C90_unread_parameters_refuted :
  (* they are parameters of the template *)
  Forall (fun k => exists v, get_parameter template (T k) = Ok (Some v)) unread /\
  (* setting them changes nothing the program looks at *)
  (forall (F : Type) (c c' : config F) k v, In k unread ->
     set_parameter c (T k) v (T "parameters") = Ok c' -> seen c' = seen c) /\
  (* all others are read *)
  forall s sec k e, In s sections -> tassoc template s = Some sec -> In (k, e) sec ->
    (exists r, In r reads /\ lower (fst r) = lower k) \/ In (string_of_list_ascii k) unread.
Proof.
  split; [|split].
  - unfold unread. repeat (apply Forall_cons; [eexists; vm_compute; reflexivity|]). apply Forall_nil.
  - intros F c c' k v Ik H.
    assert (N : forall r, In r reads -> lower (T k) <> lower (fst r)).
    { assert (B : forallb (fun r => negb (teqb (lower (T k)) (lower (fst r)))) reads = true).
      { destruct Ik as [<-|[<-|[<-|[]]]]; vm_compute; reflexivity. }
      intros r Ir E. rewrite forallb_forall in B. specialize (B r Ir). rewrite E, teqb_refl in B. discriminate. }
    unfold set_parameter, set_config_value in H.
    destruct (tassoc c (T "parameters")) as [sec|] eqn:Es; [|discriminate].
    destruct (find_key sec (T k)) as [[ck e]|] eqn:Ek; [|injection H as <-; reflexivity].
    destruct (nonempty ck); [|injection H as <-; reflexivity]. cbn [bind fst] in H. injection H as <-.
    unfold seen. apply map_ext_in. intros r Ir. specialize (N r Ir).
    assert (Hck : lower ck <> lower (fst r)).
    { destruct (find_key_spec _ _ _ _ Ek) as (A & _). congruence. }
    unfold get_parameter, get_from.
    rewrite (tassoc_set_other c (T "parameters") (T "debug")) by discriminate.
    rewrite (tassoc_set_same c (T "parameters")), Es. 
    rewrite find_key_set_other; [reflexivity|exact Hck|].
    destruct (find_key_spec _ _ _ _ Ek) as (_ & A). rewrite A. discriminate.
  - intros s sec k e Is Et Ik.
    assert (B : forallb (fun s => match tassoc template s with
                | None => false
                | Some sec => forallb (fun ke => existsb (fun r => teqb (lower (fst r)) (lower (fst ke))) reads
                                              || existsb (String.eqb (string_of_list_ascii (fst ke))) unread) sec end) sections = true)
      by (vm_compute; reflexivity).
    rewrite forallb_forall in B. specialize (B s Is). rewrite Et in B. rewrite forallb_forall in B. specialize (B (k, e) Ik).
    cbn [fst] in B. apply orb_true_iff in B. destruct B as [B|B]; apply existsb_exists in B.
    + left. destruct B as (r & Ir & Er). apply teqb_eq in Er. exists r. split; assumption.
    + right. destruct B as (u & Iu & Eu). apply String.eqb_eq in Eu. rewrite Eu. exact Iu.
Qed.
Print Assumptions C90_unread_parameters_refuted.
