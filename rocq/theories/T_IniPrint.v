(** Theorems about printing and loading a configuration: C23. *)
From Coq Require Import String List Ascii ZArith Bool Lia.
From Verif Require Import PyBase Text L_Text M_Ini L_Ini L_IniPrint T_Ini.
Import ListNotations.
Local Open Scope char_scope.

(** ** Values that survive *)

(** The values of which the property speaks: text without comment sign, line
    break, surrounding blanks (and without percent sign), integers, booleans,
    non-empty integer lists; floats whose printed form can be read back. *)
Definition restorable {F} (show_float : F -> text) (read_float : text -> option F) (kd : kind) (v : value F) : Prop :=
  match kd, v with
  | KStr, VStr t => clean t
  | KInt, VInt _ => True
  | KFloat, VFloat x => clean (show_float x) /\ read_float (show_float x) = Some x
  | KBool, VBool _ => True
  | KList, VList l => l <> []
  | _, _ => False
  end.

Lemma Forall_free c t : Forall (fun x => x <> c) t -> free c t.
Proof. intros H Hin. rewrite Forall_forall in H. apply (H _ Hin). auto. Qed.

Lemma int_char_ne c x : ~ int_char c -> int_char x -> x <> c.
Proof. intros H Hx ->. auto. Qed.

Ltac not_int := intros [H|H]; [vm_compute in H|]; discriminate H.

Lemma clean_show_Z z : clean (show_Z z).
Proof. split; [apply show_Z_trimmed| | |]; apply show_Z_free; not_int. Qed.

Lemma join_chars (P : ascii -> Prop) sep ts : Forall P sep -> Forall (Forall P) ts -> Forall P (join sep ts).
Proof.
  intros Hs H. induction H as [|t ts Ht Hts IH]; simpl; [constructor|]. destruct ts; auto.
  apply Forall_app. split; auto. apply Forall_app. auto.
Qed.

Definition list_char (c : ascii) : Prop := int_char c \/ c = "," \/ c = " ".

Lemma show_list_chars l : Forall list_char (join (T ", ") (map show_Z l)).
Proof.
  apply join_chars; [constructor; [right; left; auto|constructor; [right; right; auto|constructor]]|].
  apply Forall_map. apply Forall_forall. intros z _. eapply Forall_impl; [|apply show_Z_chars]. left; auto.
Qed.

Lemma split_show_list z l : split_on "," (join (T ", ") (map show_Z (z :: l))) = show_Z z :: map (fun x => " " :: show_Z x) l.
Proof.
  assert (Hc : forall x, free "," (show_Z x)) by (intros x; apply show_Z_free; not_int).
  revert z. induction l as [|y l IH]; intros z.
  - simpl. apply split_on_free. auto.
  - change (join (T ", ") (map show_Z (z :: y :: l)))
      with (show_Z z ++ "," :: " " :: join (T ", ") (map show_Z (y :: l))).
    rewrite split_on_app by auto. cbn [split_on].
    destruct (Ascii.eqb_spec " " ","); [discriminate|]. rewrite IH. reflexivity.
Qed.

Lemma cast_show_list F (read_float : text -> option F) l : l <> [] ->
  cast read_float KList ("[" :: join (T ", ") (map show_Z l) ++ T "]") = Some (VList l).
Proof.
  intros Hl. unfold cast.
  assert (Es : strip_chars (T "[]") ("[" :: join (T ", ") (map show_Z l) ++ T "]") = join (T ", ") (map show_Z l)).
  { unfold strip_chars, strip_by. cbn [dropwhile].
    replace (char_in (T "[]") "[") with true by reflexivity.
    assert (Hno : Forall (fun c => char_in (T "[]") c = false) (join (T ", ") (map show_Z l))).
    { eapply Forall_impl; [|apply show_list_chars]. intros c [[H|H]|[H|H]]; subst; try reflexivity.
      destruct c as [[] [] [] [] [] [] [] []]; try reflexivity; discriminate H. }
    assert (Hne : join (T ", ") (map show_Z l) <> []).
    { destruct l as [|z l]; [congruence|]. simpl. pose proof (show_Z_nonempty z).
      destruct (map show_Z l); [auto|]. destruct (show_Z z); [congruence|discriminate]. }
    set (b := join (T ", ") (map show_Z l)) in *.
    rewrite dropwhile_hd.
    - rewrite rstrip_by_all by (repeat constructor). apply rstrip_by_id. intros c t' E.
      rewrite Forall_forall in Hno. apply Hno. rewrite E. apply in_or_app. right; left; auto.
    - intros c. destruct b as [|x b]; [congruence|]. simpl. intros [= <-]. inversion Hno; auto. }
  rewrite Es. destruct l as [|z l]; [congruence|]. rewrite split_show_list. cbn [map opt_all].
  rewrite parse_show_Z.
  assert (E : opt_all (map parse_Z (map (fun x => " " :: show_Z x) l)) = Some l).
  { clear. induction l as [|y l IH]; auto. cbn [map opt_all].
    rewrite <- (app_nil_r (show_Z y)). change (" " :: show_Z y ++ []) with ([" "] ++ show_Z y ++ []).
    rewrite parse_Z_pad by (repeat constructor). rewrite IH. reflexivity. }
  rewrite E. reflexivity.
Qed.

Lemma restore F (show_float : F -> text) (read_float : text -> option F) kd v :
  restorable show_float read_float kd v ->
  clean (show_value show_float v) /\ cast read_float kd (show_value show_float v) = Some v.
Proof.
  destruct kd, v; cbn [restorable show_value]; try contradiction.
  - intros H. split; auto.
  - intros _. split; [apply clean_show_Z|]. unfold cast. rewrite parse_show_Z. reflexivity.
  - intros [H1 H2]. split; auto. unfold cast. rewrite H2. reflexivity.
  - intros _. split; [|destruct b; reflexivity].
    assert (D : forall t, trimmedb t && freeb newline t && freeb "#" t && freeb "%" t = true -> clean t).
    { intros t H. repeat rewrite andb_true_iff in H. destruct H as [[[H1 H2] H3] H4].
      split; [apply trimmedb_trimmed; auto| | |]; apply freeb_free; auto. }
    destruct b; apply D; vm_compute; reflexivity.
  - intros H. split; [|apply cast_show_list; auto].
    assert (Hc : forall c, ~ list_char c -> c <> "[" -> c <> "]" -> free c ("[" :: join (T ", ") (map show_Z l) ++ T "]")).
    { intros c H1 H2 H3. apply free_cons; auto. apply free_app.
      - intros Hin. apply H1. pose proof (show_list_chars l) as Hl. rewrite Forall_forall in Hl. auto.
      - apply free_cons; auto. intros []. }
    assert (N : forall c, between 48 57 c = false -> c <> "-" -> c <> "," -> c <> " " -> ~ list_char c).
    { intros c H1 H2 H3 H4 [[H5|H5]|[H5|H5]]; unfold digit_char in *; congruence. }
    split.
    + split.
      * intros c t' [= <- _]. reflexivity.
      * intros c t' E. change ("[" :: join (T ", ") (map show_Z l) ++ T "]") with (("[" :: join (T ", ") (map show_Z l)) ++ ["]"]) in E.
        apply app_inj_tail in E. destruct E as [_ <-]. reflexivity.
    + apply Hc; [apply N; vm_compute; congruence| |]; vm_compute; discriminate.
    + apply Hc; [apply N; vm_compute; congruence| |]; vm_compute; discriminate.
    + apply Hc; [apply N; vm_compute; congruence| |]; vm_compute; discriminate.
Qed.

(** ** Shapes: everything but the values *)

Definition shape {F} (c : config F) : list (text * list (text * (kind * text))) :=
  map (fun ns : text * section F => (fst ns, map (fun ke : text * entry F => (fst ke, (e_kind (snd ke), e_hint (snd ke)))) (snd ns))) c.

(** Names and hints that the printed form can carry. *)
Record shape_ok (s : list (text * list (text * (kind * text)))) : Prop := {
  so_names : Forall (fun ns => good_name (fst ns)) s;
  so_keys : Forall (fun ns => Forall (fun ke => good_key (fst ke)) (snd ns)) s;
  so_hints : Forall (fun ns => Forall (fun ke => free newline (snd (snd ke)) /\ free "%" (snd (snd ke))) (snd ns)) s;
  so_distinct : distinct_keys s;
  so_distinct_keys : Forall (fun ns => distinct_keys (snd ns)) s }.

Definition good_nameb (n : text) : bool := nonempty n && freeb newline n && negb (teqb n (T "DEFAULT")).
Definition good_keyb (k : text) : bool :=
  trimmedb k && freeb newline k && freeb "=" k && freeb ":" k &&
  match k with
  | [] => false
  | c :: _ => negb (Ascii.eqb c "#") && negb (Ascii.eqb c ";") && negb (Ascii.eqb c "[")
  end.
Fixpoint nodupb (l : list text) : bool :=
  match l with [] => true | x :: l' => negb (existsb (teqb x) l') && nodupb l' end.
Definition shape_okb (s : list (text * list (text * (kind * text)))) : bool :=
  forallb (fun ns => good_nameb (fst ns) &&
             forallb (fun ke => good_keyb (fst ke) && (freeb newline (snd (snd ke)) && freeb "%" (snd (snd ke)))) (snd ns) &&
             nodupb (map (fun ke => lower (fst ke)) (snd ns))) s &&
  nodupb (map (fun ns => lower (fst ns)) s).

Lemma nodupb_NoDup l : nodupb l = true -> NoDup l.
Proof.
  induction l as [|x l IH]; simpl; intros H; [constructor|]. apply andb_true_iff in H. destruct H as [H1 H2].
  constructor; auto. intros Hin. apply negb_true_iff in H1.
  assert (existsb (teqb x) l = true); [|congruence]. apply existsb_exists. exists x. split; auto. apply teqb_refl.
Qed.

Lemma good_keyb_good k : good_keyb k = true -> good_key k.
Proof.
  unfold good_keyb. repeat rewrite andb_true_iff. intros [[[[H1 H2] H3] H4] H5].
  destruct k as [|c k]; [discriminate|]. split; try (apply freeb_free; auto).
  - discriminate.
  - apply trimmedb_trimmed. auto.
  - intros c' k' [= <- <-]. repeat rewrite andb_true_iff in H5. destruct H5 as [[P1 P2] P3].
    rewrite negb_true_iff in P1, P2, P3. apply Ascii.eqb_neq in P1, P2, P3. auto.
Qed.

Lemma shape_okb_ok s : shape_okb s = true -> shape_ok s.
Proof.
  unfold shape_okb. rewrite andb_true_iff. intros [H1 H2]. rewrite forallb_forall in H1.
  assert (A : forall ns, In ns s -> good_nameb (fst ns) = true /\
     forallb (fun ke => good_keyb (fst ke) && (freeb newline (snd (snd ke)) && freeb "%" (snd (snd ke)))) (snd ns) = true /\
     nodupb (map (fun ke => lower (fst ke)) (snd ns)) = true).
  { intros ns Hin. specialize (H1 ns Hin). repeat rewrite andb_true_iff in H1. tauto. }
  split.
  - apply Forall_forall. intros ns Hin. destruct (A ns Hin) as (P & _ & _). unfold good_nameb in P.
    repeat rewrite andb_true_iff in P. destruct P as [[P1 P2] P3]. split.
    + destruct (fst ns); [discriminate|]. discriminate.
    + apply freeb_free. auto.
    + intros E. rewrite E, teqb_refl in P3. discriminate.
  - apply Forall_forall. intros ns Hin. destruct (A ns Hin) as (_ & P & _). rewrite forallb_forall in P.
    apply Forall_forall. intros ke Hk. apply good_keyb_good. specialize (P ke Hk). rewrite andb_true_iff in P. tauto.
  - apply Forall_forall. intros ns Hin. destruct (A ns Hin) as (_ & P & _). rewrite forallb_forall in P.
    apply Forall_forall. intros ke Hk. specialize (P ke Hk). repeat rewrite andb_true_iff in P.
    destruct P as (_ & P1 & P2). split; apply freeb_free; auto.
  - apply nodupb_NoDup. auto.
  - apply Forall_forall. intros ns Hin. destruct (A ns Hin) as (_ & _ & P). apply nodupb_NoDup. auto.
Qed.

(** The shipped template is fine. *)
Lemma template_shape_ok : shape_ok (shape template).
Proof. apply shape_okb_ok. vm_compute. reflexivity. Qed.

Lemma shape_names F (c : config F) : map fst (shape c) = map fst c.
Proof. unfold shape. rewrite map_map. auto. Qed.

Lemma shape_printable F (show_float : F -> text) (c : config F) : shape_ok (shape c) ->
  Forall (fun ns => Forall (fun ke => clean (show_value show_float (e_value (snd ke)))) (snd ns)) c ->
  printable F show_float c.
Proof.
  intros [H1 H2 H3 H4 H5] Hv. unfold shape in *. rewrite Forall_map in H1, H2, H3, H5. cbn [fst snd] in *.
  rewrite Forall_forall in H1, H2, H3, H5, Hv. split.
  - apply Forall_forall. auto.
  - apply Forall_forall. intros ns Hin. specialize (H2 ns Hin). specialize (H3 ns Hin). specialize (Hv ns Hin).
    rewrite Forall_map in H2, H3. cbn [fst snd] in *. rewrite Forall_forall in H2, H3, Hv.
    apply Forall_forall. intros ke Hk. specialize (H3 ke Hk). split; auto; tauto.
  - unfold distinct_keys in *. rewrite map_map in H4. auto.
  - apply Forall_forall. intros ns Hin. specialize (H5 ns Hin). unfold distinct_keys in *. rewrite map_map in H5. auto.
Qed.

Lemma tassoc_map {A B} (f : A -> B) (d : list (text * A)) k :
  tassoc (map (fun x => (fst x, f (snd x))) d) k = option_map f (tassoc d k).
Proof. induction d as [|[k' v] d IH]; simpl; auto. destruct (teqb k' k); auto. Qed.

Lemma find_key_map {A B} (f : A -> B) (d : list (text * A)) k :
  find_key (map (fun x => (fst x, f (snd x))) d) k = option_map (fun x => (fst x, f (snd x))) (find_key d k).
Proof. induction d as [|[k' v] d IH]; simpl; auto. destruct (teqb (lower k') (lower k)); auto. Qed.

Lemma key_from_template_shape F (c c' : config F) s k : shape c = shape c' ->
  key_from_template c s k = key_from_template c' s k.
Proof.
  assert (A : forall c : config F, key_from_template c s k =
    match tassoc (shape c) s with
    | None => None
    | Some sec => option_map (fun ke => (fst ke, fst (snd ke))) (find_key sec k)
    end).
  { intros x. unfold key_from_template, shape.
    rewrite (tassoc_map (fun sec : section F => map (fun ke => (fst ke, (e_kind (snd ke), e_hint (snd ke)))) sec) x s).
    destruct (tassoc x s) as [sec|]; cbn [option_map]; auto.
    rewrite (find_key_map (fun e : entry F => (e_kind e, e_hint e)) sec k).
    destruct (find_key sec k) as [[ck e]|]; auto. }
  intros H. rewrite !A, H. auto.
Qed.

(** ** Reading never adds keys *)

Lemma get_write_error F (c : config F) s' k' v s k e : get_from c s k = Raise e -> get_from (write F c s' k' v) s k = Raise e.
Proof.
  intros H. pose proof (get_do_calls_error F [CSet s' k' v] c s k e H) as G. simpl in G.
  rewrite keep_set in G. auto.
Qed.

Lemma get_writes_error F s' ws (c : config F) s k e : get_from c s k = Raise e -> get_from (writes F c s' ws) s k = Raise e.
Proof.
  revert c. induction ws as [|[k' v] ws IH]; simpl; intros c H; auto. apply IH. apply get_write_error. auto.
Qed.

Lemma read_dict_error F (read_float : text -> option F) tpl cwd d (i i' : ini F) s k e :
  Forall (fun s => distinct_keys (snd s)) d -> read_dict read_float tpl cwd d i = Ok i' ->
  s <> T "output" -> get_from (i_cfg i) s k = Raise e -> get_from (i_cfg i') s k = Raise e.
Proof.
  intros Hd H Ns Hg. destruct (read_dict_ok _ _ _ _ _ _ _ H) as (opts & Ho & Hws & Hout). clear H. cbv zeta in Hout.
  assert (Hdist : forall s opts, tassoc d s = Some opts -> distinct_keys opts).
  { intros s' o E. apply tassoc_In in E. rewrite Forall_forall in Hd. apply (Hd _ E). }
  destruct (extract_output_dir_spec _ _ _ _ _ (Hdist (T "output")) Hout) as (_ & _ & _ & P4).
  assert (G : forall c s', get_from c s k = Raise e -> get_from (param_part F read_float tpl d s' c) s k = Raise e).
  { intros c s' Hc. unfold param_part. destruct (tassoc d s'); auto. apply get_writes_error. auto. }
  assert (G3 := G _ (T "debug") (G _ (T "parameters") (get_writes_error F (T "input") (input_writes F tpl cwd (file_dir cwd i) (i_fs i) opts) _ _ _ _ Hg))).
  destruct P4 as [->|(sec' & E & Hne)]; [exact G3|]. rewrite E. unfold get_from. rewrite tassoc_set_other by auto. exact G3.
Qed.

(** ** C23 *)

(** What is assumed of one parameter of the printed configuration: its value can
    be restored, or it is a value that cannot be converted (the empty selection
    of the template) and the object that loads the file has it already. *)
Definition survives {F} (show_float : F -> text) (read_float : text -> option F) (old : config F) (s : text) (ke : text * entry F) : Prop :=
  restorable show_float read_float (e_kind (snd ke)) (e_value (snd ke)) \/
  (clean (show_value show_float (e_value (snd ke))) /\
   cast read_float (e_kind (snd ke)) (show_value show_float (e_value (snd ke))) = None /\
   get_from old s (fst ke) = Ok (e_value (snd ke))).

Lemma find_read_entries F (show_float : F -> text) (sec : section F) k :
  find_key (read_entries F show_float sec) k =
  option_map (fun ke => (lower (fst ke), show_value show_float (e_value (snd ke)))) (find_key sec k).
Proof.
  unfold read_entries. induction sec as [|[k' e] sec IH]; simpl; auto.
  rewrite lower_idem. destruct (teqb (lower k') (lower k)); auto.
Qed.

Lemma tassoc_read F (show_float : F -> text) (c : config F) s : distinct_keys c -> lower s = s ->
  forall sec, tassoc c s = Some sec ->
  tassoc (map (fun ns => (lower (fst ns), read_entries F show_float (snd ns))) c) s = Some (read_entries F show_float sec).
Proof.
  intros Hd Hs sec H. apply tassoc_complete.
  - rewrite map_map. auto.
  - apply tassoc_In in H. apply in_map_iff. exists (s, sec). cbn [fst snd]. rewrite Hs. auto.
Qed.

Theorem C23_printed_configuration_loads_back (F : Type) (show_float : F -> text) (read_float : text -> option F)
    (tpl : config F) (cwd : list text) (i i' : ini F) (p : path) (c : config F) :
  shape_ok (shape tpl) -> shape c = shape tpl -> shape (i_cfg i) = shape tpl ->
  Forall (fun ns => if teqb (fst ns) (T "parameters") || teqb (fst ns) (T "debug")
                    then Forall (survives show_float read_float (i_cfg i) (fst ns)) (snd ns)
                    else Forall (fun ke => clean (show_value show_float (e_value (snd ke)))) (snd ns)) c ->
  lookup_file (files (i_fs i)) (resolve cwd p) = Some (print_configuration show_float c) ->
  load_configuration read_float tpl cwd i p = Ok i' ->
  forall k v, k <> [] -> get_parameter c k = Ok (Some v) -> get_parameter (i_cfg i') k = Ok (Some v).
Proof.
  intros Hok Hc Hi Hv Hf Hl k v Hk Hg.
  assert (Hclean : Forall (fun ns => Forall (fun ke => clean (show_value show_float (e_value (snd ke)))) (snd ns)) c).
  { eapply Forall_impl; [|exact Hv]. intros ns Hns. cbv beta in Hns.
    destruct (teqb (fst ns) (T "parameters") || teqb (fst ns) (T "debug")); auto.
    eapply Forall_impl; [|exact Hns]. intros ke [H|(H & _)]; auto. apply restore in H. tauto. }
  rewrite <- Hc in Hok. assert (Hp := shape_printable F show_float c Hok Hclean).
  assert (Hr := read_printed F show_float c Hp).
  assert (Hd : distinct_keys c) by apply Hp.
  set (d := map (fun ns => (lower (fst ns), read_entries F show_float (snd ns))) c) in *.
  assert (Hdd : Forall (fun s => distinct_keys (snd s)) d) by (apply (get_inifile_params_keys _ _ Hr)).
  destruct (C24_loading_twice_is_loading_once F read_float tpl cwd i p) as [A _].
  rewrite A, Hf in Hl. unfold read_inifile in Hl. rewrite Hr in Hl. cbn [bind] in Hl. clear A.
  (* presence of keys only depends on the shape *)
  assert (Pres : forall s ckey kd, key_from_template c s k = Some (ckey, kd) ->
    key_from_template tpl s k = Some (ckey, kd) /\ exists v0, get_from (i_cfg i) s k = Ok v0).
  { intros s ckey kd E. split; [rewrite <- E; apply key_from_template_shape; auto|].
    assert (E' : key_from_template (i_cfg i) s k = Some (ckey, kd)) by (rewrite <- E; apply key_from_template_shape; congruence).
    unfold key_from_template, get_from in *. destruct (tassoc (i_cfg i) s); [|discriminate].
    destruct (find_key _ k) as [[x y]|]; [eauto|discriminate]. }
  assert (Main : forall s, s = T "parameters" \/ s = T "debug" -> get_from c s k = Ok v -> get_from (i_cfg i') s k = Ok v).
  { intros s Hs E. unfold get_from in E. destruct (tassoc c s) as [sec|] eqn:Es; [|discriminate].
    destruct (find_key sec k) as [[ck en]|] eqn:Ek; [|discriminate]. inversion E; subst v.
    destruct (Pres s ck (e_kind en)) as (Ht & v0 & Hv0).
    { unfold key_from_template. rewrite Es, Ek. auto. }
    rewrite (read_dict_values F read_float tpl cwd d _ i' s k ck (e_kind en) v0 Hdd Hl Hs Hk Ht Hv0).
    unfold file_value. unfold d. rewrite (tassoc_read F show_float c s Hd) with (sec := sec); auto.
    2:{ destruct Hs as [->| ->]; reflexivity. }
    rewrite find_read_entries, Ek. cbn [option_map fst snd].
    assert (Hsv : survives show_float read_float (i_cfg i) s (ck, en)).
    { rewrite Forall_forall in Hv. specialize (Hv (s, sec) (tassoc_In _ _ _ Es)). cbn [fst snd] in Hv.
      replace (teqb s (T "parameters") || teqb s (T "debug")) with true in Hv by (destruct Hs as [->| ->]; reflexivity).
      rewrite Forall_forall in Hv. apply Hv. eapply find_key_In; eauto. }
    destruct Hsv as [H|(_ & H1 & H2)]; cbn [fst snd] in *.
    - apply restore in H. destruct H as [_ ->]. reflexivity.
    - rewrite H1. f_equal. assert (Hlk : lower ck = lower k) by (apply (find_key_spec _ _ _ _ Ek)).
      assert (H2' : get_from (i_cfg i) s k = Ok (e_value en)).
      { rewrite <- H2. unfold get_from. destruct (tassoc (i_cfg i) s); auto. rewrite (find_key_lower _ ck k); auto. }
      congruence. }
  unfold get_parameter in Hg |- *.
  destruct (get_from c (T "parameters") k) as [v1|e1] eqn:E1.
  - inversion Hg; subst. rewrite (Main (T "parameters")); auto.
  - destruct e1; try discriminate.
    assert (En : get_from (i_cfg i) (T "parameters") k = Raise KeyError).
    { assert (Ek : key_from_template (i_cfg i) (T "parameters") k = key_from_template c (T "parameters") k)
        by (apply key_from_template_shape; congruence).
      assert (Hn : map fst (i_cfg i) = map fst c) by (rewrite <- !shape_names; congruence).
      unfold get_from in *. unfold key_from_template in Ek. destruct (tassoc c (T "parameters")) as [sec|] eqn:Es; [|discriminate].
      destruct (tassoc (i_cfg i) (T "parameters")) as [sec'|] eqn:Es'.
      - destruct (find_key sec k) as [[x y]|]; [discriminate|]. destruct (find_key sec' k) as [[x y]|]; [discriminate|auto].
      - apply tassoc_None in Es'. exfalso. apply Es'. rewrite Hn. apply tassoc_In in Es. apply (in_map fst) in Es. exact Es. }
    rewrite (read_dict_error F read_float tpl cwd d _ i' (T "parameters") k KeyError Hdd Hl); [|discriminate|exact En].
    destruct (get_from c (T "debug") k) as [v2|e2] eqn:E2; [|destruct e2; discriminate].
    inversion Hg; subst. rewrite (Main (T "debug")); auto.
Qed.
Print Assumptions C23_printed_configuration_loads_back.

(** A percent sign, which the property allows, makes the file unreadable. *)
Definition percent_case : config text :=
  do_calls template [CProjectSet (T "CaseName") (VStr (T "50%"))].
Theorem C23_percent_sign_refuted :
  get_parameter percent_case (T "CaseName") = Ok (Some (VStr (T "50%"))) /\
  forall cwd i p, lookup_file (files (i_fs i)) (resolve cwd p) = Some (print_configuration (fun x => x) percent_case) ->
    load_configuration (fun x => Some x) template cwd i p = Raise ConfigParserError.
Proof.
  split; [vm_compute; reflexivity|]. intros cwd i p H. unfold load_configuration. rewrite H. unfold read_inifile.
  replace (get_inifile_params (print_configuration (fun x => x) percent_case)) with (@Raise inidict ConfigParserError)
    by (vm_compute; reflexivity).
  reflexivity.
Qed.
Print Assumptions C23_percent_sign_refuted.

(** A comment sign cuts the value. *)
Example C23_comment_sign : exists d, get_inifile_params (print_configuration (fun x => x)
    (do_calls template [CProjectSet (T "CaseName") (VStr (T "run#7"))])) = Ok d /\
  file_value (fun x => Some x) d (T "parameters") KStr (T "CaseName") (VStr []) = VStr (T "run").
Proof. eexists. split; vm_compute; reflexivity. Qed.

(** The hypotheses hold for the template after some calls, in a directory with
    the printed file. *)
Definition sample_config : config text :=
  do_calls template [CProjectSet (T "casename") (VStr (T "run 7")); CProjectSet (T "LakeTimesteps") (VInt (-3));
    CProjectSet (T "SDCorrection") (VBool false); CSet (T "debug") (T "CssSelection") (VList [3; -14]%Z)].
Definition sample_fs : fs :=
  mk_fs [([T "home"; T "p.ini"], print_configuration (fun x => x) sample_config)] [[T "home"]].
Example C23_sample : exists i', load_configuration (fun x => Some x) template [T "home"] (mk_ini template None sample_fs) (parse_path (T "p.ini")) = Ok i' /\
  get_parameter (i_cfg i') (T "CaseName") = Ok (Some (VStr (T "run 7"))) /\
  get_parameter (i_cfg i') (T "CssSelection") = Ok (Some (VList [3; -14]%Z)) /\
  get_parameter (i_cfg i') (T "LakeTimesteps") = Ok (Some (VInt (-3))).
Proof. eexists. split; [vm_compute; reflexivity|]. repeat split; vm_compute; reflexivity. Qed.
