(** Theorems for C39: the D-Flow 1D definition file, written and read back. *)
From Coq Require Import String List Ascii ZArith QArith Bool Lia.
From Verif Require Import PyBase Num Spec L_Num L_List Text L_Text Fixed L_Fixed M_Ini M_Import T_Import
  M_Friction M_Network L_Network T_NetFile M_Export L_Export.
Import ListNotations.
Local Open Scope char_scope.

Definition good_key (k : text) : bool :=
  match k with
  | [] => false
  | c :: _ => negb (is_space c) && freeb "=" k && freeb newline k && negb (Ascii.eqb (lower_char c) "[") &&
              negb (is_space (lower_char c))
  end.

(** A line of a definition block. *)
Definition def_line (key : text) (n : nat) (value : text) : text := tabs 1 ++ key ++ tabs n ++ T "= " ++ value.

Lemma tabs_free c n : c <> ascii_of_N 9 -> free c (tabs n).
Proof. intros H I. apply repeat_spec in I. congruence. Qed.

Lemma def_line_shape key n v : good_key key = true -> exists c k,
  is_space c = false /\ free "=" (c :: k) /\ def_line key n v = tabs 1 ++ (c :: k) ++ "=" :: [" "] ++ v.
Proof.
  intro G. destruct key as [|c k]; [discriminate|]. cbn [good_key] in G.
  repeat (apply andb_prop in G; destruct G as [G ?]). apply negb_true_iff in G.
  exists c, (k ++ tabs n). split; auto. split.
  - change (c :: k ++ tabs n) with ((c :: k) ++ tabs n). apply free_app; [apply freeb_free; auto|].
    apply tabs_free. discriminate.
  - unfold def_line. change (T "= ") with ["="; " "]. cbn [app]. rewrite <- app_assoc. reflexivity.
Qed.

Lemma def_line_value key n v : good_key key = true -> trimmed v -> free "=" v ->
  value_of (def_line key n v) = Ok v.
Proof.
  intros G Tv Fv. destruct (def_line_shape key n v G) as (c & k & H1 & H2 & ->).
  apply value_of_line; auto; try apply tabs_spaces. repeat constructor.
Qed.

Lemma def_line_split key n v : good_key key = true -> trimmed v -> free "=" v ->
  exists w, py_index (split_on "=" (strip (def_line key n v))) 1 = Ok w /\ strip w = v.
Proof.
  intros G Tv Fv. destruct (def_line_shape key n v G) as (c & k & H1 & H2 & ->).
  destruct (split_line (tabs 1) c k [" "] v) as (w & -> & E); auto; try apply tabs_spaces; [repeat constructor|].
  exists w. split; auto.
Qed.

Lemma def_line_other key n v : good_key key = true ->
  teqb (strip (lower (def_line key n v))) (T "[definition]") = false.
Proof.
  intro G. destruct key as [|c k]; [discriminate|]. cbn [good_key] in G.
  repeat (apply andb_prop in G; destruct G as [G ?]). apply negb_true_iff in H, H0.
  unfold def_line. rewrite lower_app. cbn [app]. unfold lower at 2. cbn [map].
  destruct (strip_head (lower (tabs 1)) (lower_char c) (map lower_char (k ++ tabs n ++ T "= " ++ v))) as (u & ->); auto.
  { repeat constructor. }
  change (T "[definition]") with ("[" :: T "definition]"). cbn [teqb]. rewrite H0. auto.
Qed.

Lemma def_line_free key n v : good_key key = true -> free newline v -> free newline (def_line key n v).
Proof.
  intros G Fv. unfold def_line. destruct key as [|c k]; [discriminate|]. cbn [good_key] in G.
  repeat (apply andb_prop in G; destruct G as [G ?]).
  repeat apply free_app; auto; try (apply tabs_free; discriminate); try (apply freeb_free; auto; reflexivity).
Qed.

(** A value that a reader takes back from a line. *)
Definition good_value (t : text) : Prop := trimmed t /\ free "=" t /\ free newline t.

Lemma number_value t : number_text t -> good_value t.
Proof.
  intro H. split; [apply number_trimmed; auto|].
  split; apply number_free; auto using not_number_eq, not_number_newline.
Qed.
Lemma numbers_value d l : good_value (numbers d l).
Proof.
  assert (F : Forall number_text (map (show_num d) l)).
  { apply Forall_forall. intros t I. apply in_map_iff in I. destruct I as (x & <- & _). apply show_num_text. }
  unfold numbers. split; [apply numbers_trimmed; auto|].
  split; apply numbers_free; auto using not_number_eq, not_number_newline; discriminate.
Qed.

Lemma show_Z_value z : good_value (show_Z z).
Proof.
  split; [apply show_Z_trimmed|]. split; apply show_Z_free; intros [X|X]; try discriminate; revert X;
    vm_compute; discriminate.
Qed.
Lemma good_valueb t : trimmedb t && freeb "=" t && freeb newline t = true -> good_value t.
Proof.
  intro H. apply andb_prop in H. destruct H as [H C]. apply andb_prop in H. destruct H as [A B].
  split; [apply trimmedb_trimmed; auto|]. split; apply freeb_free; auto.
Qed.

(** Any value that is on one line and has no second '=' comes back without the
    blanks around it. *)
Lemma rstrip_lstrip_comm p t : dropwhile p (rstrip_by p t) = rstrip_by p (dropwhile p t).
Proof.
  induction t as [|a t IH]; [reflexivity|]. destruct (p a) eqn:E.
  - cbn [dropwhile]. rewrite E, <- IH. unfold rstrip_by. cbn [rev].
    destruct (dropwhile p (rev t)) as [|b r] eqn:D.
    + assert (A : dropwhile p (rev t ++ [a]) = []).
      { rewrite dropwhile_all; [cbn; rewrite E; reflexivity|]. clear - D.
        induction (rev t) as [|x l IH]; [constructor|]. cbn in D. destruct (p x) eqn:X; [auto|discriminate]. }
      rewrite A. reflexivity.
    + assert (A : dropwhile p (rev t ++ [a]) = (b :: r) ++ [a]).
      { clear - D. induction (rev t) as [|x l IH]; [discriminate|]. cbn in *. destruct (p x); [auto|]. congruence. }
      rewrite A, rev_app_distr. cbn [rev app dropwhile]. rewrite E. reflexivity.
  - cbn [dropwhile]. rewrite E. apply dropwhile_hd. intros c H. unfold rstrip_by in H. cbn [rev] in H.
    assert (A : exists l, dropwhile p (rev t ++ [a]) = l ++ [a]).
    { clear H. induction (rev t) as [|x l IHl]; cbn; [rewrite E; exists []; reflexivity|].
      destruct (p x); [exact IHl|]. exists (x :: l). reflexivity. }
    destruct A as (l & A). rewrite A, rev_app_distr in H. cbn in H. congruence.
Qed.
Lemma strip_rstrip_any sp v : spaces sp -> strip (rstrip (sp ++ v)) = strip v.
Proof.
  intro Sp. unfold strip, strip_by, rstrip. rewrite rstrip_lstrip_comm.
  rewrite dropwhile_all by exact Sp. rewrite rstrip_by_id; [reflexivity|].
  intros c t' E. unfold rstrip_by in E. apply (f_equal (@rev ascii)) in E.
  rewrite rev_involutive, rev_app_distr in E. cbn in E.
  apply (dropwhile_hd_inv is_space (rev (dropwhile is_space v))). rewrite E. reflexivity.
Qed.
Lemma def_line_split_any key n v : good_key key = true -> free "=" v ->
  exists w, py_index (split_on "=" (strip (def_line key n v))) 1 = Ok w /\ strip w = strip v.
Proof.
  intros G Fv. destruct (def_line_shape key n v G) as (c & k & H1 & H2 & ->).
  rewrite strip_eq_line by (auto; apply tabs_spaces). rewrite split_on_app by auto.
  exists (rstrip ([" "] ++ v)). split; [|apply strip_rstrip_any; repeat constructor].
  rewrite split_on_free; [reflexivity|]. intro I. unfold rstrip, rstrip_by in I. apply in_rev in I.
  destruct (dropwhile_suffix is_space (rev ([" "] ++ v))) as (u & E).
  assert (J : In "=" (rev ([" "] ++ v))) by (rewrite E; apply in_or_app; auto).
  apply in_rev in J. destruct J as [J|J]; [discriminate|]. apply Fv. auto.
Qed.

(** A name without '=' and line breaks. *)
Definition line_value (t : text) : Prop := free "=" t /\ free newline t.

Section C39.
  Variable double : num -> Prop.
  Variable rnd : Q -> num.
  Variable show_float : num -> text.
  Variable read_float : text -> option num.
  Hypothesis FC : float_codec double rnd show_float read_float.

  Definition body_lines (c : xs) (main fp1 fp2 : num) : list text :=
    [def_line (T "id") 5 (x_name c); def_line (T "type") 4 (T "tabulated"); def_line (T "thalweg") 4 (T "0.000");
     def_line (T "numLevels") 3 (show_Z (Z.of_nat (length (x_z c))));
     def_line (T "levels") 4 (numbers 4 (x_z c)); def_line (T "flowWidths") 3 (numbers 4 (x_flow_width c));
     def_line (T "totalWidths") 3 (numbers 4 (x_total_width c));
     def_line (T "sd_crest") 3 (show_num 4 (x_crest c));
     def_line (T "sd_flowArea") 3 (show_float (x_extra_flow_area c));
     def_line (T "sd_totalArea") 2 (show_num 4 (x_extra_total_area c));
     def_line (T "sd_baseLevel") 2 (show_float (x_base c));
     def_line (T "main") 4 (show_num 4 main); def_line (T "floodPlain1") 3 (show_num 4 fp1);
     def_line (T "floodPlain2") 3 (show_num 4 fp2); def_line (T "groundlayerUsed") 2 (T "0");
     def_line (T "groundLayer") 3 (T "0.000"); []].

  Definition widths_are (c : xs) (main fp1 fp2 : num) : Prop :=
    tassoc (x_widths c) (T "main") = Some main /\ tassoc (x_widths c) (T "floodplain1") = Some fp1 /\
    tassoc (x_widths c) (T "floodplain2") = Some fp2.

  Lemma definition_body_lines c main fp1 fp2 : widths_are c main fp1 fp2 ->
    definition_body show_float c = Ok (lns (body_lines c main fp1 fp2)).
  Proof.
    intros (A & B & C). unfold definition_body, width_of. rewrite A, B, C. cbn [of_option bind].
    reflexivity.
  Qed.

  (** [d] is what a reader gets for [c]. *)
  Record exported (c : xs) (d : definition) : Prop := {
    e_id : d_id d = x_name c;
    e_levels : Forall2 (printed rnd 4) (x_z c) (d_levels d);
    e_flow : Forall2 (printed rnd 4) (x_flow_width c) (d_flow_width d);
    e_total : Forall2 (printed rnd 4) (x_total_width c) (d_total_width d);
    e_crest : printed rnd 4 (x_crest c) (d_sd_crest d);
    e_flow_area : same (d_sd_flow_area d) (x_extra_flow_area c);
    e_total_area : printed rnd 4 (x_extra_total_area c) (d_sd_total_area d);
    e_base : same (d_sd_baselevel d) (x_base c);
    e_main : exists w, tassoc (x_widths c) (T "main") = Some w /\ printed rnd 4 w (d_main_width d);
    e_fp1 : exists w, tassoc (x_widths c) (T "floodplain1") = Some w /\ printed rnd 4 w (d_fp1_width d) }.

  Lemma read_column l : exists vs, floats_of read_float (numbers 4 l) = Ok vs /\ Forall2 (printed rnd 4) l vs.
  Proof.
    unfold numbers. apply read_numbers. intros x _. split; [apply show_num_text|].
    apply (read_show_num FC). lia.
  Qed.

  (** The cross-section with the blanks around its name removed. *)
  Definition trimmed_name (c : xs) : xs :=
    mk_xs (strip (x_name c)) (x_branch c) (x_chainage c) (x_z c) (x_flow_width c) (x_total_width c) (x_crest c)
      (x_extra_flow_area c) (x_extra_total_area c) (x_extra_total_volume c) (x_base c) (x_widths c) (x_tables c) (x_volumes c).

  Lemma parse_definition_lines c main fp1 fp2 rest :
    line_value (x_name c) -> double (x_extra_flow_area c) -> double (x_base c) -> widths_are c main fp1 fp2 ->
    exists d, parse_definition read_float (body_lines c main fp1 fp2 ++ rest) = Ok d /\ exported (trimmed_name c) d.
  Proof.
    intros (N2 & N3) Df Db (W1 & W2 & W3).
    destruct (def_line_split_any (T "id") 5 (x_name c)) as (w & Ew & Sw); auto.
    destruct (read_column (x_z c)) as (zs & Ez & Fz). destruct (read_column (x_flow_width c)) as (fs & Ef & Ff).
    destruct (read_column (x_total_width c)) as (ts & Et & Ft).
    destruct (read_show_num FC 4 (x_crest c)) as (cr & Ec & Pc); [lia|].
    destruct (read_show_float FC (x_extra_flow_area c) Df) as (fa & Efa & Pfa).
    destruct (read_show_num FC 4 (x_extra_total_area c)) as (ta & Eta & Pta); [lia|].
    destruct (read_show_float FC (x_base c) Db) as (ba & Eba & Pba).
    destruct (read_show_num FC 4 main) as (m & Em & Pm); [lia|].
    destruct (read_show_num FC 4 fp1) as (f1 & Ef1 & Pf1); [lia|].
    exists (mk_definition (strip w) zs fs ts cr fa ta ba m f1). split.
    - unfold parse_definition, body_lines. cbn [app nth]. rewrite Ew. cbn [bind].
      assert (V : forall key n v, good_key key = true -> good_value v -> value_of (def_line key n v) = Ok v)
        by (intros key n v G (A & B & _); apply def_line_value; auto).
      pose proof (fc_text _ _ _ _ FC).
      rewrite !V; auto using number_value, numbers_value, show_num_text. cbn [bind].
      rewrite Ez. cbn [bind]. rewrite Ef. cbn [bind]. rewrite Et. cbn [bind]. rewrite Ec. cbn [bind].
      rewrite Efa. cbn [bind]. rewrite Eta. cbn [bind]. rewrite Eba. cbn [bind]. rewrite Em. cbn [bind].
      rewrite Ef1. reflexivity.
    - constructor; cbn; eauto.
  Qed.

  Definition general_lines (kind : text) : list text :=
    [T "[General]"; T "majorVersion" ++ tabs 3 ++ T "= 1"; T "minorversion" ++ tabs 3 ++ T "= 0";
     T "fileType" ++ tabs 4 ++ T "= " ++ kind; []].

  Lemma general_section_lines kind : general_section kind = lns (general_lines kind).
  Proof. reflexivity. Qed.

  (** What the exporter needs of a cross-section. *)
  Definition writable (c : xs) : Prop :=
    good_value (x_name c) /\ double (x_extra_flow_area c) /\ double (x_base c) /\
    exists main fp1 fp2, widths_are c main fp1 fp2.
  Definition on_lines (c : xs) : Prop :=
    line_value (x_name c) /\ double (x_extra_flow_area c) /\ double (x_base c) /\
    exists main fp1 fp2, widths_are c main fp1 fp2.
  Lemma writable_on_lines css : Forall writable css -> Forall on_lines css.
  Proof. intro F. eapply Forall_impl; [|exact F]. intros c ((_ & A) & B). split; auto. Qed.

  Definition css_lines (c : xs) : list text :=
    T "[Definition]" :: match definition_body show_float c with Ok t => file_lines t | Raise _ => [] end.

  Lemma body_free c main fp1 fp2 : line_value (x_name c) -> Forall (free newline) (body_lines c main fp1 fp2).
  Proof.
    intros N. unfold body_lines.
    assert (V : forall key n v, good_key key = true -> line_value v -> free newline (def_line key n v))
      by (intros key n v G (_ & B); apply def_line_free; auto).
    assert (I : forall v, good_value v -> line_value v) by (intros v (_ & B); exact B).
    pose proof (fc_text _ _ _ _ FC).
    repeat (apply Forall_cons; [try (apply V; [reflexivity|]; auto using number_value, numbers_value, show_num_text,
      show_Z_value, good_valueb)|]); [intros []|constructor].
  Qed.

  Lemma css_lines_eq c main fp1 fp2 : line_value (x_name c) -> widths_are c main fp1 fp2 ->
    css_lines c = T "[Definition]" :: body_lines c main fp1 fp2.
  Proof.
    intros N W. unfold css_lines. rewrite (definition_body_lines c main fp1 fp2 W), file_lines_lns; auto.
    apply body_free. auto.
  Qed.

  Lemma write_definitions css : Forall on_lines css ->
    run_writes (flat_map (fun c => [Ok (ln (T "[Definition]")); definition_body show_float c]) css) =
    (lns (flat_map css_lines css), None).
  Proof.
    induction 1 as [|c css (N & _ & _ & m & f1 & f2 & W) F IH]; auto.
    cbn [flat_map app run_writes]. rewrite (definition_body_lines c m f1 f2 W). rewrite IH. cbn [fst snd].
    rewrite (css_lines_eq c m f1 f2 N W). cbn [app]. rewrite lns_cons, lns_app. auto.
  Qed.

  Lemma skip_lines ls : forall fuel rest, Forall (fun l => teqb (strip (lower l)) (T "[definition]") = false) ls ->
    parse_definitions read_float (length ls + fuel) (ls ++ rest) = parse_definitions read_float fuel rest.
  Proof.
    induction ls as [|l ls IH]; intros fuel rest F; auto. inversion F as [|? ? E F']; subst.
    cbn [length Nat.add app parse_definitions]. rewrite E. auto.
  Qed.

  Lemma parse_definitions_css css : Forall on_lines css -> forall fuel,
    (length (flat_map css_lines css) <= fuel)%nat ->
    exists ds, parse_definitions read_float fuel (flat_map css_lines css) = Ok ds /\ Forall2 exported (map trimmed_name css) ds.
  Proof.
    induction 1 as [|c css (N & Df & Db & m & f1 & f2 & W) F IH]; intros fuel L.
    - exists []. split; [destruct fuel; reflexivity|constructor].
    - cbn [flat_map] in *. rewrite (css_lines_eq c m f1 f2 N W) in *. rewrite app_length in L. cbn [length app] in *.
      destruct fuel as [|fuel]; [lia|]. cbn [parse_definitions].
      replace (teqb (strip (lower (T "[Definition]"))) (T "[definition]")) with true by reflexivity. cbv iota.
      destruct (parse_definition_lines c m f1 f2 (flat_map css_lines css) N Df Db W) as (d & -> & E). cbn [bind].
      set (four := skipn 13 (body_lines c m f1 f2)).
      assert (K : skipn 13 (body_lines c m f1 f2 ++ flat_map css_lines css) = four ++ flat_map css_lines css)
        by reflexivity.
      rewrite K. replace fuel with (length four + (fuel - length four))%nat.
      2: { unfold four, body_lines in *. cbn [skipn length] in *. lia. }
      rewrite skip_lines.
      + destruct (IH (fuel - length four)%nat) as (ds & -> & Fd).
        { unfold four, body_lines in *. cbn [skipn length] in *. lia. }
        exists (d :: ds). split; [reflexivity|]. constructor; assumption.
      + unfold four, body_lines. cbn [skipn]. repeat (constructor; [try (apply def_line_other; reflexivity)|]); auto.
  Qed.

  (** Every list of cross-sections whose names have no '=' and no line break and
      that have all section widths is written completely, and reading the file
      returns it in order, without the blanks around the names. *)
  Theorem C39_definition_file_of_any_names : forall css, Forall on_lines css ->
    exists content ds,
      run_writes (write_geometry_fm1d show_float css) = (content, None) /\
      parse_definition_file read_float content = Ok ds /\ Forall2 exported (map trimmed_name css) ds.
  Proof.
    intros css F. unfold write_geometry_fm1d. cbn [run_writes]. rewrite write_definitions by auto. cbn [fst snd].
    rewrite general_section_lines, <- lns_app.
    set (ls := general_lines (T "crossDef") ++ flat_map css_lines css).
    assert (N : Forall (free newline) ls).
    { unfold ls. apply Forall_app. split.
      - repeat constructor; apply freeb_free; reflexivity.
      - apply Forall_flat_map. eapply Forall_impl; [|exact F]. intros c (Nc & _ & _ & m & f1 & f2 & W).
        rewrite (css_lines_eq c m f1 f2 Nc W). constructor; [apply freeb_free; reflexivity|]. apply body_free. auto. }
    destruct (parse_definitions_css css F (length (flat_map css_lines css))) as (ds & E & Fd); auto.
    exists (lns ls), ds. split; auto. split; auto.
    unfold parse_definition_file. rewrite file_lines_lns by auto. unfold ls. rewrite app_length.
    rewrite skip_lines; auto. repeat constructor; reflexivity.
  Qed.

  (** Names without such blanks come back as they are. *)
  Theorem C39_definition_file_round_trip : forall css, Forall writable css ->
    exists content ds,
      run_writes (write_geometry_fm1d show_float css) = (content, None) /\
      parse_definition_file read_float content = Ok ds /\ Forall2 exported css ds.
  Proof.
    intros css F. destruct (C39_definition_file_of_any_names css (writable_on_lines css F)) as (content & ds & A & B & C).
    exists content, ds. split; [exact A|]. split; [exact B|].
    replace (map trimmed_name css) with css in C; [exact C|].
    clear - F. induction F as [|c css ((N & _) & _) F IH]; [reflexivity|]. cbn [map]. rewrite <- IH. f_equal.
    unfold trimmed_name. rewrite strip_id by exact N. destruct c; reflexivity.
  Qed.

  (** The lookup by id gives the cross-section itself when ids are distinct. *)
  Theorem C39_lookup_by_id : forall css c content, Forall writable css -> NoDup (map x_name css) -> In c css ->
    run_writes (write_geometry_fm1d show_float css) = (content, None) ->
    exists d, get_cross_section_by_id read_float content (x_name c) = Ok (Some d) /\ exported c d.
  Proof.
    intros css c content F ND I W. destruct (C39_definition_file_round_trip css F) as (content' & ds & W' & E & F2).
    rewrite W in W'. injection W' as <-. unfold get_cross_section_by_id. rewrite E. cbn [bind]. clear E W F.
    induction F2 as [|a d css ds Ea F2 IH]; [destruct I|]. cbn [map] in ND.
    inversion ND as [|? ? Na ND']; subst. cbn [find]. rewrite (e_id _ _ Ea).
    destruct I as [<-|I].
    - rewrite teqb_refl. eauto.
    - destruct (teqb_spec (x_name a) (x_name c)) as [X|_]; auto.
      destruct Na. rewrite X. apply in_map. auto.
  Qed.

  (** A cross-section without one of the widths: the file ends with a lone
      block header after the complete definitions, and cannot be read. *)
  Theorem C39_missing_width_truncates_file : forall before c after s,
    Forall writable before -> In s [T "main"; T "floodplain1"; T "floodplain2"] ->
    tassoc (x_widths c) s = None ->
    exists content,
      run_writes (write_geometry_fm1d show_float (before ++ c :: after)) = (content, Some KeyError) /\
      content = fst (run_writes (write_geometry_fm1d show_float before)) ++ ln (T "[Definition]") /\
      parse_definition_file read_float content = Raise IndexError.
  Proof.
    intros before c after s F0 Is Hs. pose proof (writable_on_lines before F0) as F. clear F0. unfold write_geometry_fm1d. cbn [run_writes].
    rewrite flat_map_app, run_writes_app. rewrite (write_definitions before F). cbn [fst snd flat_map app run_writes].
    assert (B : definition_body show_float c = Raise KeyError).
    { unfold definition_body, width_of. destruct Is as [<-|[<-|[<-|[]]]].
      - rewrite Hs. auto.
      - destruct (tassoc (x_widths c) (T "main")); cbn [of_option bind]; auto. rewrite Hs. auto.
      - destruct (tassoc (x_widths c) (T "main")); cbn [of_option bind]; auto.
        destruct (tassoc (x_widths c) (T "floodplain1")); cbn [of_option bind]; auto. rewrite Hs. auto. }
    rewrite B. cbn [fst snd app]. eexists. split; [reflexivity|]. rewrite app_nil_r, app_assoc. split; auto.
    rewrite general_section_lines, <- lns_app.
    replace (ln (T "[Definition]")) with (lns [T "[Definition]"]) by (unfold lns; cbn [map concat]; apply app_nil_r).
    rewrite <- lns_app. unfold parse_definition_file. rewrite file_lines_lns.
    2: { rewrite !Forall_app. split; [split|repeat constructor; apply freeb_free; reflexivity].
      - repeat constructor; apply freeb_free; reflexivity.
      - apply Forall_flat_map. eapply Forall_impl; [|exact F]. intros a (Nc & _ & _ & m & f1 & f2 & W).
        rewrite (css_lines_eq a m f1 f2 Nc W). constructor; [apply freeb_free; reflexivity|]. apply body_free. auto. }
    rewrite <- app_assoc, app_length. rewrite skip_lines by (repeat constructor; reflexivity).
    generalize (le_n (length (flat_map css_lines before ++ [T "[Definition]"]))).
    generalize (length (flat_map css_lines before ++ [T "[Definition]"])) at 2 3 as fuel.
    clear s Is Hs B. induction F as [|a before (N & Df & Db & m & f1 & f2 & W) F IH]; intros fuel L.
    - destruct fuel as [|fuel]; [cbn in L; lia|]. reflexivity.
    - cbn [flat_map] in *. rewrite (css_lines_eq a m f1 f2 N W) in *. rewrite <- app_assoc, app_length in *. cbn [length app] in *.
      destruct fuel as [|fuel]; [lia|]. cbn [parse_definitions].
      replace (teqb (strip (lower (T "[Definition]"))) (T "[definition]")) with true by reflexivity. cbv iota.
      destruct (parse_definition_lines a m f1 f2 (flat_map css_lines before ++ [T "[Definition]"]) N Df Db W)
        as (d & -> & E). cbn [bind].
      set (four := skipn 13 (body_lines a m f1 f2)).
      assert (K : skipn 13 (body_lines a m f1 f2 ++ flat_map css_lines before ++ [T "[Definition]"]) =
        four ++ flat_map css_lines before ++ [T "[Definition]"]) by reflexivity.
      rewrite K. replace fuel with (length four + (fuel - length four))%nat.
      2: { unfold four, body_lines in *. cbn [skipn length] in *. lia. }
      rewrite skip_lines.
      + rewrite IH; auto. clear K. unfold four, body_lines in *. rewrite ?app_length in *. cbn [skipn length] in *. lia.
      + unfold four, body_lines. cbn [skipn]. repeat (constructor; [try (apply def_line_other; reflexivity)|]); auto.
  Qed.
End C39.
Print Assumptions C39_definition_file_of_any_names.
Print Assumptions C39_definition_file_round_trip.
Print Assumptions C39_lookup_by_id.
Print Assumptions C39_missing_width_truncates_file.

Definition example_xs : xs :=
  mk_xs (T "Waal_1000.0") (T "Waal") (Fin 1000) [Fin (1 # 3); Fin 2] [Fin 10; Fin 20] [Fin 10; Fin 30]
    (Fin (5 # 2)) (Fin 0) (Fin 120) (Fin 3000) NaN
    [(T "main", Fin 10); (T "floodplain1", Fin 20); (T "floodplain2", Fin 0)]
    [(T "main", ([Fin 1; Fin 2], [Fin 45; Fin 40]))]
    (mk_volumes [Fin 1] [Fin 2] [Fin 3] [Fin 4] [Fin 5] [Fin 6] [Fin 7] [Fin 8] [Fin 9] [Fin 10] [NaN]).

Example C39_example : writable three_decimals example_xs /\
  match parse_definition_file read_number (fst (run_writes (write_geometry_fm1d (show_num 3) [example_xs; example_xs]))) with
  | Ok [a; b] => d_id a = T "Waal_1000.0" /\ map (fun x => match x with Fin q => Qred q | _ => 0 end) (d_levels b)
                 = [3333 # 10000; 2]%Q
  | _ => False
  end.
Proof.
  split.
  - split; [apply good_valueb; reflexivity|]. repeat split; cbn; try (vm_compute; reflexivity).
    exists (Fin 10), (Fin 20), (Fin 0). repeat split.
  - vm_compute. auto.
Qed.

(** The blanks around a name are lost, so that the cross-section is not found
    under its own name. *)
Theorem C39_blanks_around_the_name_refuted :
  let c := mk_xs (T " a ") (T "b") (Fin 1000) [Fin 1; Fin 2] [Fin 10; Fin 20] [Fin 10; Fin 30] (Fin 2) (Fin 0) (Fin 120) (Fin 3000)
    NaN [(T "main", Fin 10); (T "floodplain1", Fin 20); (T "floodplain2", Fin 0)] [] (mk_volumes [] [] [] [] [] [] [] [] [] [] []) in
  on_lines three_decimals c /\
  exists content d,
    run_writes (write_geometry_fm1d (show_num 3) [c]) = (content, None) /\
    parse_definition_file read_number content = Ok [d] /\ d_id d = T "a" /\
    get_cross_section_by_id read_number content (x_name c) = Ok None.
Proof.
  cbv zeta. split.
  - split; [split; apply freeb_free; reflexivity|]. repeat split; cbn; try (vm_compute; reflexivity).
    exists (Fin 10), (Fin 20), (Fin 0). repeat split.
  - do 2 eexists. split; [reflexivity|]. split; [vm_compute; reflexivity|]. split; [reflexivity|]. vm_compute. reflexivity.
Qed.
Print Assumptions C39_blanks_around_the_name_refuted.

(** The width of the third section is written, but no reader takes it. *)
Theorem C39_third_section_width_refuted :
  let c w := mk_xs (T "a") (T "b") (Fin 1000) [Fin 1; Fin 2] [Fin 10; Fin 20] [Fin 10; Fin 30] (Fin 2) (Fin 0) (Fin 120) (Fin 3000)
    NaN [(T "main", Fin 10); (T "floodplain1", Fin 20); (T "floodplain2", w)] [] (mk_volumes [] [] [] [] [] [] [] [] [] [] []) in
  Forall (writable three_decimals) [c (Fin 0); c (Fin 5)] /\
  fst (run_writes (write_geometry_fm1d (show_num 3) [c (Fin 0)])) <> fst (run_writes (write_geometry_fm1d (show_num 3) [c (Fin 5)])) /\
  exists d,
    parse_definition_file read_number (fst (run_writes (write_geometry_fm1d (show_num 3) [c (Fin 0)]))) = Ok [d] /\
    parse_definition_file read_number (fst (run_writes (write_geometry_fm1d (show_num 3) [c (Fin 5)]))) = Ok [d].
Proof.
  intro c. split; [|split].
  - assert (W : forall w, writable three_decimals (c w)).
    { intro w. split; [apply good_valueb; reflexivity|]. repeat split; cbn; try (vm_compute; reflexivity).
      exists (Fin 10), (Fin 20), w. repeat split. }
    repeat constructor; apply W.
  - intro E. assert (X : teqb (fst (run_writes (write_geometry_fm1d (show_num 3) [c (Fin 0)])))
                             (fst (run_writes (write_geometry_fm1d (show_num 3) [c (Fin 5)]))) = true)
      by (rewrite E; apply teqb_refl). vm_compute in X. discriminate.
  - eexists. split; vm_compute; reflexivity.
Qed.
Print Assumptions C39_third_section_width_refuted.
