(** Theorems for C87: the locations file and the plain geometry table, read
    by readers of the two formats that are written down here. *)
From Coq Require Import String List Ascii ZArith QArith Bool Lia.
From Verif Require Import PyBase Num Spec L_Num L_List Text L_Text Fixed L_Fixed M_Ini M_Import T_Import
  M_Friction M_Network L_Network T_NetFile M_Export L_Export T_Definitions T_Sobek.
Import ListNotations.
Local Open Scope char_scope.

(** * A reader of D-Flow ini files *)

Fixpoint cut (c : ascii) (t : text) : text * text :=
  match t with
  | [] => ([], [])
  | a :: r => if Ascii.eqb a c then ([], r) else let (x, y) := cut c r in (a :: x, y)
  end.

Inductive ini_line := Blank | Header (name : text) | Entry (key value : text).

(** A header is in square brackets; an entry is split at its first equality sign. *)
Definition read_line (l : text) : ini_line :=
  match strip l with
  | [] => Blank
  | c :: r => if Ascii.eqb c "[" then Header (removelast r)
              else let (k, v) := cut "=" (c :: r) in Entry (strip k) (strip v)
  end.

(** The entries before the first header, and the blocks. *)
Fixpoint read_blocks (ls : list text) : list (text * text) * list (text * list (text * text)) :=
  match ls with
  | [] => ([], [])
  | l :: ls' =>
      let (pre, bs) := read_blocks ls' in
      match read_line l with
      | Blank => (pre, bs)
      | Header h => ([], (h, pre) :: bs)
      | Entry k v => ((k, v) :: pre, bs)
      end
  end.
Definition read_ini (content : text) := read_blocks (file_lines content).

(** * Lines as they are written *)

Lemma cut_free c k v : free c k -> cut c (k ++ c :: v) = (k, v).
Proof.
  intro F. induction k as [|a k IH]; cbn [app cut].
  - rewrite Ascii.eqb_refl. auto.
  - destruct (Ascii.eqb_spec a c) as [->|_]; [destruct F; left; auto|]. rewrite IH; auto. intro I. apply F. right. auto.
Qed.

(** The keys of the file. *)
Definition ini_key (k : text) : bool :=
  good_key k && trimmedb k && match k with c :: _ => negb (Ascii.eqb c "[") | [] => false end.

Lemma read_def_line key n v : ini_key key = true -> trimmed v -> read_line (def_line key n v) = Entry key v.
Proof.
  intros K Tv. unfold ini_key in K. apply andb_prop in K. destruct K as [K B]. apply andb_prop in K. destruct K as [G Tk].
  apply trimmedb_trimmed in Tk. destruct key as [|c k]; [discriminate|].
  cbn [good_key] in G. repeat (apply andb_prop in G; destruct G as [G ?]). apply negb_true_iff in G, B.
  assert (Fk : free "=" (c :: k ++ tabs n)).
  { change (c :: k ++ tabs n) with ((c :: k) ++ tabs n). apply free_app; [apply freeb_free; auto|]. apply tabs_free. discriminate. }
  assert (E : def_line (c :: k) n v = tabs 1 ++ (c :: (k ++ tabs n)) ++ "=" :: ([" "] ++ v)).
  { unfold def_line. change (T "= ") with ["="; " "]. cbn [app]. rewrite <- app_assoc. reflexivity. }
  unfold read_line. rewrite E, strip_eq_line by (auto; apply tabs_spaces).
  cbn [app]. rewrite B. change (c :: (k ++ tabs n) ++ "=" :: rstrip (" " :: v)) with ((c :: k ++ tabs n) ++ "=" :: rstrip ([" "] ++ v)).
  rewrite cut_free by auto. f_equal.
  - change (c :: k ++ tabs n) with ((c :: k) ++ tabs n). apply strip_rpad; auto. apply tabs_spaces.
  - apply strip_rstrip; auto. repeat constructor.
Qed.

(** * The locations file *)

Section C87.
  Variable double : num -> Prop.
  Variable rnd : Q -> num.
  Variable show_float : num -> text.
  Variable read_float : text -> option num.
  Hypothesis FC : float_codec double rnd show_float read_float.

  (** A name that fits on a line. *)
  Definition one_line (t : text) : Prop := trimmed t /\ free newline t.

  Definition general_entries (kind : text) : list (text * text) :=
    [(T "majorVersion", T "1"); (T "minorversion", T "0"); (T "fileType", kind)].
  Definition location_entries (c : xs) : list (text * text) :=
    [(T "id", x_name c); (T "branchid", x_branch c); (T "chainage", show_float (x_chainage c));
     (T "shift", T "0.000"); (T "definition", x_name c)].

  Definition location_lines (c : xs) : list text :=
    [T "[CrossSection]"; def_line (T "id") 5 (x_name c); def_line (T "branchid") 3 (x_branch c);
     def_line (T "chainage") 3 (show_float (x_chainage c)); def_line (T "shift") 4 (T "0.000");
     def_line (T "definition") 3 (x_name c); []].

  Lemma locations_written css :
    run_writes (write_css_locations show_float css) =
    (lns (general_lines (T "crossLoc") ++ flat_map location_lines css), None).
  Proof.
    unfold write_css_locations. cbn [run_writes].
    set (w := fun c : xs => _).
    assert (G : run_writes (flat_map w css) = (lns (flat_map location_lines css), None)).
    { induction css as [|c css IH]; auto. cbn [flat_map]. rewrite run_writes_app, IH.
      assert (E : run_writes (w c) = (lns (location_lines c), None)).
      { unfold w, location_lines, lns, def_line. cbn [run_writes fst snd map concat]. rewrite <- !app_assoc. reflexivity. }
      rewrite E. cbn [fst snd]. rewrite lns_app. auto. }
    rewrite G. cbn [fst snd]. rewrite lns_app, <- general_section_lines. auto.
  Qed.

  Lemma location_lines_free c : one_line (x_name c) -> one_line (x_branch c) -> Forall (free newline) (location_lines c).
  Proof.
    intros [_ N] [_ B]. pose proof (fc_text _ _ _ _ FC (x_chainage c)) as Hc. apply number_value in Hc. destruct Hc as (_ & _ & Hc).
    unfold location_lines.
    repeat (apply Forall_cons; [try (apply def_line_free; [reflexivity|]; auto; apply freeb_free; reflexivity)|]).
    - apply freeb_free. reflexivity.
    - intros [].
    - constructor.
  Qed.

  Lemma read_location_lines c rest : one_line (x_name c) -> one_line (x_branch c) ->
    read_blocks (location_lines c ++ rest) =
    ([], (T "CrossSection", location_entries c ++ fst (read_blocks rest)) :: snd (read_blocks rest)).
  Proof.
    intros [N _] [B _]. pose proof (fc_text _ _ _ _ FC (x_chainage c)) as Hc. apply number_value in Hc. destruct Hc as (Hc & _).
    unfold location_lines. cbn [app read_blocks].
    rewrite !read_def_line by (auto; try reflexivity; apply trimmedb_trimmed; reflexivity).
    destruct (read_blocks rest) as [pre bs]. reflexivity.
  Qed.

  Lemma read_locations css : Forall (fun c => one_line (x_name c) /\ one_line (x_branch c)) css ->
    read_blocks (flat_map location_lines css) = ([], map (fun c => (T "CrossSection", location_entries c)) css).
  Proof.
    induction 1 as [|c css [N B] F IH]; auto. cbn [flat_map map]. rewrite read_location_lines by auto. rewrite IH.
    cbn [fst snd]. rewrite app_nil_r. auto.
  Qed.

  (** The file has one general block, and then one block per cross-section, in
      order, with exactly these five entries. *)
  Theorem C87_locations_file : forall css,
    Forall (fun c => one_line (x_name c) /\ one_line (x_branch c)) css ->
    exists content,
      run_writes (write_css_locations show_float css) = (content, None) /\
      read_ini content = ([], (T "General", general_entries (T "crossLoc")) ::
                              map (fun c => (T "CrossSection", location_entries c)) css).
  Proof.
    intros css F. eexists. split; [apply locations_written|]. unfold read_ini. rewrite file_lines_lns.
    - change (general_lines (T "crossLoc") ++ flat_map location_lines css) with
        (T "[General]" :: (T "majorVersion" ++ tabs 3 ++ T "= 1") :: (T "minorversion" ++ tabs 3 ++ T "= 0") ::
         (T "fileType" ++ tabs 4 ++ T "= " ++ T "crossLoc") :: [] :: flat_map location_lines css).
      cbn [read_blocks]. rewrite read_locations by auto. reflexivity.
    - apply Forall_app. split.
      + repeat constructor; apply freeb_free; reflexivity.
      + apply Forall_flat_map. eapply Forall_impl; [|exact F]. intros c [N B]. apply location_lines_free; auto.
  Qed.

  (** The chainage that stands in a block is the one of the cross-section. *)
  Theorem C87_location_of_a_css : forall c, double (x_chainage c) ->
    tassoc (location_entries c) (T "id") = Some (x_name c) /\
    tassoc (location_entries c) (T "branchid") = Some (x_branch c) /\
    tassoc (location_entries c) (T "definition") = Some (x_name c) /\
    exists t v, tassoc (location_entries c) (T "chainage") = Some t /\ float_of read_float t = Ok v /\
                same v (x_chainage c).
  Proof.
    intros c D. repeat (split; [reflexivity|]). exists (show_float (x_chainage c)).
    destruct (read_show_float FC (x_chainage c) D) as (v & E & Sv). exists v. repeat split; auto.
  Qed.

  (** A locations file and the definition file of the same cross-sections fit
      together: the k-th location refers to the id of the k-th definition. *)
  Theorem C87_locations_refer_to_definitions : forall css,
    Forall (fun c => writable double c /\ one_line (x_branch c)) css ->
    exists locations definitions blocks ds,
      run_writes (write_css_locations show_float css) = (locations, None) /\
      run_writes (write_geometry_fm1d show_float css) = (definitions, None) /\
      snd (read_ini locations) = (T "General", general_entries (T "crossLoc")) :: blocks /\
      parse_definition_file read_float definitions = Ok ds /\
      map (fun b => tassoc (snd b) (T "definition")) blocks = map (fun d => Some (d_id d)) ds.
  Proof.
    intros css F.
    assert (W : Forall (writable double) css) by (eapply Forall_impl; [|exact F]; intros c [A _]; exact A).
    assert (O : Forall (fun c => one_line (x_name c) /\ one_line (x_branch c)) css).
    { eapply Forall_impl; [|exact F]. intros c [((A & _ & B) & _) C]. split; [split; assumption|assumption]. }
    destruct (C87_locations_file css O) as (locations & E1 & R1).
    destruct (C39_definition_file_round_trip _ _ _ _ FC css W) as (definitions & ds & E2 & R2 & X).
    exists locations, definitions, (map (fun c => (T "CrossSection", location_entries c)) css), ds.
    split; [assumption|]. split; [assumption|]. rewrite R1. split; [reflexivity|]. split; [assumption|].
    clear - X. induction X as [|c d css ds H X IH]; auto. cbn [map snd]. rewrite IH. f_equal.
    change (tassoc (location_entries c) (T "definition")) with (Some (x_name c)). rewrite (e_id _ _ _ H). auto.
  Qed.

  (** * The plain geometry table *)

  Definition read_cell (t : text) : res num := float_of read_float (strip t).
  (** The rows below the header line. *)
  Definition read_table (content : text) : res (list (list num)) :=
    map_res (fun l => map_res read_cell (split_on "," l)) (tl (file_lines content)).

  Definition has_table (c : xs) : Prop :=
    double (x_chainage c) /\ Forall double (x_z c) /\ Forall double (x_total_width c) /\ Forall double (x_flow_width c) /\
    length (x_total_width c) = length (x_z c) /\ length (x_flow_width c) = length (x_z c).

  (** Chainage, level, total width and flow width of a level. *)
  Definition table_row (c : xs) (i : nat) : list num :=
    [x_chainage c; nth i (x_z c) NaN; nth i (x_total_width c) NaN; nth i (x_flow_width c) NaN].
  Definition table_rows (c : xs) : list (list num) := map (table_row c) (seq 0 (length (x_z c))).

  Definition table_line (r : list num) : text :=
    match r with
    | [a; b; c; d] => show_float a ++ T ", " ++ show_float b ++ T ", " ++ show_float c ++ T "," ++ show_float d
    | _ => []
    end.
  Definition table_header : text := T "chainage,z,total width,flow width".

  Lemma table_written css : Forall has_table css ->
    run_writes (write_geometry_test show_float css) = (lns (table_header :: map table_line (flat_map table_rows css)), None).
  Proof.
    intro F. unfold write_geometry_test. cbn [run_writes]. set (w := fun c : xs => _).
    assert (G : run_writes (flat_map w css) = (lns (map table_line (flat_map table_rows css)), None)).
    { induction F as [|c css (_ & _ & _ & _ & L1 & L2) F IH]; auto. cbn [flat_map]. rewrite run_writes_app, IH.
      assert (E : w c = map Ok (map ln (map table_line (table_rows c)))).
      { unfold w, table_rows. rewrite !map_map. apply map_ext_in. intros i I. apply in_seq in I.
        rewrite (py_index_nat (x_z c) i (nth i (x_z c) NaN)) by (apply nth_error_nth'; lia).
        rewrite (py_index_nat (x_total_width c) i (nth i (x_total_width c) NaN)) by (apply nth_error_nth'; lia).
        rewrite (py_index_nat (x_flow_width c) i (nth i (x_flow_width c) NaN)) by (apply nth_error_nth'; lia).
        reflexivity. }
      rewrite E, run_writes_ok. cbn [fst snd]. rewrite map_app, lns_app. auto. }
    rewrite G. reflexivity.
  Qed.

  Lemma read_cell_show pad x : spaces pad -> double x ->
    exists v, read_cell (pad ++ show_float x) = Ok v /\ same v x.
  Proof.
    intros P D. destruct (read_show_float FC x D) as (v & E & Sv). exists v. split; auto.
    unfold read_cell. rewrite strip_lpad; auto. apply number_trimmed. apply (fc_text _ _ _ _ FC).
  Qed.

  Lemma table_line_split a b c d : split_on "," (table_line [a; b; c; d]) =
    [show_float a; [" "] ++ show_float b; [" "] ++ show_float c; show_float d].
  Proof.
    assert (N : forall x, free "," (show_float x)).
    { intro x. apply number_free; auto using not_number_comma. apply (fc_text _ _ _ _ FC). }
    assert (N' : forall x, free "," ([" "] ++ show_float x)).
    { intro x. apply free_app; auto. apply freeb_free. reflexivity. }
    unfold table_line. change (T ", ") with ["," ; " "]. change (T ",") with [","]. cbn [app].
    rewrite split_on_app by auto.
    change (" " :: show_float b ++ "," :: " " :: show_float c ++ "," :: show_float d) with
      (([" "] ++ show_float b) ++ "," :: ([" "] ++ show_float c) ++ "," :: show_float d).
    rewrite split_on_app by auto. rewrite split_on_app by auto. rewrite split_on_free by auto. reflexivity.
  Qed.

  Lemma read_table_line a b c d : double a -> double b -> double c -> double d ->
    exists vs, map_res read_cell (split_on "," (table_line [a; b; c; d])) = Ok vs /\
               Forall2 (fun x v => same v x) [a; b; c; d] vs.
  Proof.
    intros A B C D. rewrite table_line_split.
    destruct (read_cell_show [] a) as (va & Ea & Sa); [constructor|assumption|].
    destruct (read_cell_show [" "] b) as (vb & Eb & Sb); [repeat constructor|assumption|].
    destruct (read_cell_show [" "] c) as (vc & Ec & Sc); [repeat constructor|assumption|].
    destruct (read_cell_show [] d) as (vd & Ed & Sd); [constructor|assumption|].
    cbn [app] in Ea, Ed. exists [va; vb; vc; vd]. cbn [map_res]. rewrite Ea, Eb, Ec, Ed. cbn [bind].
    split; [reflexivity|]. repeat constructor; assumption.
  Qed.

  Lemma table_line_free r : free newline (table_line r).
  Proof.
    assert (N : forall x, free newline (show_float x)).
    { intro x. apply number_free; auto using not_number_newline. apply (fc_text _ _ _ _ FC). }
    unfold table_line. destruct r as [|a [|b [|c [|d [|]]]]]; try (intros []; fail).
    repeat apply free_app; auto; apply freeb_free; reflexivity.
  Qed.

  (** The table has a header and one row per cross-section and level, in order,
      and a reader gets the chainage, the level and the two widths back. *)
  Theorem C87_geometry_table : forall css, Forall has_table css ->
    exists content rows,
      run_writes (write_geometry_test show_float css) = (content, None) /\
      hd [] (file_lines content) = table_header /\
      read_table content = Ok rows /\
      Forall2 (Forall2 (fun x v => same v x)) (flat_map table_rows css) rows.
  Proof.
    intros css F. exists (lns (table_header :: map table_line (flat_map table_rows css))).
    assert (L : file_lines (lns (table_header :: map table_line (flat_map table_rows css))) =
                table_header :: map table_line (flat_map table_rows css)).
    { apply file_lines_lns. constructor; [apply freeb_free; reflexivity|].
      apply Forall_forall. intros l I. apply in_map_iff in I. destruct I as (r & <- & _). apply table_line_free. }
    assert (R : forall rs, Forall (fun r => exists a b c d, r = [a; b; c; d] /\ double a /\ double b /\ double c /\ double d) rs ->
      exists rows, map_res (fun l => map_res read_cell (split_on "," l)) (map table_line rs) = Ok rows /\
        Forall2 (Forall2 (fun x v => same v x)) rs rows).
    { induction 1 as [|r rs (a & b & c & d & -> & A & B & C & D) _ (rows & E & X)].
      - exists []. split; [reflexivity|constructor].
      - destruct (read_table_line a b c d A B C D) as (vs & Ev & Xv). exists (vs :: rows).
        cbn [map map_res]. rewrite Ev, E. split; [reflexivity|]. constructor; assumption. }
    destruct (R (flat_map table_rows css)) as (rows & E & X).
    { apply Forall_flat_map. eapply Forall_impl; [|exact F]. intros c (Dc & Dz & Dt & Df & L1 & L2).
      apply Forall_forall. intros r I. apply in_map_iff in I. destruct I as (i & <- & I). apply in_seq in I.
      rewrite Forall_forall in Dz, Dt, Df. unfold table_row. do 4 eexists. split; [reflexivity|].
      split; [assumption|]. repeat split; [apply Dz|apply Dt|apply Df]; apply nth_In; lia. }
    exists rows. split; [apply table_written; assumption|]. unfold read_table. rewrite L. cbn [hd tl].
    split; [reflexivity|]. split; assumption.
  Qed.

  (** The plain roughness table gets no further than its header. *)
  Theorem C87_roughness_table_refuted : forall c css,
    run_writes (write_roughness_test (c :: css)) =
    (ln (T "chainage,type,waterlevel,chezy roughness"), Some AttributeError).
  Proof. intros c css. unfold write_roughness_test. cbn [map run_writes fst snd]. rewrite app_nil_r. reflexivity. Qed.
End C87.

(** Two cross-sections, written and read. *)
Definition example_css (n : string) (ch : num) : xs :=
  mk_xs (T n) (T "branch=1") ch [Fin 0; Fin 1] [Fin 2; Fin 3] [Fin 4; Fin (11 # 2)] (Fin 0) (Fin 0) (Fin 0) (Fin 0) (Fin 0)
    [(T "main", Fin 1); (T "floodplain1", Fin 1); (T "floodplain2", Fin 0)] []
    (mk_volumes [] [] [] [] [] [] [] [] [] [] []).
Definition example_list := [example_css "a 1" (Fin (5 # 2)); example_css "b" (Fin 10)].

Theorem C87_case_locations : exists content,
  run_writes (write_css_locations (show_num 3) example_list) = (content, None) /\
  snd (read_ini content) = [(T "General", general_entries (T "crossLoc"));
    (T "CrossSection", [(T "id", T "a 1"); (T "branchid", T "branch=1"); (T "chainage", T "2.500");
                        (T "shift", T "0.000"); (T "definition", T "a 1")]);
    (T "CrossSection", [(T "id", T "b"); (T "branchid", T "branch=1"); (T "chainage", T "10.000");
                        (T "shift", T "0.000"); (T "definition", T "b")])].
Proof. eexists. split; vm_compute; reflexivity. Qed.

Theorem C87_case_table : Forall (has_table three_decimals) example_list /\ exists rows,
  read_table read_number (fst (run_writes (write_geometry_test (show_num 3) example_list))) = Ok rows /\
  length rows = 4%nat.
Proof.
  split.
  - unfold has_table, three_decimals, example_list. repeat constructor.
  - eexists. split; vm_compute; reflexivity.
Qed.

Print Assumptions C87_locations_file.
Print Assumptions C87_location_of_a_css.
Print Assumptions C87_locations_refer_to_definitions.
Print Assumptions C87_geometry_table.
Print Assumptions C87_roughness_table_refuted.
