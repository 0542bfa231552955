(** Theorems for C79 (SOBEK 3 roughness file), and the names of the columns of
    the volume table (C42). *)
From Coq Require Import String List Ascii ZArith QArith Bool Lia FinFun.
From Verif Require Import PyBase Num Spec L_Num L_List Text L_Text Fixed L_Fixed M_Ini M_Import T_Import
  M_Friction T_Friction M_Network L_Network T_NetFile M_Export L_Export T_Definitions T_Sobek T_Volumes.
Import ListNotations.
Local Open Scope char_scope.

(** * C42 *)

(** Under every name stands the quantity it names. *)
Theorem C42_columns_have_their_names : forall c,
  combine (tl (split_on "," header_text)) (columns c) =
  [(T "z", v_z (x_volumes c));
   (T "2D_total_volume", v_fm_total (x_volumes c)); (T "2D_flow_volume", v_fm_flow (x_volumes c));
   (T "2D_wet_area", v_fm_wet (x_volumes c)); (T "2D_flow_area", v_fm_area (x_volumes c));
   (T "1D_total_volume_sd", v_total_corrected (x_volumes c)); (T "1D_total_volume", v_total (x_volumes c));
   (T "1D_flow_volume_sd", v_flow_corrected (x_volumes c)); (T "1D_flow_volume", v_flow (x_volumes c));
   (T "1D_total_width", v_total_width (x_volumes c)); (T "1D_flow_width", v_flow_width (x_volumes c))].
Proof. reflexivity. Qed.
Print Assumptions C42_columns_have_their_names.

(** * C79 *)

(** The names SOBEK 3 uses. *)
Definition sobek_sections : list (text * text) :=
  [(T "main", T "Main"); (T "floodplain1", T "FloodPlain1"); (T "floodplain2", T "FloodPlain2")].

Section C79.
  Variable show_float : num -> text.
  Hypothesis show_text : forall x, number_text (show_float x).

  Definition rough_header : list text :=
    split_on "," (T "Name,Chainage,RoughnessType,SectionType,Dependance,Interpolation,Pos/neg,R_pos_constant,Q_pos,R_pos_f(Q),H_pos,R_pos__f(h),R_neg_constant,Q_neg,R_neg_f(Q),H_neg,R_neg_f(h)").

  (** A row, by column. *)
  Definition rough_fields (c : xs) (plain : text) (level friction : num) : list text :=
    map (fun name =>
      match tassoc [(T "Name", x_branch c); (T "Chainage", show_float (x_chainage c)); (T "RoughnessType", T "Chezy");
                    (T "SectionType", plain); (T "Dependance", T "Waterlevel"); (T "Interpolation", T "Linear");
                    (T "Pos/neg", T "Same"); (T "H_pos", show_float level); (T "R_pos__f(h)", show_float friction)] name with
      | Some t => t
      | None => []
      end) rough_header.

  (** The rows of a section: for each cross-section that has it one row per
      entry of its table. *)
  Definition rough_rows (css : list xs) (section : text) : list (list text) :=
    flat_map (fun c =>
      match tassoc (x_tables c) section, tassoc sobek_sections section with
      | Some tab, Some plain => map (fun lf => rough_fields c plain (fst lf) (snd lf)) (combine (fst tab) (snd tab))
      | _, _ => []
      end) css.

  Definition known_sections (c : xs) : Prop :=
    forall s, In s (map fst (x_tables c)) -> In s (map fst sobek_sections).

  Lemma rough_row c plain l f : roughness_row show_float c plain l f = ln (join (T ",") (rough_fields c plain l f)).
  Proof. unfold roughness_row. f_equal. Qed.

  Lemma rough_cells c plain l f : cell (x_branch c) -> cell plain -> Forall cell (rough_fields c plain l f).
  Proof.
    intros B P.
    change (rough_fields c plain l f) with
      [x_branch c; show_float (x_chainage c); T "Chezy"; plain; T "Waterlevel"; T "Linear"; T "Same"; []; []; [];
       show_float l; show_float f; []; []; []; []; []].
    repeat (constructor; [auto using nil_cell, number_cell; try (apply cellb; reflexivity)|]). constructor.
  Qed.

  Lemma plain_known section : plain_of section = of_option ValueError (tassoc sobek_sections section).
  Proof.
    unfold plain_of, sobek_sections. cbn [tassoc fst snd].
    destruct (teqb_spec section (T "main")) as [->|N1]; [reflexivity|].
    destruct (teqb_spec section (T "floodplain1")) as [->|N2]; [reflexivity|].
    destruct (teqb_spec section (T "floodplain2")) as [->|N3]; [reflexivity|].
    repeat match goal with |- context [teqb ?a section] => destruct (teqb_spec a section); [congruence|] end.
    reflexivity.
  Qed.

  Lemma tassoc_in {A} (l : list (text * A)) s a : tassoc l s = Some a -> In s (map fst l).
  Proof.
    induction l as [|[k v] l IH]; cbn; [discriminate|]. destruct (teqb_spec k s); [left; auto|]. intro H. right. auto.
  Qed.
  Lemma in_tassoc {A} (l : list (text * A)) s : In s (map fst l) -> exists a, tassoc l s = Some a.
  Proof.
    induction l as [|[k v] l IH]; cbn; [intros []|]. destruct (teqb_spec k s); [eauto|]. intros [X|I]; [congruence|auto].
  Qed.

  Lemma section_written css section : Forall known_sections css ->
    run_writes (section_writes show_float css section) = (lns (map (join (T ",")) (rough_rows css section)), None).
  Proof.
    intro F. induction F as [|c css Hc F IH]; [reflexivity|].
    unfold section_writes, rough_rows. cbn [flat_map]. fold (section_writes show_float css section) (rough_rows css section).
    rewrite run_writes_app, IH. rewrite plain_known.
    destruct (tassoc (x_tables c) section) as [tab|] eqn:Et; [|reflexivity].
    destruct (in_tassoc sobek_sections section (Hc _ (tassoc_in _ _ _ Et))) as (plain & Ep). rewrite Ep.
    cbn [of_option].
    assert (E : map2 (fun l f => Ok (roughness_row show_float c plain l f)) (fst tab) (snd tab) =
      map Ok (map ln (map (join (T ",")) (map (fun lf => rough_fields c plain (fst lf) (snd lf)) (combine (fst tab) (snd tab)))))).
    { generalize (fst tab) (snd tab). induction l as [|a l IHl]; intros [|b m]; auto. cbn [map2 combine map fst snd].
      rewrite IHl, rough_row. reflexivity. }
    rewrite E, run_writes_ok. cbn [fst snd]. rewrite map_app, lns_app. reflexivity.
  Qed.

  Lemma rough_header_ok : rough_header <> [] /\ Forall cell rough_header.
  Proof.
    split; [discriminate|].
    assert (H : forallb (fun t => freeb "," t && freeb newline t) rough_header = true) by reflexivity.
    rewrite forallb_forall in H. apply Forall_forall. intros t I. apply cellb. auto.
  Qed.

  Theorem C79_roughness_table : forall css, Forall known_sections css -> Forall (fun c => cell (x_branch c)) css ->
    exists content, run_writes (write_roughness_sobek3 show_float css) = (content, None) /\
      map (split_on ",") (file_lines content) = rough_header :: flat_map (rough_rows css) (sections_of css).
  Proof.
    intros css K B. destruct rough_header_ok as [Nh Ch].
    exists (lns (map (join (T ",")) (rough_header :: flat_map (rough_rows css) (sections_of css)))). split.
    - unfold write_roughness_sobek3. cbn [run_writes map].
      assert (G : forall ss, run_writes (flat_map (section_writes show_float css) ss) =
        (lns (map (join (T ",")) (flat_map (rough_rows css) ss)), None)).
      { induction ss as [|s ss IH]; [reflexivity|]. cbn [flat_map].
        rewrite run_writes_app, IH, section_written by auto. cbn [fst snd]. rewrite map_app, lns_app. reflexivity. }
      rewrite G. cbn [fst snd]. rewrite lns_cons. reflexivity.
    - assert (C : Forall (Forall cell) (rough_header :: flat_map (rough_rows css) (sections_of css)) /\
                  Forall (fun r => r <> []) (rough_header :: flat_map (rough_rows css) (sections_of css))).
      { split; (constructor; [auto|]); apply Forall_flat_map; apply Forall_forall; intros s _;
          apply Forall_flat_map; apply Forall_forall; intros c I;
          destruct (tassoc (x_tables c) s); try constructor; destruct (tassoc sobek_sections s) as [plain|] eqn:Ep; try constructor;
          apply Forall_forall; intros r Ir; apply in_map_iff in Ir; destruct Ir as (lf & <- & _).
        - rewrite Forall_forall in B. apply rough_cells; auto.
          unfold sobek_sections in Ep. cbn [tassoc] in Ep.
          repeat match type of Ep with (if ?b then _ else _) = _ => destruct b; [injection Ep as <-; apply cellb; reflexivity|] end.
          discriminate.
        - discriminate. }
      destruct C as [C N]. rewrite file_lines_lns.
      + apply split_rows; auto.
      + apply Forall_forall. intros l I. apply in_map_iff in I. destruct I as (r & <- & I).
        rewrite Forall_forall in C. apply row_free. auto.
  Qed.

  (** Every entry of every table is in the file, and nothing else. *)
  Theorem C79_every_entry_once : forall css section c tab plain i level friction,
    Forall known_sections css -> In c css -> tassoc (x_tables c) section = Some tab ->
    tassoc sobek_sections section = Some plain ->
    nth_error (fst tab) i = Some level -> nth_error (snd tab) i = Some friction ->
    In (rough_fields c plain level friction) (flat_map (rough_rows css) (sections_of css)) /\
    NoDup (sections_of css) /\ In section (sections_of css).
  Proof.
    intros css section c tab plain i level friction K I Et Ep El Ef.
    assert (S : In section (sections_of css)).
    { unfold sections_of, unique_texts. apply in_map_iff. exists (string_of_list_ascii section). split.
      - unfold T. apply list_ascii_of_string_of_list_ascii.
      - apply np_unique_In. apply in_map. apply in_flat_map. exists c. split; auto. eapply tassoc_in; eauto. }
    split; [|split; [|exact S]].
    - apply in_flat_map. exists section. split; auto. apply in_flat_map. exists c. split; auto. rewrite Et, Ep.
      apply in_map_iff. exists (level, friction). split; auto.
      revert i El Ef. generalize (fst tab) (snd tab). induction l as [|a l IH]; intros [|b m] [|i]; cbn; intros; try discriminate.
      + left. congruence.
      + right. eauto.
    - unfold sections_of, unique_texts. apply FinFun.Injective_map_NoDup; [|apply np_unique_NoDup].
      intros a b E. unfold T in E. rewrite <- (string_of_list_ascii_of_string a), <- (string_of_list_ascii_of_string b), E. auto.
  Qed.

  (** A section with another name stops the export. *)
  Theorem C79_unknown_section_is_refused : forall css c section tab,
    In c css -> tassoc (x_tables c) section = Some tab -> ~ In section (map fst sobek_sections) ->
    snd (run_writes (write_roughness_sobek3 show_float css)) <> None.
  Proof.
    intros css c section tab I Et N.
    assert (P : plain_of section = Raise ValueError).
    { rewrite plain_known. destruct (tassoc sobek_sections section) eqn:E; [|reflexivity]. apply tassoc_in in E. contradiction. }
    assert (G : forall l, In (Raise ValueError) l -> snd (run_writes l) <> None).
    { induction l as [|[t|e] l IH]; intro J; [destruct J| |discriminate]. destruct J as [J|J]; [discriminate|].
      cbn [run_writes snd]. auto. }
    apply G. right. apply in_flat_map. exists section. split.
    - unfold sections_of, unique_texts. apply in_map_iff. exists (string_of_list_ascii section). split.
      + unfold T. apply list_ascii_of_string_of_list_ascii.
      + apply np_unique_In. apply in_map. apply in_flat_map. exists c. split; auto. eapply tassoc_in; eauto.
    - unfold section_writes. apply in_flat_map. exists c. split; auto. rewrite Et, P. left. reflexivity.
  Qed.
End C79.
Print Assumptions C79_roughness_table.
Print Assumptions C79_every_entry_once.
Print Assumptions C79_unknown_section_is_refused.

Example C79_example :
  let c := mk_xs (T "a_0") (T "a") (Fin 5) [] [] [] (Fin 2) (Fin 30) (Fin 120) (Fin 3000) (Fin 1) []
             [(T "main", ([Fin 1; Fin 2], [Fin 40; Fin 45])); (T "floodplain1", ([Fin 2], [Fin 30]))]
             (mk_volumes [] [] [] [] [] [] [] [] [] [] []) in
  known_sections c /\ cell (x_branch c) /\
  map (firstn 4) (flat_map (rough_rows (show_num 1) [c]) (sections_of [c])) =
    [[T "a"; T "5.0"; T "Chezy"; T "FloodPlain1"]; [T "a"; T "5.0"; T "Chezy"; T "Main"]; [T "a"; T "5.0"; T "Chezy"; T "Main"]].
Proof.
  intro c. split; [|split].
  - intros s [<-|[<-|[]]]; cbn; auto.
  - apply cellb. reflexivity.
  - vm_compute. reflexivity.
Qed.

(** A branch name with a comma shifts the columns of its rows. *)
Theorem C79_comma_in_the_branch_refuted :
  let c := mk_xs (T "a_0") (T "a,b") (Fin 5) [] [] [] (Fin 2) (Fin 30) (Fin 120) (Fin 3000) (Fin 1) []
             [(T "main", ([Fin 1], [Fin 40]))] (mk_volumes [] [] [] [] [] [] [] [] [] [] []) in
  known_sections c /\
  exists header row,
    map (split_on ",") (file_lines (fst (run_writes (write_roughness_sobek3 (show_num 1) [c])))) = [header; row] /\
    firstn 4 header = [T "Name"; T "Chainage"; T "RoughnessType"; T "SectionType"] /\
    firstn 4 row = [T "a"; T "b"; T "5.0"; T "Chezy"] /\ length row = S (length header).
Proof.
  intro c. split.
  - intros s [<-|[]]; cbn; auto.
  - do 2 eexists. split; [vm_compute; reflexivity|]. split; [reflexivity|]. split; reflexivity.
Qed.
Print Assumptions C79_comma_in_the_branch_refuted.
