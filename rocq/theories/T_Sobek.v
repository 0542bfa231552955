(** Theorems for C40 (level columns) and C41 (SOBEK 3 geometry file). *)
From Coq Require Import String List Ascii ZArith QArith Bool Lia Lqa.
From Verif Require Import PyBase Num Spec L_Num L_List Text L_Text Fixed L_Fixed M_Ini M_Import T_Import
  M_Friction M_Network L_Network T_NetFile M_Export L_Export T_Definitions.
Import ListNotations.
Local Open Scope char_scope.

(** * C41 *)

(** A field of a comma separated file. *)
Definition cell (t : text) : Prop := free "," t /\ free newline t.
Lemma number_cell t : number_text t -> cell t.
Proof. intro H. split; apply number_free; auto using not_number_comma, not_number_newline. Qed.
Lemma cellb t : freeb "," t && freeb newline t = true -> cell t.
Proof. intro H. apply andb_prop in H. destruct H. split; apply freeb_free; auto. Qed.

Lemma split_row fs : fs <> [] -> Forall cell fs -> split_on "," (join (T ",") fs) = fs.
Proof.
  intros N F. change (T ",") with [","]. apply split_join; auto. eapply Forall_impl; [|exact F]. intros t [H _]. auto.
Qed.
Lemma row_free fs : Forall cell fs -> free newline (join (T ",") fs).
Proof.
  intro F. apply free_join; [apply freeb_free; reflexivity|]. eapply Forall_impl; [|exact F]. intros t [_ H]. auto.
Qed.

Section C41.
  Variable show_float : num -> text.
  Hypothesis show_text : forall x, number_text (show_float x).

  Definition has_dike (c : xs) : bool := nltb (Fin 0) (x_extra_total_volume c).

  Definition meta_fields (c : xs) : list text :=
    [x_name c; []; T "meta"; []; []; []; T "ZW"; x_branch c; show_float (x_chainage c);
     show_width show_float c (T "main"); show_width show_float c (T "floodplain1");
     show_width show_float c (T "floodplain2"); [];
     if has_dike c then T "1" else T "0";
     if has_dike c then show_float (x_crest c) else [];
     if has_dike c then (if isnan (x_base c) then show_float (x_crest c) else show_float (x_base c)) else [];
     if has_dike c then show_float (x_extra_total_area c) else [];
     if has_dike c then show_float (x_extra_total_area c) else [];
     []; []; []; []; []; []].

  Definition geom_fields (c : xs) (z tw fw : num) : list text :=
    [x_name c; []; T "geom"; show_num 8 z; show_float tw; show_float fw] ++ repeat [] 14.

  (** The rows of one cross-section. *)
  Fixpoint geom_rows (c : xs) (z tw fw : list num) : list (list text) :=
    match z, tw, fw with
    | z1 :: z', t :: tw', f :: fw' => geom_fields c z1 t f :: geom_rows c z' tw' fw'
    | _, _, _ => []
    end.
  Definition sobek_rows (c : xs) : list (list text) :=
    meta_fields c :: geom_rows c (raised_levels (x_z c)) (x_total_width c) (x_flow_width c).

  Definition sobek_ok (c : xs) : Prop :=
    cell (x_name c) /\ cell (x_branch c) /\
    length (x_total_width c) = length (x_z c) /\ length (x_flow_width c) = length (x_z c).

  Lemma meta_row_fields c : meta_row show_float c = ln (join (T ",") (meta_fields c)).
  Proof. reflexivity. Qed.

  Lemma show_width_cell c s : cell (show_width show_float c s).
  Proof. unfold show_width. destruct (tassoc _ s); [apply number_cell; auto|apply cellb; reflexivity]. Qed.

  Lemma nil_cell : cell [].
  Proof. split; intros []. Qed.

  Lemma meta_cells c : cell (x_name c) -> cell (x_branch c) -> Forall cell (meta_fields c).
  Proof.
    intros A B. unfold meta_fields. destruct (has_dike c), (isnan (x_base c));
      repeat (constructor; [auto using nil_cell, show_width_cell, number_cell; try (apply cellb; reflexivity)|]);
      constructor.
  Qed.

  Lemma geom_row_fields c i z fw tw :
    nth_error (raised_levels (x_z c)) i = Some z -> nth_error (x_flow_width c) i = Some fw ->
    geom_row show_float c i tw = Ok (ln (join (T ",") (geom_fields c z tw fw))).
  Proof.
    intros A B. unfold geom_row. rewrite (py_index_nat _ _ _ B). cbn [bind]. rewrite (py_index_nat _ _ _ A). reflexivity.
  Qed.

  Lemma geom_cells c z tw fw : cell (x_name c) -> Forall cell (geom_fields c z tw fw).
  Proof.
    intro A. unfold geom_fields. apply Forall_app. split.
    - repeat (constructor; [auto using nil_cell, number_cell, show_num_text; try (apply cellb; reflexivity)|]).
      constructor.
    - cbn [repeat]. repeat (constructor; [apply nil_cell|]). constructor.
  Qed.

  Lemma geom_rows_writes c : forall z tw fw pz pf k,
    raised_levels (x_z c) = pz ++ z -> x_flow_width c = pf ++ fw -> length pz = k -> length pf = k ->
    length z = length tw -> length fw = length tw ->
    run_writes (map2 (geom_row show_float c) (seq k (length tw)) tw) =
    (lns (map (join (T ",")) (geom_rows c z tw fw)), None).
  Proof.
    induction z as [|z1 z IH]; intros [|t tw] [|f fw] pz pf k Ez Ef Lz Lf A B; try discriminate; auto.
    cbn [length seq map2 run_writes geom_rows map].
    rewrite (geom_row_fields c k z1 f t).
    - rewrite (IH tw fw (pz ++ [z1]) (pf ++ [f]) (S k)); auto.
      + rewrite <- app_assoc. auto.
      + rewrite <- app_assoc. auto.
      + rewrite app_length. cbn. lia.
      + rewrite app_length. cbn. lia.
    - rewrite Ez, nth_error_app2 by lia. rewrite Lz, Nat.sub_diag. auto.
    - rewrite Ef, nth_error_app2 by lia. rewrite Lf, Nat.sub_diag. auto.
  Qed.

  Lemma raised_length z : length (raised_levels z) = length z.
  Proof. unfold raised_levels. rewrite map2_length, seq_length. apply Nat.min_id. Qed.

  Lemma sobek_css c : sobek_ok c ->
    run_writes (sobek_writes show_float c) = (lns (map (join (T ",")) (sobek_rows c)), None).
  Proof.
    intros (_ & _ & L1 & L2). unfold sobek_writes, sobek_rows. cbn [run_writes map].
    rewrite (geom_rows_writes c (raised_levels (x_z c)) (x_total_width c) (x_flow_width c) [] [] 0); auto.
    - rewrite raised_length. lia.
    - lia.
  Qed.

  Lemma geom_rows_cells c : cell (x_name c) -> forall z tw fw, Forall (Forall cell) (geom_rows c z tw fw).
  Proof.
    intro N. induction z as [|z1 z IH]; intros [|t tw] [|f fw]; constructor; auto using geom_cells.
  Qed.
  Lemma geom_rows_nonempty c : forall z tw fw, Forall (fun r => r <> []) (geom_rows c z tw fw).
  Proof. induction z as [|z1 z IH]; intros [|t tw] [|f fw]; constructor; auto. discriminate. Qed.

  Definition header_fields : list text := split_on "," (hd [] (file_lines sobek_header)).

  Lemma sobek_header_line : sobek_header = ln (join (T ",") header_fields) /\ Forall cell header_fields.
  Proof.
    split; [reflexivity|]. assert (H : forallb (fun t => freeb "," t && freeb newline t) header_fields = true) by reflexivity.
    rewrite forallb_forall in H. apply Forall_forall. intros t I. apply cellb. auto.
  Qed.

  Lemma split_rows rows : Forall (fun r => r <> []) rows -> Forall (Forall cell) rows ->
    map (split_on ",") (map (join (T ",")) rows) = rows.
  Proof.
    intros N F. rewrite map_map. rewrite <- (map_id rows) at 2. apply map_ext_in. intros r I.
    rewrite Forall_forall in N, F. apply split_row; auto.
  Qed.

  (** The file: a header, and per cross-section one meta row and one geometry
      row per level. *)
  Theorem C41_file_rows : forall css, Forall sobek_ok css ->
    exists content, run_writes (write_geometry_sobek3 show_float css) = (content, None) /\
      map (split_on ",") (file_lines content) = header_fields :: flat_map sobek_rows css.
  Proof.
    intros css F. exists (lns (map (join (T ",")) (header_fields :: flat_map sobek_rows css))).
    destruct sobek_header_line as [Eh Ch]. set (h := header_fields) in *.
    assert (Nh : h <> []) by discriminate. clearbody h.
    assert (C : Forall (Forall cell) (h :: flat_map sobek_rows css)).
    { constructor; auto. apply Forall_flat_map. eapply Forall_impl; [|exact F]. intros c (A & B & _).
      constructor; [apply meta_cells; auto|apply geom_rows_cells; auto]. }
    split.
    - unfold write_geometry_sobek3. cbn [run_writes map]. rewrite Eh. clear Eh Ch C.
      assert (G : run_writes (map (fun c => Ok (fst (run_writes (sobek_writes show_float c)))) css) =
        (lns (map (join (T ",")) (flat_map sobek_rows css)), None)).
      { induction F as [|c css Hc F IH]; auto. cbn [map run_writes flat_map].
        rewrite IH, (sobek_css c Hc). cbn [fst snd]. rewrite map_app, lns_app. auto. }
      rewrite G. cbn [fst snd]. rewrite lns_cons. reflexivity.
    - rewrite file_lines_lns.
      + apply split_rows; auto. constructor; auto. apply Forall_flat_map. apply Forall_forall. intros c _.
        constructor; [discriminate|apply geom_rows_nonempty].
      + apply Forall_forall. intros l I. apply in_map_iff in I. destruct I as (r & <- & I).
        rewrite Forall_forall in C. apply row_free. auto.
  Qed.

  (** What the rows of a cross-section hold. *)
  Theorem C41_row_contents : forall c, sobek_ok c ->
    exists meta geom, sobek_rows c = meta :: geom /\ length geom = length (x_z c) /\
      nth 0 meta [] = x_name c /\ nth 7 meta [] = x_branch c /\ nth 8 meta [] = show_float (x_chainage c) /\
      (nth 13 meta [] = T "1" <-> nltb (Fin 0) (x_extra_total_volume c) = true) /\
      (nltb (Fin 0) (x_extra_total_volume c) = true ->
        nth 14 meta [] = show_float (x_crest c) /\
        nth 15 meta [] = show_float (if isnan (x_base c) then x_crest c else x_base c) /\
        nth 17 meta [] = show_float (x_extra_total_area c)) /\
      (nltb (Fin 0) (x_extra_total_volume c) = false ->
        nth 13 meta [] = T "0" /\ Forall (fun k => nth k meta [] = []) [14; 15; 16; 17]%nat) /\
      forall i z tw fw, nth_error (x_z c) i = Some z -> nth_error (x_total_width c) i = Some tw ->
        nth_error (x_flow_width c) i = Some fw ->
        exists r, nth_error geom i = Some r /\ nth 0 r [] = x_name c /\
          nth 3 r [] = show_num 8 (nadd z (Fin (inject_Z (Z.of_nat (S i)) * (1 # 100000)))) /\
          nth 4 r [] = show_float tw /\ nth 5 r [] = show_float fw.
  Proof.
    intros c (_ & _ & L1 & L2).
    exists (meta_fields c), (geom_rows c (raised_levels (x_z c)) (x_total_width c) (x_flow_width c)).
    split; auto. split.
    { assert (G : forall z tw fw, length z = length tw -> length fw = length tw ->
        length (geom_rows c z tw fw) = length tw).
      { induction z as [|z1 z IH]; intros [|t tw] [|f fw]; cbn; intros; try discriminate; auto. }
      rewrite G; rewrite ?raised_length; lia. }
    unfold meta_fields, has_dike. destruct (nltb (Fin 0) (x_extra_total_volume c)); cbn [nth];
      (split; [auto|split; [auto|split; [auto|split; [|split; [|split]]]]]).
    1, 2, 3: intuition congruence || (destruct (isnan (x_base c)); auto).
    2, 3, 4: intuition (try discriminate); repeat constructor.
    all: intros i z tw fw Hz Ht Hf.
    all: assert (R : nth_error (raised_levels (x_z c)) i =
        Some (nadd z (Fin (inject_Z (Z.of_nat (S i)) * (1 # 100000)))))
      by (unfold raised_levels; rewrite nth_error_map2, Hz, nth_error_seq;
          [reflexivity|apply nth_error_Some; congruence]).
    all: exists (geom_fields c (nadd z (Fin (inject_Z (Z.of_nat (S i)) * (1 # 100000)))) tw fw);
      split; [|repeat split].
    all: revert R Ht Hf; generalize (nadd z (Fin (inject_Z (Z.of_nat (S i)) * (1 # 100000)))) as y; clear;
      generalize (raised_levels (x_z c)) (x_total_width c) (x_flow_width c); revert i.
    all: induction i as [|i IH]; intros [|a l] [|b m] [|d n] y; cbn; intros; try discriminate;
      [congruence|apply IH; auto].
  Qed.

  (** The flow area column repeats the total area. *)
  Theorem C41_flow_area_column_refuted :
    (forall c, nth 16 (meta_fields c) [] = nth 17 (meta_fields c) []) /\
    exists c, sobek_ok c /\ has_dike c = true /\ x_extra_flow_area c = Fin 30 /\
      nth 16 (meta_fields c) [] = show_float (Fin 120).
  Proof.
    split; [reflexivity|].
    exists (mk_xs (T "a_0") (T "a") (Fin 0) [] [] [] (Fin 2) (Fin 30) (Fin 120) (Fin 3000) (Fin 1) [] []
      (mk_volumes [] [] [] [] [] [] [] [] [] [] [])).
    repeat split; try (apply freeb_free; reflexivity).
  Qed.

  (** Meta rows have four fields more than the header. *)
  Theorem C41_meta_row_width : forall c, length (meta_fields c) = 24%nat /\ length header_fields = 20%nat /\
    forall z tw fw, length (geom_fields c z tw fw) = 20%nat.
  Proof. intro c. repeat split. Qed.

  (** * C40 *)

  Definition level_column (rows : list (list text)) : list text := map (fun r => nth 3 r []) (tl rows).

  Lemma column_values d (qs : list Q) : d <> O ->
    exists vs, map read_decimal (map (show_num d) (map Fin qs)) = map Some vs /\
      Forall2 (fun q v => (v == rounded d q)%Q) qs vs.
  Proof.
    intro Hd. induction qs as [|q qs (vs & E & F)]; [exists []; auto|].
    destruct (read_show_fixed d q Hd) as (v & Ev & Hv). exists (v :: vs). cbn [map show_num]. rewrite Ev, E. auto.
  Qed.

  Lemma sorted_related (R R' : Q -> Q -> Prop) (f : Q -> Q) :
    (forall a b v w, R a b -> (v == f a)%Q -> (w == f b)%Q -> R' v w) ->
    forall qs vs, Forall2 (fun q v => (v == f q)%Q) qs vs -> sorted R qs -> sorted R' vs.
  Proof.
    intros H qs vs F. destruct F as [|a v qs vs E F]; cbn; auto.
    revert a v E. induction F as [|b w qs vs E' F IH]; cbn; auto. intros a v E [C1 C2]. split; eauto.
  Qed.

  (** The increments keep non-decreasing levels apart. *)
  Lemma raised_sorted qs : forall k, sorted Qle qs ->
    exists rs, map2 (fun v k => nadd v (Fin (inject_Z (Z.of_nat k) * (1 # 100000)))) (map Fin qs) (seq k (length (map Fin qs)))
      = map Fin rs /\ sorted (fun a b => a + (1 # 100000) <= b)%Q rs /\
      match qs, rs with q :: _, r :: _ => r = (q + inject_Z (Z.of_nat k) * (1 # 100000))%Q | [], [] => True | _, _ => False end.
  Proof.
    induction qs as [|q qs IH]; intros k S0; [exists []; cbn; auto|].
    destruct (IH (S k)) as (rs & E & Sr & Hh). { destruct qs; cbn in *; tauto. }
    cbn [map length seq map2]. rewrite E. cbn [nadd].
    exists ((q + inject_Z (Z.of_nat k) * (1 # 100000))%Q :: rs). split; auto. split; auto.
    destruct qs as [|q2 qs], rs as [|r rs]; try tauto.
    cbn in Sr. cbn. split; auto. subst r. cbn in S0. destruct S0 as [S0 _].
    rewrite Nat2Z.inj_succ. unfold Z.succ. rewrite inject_Z_plus. change (inject_Z 1) with 1%Q. lra.
  Qed.

  Lemma geom_levels c : forall z tw fw, length z = length tw -> length fw = length tw ->
    map (fun r => nth 3 r []) (geom_rows c z tw fw) = map (show_num 8) z.
  Proof.
    induction z as [|a z IH]; intros [|t tw] [|f fw]; cbn; intros; try discriminate; auto. f_equal; auto.
  Qed.

  (** SOBEK 3: the levels of the file increase strictly. *)
  Theorem C40_sobek_levels_increase : forall c qs, sobek_ok c -> x_z c = map Fin qs -> nondecreasing qs ->
    exists vs, map read_decimal (level_column (sobek_rows c)) = map Some vs /\
      length vs = length qs /\ strictly_increasing vs.
  Proof.
    intros c qs (_ & _ & L1 & L2) E N. unfold level_column, sobek_rows. cbn [tl].
    rewrite geom_levels by (rewrite ?raised_length; lia). unfold raised_levels. rewrite E.
    destruct (raised_sorted qs 1 (nondec_sorted qs N)) as (rs & Er & Sr & _).
    rewrite Er. destruct (column_values 8 rs) as (vs & Ev & Fv); [lia|]. exists vs. split; auto. split.
    - apply (f_equal (@length num)) in Er. rewrite map2_length, seq_length, !map_length in Er.
      assert (length rs = length vs) by (clear - Fv; induction Fv; cbn; congruence). lia.
    - apply sorted_strict. eapply sorted_related; [|exact Fv|exact Sr].
      intros a b v w H Ha Hb. cbv beta in H. rewrite Ha, Hb. apply rounded_apart.
      assert (P : (1 / inject_Z (pow10 8) == 1 # 100000000)%Q) by reflexivity. rewrite P. lra.
  Qed.
End C41.

(** D-Flow 1D: the printed levels do not decrease, and increase strictly where
    the levels are more than 0.0001 apart. *)
Theorem C40_dflow_levels_ordered : forall qs, nondecreasing qs ->
  exists vs, map read_decimal (map (show_num 4) (map Fin qs)) = map Some vs /\ nondecreasing vs /\
    (sorted (fun a b => a + (1 # 10000) < b)%Q qs -> strictly_increasing vs).
Proof.
  intros qs N. destruct (column_values 4 qs) as (vs & Ev & Fv); [lia|]. exists vs. split; auto. split.
  - apply sorted_nondec. eapply sorted_related; [|exact Fv|apply nondec_sorted; exact N].
    intros a b v w H Ha Hb. rewrite Ha, Hb. apply rounded_mono. auto.
  - intro A. apply sorted_strict. eapply sorted_related; [|exact Fv|exact A].
    intros a b v w H Ha Hb. rewrite Ha, Hb. apply rounded_apart.
    assert (P : (1 / inject_Z (pow10 4) == 1 # 10000)%Q) by reflexivity. rewrite P. auto.
Qed.

(** The same texts stand in the definition file. *)
Theorem C40_dflow_levels_in_file : forall show_float c main fp1 fp2,
  nth 4 (body_lines show_float c main fp1 fp2) [] =
  tabs 1 ++ T "levels" ++ tabs 4 ++ T "= " ++ join (T " ") (map (show_num 4) (x_z c)).
Proof. reflexivity. Qed.

(** Levels 0.0001 apart can be printed alike. *)
Theorem C40_dflow_levels_collapse : exists a b, (a + (1 # 10000) == b)%Q /\
  show_num 4 (Fin a) = show_num 4 (Fin b).
Proof. exists (15 # 100000), (25 # 100000). split; reflexivity. Qed.

Print Assumptions C41_file_rows.
Print Assumptions C41_row_contents.
Print Assumptions C41_flow_area_column_refuted.
Print Assumptions C41_meta_row_width.
Print Assumptions C40_sobek_levels_increase.
Print Assumptions C40_dflow_levels_ordered.
Print Assumptions C40_dflow_levels_in_file.
Print Assumptions C40_dflow_levels_collapse.

Example C41_example :
  sobek_ok example_xs /\
  map (fun r => nth 3 r []) (map (split_on ",") (file_lines (fst (run_writes (write_geometry_sobek3 (show_num 3) [example_xs])))))
  = [T "level"; []; T "0.33334333"; T "2.00002000"].
Proof. split; [repeat split; apply freeb_free; reflexivity|vm_compute; reflexivity]. Qed.
