(** C121: a setting changes only the part of a cross-section that it is for. *)
From Coq Require Import String List Ascii ZArith QArith Bool Lia.
From Verif Require Import PyBase Num Text L_Text L_List M_Log M_Run M_Geometry M_Sections M_Friction M_Simplify M_Import M_Classify M_Polygon M_Cli
  M_Pipeline M_Data L_Rows Spec_Simplify L_Simplify T_Simplify T_Pipeline T_Neighbour T_Data T_Whole T_Skip T_Elsewhere T_Parts.
Import ListNotations.

(** ** Specification *)

Definition set_weighing (w : Z) (st : settings) : settings :=
  mk_settings (st_geometry st) (st_minwidth st) (st_points st) (st_correction st) (st_base st) w.
Definition set_base (b : num) (st : settings) : settings :=
  mk_settings (st_geometry st) (st_minwidth st) (st_points st) (st_correction st) b (st_weighing st).
Definition set_correction (b : bool) (st : settings) : settings :=
  mk_settings (st_geometry st) (st_minwidth st) (st_points st) b (st_base st) (st_weighing st).
Definition set_points (n : Z) (st : settings) : settings :=
  mk_settings (st_geometry st) (st_minwidth st) n (st_correction st) (st_base st) (st_weighing st).
Definition set_minwidth (w : num) (st : settings) : settings :=
  mk_settings (st_geometry st) w (st_points st) (st_correction st) (st_base st) (st_weighing st).
(** ConveyanceDetectionMethod, AbsoluteVelocityThreshold,
    RelativeVelocityThreshold and ExtrapolateStorage. *)
Definition set_conveyance (method : Z) (abs rel : num) (ex : bool) (st : settings) : settings :=
  mk_settings (mkParams (gp_skip (st_geometry st)) (gp_lake (st_geometry st)) method abs rel ex)
    (st_minwidth st) (st_points st) (st_correction st) (st_base st) (st_weighing st).

Definition replace_base (b : num) (c : M_Pipeline.css) : M_Pipeline.css :=
  mk_css (s_name c) (M_Pipeline.s_z c) (s_tw c) (s_fw c) (s_css_z c) (s_css_tw c) (s_css_fw c) (s_crest c) (s_extra_total c)
    (s_extra_flow c) (s_tables c) (s_widths c) b (s_faces c) (s_links c).
Definition replace_dike (from c : M_Pipeline.css) : M_Pipeline.css :=
  mk_css (s_name c) (M_Pipeline.s_z c) (s_tw c) (s_fw c) (s_css_z c) (s_css_tw c) (s_css_fw c) (s_crest from) (s_extra_total from)
    (s_extra_flow from) (s_tables c) (s_widths c) (s_base from) (s_faces c) (s_links c).
Definition replace_reduced (from c : M_Pipeline.css) : M_Pipeline.css :=
  mk_css (s_name c) (M_Pipeline.s_z from) (s_tw from) (s_fw from) (s_css_z c) (s_css_tw c) (s_css_fw c) (s_crest c) (s_extra_total c)
    (s_extra_flow c) (s_tables c) (s_widths c) (s_base c) (s_faces c) (s_links c).
(** Only the conveying part, the dike and its base differ. *)
Definition same_but_conveyance (a b : M_Pipeline.css) : Prop :=
  M_Pipeline.s_z a = M_Pipeline.s_z b /\ s_tw a = s_tw b /\ s_css_z a = s_css_z b /\ s_css_tw a = s_css_tw b /\
  s_tables a = s_tables b /\ s_faces a = s_faces b /\ s_links a = s_links b.
(** Only widths (and what is kept of the rows) differ. *)
Definition same_but_widths (a b : M_Pipeline.css) : Prop :=
  s_css_z a = s_css_z b /\ s_crest a = s_crest b /\ s_extra_total a = s_extra_total b /\ s_extra_flow a = s_extra_flow b /\
  s_tables a = s_tables b /\ s_base a = s_base b /\ s_faces a = s_faces b /\ s_links a = s_links b.

(** ** Proofs *)

(** The parts of a cross-section. *)
Record made smooth mean correction clean (st : settings) (id : text) (len : num) (centre nt : nat) (s : selection) (cs : M_Pipeline.css)
    (g : M_Geometry.geometry) : Prop := {
  mk_geom : build_geometry smooth mean (st_geometry st) len centre (M_Pipeline.cells_of s) = Ok g;
  mk_full : check_requirements (st_minwidth st) (k_z (g_cols g)) (k_tw (g_cols g)) (k_fw (g_cols g)) = Ok (s_css_z cs, s_css_tw cs, s_css_fw cs);
  mk_red : reduce_css_points (st_points st) (s_css_z cs, s_css_tw cs, s_css_fw cs) = Ok (M_Pipeline.s_z cs, s_tw cs, s_fw cs);
  mk_dike : perform_correction correction (st_correction st) g len = (s_crest cs, s_extra_total cs, s_extra_flow cs);
  mk_rough : build_roughness_tables (st_weighing st) (gp_skip (st_geometry st)) (g_z_roughness g) (links_of nt s) = Ok (s_tables cs);
  mk_width : nsection_widths len (s_area s) (map section_of (s_section s)) (s_fw cs) (s_css_fw cs) = Ok (s_widths cs);
  mk_bas : compute_floodplain_base (s_crest cs) (st_base st) (s_bed s) (map section_of (s_section s)) = Ok (s_base cs);
  mk_nam : s_name cs = id;
  mk_fac : s_faces cs = face_output_list clean id s;
  mk_lin : s_links cs = edge_output_list clean id s }.

Lemma css_made smooth mean correction clean st id len centre nt s cs :
  generate_cross_section smooth mean correction clean st id len centre nt s = Ok (Some cs) ->
  exists g, made smooth mean correction clean st id len centre nt s cs g.
Proof.
  unfold generate_cross_section, build_cross_section_geometry. destruct (Nat.ltb _ 10); [discriminate|].
  destruct (build_geometry _ _ _ _ _ _) as [g|] eqn:G; [|discriminate]. cbn [bind].
  destruct (check_requirements _ _ _ _) as [full|] eqn:F; [|discriminate]. cbn [bind].
  destruct (reduce_css_points _ _) as [red|] eqn:R; [|discriminate]. cbn [bind].
  destruct (perform_correction _ _ _ _) as [[cr to] fl] eqn:C. destruct full as [[z tw] fw], red as [[z' tw'] fw'].
  destruct (build_roughness_tables _ _ _ _) as [tb|] eqn:TB; [|discriminate]. cbn [bind].
  destruct (nsection_widths _ _ _ _ _) as [w|] eqn:W; [|discriminate]. cbn [bind].
  destruct (compute_floodplain_base _ _ _ _) as [b|] eqn:B; [|discriminate]. cbn [bind]. intro H. injection H as <-.
  exists g. constructor; cbn [s_name M_Pipeline.s_z s_tw s_fw s_css_z s_css_tw s_css_fw s_crest s_extra_total s_extra_flow s_tables s_widths s_base s_faces s_links];
    auto.
Qed.

Lemma css_eta (c : M_Pipeline.css) :
  c = mk_css (s_name c) (M_Pipeline.s_z c) (s_tw c) (s_fw c) (s_css_z c) (s_css_tw c) (s_css_fw c) (s_crest c) (s_extra_total c)
        (s_extra_flow c) (s_tables c) (s_widths c) (s_base c) (s_faces c) (s_links c).
Proof. destruct c. reflexivity. Qed.

(** C121: the weighing method changes the roughness tables only. *)
Theorem C121_weighing_changes_the_tables_only :
  forall smooth mean correction clean st w id len centre nt s cs cs',
    generate_cross_section smooth mean correction clean st id len centre nt s = Ok (Some cs) ->
    generate_cross_section smooth mean correction clean (set_weighing w st) id len centre nt s = Ok (Some cs') ->
    cs' = with_tables (s_tables cs') cs.
Proof.
  intros smooth mean correction clean st w id len centre nt s cs cs' H H'.
  destruct (css_made _ _ _ _ _ _ _ _ _ _ _ H) as [g [A1 A2 A3 A4 A5 A6 A7 A8 A9 A10]].
  destruct (css_made _ _ _ _ _ _ _ _ _ _ _ H') as [g' [B1 B2 B3 B4 B5 B6 B7 B8 B9 B10]].
  cbn [set_weighing st_geometry st_minwidth st_points st_correction st_base st_weighing] in *.
  rewrite A1 in B1. injection B1 as <-. rewrite A2 in B2. injection B2 as E1 E2 E3. rewrite <- E1, <- E2, <- E3 in B3. rewrite A3 in B3. injection B3 as E4 E5 E6.
  rewrite A4 in B4. injection B4 as E7 E8 E9. rewrite <- E3, <- E6 in B6. rewrite A6 in B6. injection B6 as E10.
  rewrite <- E7 in B7. rewrite A7 in B7. injection B7 as E11.
  rewrite (css_eta cs'). unfold with_tables. cbn [s_tables]. rewrite A8, A9, A10, B8, B9, B10. congruence.
Qed.
Print Assumptions C121_weighing_changes_the_tables_only.

(** The tolerance SDFloodplainBase changes the floodplain base only. *)
Theorem C121_tolerance_changes_the_base_only :
  forall smooth mean correction clean st b id len centre nt s cs cs',
    generate_cross_section smooth mean correction clean st id len centre nt s = Ok (Some cs) ->
    generate_cross_section smooth mean correction clean (set_base b st) id len centre nt s = Ok (Some cs') ->
    cs' = replace_base (s_base cs') cs.
Proof.
  intros smooth mean correction clean st b id len centre nt s cs cs' H H'.
  destruct (css_made _ _ _ _ _ _ _ _ _ _ _ H) as [g [A1 A2 A3 A4 A5 A6 A7 A8 A9 A10]].
  destruct (css_made _ _ _ _ _ _ _ _ _ _ _ H') as [g' [B1 B2 B3 B4 B5 B6 B7 B8 B9 B10]].
  cbn [set_base st_geometry st_minwidth st_points st_correction st_base st_weighing] in *.
  rewrite A1 in B1. injection B1 as <-. rewrite A2 in B2. injection B2 as E1 E2 E3. rewrite <- E1, <- E2, <- E3 in B3. rewrite A3 in B3. injection B3 as E4 E5 E6.
  rewrite A4 in B4. injection B4 as E7 E8 E9. rewrite A5 in B5. injection B5 as E12. rewrite <- E3, <- E6 in B6. rewrite A6 in B6. injection B6 as E10.
  rewrite (css_eta cs'). unfold replace_base. cbn [s_base]. rewrite A8, A9, A10, B8, B9, B10. congruence.
Qed.
Print Assumptions C121_tolerance_changes_the_base_only.

(** Switching the correction, or another search for the dike (its method and
    its transition height), changes the dike and the floodplain base only. *)
Theorem C121_dike_settings_change_the_dike_only :
  forall smooth mean correction correction' clean st b id len centre nt s cs cs',
    generate_cross_section smooth mean correction clean st id len centre nt s = Ok (Some cs) ->
    generate_cross_section smooth mean correction' clean (set_correction b st) id len centre nt s = Ok (Some cs') ->
    cs' = replace_dike cs' cs.
Proof.
  intros smooth mean correction correction' clean st b id len centre nt s cs cs' H H'.
  destruct (css_made _ _ _ _ _ _ _ _ _ _ _ H) as [g [A1 A2 A3 A4 A5 A6 A7 A8 A9 A10]].
  destruct (css_made _ _ _ _ _ _ _ _ _ _ _ H') as [g' [B1 B2 B3 B4 B5 B6 B7 B8 B9 B10]].
  cbn [set_correction st_geometry st_minwidth st_points st_correction st_base st_weighing] in *.
  rewrite A1 in B1. injection B1 as <-. rewrite A2 in B2. injection B2 as E1 E2 E3. rewrite <- E1, <- E2, <- E3 in B3. rewrite A3 in B3. injection B3 as E4 E5 E6.
  rewrite A5 in B5. injection B5 as E12. rewrite <- E3, <- E6 in B6. rewrite A6 in B6. injection B6 as E10.
  rewrite (css_eta cs'). unfold replace_dike. cbn [s_crest s_extra_total s_extra_flow s_base]. rewrite A8, A9, A10, B8, B9, B10. congruence.
Qed.
Print Assumptions C121_dike_settings_change_the_dike_only.

(** The number of points, whatever it is, changes the simplified columns only. *)
Lemma last_index {A} (d : A) l : l <> [] -> py_index l (-1) = Ok (last l d).
Proof.
  intro N. destruct (exists_last N) as (l' & x & ->). rewrite last_last. unfold py_index. rewrite app_length. cbn [length].
  change ((-1 <? 0)%Z) with true. cbv iota zeta. replace (-1 + Z.of_nat (length l' + 1))%Z with (Z.of_nat (length l')) by lia.
  destruct (Z.ltb_spec (Z.of_nat (length l')) 0); [lia|]. rewrite Nat2Z.id, nth_error_app2, Nat.sub_diag by lia. reflexivity.
Qed.
Lemma last_map {A B} (g : A -> B) d l : last (map g l) (g d) = g (last l d).
Proof. induction l as [|x [|y l] IH]; [reflexivity..|]. exact IH. Qed.
Lemma reduced_last n z tw fw r : (2 <= n)%Z -> length tw = length z -> length fw = length z ->
  reduce_css_points n (map Fin z, map Fin tw, map Fin fw) = Ok r -> py_index (snd r) (-1) = py_index (map Fin fw) (-1).
Proof.
  intros N L1 L2. unfold reduce_css_points.
  destruct (C11_reduction_keeps_sub_profile n z tw fw N L1 L2) as (z' & tw' & fw' & -> & L3 & L4 & _ & F & G). intro H. injection H as <-. cbn [snd].
  destruct (Z.le_gt_cases (Z.of_nat (length z)) n) as [LE|GT].
  - destruct (F LE) as (_ & _ & ->). reflexivity.
  - destruct (G ltac:(lia)) as (K & _ & _ & _ & _ & _ & E).
    assert (NE : map Fin fw' <> []) by (destruct fw'; [cbn in L4; lia|discriminate]).
    assert (NE2 : map Fin fw <> []) by (destruct fw; [cbn in L2; lia|discriminate]).
    rewrite (last_index (Fin 0) _ NE), (last_index (Fin 0) _ NE2). f_equal.
    rewrite !last_map, E. reflexivity.
Qed.
(** A negative number counts from the end. *)
Lemma reduce_negative n z tw fw : (n < 0)%Z -> length tw = length z -> length fw = length z -> (2 <= length z)%nat ->
  reduce_points n (map Fin z) (map Fin tw) (map Fin fw) =
  if (Z.of_nat (length z) + n <? 0)%Z then Raise IndexError
  else reduce_points (Z.of_nat (length z) + n) (map Fin z) (map Fin tw) (map Fin fw).
Proof.
  intros N L1 L2 L3. assert (Hc : @length qpoint (combine z tw) = length z) by (unfold qpoint; rewrite combine_length; lia).
  destruct (thresholds_shape (combine z tw)) as (th & E & L & _); [lia|]. rewrite Hc in L.
  assert (LS : length (sort_desc th) = length z) by (rewrite <- (Permutation.Permutation_length (sort_desc_perm th)); exact L).
  unfold reduce_points. rewrite zip_points_fin by lia. cbn [bind]. rewrite map_length, L1.
  destruct (Z.ltb_spec n (Z.of_nat (length z))); [|lia]. unfold from_number_index. rewrite E. cbn [bind].
  assert (PI : py_index (sort_desc th) n = if (Z.of_nat (length z) + n <? 0)%Z then Raise IndexError else py_index (sort_desc th) (Z.of_nat (length z) + n)).
  { unfold py_index. rewrite LS. destruct (Z.ltb_spec n 0); [|lia]. replace (n + Z.of_nat (length z))%Z with (Z.of_nat (length z) + n)%Z by lia.
    destruct (Z.ltb_spec (Z.of_nat (length z) + n) 0); [reflexivity|].
    destruct (Z.ltb_spec (Z.of_nat (length z) + n) 0); [lia|reflexivity]. }
  rewrite PI. destruct (Z.ltb_spec (Z.of_nat (length z) + n) 0); [reflexivity|].
  destruct (Z.ltb_spec (Z.of_nat (length z) + n) (Z.of_nat (length z))); [|lia]. reflexivity.
Qed.
Lemma reduced_any_last n z tw fw r : length tw = length z -> length fw = length z -> (2 <= length z)%nat ->
  reduce_css_points n (map Fin z, map Fin tw, map Fin fw) = Ok r ->
  py_index (snd r) (-1) = py_index (map Fin fw) (-1) \/ snd r = [].
Proof.
  intros L1 L2 L3. assert (P : forall m, (0 <= m)%Z -> reduce_css_points m (map Fin z, map Fin tw, map Fin fw) = Ok r ->
    py_index (snd r) (-1) = py_index (map Fin fw) (-1) \/ snd r = []).
  { intros m M H. destruct (Z.lt_ge_cases m 2) as [S|S]; [|left; exact (reduced_last m z tw fw r S L1 L2 H)].
    right. unfold reduce_css_points in H. rewrite (C11_fewer_than_two_points_empties_profile m z tw fw) in H by lia. injection H as <-. reflexivity. }
  destruct (Z.lt_ge_cases n 0) as [N|N]; [|exact (P n N)].
  intro H. unfold reduce_css_points in H. rewrite (reduce_negative n z tw fw N L1 L2 L3) in H.
  destruct (Z.ltb_spec (Z.of_nat (length z) + n) 0); [injection H as <-; right; reflexivity|].
  exact (P (Z.of_nat (length z) + n)%Z ltac:(lia) H).
Qed.
Lemma widths_need_rows len area section fw w : nsection_widths len area section [] fw <> Ok w.
Proof. intro H. unfold nsection_widths in H. do 4 (destruct (mask_index _ _); [cbn [bind] in H|discriminate]). discriminate H. Qed.
Theorem C121_points_change_the_simplified_columns_only :
  forall smooth mean correction clean st n id len centre nt s cs cs' z tw fw,
    generate_cross_section smooth mean correction clean st id len centre nt s = Ok (Some cs) ->
    generate_cross_section smooth mean correction clean (set_points n st) id len centre nt s = Ok (Some cs') ->
    s_css_z cs = map Fin z -> s_css_tw cs = map Fin tw -> s_css_fw cs = map Fin fw -> length tw = length z -> length fw = length z ->
    (2 <= length z)%nat ->
    cs' = replace_reduced cs' cs.
Proof.
  intros smooth mean correction clean st n id len centre nt s cs cs' z tw fw H H' Z1 Z2 Z3 L1 L2 L3.
  destruct (css_made _ _ _ _ _ _ _ _ _ _ _ H) as [g [A1 A2 A3 A4 A5 A6 A7 A8 A9 A10]].
  destruct (css_made _ _ _ _ _ _ _ _ _ _ _ H') as [g' [B1 B2 B3 B4 B5 B6 B7 B8 B9 B10]].
  cbn [set_points st_geometry st_minwidth st_points st_correction st_base st_weighing] in *.
  rewrite A1 in B1. injection B1 as <-. rewrite A2 in B2. injection B2 as E1 E2 E3. rewrite <- E1, <- E2, <- E3 in B3.
  rewrite A4 in B4. injection B4 as E7 E8 E9. rewrite A5 in B5. injection B5 as E12.
  rewrite <- E7 in B7. rewrite A7 in B7. injection B7 as E11.
  rewrite Z1, Z2, Z3 in A3, B3.
  destruct (reduced_any_last _ _ _ _ _ L1 L2 L3 A3) as [R1|R1]; cbn [snd] in R1;
    [|rewrite R1 in A6; exfalso; exact (widths_need_rows _ _ _ _ _ A6)].
  destruct (reduced_any_last _ _ _ _ _ L1 L2 L3 B3) as [R2|R2]; cbn [snd] in R2;
    [|rewrite R2 in B6; exfalso; exact (widths_need_rows _ _ _ _ _ B6)].
  rewrite <- E3 in B6. unfold nsection_widths in A6, B6. rewrite R1 in A6. rewrite R2 in B6. rewrite A6 in B6. injection B6 as E10.
  rewrite (css_eta cs'). unfold replace_reduced. cbn [M_Pipeline.s_z s_tw s_fw]. rewrite A8, A9, A10, B8, B9, B10. congruence.
Qed.
Print Assumptions C121_points_change_the_simplified_columns_only.

(** The settings for conveyance do not change levels, total widths and
    roughness. *)
Lemma below_other ex ex' len c0 fa fa' cells l : forall k k', storage_cols k k' ->
  storage_cols (fold_left (below_z0_step ex len c0 fa cells) l k) (fold_left (below_z0_step ex' len c0 fa' cells) l k').
Proof.
  induction l as [|dz l IH]; intros k k' H; [exact H|]. cbn [fold_left]. apply IH. unfold storage_cols, below_z0_step in *.
  cbn [k_z k_tw k_fw k_wet k_flow k_fvol k_tvol length]. destruct H as (-> & -> & -> & -> & -> & -> & ->). repeat split.
Qed.
Lemma finish_other ex ex' len c0 cells cl0 cl w tv fl fl' fv fv' : length fv = length fv' -> length fl = length fl' ->
  storage_part (finish ex len c0 cells cl0 (compute_css_above_z0 len cl w fl tv fv))
               (finish ex' len c0 cells cl0 (compute_css_above_z0 len cl w fl' tv fv')).
Proof.
  intros L1 L2.
  set (k0 := compute_css_above_z0 len cl w fl tv fv). set (k0' := compute_css_above_z0 len cl w fl' tv fv').
  assert (SC : storage_cols k0 k0').
  { unfold storage_cols, k0, k0', compute_css_above_z0. cbn [k_z k_tw k_fw k_wet k_flow k_fvol k_tvol].
    rewrite !envelope_length, !map_length. auto 8. }
  clearbody k0 k0'. unfold finish, extend_css_below_z0.
  assert (EZ : k_z k0 = k_z k0') by (destruct SC as (-> & _); reflexivity). rewrite EZ.
  generalize (linspace10 (nsub (hd NaN (k_z k0')) (nsub (hd NaN (k_z k0')) c0))). intro l.
  pose proof (below_other ex ex' len (hd NaN (k_z k0')) (hd NaN (k_flow k0)) (hd NaN (k_flow k0')) cells l k0 k0' SC) as SK.
  match type of SK with storage_cols ?a ?b => generalize dependent a; generalize dependent b end. intros k2 k1 SK.
  unfold storage_part. cbn [g_cols g_tvol1d g_fvol1d g_z_roughness]. split; [exact SK|].
  destruct SK as (Z1 & Z2 & _ & _ & Z5 & _). rewrite Z1, Z2. split; [reflexivity|]. split; [|reflexivity].
  unfold css_volume. cbn [length]. rewrite !map_length. f_equal. apply cumtrapz_length. exact Z5.
Qed.
Lemma geometry_other_conveyance smooth mean p method ab re ex len centre cells :
  both storage_part (build_geometry smooth mean p len centre cells)
    (build_geometry smooth mean (mkParams (gp_skip p) (gp_lake p) method ab re ex) len centre cells).
Proof.
  unfold build_geometry. cbn [gp_skip gp_lake gp_method gp_abs gp_rel gp_extrapolate].
  set (level := map (fun c => get_timeseries (gp_skip p) (c_level c)) cells).
  set (depth := map (fun c => get_timeseries (gp_skip p) (c_depth c)) cells).
  set (vel := map (fun c => get_timeseries (gp_skip p) (c_vel c)) cells). clearbody level depth vel. cbv zeta.
  destruct (fill_centre_level _ _) as [cl0|]; [|reflexivity]. cbn [bind].
  destruct (identify_lakes _ _) as [[[lakes wet] corr]|]; [|reflexivity]. cbn [bind].
  destruct (mask_index _ cl0) as [cl|]; [|reflexivity]. cbn [bind].
  destruct (mask_index _ _) as [tv|]; [|reflexivity]. cbn [bind].
  set (mono := check_monotonicity cl0). set (nt := length (nth centre depth [])).
  set (fm := distinguish_conveyance smooth mean (gp_method p) (gp_abs p) (gp_rel p) nt depth vel).
  set (fm' := distinguish_conveyance smooth mean method ab re nt depth vel). clearbody fm fm'.
  set (depth2 := map _ (map2 _ depth corr)).
  pose proof (mask_ok_length mono (map (masked_volume cells depth2 fm) (seq 0 nt)) (map (masked_volume cells depth2 fm') (seq 0 nt))
    ltac:(rewrite !map_length; reflexivity)) as L1.
  destruct (mask_index mono (map (masked_volume cells depth2 fm) (seq 0 nt))) as [fv|],
    (mask_index mono (map (masked_volume cells depth2 fm') (seq 0 nt))) as [fv'|]; try contradiction; [|exact L1]. cbn [bind].
  destruct (mask_index mono (map (masked_area cells wet) (seq 0 nt))) as [w|]; [|reflexivity]. cbn [bind].
  pose proof (mask_ok_length mono (map (masked_area cells fm) (seq 0 nt)) (map (masked_area cells fm') (seq 0 nt))
    ltac:(rewrite !map_length; reflexivity)) as L2.
  destruct (mask_index mono (map (masked_area cells fm) (seq 0 nt))) as [fl|],
    (mask_index mono (map (masked_area cells fm') (seq 0 nt))) as [fl'|]; try contradiction; [|exact L2]. cbn [bind both].
  exact (finish_other _ _ _ _ _ _ _ _ _ _ _ _ _ L1 L2).
Qed.
Theorem C121_conveyance_settings_do_not_change_the_storage :
  forall smooth mean correction clean st method ab re ex id len centre nt s cs cs',
    generate_cross_section smooth mean correction clean st id len centre nt s = Ok (Some cs) ->
    generate_cross_section smooth mean correction clean (set_conveyance method ab re ex st) id len centre nt s = Ok (Some cs') ->
    same_but_conveyance cs cs' /\
    (total_first correction -> s_crest cs = s_crest cs' /\ s_extra_total cs = s_extra_total cs' /\ s_base cs = s_base cs').
Proof.
  intros smooth mean correction clean st method ab re ex id len centre nt s cs cs' H H'.
  destruct (css_made _ _ _ _ _ _ _ _ _ _ _ H) as [g [A1 A2 A3 A4 A5 A6 A7 A8 A9 A10]].
  destruct (css_made _ _ _ _ _ _ _ _ _ _ _ H') as [g' [B1 B2 B3 B4 B5 B6 B7 B8 B9 B10]].
  cbn [set_conveyance st_geometry st_minwidth st_points st_correction st_base st_weighing] in *.
  pose proof (geometry_other_conveyance smooth mean (st_geometry st) method ab re ex len centre (M_Pipeline.cells_of s)) as G.
  rewrite A1, B1 in G. cbn [both] in G. pose proof G as G0. destruct G as ((Z1 & Z2 & _ & _ & Z5 & _) & _ & _ & ZR).
  rewrite Z1, Z2 in A2. pose proof (requirements_same (st_minwidth st) (k_z (g_cols g')) (k_tw (g_cols g')) _ _ Z5) as RQ.
  rewrite A2, B2 in RQ. cbn [both] in RQ. pose proof (reduce_same (st_points st) _ _ RQ) as RD. rewrite A3, B3 in RD. cbn [both] in RD.
  destruct RQ as (Q1 & Q2 & _), RD as (D1 & D2 & _). cbn [fst snd] in Q1, Q2, D1, D2.
  rewrite ZR in A5. cbn [gp_skip] in B5. rewrite A5 in B5. injection B5 as E.
  split; [unfold same_but_conveyance; rewrite A9, A10, B9, B10; auto 8|].
  intro TF. pose proof (TF g g' G0) as C.
  assert (PC : fst (perform_correction correction (st_correction st) g len) = fst (perform_correction correction (st_correction st) g' len)).
  { unfold perform_correction. destruct (st_correction st); [|reflexivity].
    destruct (correction g) as [[[c1 t1] f1]|], (correction g') as [[[c2 t2] f2]|]; cbn [res_map fst] in C; try discriminate; [|reflexivity].
    injection C as -> ->. reflexivity. }
  rewrite A4, B4 in PC. cbn [fst] in PC. injection PC as P1 P2. split; [exact P1|]. split; [exact P2|].
  rewrite <- P1 in B7. rewrite A7 in B7. injection B7 as E11. exact E11.
Qed.
Print Assumptions C121_conveyance_settings_do_not_change_the_storage.

(** The smallest width changes widths only, and so which rows are kept. *)
Theorem C121_minimum_width_changes_widths_only :
  forall smooth mean correction clean st w id len centre nt s cs cs',
    generate_cross_section smooth mean correction clean st id len centre nt s = Ok (Some cs) ->
    generate_cross_section smooth mean correction clean (set_minwidth w st) id len centre nt s = Ok (Some cs') ->
    same_but_widths cs cs'.
Proof.
  intros smooth mean correction clean st w id len centre nt s cs cs' H H'.
  destruct (css_made _ _ _ _ _ _ _ _ _ _ _ H) as [g [A1 A2 A3 A4 A5 A6 A7 A8 A9 A10]].
  destruct (css_made _ _ _ _ _ _ _ _ _ _ _ H') as [g' [B1 B2 B3 B4 B5 B6 B7 B8 B9 B10]].
  cbn [set_minwidth st_geometry st_minwidth st_points st_correction st_base st_weighing] in *.
  rewrite A1 in B1. injection B1 as <-. rewrite A4 in B4. injection B4 as E7 E8 E9. rewrite A5 in B5. injection B5 as E12.
  rewrite <- E7 in B7. rewrite A7 in B7. injection B7 as E11.
  unfold check_requirements in A2, B2. destruct (check_remove_duplicate_zeroes _); [|discriminate]. cbn [bind] in A2, B2.
  injection A2 as F1 _ _. injection B2 as F2 _ _. unfold same_but_widths. rewrite A9, A10, B9, B10, <- F1, <- F2. auto 10.
Qed.
Print Assumptions C121_minimum_width_changes_widths_only.

(** ** Case *)

(** The ten faces of C80 with other settings. *)
Definition case_with (correction : M_Geometry.geometry -> res (num * num * num)) (change : settings -> settings) : res (option M_Pipeline.css) :=
  cross_section_of first_nearest (fun _ _ => false) (fun _ _ => false) (fun x => x) (fun x => x) (fun _ _ => Fin 0)
    correction (fun x => x) (fun _ => None) (T "map.nc") (0, 0)%Z
    (Ok (mk_columns [(0, 0)] [T "a"] [T "r"] [1] [0])) VNull (VStr (T "main")) None None (change example_settings) (T "a") (Fin 10) 0 3 ten_faces.
Definition dike_at_5 (_ : M_Geometry.geometry) : res (num * num * num) := Ok (Fin 5, Fin 100, Fin 50).
Definition rows (r : res (option M_Pipeline.css)) : nat := ask (fun c => length (M_Pipeline.s_z c)) 0%nat r.
Theorem C121_case :
  rows (case_with dike_at_5 (fun st => st)) = 5%nat /\ rows (case_with dike_at_5 (set_points 3)) = 3%nat /\
  rows (case_with dike_at_5 (set_points (-20))) = 0%nat /\
  case_with dike_at_5 (set_points 1) = Raise IndexError /\
  ask s_crest NaN (case_with dike_at_5 (set_correction true)) = Fin 5 /\
  ask s_crest NaN (case_with dike_at_5 (set_correction false)) = Fin 0 /\
  neqb (ask (fun c => last (s_fw c) NaN) NaN (case_with dike_at_5 (set_conveyance 1 (Fin 2) (Fin 2) false))) (Fin (2012 # 1000)) = true.
Proof. repeat split; vm_compute; reflexivity. Qed.
Print Assumptions C121_case.
