(** Theorems for C80 (from the 2D data of a control volume to a valid
    cross-section) and C81 (the files with the faces and the links). *)
From Coq Require Import String List Ascii ZArith QArith Qround Qabs Bool Lia Lqa.
From Verif Require Import PyBase Num Spec L_Num L_List Text L_Text Fixed M_Friction T_Friction M_Cli M_Import
  M_Geometry L_Profile L_Cells T_Require T_Profile T_Cells T_Centre T_Geometry M_Simplify T_Simplify
  M_Sections T_Sections M_Pipeline.
Import ListNotations.
Local Open Scope Q_scope.

(** * Section widths: the two models agree on finite numbers *)

Definition lift (w : widths) : nwidths := mk_nwidths (Fin (w_main w)) (Fin (w_fp1 w)) (Fin (w_fp2 w)).

Lemma fold_nadd_fin l : forall a, fold_left nadd (map Fin l) (Fin a) = Fin (fold_left Qplus l a).
Proof. induction l as [|x l IH]; intro a; cbn [map fold_left]; [reflexivity|apply IH]. Qed.
Lemma nansum_fin l : nansum (map Fin l) = Fin (sumQ l).
Proof.
  unfold nansum. replace (filter (fun x => negb (isnan x)) (map Fin l)) with (map Fin l).
  - apply fold_nadd_fin.
  - induction l as [|x l IH]; cbn; congruence.
Qed.
Lemma select_fin mask : forall l, select mask (map Fin l) = map Fin (select mask l).
Proof. induction mask as [|[] m IH]; intros [|x l]; cbn; auto. rewrite IH. auto. Qed.
Lemma py_index_map {A B} (f : A -> B) l k : py_index (map f l) k = res_map f (py_index l k).
Proof.
  unfold py_index. cbv zeta. rewrite map_length, nth_error_map.
  destruct (_ <? 0)%Z; auto; destruct (nth_error l _); reflexivity.
Qed.

Lemma nsection_widths_fin len area section fw cfw : ~ len == 0 ->
  nsection_widths (Fin len) (map Fin area) section (map Fin fw) (map Fin cfw)
  = res_map lift (compute_section_widths len area section fw cfw).
Proof.
  intro N. unfold nsection_widths, compute_section_widths, section_area.
  assert (P : forall k, mask_index (map (label_is k) section) (map Fin area)
                        = res_map (map Fin) (mask_index (map (label_is k) section) area)).
  { intro k. unfold mask_index. rewrite !map_length.
    destruct (Nat.eqb (length section) (length area)); [|reflexivity].
    cbn [res_map]. rewrite select_fin. reflexivity. }
  rewrite !P. cbv zeta.
  destruct (mask_index (map (label_is M_Sections.NODATA) section) area) as [u|]; [|reflexivity].
  destruct (mask_index (map (label_is 1) section) area) as [a1|]; [|reflexivity].
  destruct (mask_index (map (label_is 2) section) area) as [a2|]; [|reflexivity].
  destruct (mask_index (map (label_is 3) section) area) as [a3|]; [|reflexivity].
  cbn [res_map bind]. rewrite !nansum_fin. unfold npsum. rewrite fold_nadd_fin.
  change (fold_left Qplus u 0) with (sumQ u). cbn [nadd].
  assert (D : forall a, ndiv (Fin a) (Fin len) = Fin (a / len)).
  { intro a. cbn. destruct (Qeq_bool len 0) eqn:E; [apply Qeq_bool_eq in E; contradiction|auto]. }
  rewrite !D. unfold check_flow_width, check_minimum_width. rewrite !py_index_map.
  destruct (py_index fw (-1)) as [lf|]; [|reflexivity]. cbn [res_map bind nadd nsub nneg nltb w_main w_fp1 w_fp2].
  set (M := (sumQ a1 + sumQ u) / len). set (F1 := sumQ a2 / len). set (F2 := sumQ a3 / len).
  unfold Qminus. destruct (Qltb 0 (lf + - (0 + M + F1 + F2))); cbn [bind w_main w_fp1 w_fp2];
    (destruct (py_index cfw 0) as [ff|]; [|reflexivity]); cbn [res_map bind nadd nneg nmul py_floor nsub];
    unfold Qminus; match goal with |- context [Qltb ?x 0] => destruct (Qltb x 0); reflexivity end.
Qed.

(** * The 2D data of a control volume *)

(** The selection holds the data of these faces, one row each. *)
Definition describes (s : selection) (faces : list face) : Prop :=
  s_area s = map (fun f => Fin (f_area f)) faces /\ s_bed s = map (fun f => Fin (f_bed f)) faces /\
  s_depth s = map (fun f => map Fin (f_depth f)) faces /\ s_level s = map f_level faces /\
  s_vel s = map (fun f => map Fin (f_vel f)) faces /\ s_section s = map f_section faces /\
  length (s_x s) = length faces.

Lemma map_nth_seq {A B} (f : A -> B) d l :
  map (fun i => nth i (map f l) d) (seq 0 (length l)) = map f l.
Proof.
  induction l as [|x l IH]; [reflexivity|]. cbn [length seq map nth]. f_equal.
  rewrite <- seq_shift, map_map. exact IH.
Qed.

Lemma cells_of_faces s faces : describes s faces -> cells_of s = map cell_of faces.
Proof.
  intros (A & B & D & L & V & S & _). unfold cells_of. rewrite A, B, D, L, V, S, map_length.
  clear. induction faces as [|f faces IH]; [reflexivity|]. cbn [length seq map nth]. f_equal.
  rewrite <- seq_shift, map_map. exact IH.
Qed.

Lemma finite_column (l : list num) (a : list Q) n m : length l = (n + m)%nat ->
  firstn n l = map Fin a -> (forall j, (j < m)%nat -> exists q, nth_error l (n + j) = Some (Fin q)) ->
  exists q, l = map Fin (a ++ q) /\ length q = m.
Proof.
  intros L F H. rewrite <- (firstn_skipn n l), F.
  assert (E : exists q, skipn n l = map Fin q /\ length q = m).
  { assert (Ls : length (skipn n l) = m) by (rewrite skipn_length; lia).
    assert (Hs : forall j, (j < m)%nat -> exists q, nth_error (skipn n l) j = Some (Fin q)).
    { intros j Hj. destruct (H j Hj) as [q E]. exists q. rewrite <- E.
      rewrite <- (firstn_skipn n l) at 2. rewrite nth_error_app2; rewrite firstn_length_le by lia; [f_equal; lia|lia]. }
    clear - Ls Hs. revert m Ls Hs. induction (skipn n l) as [|x r IH]; intros m Ls Hs.
    - exists []. cbn in *. auto.
    - destruct m as [|m]; [discriminate|]. destruct (Hs 0%nat) as [q Eq]; [lia|]. cbn in Eq. injection Eq as ->.
      destruct (IH m) as (qs & -> & Lq); [cbn in Ls; lia| |].
      + intros j Hj. apply (Hs (S j)). lia.
      + exists (q :: qs). cbn. auto. }
  destruct E as (q & -> & Lq). exists q. rewrite map_app. auto.
Qed.

(** What is required of a cross-section that is made with the settings [st] from
    [faces], with the levels [zc] at the centre. *)
Definition valid_css (st : settings) (minw tol len : Q) (s : selection) (faces : list face) (zc : list Q)
    (c : css) : Prop :=
  exists z tw fw z1 tw1 fw1 w crest base,
    (* the columns form a valid table *)
    s_z c = map Fin z /\ s_tw c = map Fin tw /\ s_fw c = map Fin fw /\
    strictly_increasing z /\ strictly_increasing tw /\ strictly_increasing fw /\
    Forall (fun x => minw <= x) tw /\ Forall (fun x => minw <= x) fw /\ rowwise Qle fw tw /\
    length tw = length z /\ length fw = length z /\ (2 <= length z)%nat /\
    (Z.of_nat (length z) <= st_points st)%Z /\
    (* they are rows of the full columns, with the first and the last row *)
    s_css_z c = map Fin z1 /\ s_css_tw c = map Fin tw1 /\ s_css_fw c = map Fin fw1 /\
    subsequence (combine z (combine tw fw)) (combine z1 (combine tw1 fw1)) /\
    hd_error z = hd_error z1 /\ hd_error tw = hd_error tw1 /\ hd_error fw = hd_error fw1 /\
    last z 0 = last z1 0 /\ last tw 0 = last tw1 0 /\ last fw 0 = last fw1 0 /\
    (* the sections are as wide as the flow *)
    s_widths c = lift w /\ last fw 0 <= total w /\ hd 0 fw + (1 # 10) <= w_main w /\
    (Forall known_label (map section_of (s_section s)) ->
       (last fw 0 <= Qsum (map f_area faces) / len -> total w == Qsum (map f_area faces) / len) /\
       (Qsum (map f_area faces) / len <= last fw 0 -> total w == last fw 0)) /\
    (* the base of the floodplain is below the crest *)
    s_crest c = Fin crest /\ s_base c = Fin base /\ base <= crest - tol /\
    (* a friction table for every section of the links, on the levels of the centre *)
    (forall n, (exists t, assoc n (s_tables c) = Some t) <-> In n (map string_of_list_ascii (s_edge_section s))) /\
    (forall n t, assoc n (s_tables c) = Some t -> level t = map Fin zc /\ length (friction t) = length zc).

Section C80.
  Variables (smooth : list (list num) -> list (list num)) (mean : list (list num) -> nat -> num).
  Variable correction : geometry -> res (num * num * num).
  Variable clean : num -> num.

  (** The columns of build_geometry are finite and have an entry that is not zero. *)
  Lemma geometry_is_finite (s L nt centre : nat) method (abs_thr rel_thr len : Q) ex faces f0 zc :
    method <> 0%Z -> 0 < len ->
    Forall (face_ok nt) faces -> Forall (fun f => 0 <= f_area f) faces ->
    (s < nt)%nat -> (L < nt - s)%nat ->
    nth_error faces centre = Some f0 ->
    fill_centre_level (map Fin (skipn s (f_depth f0))) (skipn s (f_level f0)) = Ok (map Fin zc) ->
    (exists t f, (t < nt - s)%nat /\ (forall u, (u < t)%nat -> nth u zc 0 < nth t zc 0) /\
                 In f faces /\ activeb s L t f = true /\ 0 < f_area f) ->
    exists g z tw fw,
      build_geometry smooth mean (mkParams (Z.of_nat s) (Z.of_nat L) method (Fin abs_thr) (Fin rel_thr) ex)
        (Fin len) centre (map cell_of faces) = Ok g /\
      k_z (g_cols g) = map Fin z /\ k_tw (g_cols g) = map Fin tw /\ k_fw (g_cols g) = map Fin fw /\
      length tw = length z /\ length fw = length z /\ g_z_roughness g = map Fin zc /\
      (exists w, In w tw /\ ~ w == 0) /\
      (10 < length z)%nat.
  Proof.
    intros Hm Hlen Hok Ha Hs HL Hc Hz (t & f & Ht & Hrec & Hf & Hact & Hpos).
    destruct (C61_rows_when_the_centre_falls_dry smooth mean s L nt centre method abs_thr rel_thr len ex
      faces f0 zc Hm Hlen Hok Ha Hs HL Hc Hz)
      as (g & steps & top & Hg & _ & Hsteps & _ & Hrows & (raw & w & Hw & Rr & _ & Rw & _) & Hbelow & Hlz & _ & _ & Hzr & _).
    destruct Hbelow as (zs & ts & fs & Ez & Et & Ef & Lz & Lt & Lf & _).
    destruct (C06_columns_aligned _ _ _ _ _ _ _ Hg) as (n & _ & N1 & N2 & N3 & _).
    assert (Nn : n = (10 + length steps)%nat) by congruence. rewrite Nn in N1, N2, N3.
    destruct (finite_column (k_z (g_cols g)) zs 10 (length steps)) as (zq & Kz & Lzq); try congruence.
    { intros j Hj. destruct (nth_error steps j) as [u|] eqn:E; [|apply nth_error_None in E; lia].
      destruct (Hrows j u E) as (A & F & V & W & Rz & _). eauto. }
    destruct (finite_column (k_tw (g_cols g)) ts 10 (length steps)) as (tq & Kt & Ltq); try congruence.
    { intros j Hj. destruct (nth_error steps j) as [u|] eqn:E; [|apply nth_error_None in E; lia].
      destruct (Hrows j u E) as (A & F & V & W & _ & _ & _ & Rt & _). eauto. }
    exists g, (zs ++ zq), (ts ++ tq), (fs ++ w).
    assert (Kf : k_fw (g_cols g) = map Fin (fs ++ w)).
    { rewrite <- (firstn_skipn 10 (k_fw (g_cols g))), Ef, Hw, map_app. auto. }
    split; [exact Hg|]. split; [exact Kz|]. split; [exact Kt|]. split; [exact Kf|].
    rewrite Kz, map_length in N1. rewrite Kt, map_length in N2. rewrite Kf, map_length in N3.
    split; [congruence|]. split; [congruence|]. split; [exact Hzr|].
    assert (I : In t steps) by (apply Hsteps; auto).
    split.
    - apply In_nth_error in I. destruct I as [j Ej].
      destruct (Hrows j t Ej) as (A & F & V & W & _ & _ & EA & Rt & _).
      exists (A / len). split.
      + rewrite Kt in Rt. rewrite nth_error_map in Rt.
        destruct (nth_error (ts ++ tq) (10 + j)) as [q|] eqn:Eq; [|discriminate].
        cbn in Rt. injection Rt as Rt. rewrite <- Rt. eapply nth_error_In; eauto.
      + intro E0.
        assert (P : 0 < A).
        { rewrite EA. clear - Hf Hact Hpos Ha. unfold Qsum_if.
          induction faces as [|x l IH]; [destruct Hf|]. inversion Ha as [|? ? Hx Hl]; subst.
          assert (G : 0 <= Qsum (map f_area (filter (activeb s L t) l))).
          { clear - Hl. induction l as [|y l IH]; cbn; [lra|]. inversion Hl; subst.
            destruct (activeb s L t y); cbn; [|auto]. specialize (IH H2). unfold Qsum in IH. lra. }
          cbn [filter]. destruct Hf as [->|Hf].
          - rewrite Hact. cbn [map]. unfold Qsum in *. cbn [fold_right]. lra.
          - specialize (IH Hl Hf). destruct (activeb s L t x); cbn [map]; auto.
            unfold Qsum in *. cbn [fold_right]. lra. }
        assert (0 < A / len) by (apply Qlt_shift_div_l; lra). lra.
    - assert (0 < length steps)%nat by (destruct steps; [destruct I|cbn; lia]). lia.
  Qed.

  (** C80.  [st]'s parameters are as in the configuration file; [faces] is the
      data of the control volume; [zc] are the levels at its centre. *)
  Theorem C80_generated_cross_section_is_valid :
    forall (st : settings) (name : text) (sk L nt centre : nat) (method : Z) (abs_thr rel_thr len minw tol : Q)
           (ex : bool) (s : selection) (faces : list face) (f0 : face) (zc : list Q),
      st_geometry st = mkParams (Z.of_nat sk) (Z.of_nat L) method (Fin abs_thr) (Fin rel_thr) ex ->
      st_minwidth st = Fin minw -> st_base st = Fin tol -> (2 <= st_points st)%Z -> st_weighing st = 0%Z ->
      method <> 0%Z -> 0 < len -> (sk < nt)%nat -> (L < nt - sk)%nat ->
      describes s faces -> (10 <= length faces)%nat ->
      Forall (face_ok nt) faces -> Forall (fun f => 0 <= f_area f) faces ->
      nth_error faces centre = Some f0 ->
      fill_centre_level (map Fin (skipn sk (f_depth f0))) (skipn sk (f_level f0)) = Ok (map Fin zc) ->
      well_formed (links_of nt s) ->
      (forall g crest total flow, correction g = Ok (crest, total, flow) -> exists q, crest = Fin q) ->
      (* a face of the volume is wet at some retained time step *)
      (exists t f, (t < nt - sk)%nat /\ (forall u, (u < t)%nat -> nth u zc 0 < nth t zc 0) /\
                   In f faces /\ activeb sk L t f = true /\ 0 < f_area f) ->
      exists c,
        generate_cross_section smooth mean correction clean st name (Fin len) centre nt s = Ok (Some c) /\
        s_name c = name /\ valid_css st minw tol len s faces zc c.
  Proof.
    intros st name sk L nt centre method abs_thr rel_thr len minw tol ex s faces f0 zc
      Eg Em Eb Hp Ew Hm Hlen Hs HL D H10 Hok Ha Hc Hz Hwf Hcorr Hwet.
    destruct (geometry_is_finite sk L nt centre method abs_thr rel_thr len ex faces f0 zc
                Hm Hlen Hok Ha Hs HL Hc Hz Hwet)
      as (g & z0 & tw0 & fw0 & Hg & Kz & Kt & Kf & Lt & Lf & Hzr & Hnz & Hl10).
    destruct (C11_checked_and_reduced_table_is_valid (st_points st) minw z0 tw0 fw0 Hp Lt Lf Hnz)
      as (z1 & tw1 & fw1 & z & tw & fw & EC & ER & Hn & S1 & S2 & S3 & M1 & M2 & RW & L2 & L3).
    assert (C01 := C01_requirements_establish_valid_table minw z0 tw0 fw0 Lt Lf Hnz).
    destruct C01 as (z1' & tw1' & fw1' & EC' & _ & _ & _ & _ & _ & _ & LL1 & LL2 & LL3).
    rewrite EC in EC'. injection EC' as A1 A2 A3. apply map_Fin_inj in A1, A2, A3. subst z1' tw1' fw1'.
    destruct (C11_reduction_keeps_sub_profile (st_points st) z1 tw1 fw1 Hp) as (z' & tw' & fw' & ER' & _ & _ & Sub & Same & Red);
      [congruence|congruence|].
    rewrite ER in ER'. injection ER' as A1 A2 A3. apply map_Fin_inj in A1, A2, A3. subst z' tw' fw'.
    assert (Ends : (2 <= length z)%nat /\ hd_error z = hd_error z1 /\ hd_error tw = hd_error tw1 /\ hd_error fw = hd_error fw1 /\
        last z 0 = last z1 0 /\ last tw 0 = last tw1 0 /\ last fw 0 = last fw1 0).
    { destruct (Z.lt_ge_cases (st_points st) (Z.of_nat (length z1))) as [Q1|Q1].
      - destruct (Red Q1) as (B & B1 & B2 & B3 & B4 & B5 & B6). repeat split; auto. lia.
      - destruct (Same Q1) as (-> & -> & ->). repeat split; auto. lia. }
    destruct Ends as (N2 & B1 & B2 & B3 & B4 & B5 & B6).
    destruct (exists_last (l := fw)) as (fwi & lastf & Efw); [destruct fw; [cbn in L3; lia|discriminate]|].
    destruct fw1 as [|ff cfw]; [cbn in LL3; lia|].
    destruct D as (D1 & D2 & D3 & D4 & D5 & D6 & D7).
    assert (Dall : describes s faces) by (repeat split; assumption).
    assert (Larea : length (map section_of (map f_section faces)) = length (map f_area faces)) by (rewrite !map_length; auto).
    assert (Lbed : length (map section_of (map f_section faces)) = length (map f_bed faces)) by (rewrite !map_length; auto).
    (* section widths *)
    assert (W : exists w, compute_section_widths len (map f_area faces) (map section_of (map f_section faces)) fw (ff :: cfw) = Ok w /\
        last fw 0 <= total w /\ hd 0 fw + (1 # 10) <= w_main w).
    { unfold compute_section_widths.
      destruct (section_area_spec NODATA _ _ Larea) as (a0 & -> & _).
      destruct (section_area_spec 1 _ _ Larea) as (a1 & -> & _).
      destruct (section_area_spec 2 _ _ Larea) as (a2 & -> & _).
      destruct (section_area_spec 3 _ _ Larea) as (a3 & -> & _). cbn [bind].
      destruct (C16_section_widths_add_up fwi lastf ff cfw
        {| w_main := (a1 + a0) / len; w_fp1 := a2 / len; w_fp2 := a3 / len |}) as (w & P1 & _ & P2 & _ & P3 & _).
      exists w. unfold section_checks in P1. rewrite Efw at 1. split; [exact P1|].
      rewrite Efw, last_last. split; [exact P2|].
      cbn [hd_error] in B3. rewrite <- Efw. destruct fw as [|x fw]; [discriminate|]. cbn in B3. injection B3 as ->. exact P3. }
    destruct W as (w & W1 & W2 & W3).
    assert (W4 : Forall known_label (map section_of (map f_section faces)) ->
        (last fw 0 <= Qsum (map f_area faces) / len -> total w == Qsum (map f_area faces) / len) /\
        (Qsum (map f_area faces) / len <= last fw 0 -> total w == last fw 0)).
    { intro K. destruct (C17_section_widths_follow_cells len _ _ fwi lastf ff cfw Hlen Larea K) as (w' & P1 & P2 & P3 & _).
      rewrite <- Efw, W1 in P1. injection P1 as <-. rewrite Efw, last_last. auto. }
    (* friction *)
    assert (Lzc : length zc = (nt - sk)%nat).
    { apply fill_centre_length in Hz. rewrite map_length, skipn_length in Hz.
      rewrite Forall_forall in Hok. destruct (Hok f0 (nth_error_In _ _ Hc)) as (_ & E & _). lia. }
    destruct (C19_friction_is_mean_of_nonzero num sk (map Fin zc) (links_of nt s) Hwf) as (tabs & T1 & T2 & T3 & _);
      [rewrite map_length; exact Lzc|].
    (* correction *)
    assert (SD : exists crest t f, perform_correction correction (st_correction st) g (Fin len) = (Fin crest, t, f)).
    { unfold perform_correction. destruct (st_correction st); [|eauto].
      destruct (correction g) as [[[a b] d]|] eqn:E; [|eauto]. destruct (Hcorr _ _ _ _ E) as [q ->]. eauto. }
    destruct SD as (crest & et & ef & SD).
    destruct (C18_floodplain_base_below_crest crest tol (map f_bed faces) (map section_of (map f_section faces)) Lbed)
      as (base & Bs1 & Bs2 & _).
    eexists. split; [|split].
    - unfold generate_cross_section. rewrite (proj2 (Nat.ltb_ge _ _)) by (rewrite D7; lia).
      unfold build_cross_section_geometry. rewrite (cells_of_faces s faces Dall), Eg, Hg. cbn [bind].
      rewrite SD, Em, Kz, Kt, Kf, EC. cbn [bind]. unfold reduce_css_points. rewrite ER. cbn [bind gp_skip].
      rewrite Hzr, Ew, T1. cbn [bind]. rewrite D1, D2, D6.
      replace (map (fun f => Fin (f_area f)) faces) with (map Fin (map f_area faces)) by apply map_map.
      replace (map (fun f => Fin (f_bed f)) faces) with (map Fin (map f_bed faces)) by apply map_map.
      rewrite nsection_widths_fin by lra. rewrite W1. cbn [bind res_map].
      rewrite Eb, Bs1. cbn [bind]. reflexivity.
    - reflexivity.
    - exists z, tw, fw, z1, tw1, (ff :: cfw), w, crest, base. cbn [s_name s_z s_tw s_fw s_css_z s_css_tw s_css_fw s_widths s_crest s_base s_tables].
      rewrite D6. repeat (split; [first [reflexivity|assumption|lia]|]).
      intros n t E. destruct (T3 n t E) as [Q1 Q2]. rewrite map_length in Q2. auto.
  Qed.
End C80.
Print Assumptions C80_generated_cross_section_is_valid.

(** Fewer than ten faces: no cross-section. *)
Theorem C80_small_control_volume_is_left_out :
  forall smooth mean correction clean st name len centre nt s, (length (s_x s) < 10)%nat ->
    generate_cross_section smooth mean correction clean st name len centre nt s = Ok None.
Proof. intros. unfold generate_cross_section. rewrite (proj2 (Nat.ltb_lt _ _)); auto. Qed.
Print Assumptions C80_small_control_volume_is_left_out.

(** A control volume of ten faces or more that stays dry, or whose water is a
    lake at rest, stops the program. *)
Theorem C80_dry_control_volume_refuted :
  forall smooth mean correction clean (st : settings) (name : text) (sk L nt centre : nat) (method : Z)
         (abs_thr rel_thr len : Q) (ex : bool) (s : selection) (faces : list face) (f0 : face) (zc : list Q),
    st_geometry st = mkParams (Z.of_nat sk) (Z.of_nat L) method (Fin abs_thr) (Fin rel_thr) ex ->
    method <> 0%Z -> 0 < len -> (sk < nt)%nat -> (L < nt - sk)%nat ->
    describes s faces -> (10 <= length faces)%nat ->
    Forall (face_ok nt) faces -> Forall (fun f => 0 <= f_area f) faces ->
    nth_error faces centre = Some f0 ->
    fill_centre_level (map Fin (skipn sk (f_depth f0))) (skipn sk (f_level f0)) = Ok (map Fin zc) ->
    (forall t f, (t < nt - sk)%nat -> In f faces -> activeb sk L t f = false) ->
    generate_cross_section smooth mean correction clean st name (Fin len) centre nt s = Raise IndexError.
Proof.
  intros smooth mean correction clean st name s L nt centre method abs_thr rel_thr len ex sel faces f0 zc
    Eg Hm Hlen Hs HL D H10 Hok Ha Hc Hz Hdry.
  destruct (C61_rows_when_the_centre_falls_dry smooth mean s L nt centre method abs_thr rel_thr len ex
    faces f0 zc Hm Hlen Hok Ha Hs HL Hc Hz)
    as (g & steps & top & Hg & _ & Hsteps & _ & Hrows & _ & Hbelow & Hlz & _).
  destruct Hbelow as (zs & ts & fs & Ez & Et & Ef & Lz & Lt & Lf & _ & _ & _ & _ & Hb).
  destruct (C06_columns_aligned _ _ _ _ _ _ _ Hg) as (n & _ & N1 & N2 & N3 & _).
  assert (Nn : n = (10 + length steps)%nat) by congruence. rewrite Nn in N1, N2, N3.
  assert (Z0 : forall p t, (forall f, In f faces -> p f = true -> activeb s L t f = true) -> (t < nt - s)%nat ->
             Qsum_if f_area p faces == 0).
  { intros p t Hp Ht. unfold Qsum_if. replace (filter p faces) with (@nil face); [reflexivity|].
    symmetry. specialize (Hdry t). clear - Hp Ht Hdry. induction faces as [|f l IH]; [reflexivity|].
    cbn [filter]. destruct (p f) eqn:E.
    - specialize (Hp f (or_introl eq_refl) E). rewrite (Hdry f Ht (or_introl eq_refl)) in Hp. discriminate.
    - apply IH; intros; [apply Hdry|apply Hp]; auto; right; auto. }
  assert (T0 : exists tw, k_tw (g_cols g) = map Fin tw /\ Forall (fun w => w == 0) tw).
  { exists (map (fun x => match x with Fin q => q | _ => 0 end) (k_tw (g_cols g))).
    assert (A : forall j v, nth_error (k_tw (g_cols g)) j = Some v -> exists q, v = Fin q /\ q == 0).
    { intros j v E. destruct (Nat.lt_ge_cases j 10) as [Hj|Hj].
      - assert (E' : nth_error (firstn 10 (k_tw (g_cols g))) j = Some v).
        { rewrite <- E. rewrite <- (firstn_skipn 10 (k_tw (g_cols g))) at 2.
          rewrite nth_error_app1; auto. rewrite firstn_length_le; lia. }
        rewrite Et, nth_error_map in E'. destruct (nth_error ts j) as [w|] eqn:Ew; [|discriminate].
        cbn in E'. injection E' as <-. exists w. split; auto.
        destruct (nth_error zs j) as [zz|] eqn:Ezz; [|apply nth_error_None in Ezz; lia].
        destruct (Hb j zz w Ezz Ew) as [_ ->]. rewrite (Z0 _ 0%nat); [unfold Qdiv; lra| |lia].
        intros f _ Hf. apply andb_true_iff in Hf. apply Hf.
      - destruct (nth_error steps (j - 10)) as [t|] eqn:Es.
        + destruct (Hrows _ t Es) as (A & F & V & W & _ & _ & EA & Rt & _).
          replace (10 + (j - 10))%nat with j in Rt by lia. rewrite E in Rt. injection Rt as ->.
          exists (A / len). split; auto. rewrite EA, (Z0 _ t); [unfold Qdiv; lra|auto|].
          apply nth_error_In in Es. apply Hsteps in Es. apply Es.
        + apply nth_error_None in Es. assert (j < length (k_tw (g_cols g)))%nat by (apply nth_error_Some; congruence). lia. }
    clear - A. induction (k_tw (g_cols g)) as [|x l IH]; cbn; [auto|].
    destruct (A 0%nat x eq_refl) as (q & -> & Eq). destruct IH as [E F]; [intros j v Ej; apply (A (S j) v Ej)|].
    split; [f_equal; exact E|constructor; auto]. }
  destruct T0 as (tw & Etw & Ftw).
  assert (Dall := D). destruct D as (_ & _ & _ & _ & _ & _ & D7).
  unfold generate_cross_section. rewrite (proj2 (Nat.ltb_ge _ _)) by (rewrite D7; lia).
  unfold build_cross_section_geometry. rewrite (cells_of_faces sel faces Dall), Eg, Hg. cbn [bind].
  rewrite Etw, C01_all_zero_widths_raise; auto.
Qed.
Print Assumptions C80_dry_control_volume_refuted.

(** With the area weighing no cross-section with links is generated, whatever
    its geometry. *)
Theorem C80_area_weighing_refuted :
  forall smooth mean correction clean st name len centre nt s r,
    (10 <= length (s_x s))%nat ->
    build_cross_section_geometry smooth mean correction st len centre (cells_of s) = Ok r ->
    st_weighing st = 1%Z -> well_formed (links_of nt s) ->
    length (edge_faces (links_of nt s)) = length (s_edge_section s) -> s_edge_section s <> [] ->
    generate_cross_section smooth mean correction clean st name len centre nt s = Raise AttributeError.
Proof.
  intros smooth mean correction clean st name len centre nt s [[[g [[a b] c]] [[z1 z2] z3]] [[z4 z5] z6]] H10 Hg Hw Wf HF Hne.
  unfold generate_cross_section. rewrite (proj2 (Nat.ltb_ge _ _)) by lia. rewrite Hg. cbn [bind].
  rewrite Hw, C19_area_weighing_always_fails; auto.
  - rewrite HF. cbn [links_of edge_section]. rewrite map_length. reflexivity.
  - cbn [links_of edge_section]. intro E. apply map_eq_nil in E. contradiction.
Qed.
Print Assumptions C80_area_weighing_refuted.

(** * The files with the faces and the links *)

Lemma points_until_all {P} (make : nat -> res (mask_point num P)) is ps :
  map make is = map Ok ps -> points_until make is = ps.
Proof.
  revert ps. induction is as [|i is IH]; intros [|p ps] H; try discriminate; [reflexivity|].
  cbn in H. injection H as E H. cbn [points_until]. rewrite E, (IH ps H). reflexivity.
Qed.

Lemma item_nth {A} (l : list A) i d : (i < length l)%nat -> item l i = Ok (nth i l d).
Proof.
  intro H. unfold item, py_index. destruct (Z.ltb_spec (Z.of_nat i) 0); [lia|]. cbv zeta.
  destruct (Z.ltb_spec (Z.of_nat i) 0); [lia|]. rewrite Nat2Z.id, (nth_error_nth' l d H). reflexivity.
Qed.

(** The columns of the faces, and of the links, are equally long. *)
Definition face_columns (s : selection) (n : nat) : Prop :=
  length (s_x s) = n /\ length (s_y s) = n /\ length (s_islake s) = n /\ length (s_bed s) = n /\
  length (s_region s) = n /\ length (s_section s) = n.
Definition link_columns (s : selection) (n : nat) : Prop :=
  length (s_edge_x s) = n /\ length (s_edge_y s) = n /\ length (s_edge_section s) = n.

(** The point of face [i] and of link [i]. *)
Definition face_point (clean : num -> num) (name : text) (s : selection) (i : nat) : mask_point num face_props :=
  mk_mask [clean (nth i (s_x s) NaN); clean (nth i (s_y s) NaN)]
    (mk_face_props name (nth i (s_islake s) false) (nth i (s_bed s) NaN) (nth i (s_region s) [])
       (nth i (s_section s) (M_Geometry.LInt 0))).
Definition link_point (clean : num -> num) (name : text) (s : selection) (i : nat) : mask_point num link_props :=
  mk_mask [clean (nth i (s_edge_x s) NaN); clean (nth i (s_edge_y s) NaN)]
    (mk_link_props name (nth i (s_edge_section s) [])).

(** C81.  One point per face and per link, in order, with its data. *)
Theorem C81_points_of_a_cross_section :
  forall smooth mean correction clean st name len centre nt s c nf nl,
    face_columns s nf -> link_columns s nl ->
    generate_cross_section smooth mean correction clean st name len centre nt s = Ok (Some c) ->
    s_faces c = map (face_point clean name s) (seq 0 nf) /\
    s_links c = map (link_point clean name s) (seq 0 nl).
Proof.
  intros smooth mean correction clean st name len centre nt s c nf nl
    (A1 & A2 & A3 & A4 & A5 & A6) (B1 & B2 & B3) H.
  unfold generate_cross_section in H. destruct (Nat.ltb _ _); [discriminate|].
  destruct (build_cross_section_geometry _ _ _ _ _ _ _) as [[[[g [[c1 c2] c3]] [[z1 z2] z3]] [[z4 z5] z6]]|]; [|discriminate].
  cbn [bind] in H.
  destruct (build_roughness_tables _ _ _ _) as [tabs|]; [|discriminate]. cbn [bind] in H.
  destruct (nsection_widths _ _ _ _ _) as [w|]; [|discriminate]. cbn [bind] in H.
  destruct (compute_floodplain_base _ _ _ _) as [b|]; [|discriminate]. cbn [bind] in H.
  injection H as <-. cbn [s_faces s_links]. split.
  - unfold face_output_list. rewrite A1. apply points_until_all. rewrite map_map.
    apply map_ext_in. intros i Hi. apply in_seq in Hi.
    rewrite (item_nth _ _ false), (item_nth _ _ NaN), (item_nth (s_region s) _ []),
      (item_nth (s_section s) _ (M_Geometry.LInt 0)), (item_nth (s_x s) _ NaN), (item_nth (s_y s) _ NaN) by lia.
    reflexivity.
  - unfold edge_output_list. rewrite B1. apply points_until_all. rewrite map_map.
    apply map_ext_in. intros i Hi. apply in_seq in Hi.
    rewrite (item_nth (s_edge_section s) _ []), (item_nth (s_edge_x s) _ NaN), (item_nth (s_edge_y s) _ NaN) by lia.
    reflexivity.
Qed.
Print Assumptions C81_points_of_a_cross_section.

Lemma write_points {P} (d : mask_dir num P) name p ps : name <> [] -> validate_extension name = Ok tt ->
  write_mask_output_file d name (p :: ps) =
  ((fun n => if teqb n name then Some (Collection (p :: ps)) else d n), Ok tt).
Proof. intros N V. unfold write_mask_output_file. destruct name; [contradiction|]. rewrite V. reflexivity. Qed.

(** The files hold the points of all cross-sections, in order; nothing else in
    the directory changes, and without points nothing is written. *)
Theorem C81_files_hold_all_points :
  forall fd ed l fd' ed', generate_geojson_output fd ed l = (fd', ed') ->
    (forall n, fd' n = if teqb n (T "face_output.geojson") && negb (Nat.eqb (length (flat_map s_faces l)) 0)
                       then Some (Collection (flat_map s_faces l)) else fd n) /\
    (forall n, ed' n = if teqb n (T "edge_output.geojson") && negb (Nat.eqb (length (flat_map s_links l)) 0)
                       then Some (Collection (flat_map s_links l)) else ed n).
Proof.
  intros fd ed l fd' ed' H. unfold generate_geojson_output in H. apply pair_equal_spec in H. destruct H as [<- <-].
  split; intro n.
  - destruct (flat_map s_faces l) as [|p ps]; [rewrite andb_false_r; reflexivity|].
    rewrite write_points by (reflexivity || discriminate). cbn [fst length Nat.eqb negb]. rewrite andb_true_r. reflexivity.
  - destruct (flat_map s_links l) as [|p ps]; [rewrite andb_false_r; reflexivity|].
    rewrite write_points by (reflexivity || discriminate). cbn [fst length Nat.eqb negb]. rewrite andb_true_r. reflexivity.
Qed.
Print Assumptions C81_files_hold_all_points.

(** C17.  alluvial_width is the width of the main channel, but nonalluvial_width
    is 0 for every cross-section: none of its keys is a key of section_widths. *)
Theorem C17_alluvial_width_is_main : forall w, alluvial_width w = nw_main w.
Proof. reflexivity. Qed.
Print Assumptions C17_alluvial_width_is_main.
Theorem C17_nonalluvial_width_refuted : forall w, nonalluvial_width w = Fin 0.
Proof. reflexivity. Qed.
Print Assumptions C17_nonalluvial_width_refuted.

(** The hypotheses of C80 can be met: ten faces, three time steps. *)
Definition example_face (i : nat) : face :=
  mkFace 20 (inject_Z (Z.of_nat i) / 10) (map (fun z => z - inject_Z (Z.of_nat i) / 10) [1; 2; 3])
    (map Fin [1; 2; 3]) [1; 1; 1] (M_Geometry.LInt (if Nat.ltb i 6 then 1 else 2)).
Definition example_faces : list face := map example_face (seq 0 10).
Definition example_selection : selection :=
  mk_selection (repeat (Fin 0) 10) (repeat (Fin 0) 10) (map (fun f => Fin (f_area f)) example_faces)
    (map (fun f => Fin (f_bed f)) example_faces) (map (fun f => map Fin (f_depth f)) example_faces)
    (map f_level example_faces) (map (fun f => map Fin (f_vel f)) example_faces) (map f_section example_faces)
    [[Fin 40; Fin 41; Fin 42]; [Fin 20; NaN; Fin 22]] (repeat [] 10) (repeat false 10) None
    [Fin 0; Fin 0] [Fin 0; Fin 0] [T "main"; T "floodplain1"].
Definition example_settings : settings :=
  mk_settings (mkParams 0 1 1 (Fin (1 # 100)) (Fin (3 # 100)) false) (Fin (1 # 2)) 6 false (Fin (1 # 2)) 0.
Example C80_hypotheses_case :
  describes example_selection example_faces /\ Forall (face_ok 3) example_faces /\
  Forall (fun f => 0 <= f_area f) example_faces /\ well_formed (links_of 3 example_selection) /\
  fill_centre_level (map Fin (f_depth (example_face 0))) (f_level (example_face 0)) = Ok (map Fin [1; 2; 3]) /\
  activeb 0 1 0 (example_face 0) = true.
Proof.
  assert (Z0 : 0 <= 20) by (vm_compute; discriminate).
  assert (Z1 : 0 <= 1) by (vm_compute; discriminate).
  assert (L : Forall level_entry_ok (map Fin [1; 2; 3])).
  { unfold map. constructor; [|constructor; [|constructor; [|constructor]]];
      right; eexists; (split; [reflexivity|vm_compute; discriminate]). }
  split; [unfold describes; do 6 (split; [reflexivity|]); reflexivity|]. split; [|split; [|split; [|split]]].
  - apply Forall_forall. intros f Hf. apply in_map_iff in Hf. destruct Hf as (i & <- & Hi).
    apply in_seq in Hi. unfold face_ok, example_face. cbn [f_depth f_level f_vel].
    split; [reflexivity|]. split; [reflexivity|]. split; [reflexivity|]. split; [|split; [|exact L]].
    + unfold map. do 10 (destruct i as [|i]; [constructor; [|constructor; [|constructor; [|constructor]]]; vm_compute; discriminate|]).
      lia.
    + constructor; [exact Z1|constructor; [exact Z1|constructor; [exact Z1|constructor]]].
  - apply Forall_forall. intros f Hf. apply in_map_iff in Hf. destruct Hf as (i & <- & _). exact Z0.
  - split; [reflexivity|]. constructor; [|constructor; [|constructor]]; (split; [reflexivity|]);
      (constructor; [exact I|constructor; [exact I|constructor; [exact I|constructor]]]).
  - reflexivity.
  - reflexivity.
Qed.
Example C80_case : exists c,
  generate_cross_section (fun x => x) (fun _ _ => Fin 0) (fun _ => Raise ValueError) (fun x => x)
    example_settings (T "css") (Fin 10) 0 3 example_selection = Ok (Some c) /\
  (length (s_z c) <= 6)%nat /\ length (s_css_z c) = 13%nat /\ length (s_faces c) = 10%nat /\ length (s_links c) = 2%nat.
Proof. eexists. split; [vm_compute; reflexivity|]. cbn [s_z s_css_z s_faces s_links length]. repeat split. lia. Qed.

(** C80.  The dike of a generated cross-section: what the search finds, its
    volumes divided by the length; all zero if the search is switched off or
    fails. *)
Theorem C80_dike_of_the_cross_section : forall smooth mean correction clean st name len centre nt s c,
  generate_cross_section smooth mean correction clean st name len centre nt s = Ok (Some c) ->
  exists g, build_geometry smooth mean (st_geometry st) len centre (cells_of s) = Ok g /\
    (st_correction st = false \/ (exists e, correction g = Raise e) ->
       s_crest c = Fin 0 /\ s_extra_total c = Fin 0 /\ s_extra_flow c = Fin 0) /\
    (forall crest total flow, st_correction st = true -> correction g = Ok (crest, total, flow) ->
       s_crest c = crest /\ s_extra_total c = ndiv total len /\ s_extra_flow c = ndiv flow len).
Proof.
  intros smooth mean correction clean st name len centre nt s c. unfold generate_cross_section, build_cross_section_geometry.
  destruct (Nat.ltb _ _); [discriminate|].
  destruct (build_geometry _ _ _ _ _ _) as [g|] eqn:G; [|discriminate]. cbn [bind].
  destruct (check_requirements _ _ _ _) as [[[z tw] fw]|]; [|discriminate]. cbn [bind].
  destruct (reduce_css_points _ _) as [[[z' tw'] fw']|]; [|discriminate]. cbn [bind].
  destruct (perform_correction correction (st_correction st) g len) as [[cr t] f] eqn:P.
  destruct (build_roughness_tables _ _ _ _); [|discriminate]. cbn [bind].
  destruct (nsection_widths _ _ _ _ _); [|discriminate]. cbn [bind].
  destruct (compute_floodplain_base _ _ _ _); [|discriminate]. cbn [bind].
  intro E. match type of E with Ok (Some ?x) = _ => assert (Ec : c = x) by congruence end. rewrite Ec.
  cbn [s_crest s_extra_total s_extra_flow]. exists g. split; [reflexivity|]. unfold perform_correction in P. split.
  - intros [H|[e H]].
    + rewrite H in P. injection P as <- <- <-. auto.
    + rewrite H in P. destruct (st_correction st); injection P as <- <- <-; auto.
  - intros crest total flow H1 H2. rewrite H1, H2 in P. injection P as <- <- <-. auto.
Qed.
Print Assumptions C80_dike_of_the_cross_section.
