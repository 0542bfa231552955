(** Theorems for C97: the volumes file of a run. *)
From Coq Require Import String List Ascii ZArith QArith Qround Qabs Bool Lia Lqa.
From Verif Require Import PyBase Num Spec L_Num L_List Text L_Text Fixed L_Fixed M_Friction T_Friction M_Cli M_Import
  M_Geometry L_Profile L_Cells L_Require T_Require T_Profile T_Cells T_Centre T_Geometry M_Simplify T_Simplify
  M_Sections T_Sections M_Pipeline T_Pipeline M_Export L_Export T_Volumes M_VolumeFile.
Import ListNotations.
Local Open Scope Q_scope.

Lemma increasing_sweep_len l : forall p, length (increasing_sweep p l) = length l.
Proof. induction l as [|x l IH]; intro p; cbn; auto. Qed.
Lemma increasing_order_len l : length (check_increasing_order l) = length l.
Proof. destruct l; cbn; auto. rewrite increasing_sweep_len. auto. Qed.
Lemma map2_len {A B C} (f : A -> B -> C) l : forall m, length m = length l -> length (map2 f l m) = length l.
Proof. induction l as [|x l IH]; intros [|y m] H; cbn in *; auto; try discriminate. Qed.

Lemma check_requirements_len mw z tw fw z' tw' fw' n :
  check_requirements mw z tw fw = Ok (z', tw', fw') -> length z = n -> length tw = n -> length fw = n ->
  length z' = n /\ length tw' = n /\ length fw' = n.
Proof.
  unfold check_requirements. destruct (check_remove_duplicate_zeroes tw); [|discriminate]. cbn [bind].
  intros H Lz Lt Lf. injection H as <- <- <-. unfold check_total_ge_flow.
  assert (Lw : forall w, length (check_increasing_order (check_remove_zero_widths mw w)) = length w)
    by (intro w; rewrite increasing_order_len; apply map_length).
  rewrite increasing_order_len, map2_len; rewrite !Lw; auto. congruence.
Qed.

Section C97.
  Variables (smooth : list (list num) -> list (list num)) (mean : list (list num) -> nat -> num).
  Variable correction : geometry -> res (num * num * num).
  Variable share : num -> num -> num.

  (** C97.  Whatever the data: the eleven columns have a row for every level. *)
  Theorem C97_one_row_per_level : forall st len centre cells v,
    generated_volumes smooth mean correction share st len centre cells = Ok v ->
    exists n, (10 <= n)%nat /\ length (v_z v) = n /\ Forall (fun col => length col = n) (volume_columns v).
  Proof.
    intros st len centre cells v. unfold generated_volumes, build_cross_section_geometry.
    destruct (build_geometry _ _ _ _ _ _) as [g|] eqn:G; [|discriminate]. cbn [bind].
    destruct (check_requirements _ _ _ _) as [[[z tw] fw]|] eqn:R; [|discriminate]. cbn [bind].
    destruct (reduce_css_points _ _) as [red|]; [|discriminate]. cbn [bind].
    intro E. apply (f_equal (fun r => match r with Ok x => x | Raise _ => v end)) in E. subst v.
    destruct (C06_columns_aligned _ _ _ _ _ _ _ G) as (n & Hn & Lz & Lt & Lf & Lw & La & Lfv & Ltv & L1 & L2).
    destruct (check_requirements_len _ _ _ _ _ _ _ n R Lz Lt Lf) as (Lz' & Lt' & Lf').
    exists n. split; [exact Hn|]. split; [exact Lz'|].
    assert (C : length (fst (corrected_volumes correction share (st_correction st) g)) = n /\
                length (snd (corrected_volumes correction share (st_correction st) g)) = n).
    { unfold corrected_volumes. destruct (st_correction st); [|auto].
      destruct (correction g) as [[[c t] f]|]; [|auto]. cbn [fst snd].
      rewrite !map2_len by (rewrite map_length; congruence). auto. }
    destruct C as [C1 C2].
    unfold volume_columns. cbn -[corrected_volumes].
    repeat (apply Forall_cons; [assumption|]). apply Forall_nil.
  Qed.

  (** C97.  So the file of a run is written to the end, and the columns of every
      cross-section can be read back. *)
  Theorem C97_file_is_read_back : forall double rnd show_float read_float,
    float_codec double rnd show_float read_float ->
    forall css c,
      Forall (fun x => (exists st len centre cells,
                 generated_volumes smooth mean correction share st len centre cells = Ok (x_volumes x)) /\
               T_Sobek.cell (x_name x) /\ trimmed (x_name x) /\ Forall (Forall double) (volume_columns (x_volumes x))) css ->
      NoDup (map x_name css) -> In c css -> x_name c <> T "id" ->
      exists content cols, run_writes (write_volumes show_float css) = (content, None) /\
        get_volume_info read_float content (x_name c) = Ok cols /\ related (columns c) cols.
  Proof.
    intros double rnd sf rf FC css c F ND I N. apply (C42_volumes_of_one double rnd sf rf FC); auto.
    eapply Forall_impl; [|exact F]. intros x ((st & len & centre & cells & G) & Cn & Tn & D).
    split; [exact Cn|]. split; [exact Tn|]. destruct (C97_one_row_per_level _ _ _ _ _ G) as (n & _ & Lz & L).
    unfold columns, steps. rewrite Lz. rewrite Forall_forall in *. intros col Ic. auto.
  Qed.

  (** ** What the rows hold *)

  (** The data that the geometry is made from, as in C80. *)
  Definition C97_data (st : settings) (sk L nt centre : nat) (method : Z) (abs_thr rel_thr len minw : Q)
      (ex : bool) (faces : list face) (f0 : face) (zc : list Q) : Prop :=
    st_geometry st = mkParams (Z.of_nat sk) (Z.of_nat L) method (Fin abs_thr) (Fin rel_thr) ex /\
    st_minwidth st = Fin minw /\ (2 <= st_points st)%Z /\
    method <> 0%Z /\ 0 < len /\ (sk < nt)%nat /\ (L < nt - sk)%nat /\
    Forall (face_ok nt) faces /\ Forall (fun f => 0 <= f_area f) faces /\
    nth_error faces centre = Some f0 /\
    fill_centre_level (map Fin (skipn sk (f_depth f0))) (skipn sk (f_level f0)) = Ok (map Fin zc) /\
    (exists t f, (t < nt - sk)%nat /\ (forall u, (u < t)%nat -> nth u zc 0 < nth t zc 0) /\
                 In f faces /\ activeb sk L t f = true /\ 0 < f_area f).

  (** The columns of the geometry, before and after the check. *)
  Lemma checked_geometry st sk L nt centre method abs_thr rel_thr len minw ex faces f0 zc :
    C97_data st sk L nt centre method abs_thr rel_thr len minw ex faces f0 zc ->
    exists g (steps : list nat) z tw fw z1 tw1 fw1 red,
      build_geometry smooth mean (st_geometry st) (Fin len) centre (map cell_of faces) = Ok g /\
      check_requirements (st_minwidth st) (k_z (g_cols g)) (k_tw (g_cols g)) (k_fw (g_cols g))
        = Ok (map Fin z1, map Fin tw1, map Fin fw1) /\
      reduce_css_points (st_points st) (map Fin z1, map Fin tw1, map Fin fw1) = Ok red /\
      k_z (g_cols g) = map Fin z /\ k_tw (g_cols g) = map Fin tw /\ k_fw (g_cols g) = map Fin fw /\
      length tw = length z /\ length fw = length z /\ length z = (10 + length steps)%nat /\
      (0 < length steps)%nat /\
      nondecreasing z /\ Forall (fun w => 0 <= w) tw /\ Forall (fun w => 0 <= w) fw /\
      nth 10 z 0 == nth 9 z 0 /\
      strictly_increasing z1 /\ strictly_increasing tw1 /\ strictly_increasing fw1 /\
      Forall (fun w => minw <= w) tw1 /\ Forall (fun w => minw <= w) fw1 /\ rowwise Qle fw1 tw1 /\
      length z1 = length z /\ length tw1 = length z /\ length fw1 = length z.
  Proof.
    intros (Eg & Em & Hp & Hm & Hlen & Hs & HL & Hok & Ha & Hc & Hz & Hwet).
    destruct (geometry_is_finite smooth mean sk L nt centre method abs_thr rel_thr len ex faces f0 zc
                Hm Hlen Hok Ha Hs HL Hc Hz Hwet)
      as (g & z & tw & fw & Hg & Kz & Kt & Kf & Lt & Lf & _ & Hnz & _).
    destruct (C61_rows_when_the_centre_falls_dry smooth mean sk L nt centre method abs_thr rel_thr len ex
      faces f0 zc Hm Hlen Hok Ha Hs HL Hc Hz)
      as (g' & steps & top & Hg' & _ & Hsteps & Hord & Hrows & (raw & w & Hw & Rr & Nw & Rw & Gw) & Hbelow & Hlz
          & _ & _ & _ & _ & _ & (fs' & ws & qs & Ef' & Pf & _)).
    rewrite Hg in Hg'. assert (g' = g) by congruence. subst g'.
    destruct Hbelow as (zs & ts & fs & Ez & Et & Ef & Lzs & Lts & Lfs & Nz & Nt & Nf & Rft & Hb).
    rewrite Ef in Ef'. apply map_Fin_inj in Ef'. subst fs'.
    assert (Lz : length z = (10 + length steps)%nat) by (rewrite <- Hlz, Kz, map_length; auto).
    destruct (C01_requirements_establish_valid_table minw z tw fw Lt Lf Hnz)
      as (z1 & tw1 & fw1 & EC & S1 & S2 & S3 & M1 & M2 & RW & L1 & L2 & L3).
    destruct (C11_checked_and_reduced_table_is_valid (st_points st) minw z tw fw Hp Lt Lf Hnz)
      as (z1' & tw1' & fw1' & z' & tw' & fw' & EC' & ER & _).
    rewrite EC in EC'. injection EC' as A1 A2 A3. apply map_Fin_inj in A1, A2, A3. subst z1' tw1' fw1'.
    assert (I0 : In 0%nat steps).
    { apply Hsteps. split; [lia|]. intros u Hu. lia. }
    assert (Pos : (0 < length steps)%nat) by (destruct steps; [destruct I0|cbn; lia]).
    assert (First : nth_error steps 0 = Some 0%nat).
    { apply In_nth_error in I0. destruct I0 as [[|j] Ej]; [exact Ej|].
      destruct (nth_error steps 0) as [t|] eqn:E0; [|apply nth_error_None in E0; lia].
      pose proof (Hord 0%nat (S j) t 0%nat ltac:(lia) E0 Ej). lia. }
    (* levels *)
    rewrite Kz in Ez. rewrite (firstn_map Fin) in Ez. apply map_Fin_inj in Ez.
    rewrite Kt in Et. rewrite (firstn_map Fin) in Et. apply map_Fin_inj in Et.
    assert (Zlow : forall j, (j < 10)%nat -> nth_error z j = nth_error zs j).
    { intros j Hj. rewrite <- Ez. symmetry. rewrite <- (firstn_skipn 10 z) at 2.
      rewrite nth_error_app1; auto. rewrite firstn_length_le; lia. }
    assert (Tlow : forall j, (j < 10)%nat -> nth_error tw j = nth_error ts j).
    { intros j Hj. rewrite <- Et. symmetry. rewrite <- (firstn_skipn 10 tw) at 2.
      rewrite nth_error_app1; auto. rewrite firstn_length_le; lia. }
    assert (Zhigh : forall j t, nth_error steps j = Some t -> nth_error z (10 + j) = Some (nth t zc 0)).
    { intros j t Ej. destruct (Hrows j t Ej) as (A & F & V & W & Rz & _). rewrite Kz, nth_error_map in Rz.
      destruct (nth_error z (10 + j)); [|discriminate]. cbn in Rz. injection Rz as ->. auto. }
    assert (Zlowv : forall j a, (j < 10)%nat -> nth_error z j = Some a ->
              a == nth 0 zc 0 - depth_at sk f0 0 * inject_Z (9 - Z.of_nat j) / 9).
    { intros j a Hj E. rewrite Zlow in E by auto.
      destruct (nth_error ts j) as [x|] eqn:Ex; [|apply nth_error_None in Ex; lia].
      exact (proj1 (Hb j a x E Ex)). }
    assert (D0 : 0 <= depth_at sk f0 0).
    { rewrite Forall_forall in Hok. destruct (Hok f0 (nth_error_In _ _ Hc)) as (Hl0 & _ & _ & Hpd & _).
      unfold depth_at. rewrite Forall_forall in Hpd. apply Hpd. apply nth_In. lia. }
    assert (Zb : forall j a, (j < 10)%nat -> nth_error z j = Some a -> a <= nth 0 zc 0).
    { intros j a Hj E. rewrite (Zlowv j a Hj E).
      assert (0 <= depth_at sk f0 0 * inject_Z (9 - Z.of_nat j) / 9).
      { apply Qle_shift_div_l; [reflexivity|]. rewrite Qmult_0_l. apply Qmult_le_0_compat; auto.
        change 0 with (inject_Z 0). rewrite <- Zle_Qle. lia. }
      lra. }
    assert (Zt : forall t, In t steps -> nth 0 zc 0 <= nth t zc 0).
    { intros t It. apply Hsteps in It. destruct It as [_ It]. destruct t as [|t]; [apply Qle_refl|].
      apply Qlt_le_weak. apply It. lia. }
    assert (Zn : nondecreasing z).
    { intros i j a b Hij Ea Eb.
      assert (Hj : (j < length z)%nat) by (apply nth_error_Some; congruence).
      destruct (Nat.lt_ge_cases j 10) as [Hj10|Hj10].
      - rewrite Zlow in Ea, Eb by lia. exact (Nz i j a b Hij Ea Eb).
      - destruct (nth_error steps (j - 10)) as [t|] eqn:Et'; [|apply nth_error_None in Et'; lia].
        pose proof (Zhigh _ _ Et') as Eb'. replace (10 + (j - 10))%nat with j in Eb' by lia.
        assert (b = nth t zc 0) by congruence. subst b.
        destruct (Nat.lt_ge_cases i 10) as [Hi10|Hi10].
        + apply Qle_trans with (nth 0 zc 0); [eapply Zb; eauto|]. apply Zt. eapply nth_error_In; eauto.
        + destruct (nth_error steps (i - 10)) as [u|] eqn:Eu; [|apply nth_error_None in Eu; lia].
          pose proof (Zhigh _ _ Eu) as Ea'. replace (10 + (i - 10))%nat with i in Ea' by lia.
          assert (a = nth u zc 0) by congruence. subst a.
          destruct (Nat.eq_dec i j) as [->|Nij]; [assert (u = t) by congruence; subst; apply Qle_refl|].
          assert (Hut : (u < t)%nat) by (eapply (Hord (i - 10) (j - 10))%nat; eauto; lia).
          apply nth_error_In in Et'. apply Hsteps in Et'. apply Qlt_le_weak. apply Et'. auto. }
    (* widths *)
    assert (Tp : Forall (fun x => 0 <= x) tw).
    { apply Forall_forall. intros x Ix. apply In_nth_error in Ix. destruct Ix as [j Ej].
      assert (Hj : (j < length tw)%nat) by (apply nth_error_Some; congruence).
      destruct (Nat.lt_ge_cases j 10) as [Hj10|Hj10].
      - rewrite Tlow in Ej by auto.
        destruct (nth_error zs j) as [zz|] eqn:Ezz; [|apply nth_error_None in Ezz; lia].
        rewrite (proj2 (Hb j zz x Ezz Ej)). apply Qle_shift_div_l; auto. rewrite Qmult_0_l.
        apply Qsum_if_nonneg. apply Forall_forall. auto.
      - destruct (nth_error steps (j - 10)) as [t|] eqn:Et'; [|apply nth_error_None in Et'; lia].
        destruct (Hrows _ _ Et') as (A & F & V & W & _ & _ & EA & Rt & _).
        replace (10 + (j - 10))%nat with j in Rt by lia. rewrite Kt, nth_error_map, Ej in Rt. cbn in Rt.
        injection Rt as ->. apply Qle_shift_div_l; auto. rewrite Qmult_0_l, EA.
        apply Qsum_if_nonneg. apply Forall_forall. auto. }
    assert (Fp : Forall (fun x => 0 <= x) fw).
    { rewrite Kf in Hw, Ef. rewrite (firstn_map Fin) in Ef. rewrite (skipn_map Fin) in Hw.
      apply map_Fin_inj in Ef, Hw. rewrite <- (firstn_skipn 10 fw), Ef, Hw. apply Forall_app. split; [exact Pf|].
      assert (G0 : rowwise Qle (map (fun _ => 0) w) w).
      { apply Gw.
        - intros i j a b _ Ea Eb. rewrite nth_error_map in Ea, Eb.
          destruct (nth_error w i); [|discriminate]. destruct (nth_error w j); [|discriminate].
          cbn in *. injection Ea as <-. injection Eb as <-. apply Qle_refl.
        - assert (Rp : Forall (fun r => 0 <= r) raw).
          { clear - Rr Ha Hlen. induction Rr as [|r t rs ts H R IH]; constructor; auto.
            rewrite H. apply Qle_shift_div_l; auto. rewrite Qmult_0_l.
            apply Qsum_if_nonneg. apply Forall_forall. auto. }
          clear - Rw Rp. induction Rw as [|a b l m H R IH]; [constructor|]. inversion Rp; subst.
          constructor; auto. apply IH. auto. }
      clear - G0. unfold rowwise in G0. induction w as [|a w IH]; constructor; inversion G0; subst; auto. }
    assert (Eq : nth 10 z 0 == nth 9 z 0).
    { pose proof (Zhigh 0%nat 0%nat First) as E10. cbn [Nat.add] in E10. rewrite (nth_error_nth _ _ 0 E10).
      destruct (nth_error z 9) as [a|] eqn:E9; [|apply nth_error_None in E9; lia].
      rewrite (nth_error_nth _ _ 0 E9). rewrite (Zlowv 9%nat a ltac:(lia) E9). cbn.
      unfold Qdiv. rewrite Qmult_0_r, Qmult_0_l. lra. }
    exists g, steps, z, tw, fw, z1, tw1, fw1, (map Fin z', map Fin tw', map Fin fw').
    rewrite Eg, Em, Kz, Kt, Kf. split; [exact Hg|]. split; [exact EC|].
    split; [unfold reduce_css_points; rewrite ER; reflexivity|].
    repeat (split; [first [reflexivity|assumption]|]). assumption.
  Qed.

  (** C97.  Levels and widths in the file are those of the generated
      cross-section (before points are left out). *)
  Theorem C97_columns_of_the_cross_section : forall clean st name len centre nt s c,
    generate_cross_section smooth mean correction clean st name len centre nt s = Ok (Some c) ->
    exists v, generated_volumes smooth mean correction share st len centre (cells_of s) = Ok v /\
      v_z v = s_css_z c /\ v_total_width v = s_css_tw c /\ v_flow_width v = s_css_fw c.
  Proof.
    intros clean st name len centre nt s c. unfold generate_cross_section, generated_volumes.
    destruct (Nat.ltb _ _); [discriminate|].
    destruct (build_cross_section_geometry _ _ _ _ _ _ _) as [[[[g [[cr t] f]] [[z tw] fw]] [[z' tw'] fw']]|];
      [|discriminate]. cbn [bind].
    destruct (build_roughness_tables _ _ _ _); [|discriminate]. cbn [bind].
    destruct (nsection_widths _ _ _ _ _); [|discriminate]. cbn [bind].
    destruct (compute_floodplain_base _ _ _ _); [|discriminate]. cbn [bind].
    intro E. assert (E' : c = c) by reflexivity.
    match type of E with Ok (Some ?x) = _ => assert (Ec : x = c) by congruence end.
    eexists. split; [reflexivity|]. rewrite <- Ec. cbn. auto.
  Qed.

  (** C97.  The 2D columns: no volumes in the ten rows below the initial level;
      then one row for every record level, with wet area, flow area and volumes
      of that time step.  The level of the row is that of the time step, raised
      by at most one millimetre per row below it. *)
  Theorem C97_rows_hold_the_time_steps :
    forall st sk L nt centre method abs_thr rel_thr len minw ex faces f0 zc,
      C97_data st sk L nt centre method abs_thr rel_thr len minw ex faces f0 zc ->
      exists v (steps : list nat) top,
        generated_volumes smooth mean correction share st (Fin len) centre (map cell_of faces) = Ok v /\
        (forall t, (t < nt - sk)%nat -> is_top3_mean (map (fun f => vel_at sk f t) faces) (top t)) /\
        (forall t, In t steps <->
           (t < nt - sk)%nat /\ forall u, (u < t)%nat -> nth u zc 0 < nth t zc 0) /\
        length (v_z v) = (10 + length steps)%nat /\
        (forall i, (i < 10)%nat ->
           nth_error (v_fm_total v) i = Some NaN /\ nth_error (v_fm_flow v) i = Some NaN) /\
        (forall j t, nth_error steps j = Some t -> exists z A F V W,
           nth_error (v_z v) (10 + j) = Some (Fin z) /\
           nth t zc 0 <= z /\ z <= nth t zc 0 + (1 # 1000) * inject_Z (Z.of_nat (10 + j)) /\
           nth_error (v_fm_wet v) (10 + j) = Some (Fin A) /\
           A == Qsum_if f_area (activeb sk L t) faces /\
           nth_error (v_fm_area v) (10 + j) = Some (Fin F) /\
           F == Qsum_if f_area (conveyb sk abs_thr rel_thr (top t) t) faces /\
           nth_error (v_fm_total v) (10 + j) = Some (Fin V) /\
           V == Qsum_if (fun f => f_area f * counted_depth sk L (depth_at sk f0 0) f t) (activeb sk L t) faces /\
           nth_error (v_fm_flow v) (10 + j) = Some (Fin W) /\
           W == Qsum_if (fun f => f_area f * counted_depth sk L (depth_at sk f0 0) f t)
                  (conveyb sk abs_thr rel_thr (top t) t) faces).
  Proof.
    intros st sk L nt centre method abs_thr rel_thr len minw ex faces f0 zc D.
    destruct (checked_geometry _ _ _ _ _ _ _ _ _ _ _ _ _ _ D)
      as (g & _ & z & tw & fw & z1 & tw1 & fw1 & red & Hg & EC & ER & Kz & Kt & Kf & Lt & Lf & _ & _ & Zn & _ & _ & _
          & S1 & _ & _ & _ & _ & _ & L1 & _).
    destruct D as (Eg & Em & Hp & Hm & Hlen & Hs & HL & Hok & Ha & Hc & Hz & Hwet).
    destruct (C61_rows_when_the_centre_falls_dry smooth mean sk L nt centre method abs_thr rel_thr len ex
      faces f0 zc Hm Hlen Hok Ha Hs HL Hc Hz)
      as (g' & steps & top & Hg' & Htop & Hsteps & _ & Hrows & _ & _ & Hlz & _ & _ & _ & NV & NW & _).
    rewrite <- Eg, Hg in Hg'. assert (g' = g) by congruence. subst g'.
    assert (Lz : length z = (10 + length steps)%nat) by (rewrite <- Hlz, Kz, map_length; auto).
    exists (exported_volumes correction share (st_correction st) g (map Fin z1, map Fin tw1, map Fin fw1)), steps, top.
    split; [unfold generated_volumes, build_cross_section_geometry; rewrite Hg; cbn [bind]; rewrite EC; cbn [bind];
            rewrite ER; reflexivity|].
    split; [exact Htop|]. split; [exact Hsteps|].
    cbn [exported_volumes v_z v_fm_total v_fm_flow v_fm_wet v_fm_area].
    split; [rewrite map_length; congruence|]. split.
    - intros i Hi.
      assert (G : forall l : list num, firstn 10 l = repeat NaN 10 -> nth_error l i = Some NaN).
      { intros l E. rewrite <- (firstn_skipn 10 l), E. rewrite nth_error_app1 by (cbn; lia).
        do 10 (destruct i as [|i]; [reflexivity|]). lia. }
      auto.
    - intros j t Ej. destruct (Hrows j t Ej) as (A & F & V & W & Rz & RA & EA & _ & RF & EF & RV & EV & RW & EW).
      rewrite Kz, nth_error_map in Rz. destruct (nth_error z (10 + j)) as [x|] eqn:Ex; [|discriminate].
      cbn in Rz. injection Rz as ->.
      destruct (C02_repair_is_small z) as (r & Er & Lr & _ & Rle & _ & _ & _ & Rk).
      assert (z1 = r).
      { unfold check_requirements in EC. destruct (check_remove_duplicate_zeroes _); [|discriminate].
        cbn [bind] in EC. injection EC as EC _ _. rewrite Kz, Er in EC. apply map_Fin_inj in EC. auto. }
      subst r. destruct (nth_error z1 (10 + j)) as [y|] eqn:Ey;
        [|apply nth_error_None in Ey; assert (10 + j < length z)%nat by (apply nth_error_Some; congruence); lia].
      exists y, A, F, V, W.
      split; [rewrite nth_error_map, Ey; reflexivity|].
      split.
      { clear - Rle Ex Ey. revert z z1 Rle Ex Ey. induction (10 + j)%nat as [|n IH]; intros z z1 R Ex Ey.
        - inversion R; subst; cbn in *; [discriminate|]. injection Ex as ->. injection Ey as ->. auto.
        - inversion R; subst; cbn in *; [discriminate|]. eapply IH; eauto. }
      split.
      { destruct (Rk (10 + j)%nat y Ey) as (k & lk & Hk & Ek & ->).
        pose proof (Zn k (10 + j)%nat lk _ Hk Ek Ex) as Hle.
        assert (inject_Z (Z.of_nat (10 + j - k)) <= inject_Z (Z.of_nat (10 + j))) by (rewrite <- Zle_Qle; lia). lra. }
      repeat (split; [assumption|]). assumption.
  Qed.

  (** C97.  The 1D volumes: zero at the bottom, never decreasing, and the
      integral of the widths over the levels, times the length, as they were
      before the check.  The levels of the file are at most one millimetre per
      row higher. *)
  Theorem C97_volumes_integrate_the_unchecked_widths :
    forall st sk L nt centre method abs_thr rel_thr len minw ex faces f0 zc,
      C97_data st sk L nt centre method abs_thr rel_thr len minw ex faces f0 zc ->
      exists v z z1 tw fw vt vf,
        generated_volumes smooth mean correction share st (Fin len) centre (map cell_of faces) = Ok v /\
        v_z v = map Fin z1 /\ v_total v = map Fin vt /\ v_flow v = map Fin vf /\
        strictly_increasing z1 /\ length z = length z1 /\ length tw = length z1 /\ length fw = length z1 /\
        length vt = length z1 /\ length vf = length z1 /\
        (forall i a b, nth_error z i = Some a -> nth_error z1 i = Some b ->
           a <= b /\ b <= a + (1 # 1000) * inject_Z (Z.of_nat i)) /\
        hd_error vt = Some 0 /\ hd_error vf = Some 0 /\
        nondecreasing vt /\ nondecreasing vf /\
        (forall i a b, nth_error z i = Some a -> nth_error z (S i) = Some b ->
           (forall w w' x x', nth_error tw i = Some w -> nth_error tw (S i) = Some w' ->
              nth_error vt i = Some x -> nth_error vt (S i) = Some x' ->
              x' == x + len * ((b - a) * ((w + w') / 2))) /\
           (forall w w' x x', nth_error fw i = Some w -> nth_error fw (S i) = Some w' ->
              nth_error vf i = Some x -> nth_error vf (S i) = Some x' ->
              x' == x + len * ((b - a) * ((w + w') / 2)))).
  Proof.
    intros st sk L nt centre method abs_thr rel_thr len minw ex faces f0 zc D.
    destruct (checked_geometry _ _ _ _ _ _ _ _ _ _ _ _ _ _ D)
      as (g & st' & z & tw & fw & z1 & tw1 & fw1 & red & Hg & EC & ER & Kz & Kt & Kf & Lt & Lf & Lz & Lp & Zn & Pt & Pf & _
          & S1 & _ & _ & _ & _ & _ & L1 & _).
    destruct D as (Eg & Em & Hp & Hm & Hlen & Hs & HL & Hok & Ha & Hc & Hz & Hwet).
    destruct (C61_rows_when_the_centre_falls_dry smooth mean sk L nt centre method abs_thr rel_thr len ex
      faces f0 zc Hm Hlen Hok Ha Hs HL Hc Hz)
      as (g' & steps & top & Hg' & _ & _ & _ & _ & _ & _ & _ & V1 & V2 & _).
    rewrite <- Eg, Hg in Hg'. assert (g' = g) by congruence. subst g'.
    rewrite Kz, Kt in V1. rewrite Kz, Kf in V2.
    destruct (C07_volume_is_trapezoidal_integral len tw z Lt) as (vt & Evt & Lvt & Hvt & Ivt & Mvt);
      [intros ->; cbn in Lt; lia|].
    destruct (C07_volume_is_trapezoidal_integral len fw z Lf) as (vf & Evf & Lvf & Hvf & Ivf & Mvf);
      [intros ->; cbn in Lf; lia|].
    exists (exported_volumes correction share (st_correction st) g (map Fin z1, map Fin tw1, map Fin fw1)),
      z, z1, tw, fw, vt, vf.
    split; [unfold generated_volumes, build_cross_section_geometry; rewrite Hg; cbn [bind]; rewrite EC; cbn [bind];
            rewrite ER; reflexivity|].
    cbn [exported_volumes v_z v_total v_flow]. split; [reflexivity|].
    split; [congruence|]. split; [congruence|]. split; [exact S1|].
    do 5 (split; [congruence|]). split.
    { intros i a b Ea Eb.
      destruct (C02_repair_is_small z) as (r & Er & Lr & _ & Rle & _ & _ & _ & Rk).
      assert (z1 = r).
      { unfold check_requirements in EC. destruct (check_remove_duplicate_zeroes _); [|discriminate].
        cbn [bind] in EC. injection EC as EC _ _. rewrite Kz, Er in EC. apply map_Fin_inj in EC. auto. }
      subst r. split.
      - clear - Rle Ea Eb. revert z z1 Rle Ea Eb. induction i as [|n IH]; intros z z1 R Ex Ey.
        + inversion R; subst; cbn in *; [discriminate|]. injection Ex as ->. injection Ey as ->. auto.
        + inversion R; subst; cbn in *; [discriminate|]. eapply IH; eauto.
      - destruct (Rk i b Eb) as (k & lk & Hk & Ek & ->).
        pose proof (Zn k i lk _ Hk Ek Ea) as Hle.
        assert (inject_Z (Z.of_nat (i - k)) <= inject_Z (Z.of_nat i)) by (rewrite <- Zle_Qle; lia). lra. }
    split; [exact Hvt|]. split; [exact Hvf|].
    split; [apply Mvt; auto; lra|]. split; [apply Mvf; auto; lra|].
    intros i a b Ea Eb. split; intros w w' x x' Ew Ew' Ex Ex'; [eapply Ivt|eapply Ivf]; eauto.
  Qed.

  (** C97.  The corrected volumes: the uncorrected ones, and if the search for a
      dike succeeds the share of its volume that is released at the level. *)
  Theorem C97_corrected_volumes_hold_the_dike : forall st len centre cells v g,
    generated_volumes smooth mean correction share st len centre cells = Ok v ->
    build_geometry smooth mean (st_geometry st) len centre cells = Ok g ->
    (st_correction st = false \/ (exists e, correction g = Raise e) ->
       v_total_corrected v = v_total v /\ v_flow_corrected v = v_flow v) /\
    (forall crest total flow, st_correction st = true -> correction g = Ok (crest, total, flow) ->
       forall i x y h, nth_error (v_total v) i = Some x -> nth_error (v_flow v) i = Some y ->
         nth_error (k_z (g_cols g)) i = Some h ->
         nth_error (v_total_corrected v) i = Some (nadd x (nmul (share crest h) total)) /\
         nth_error (v_flow_corrected v) i = Some (nadd y (nmul (share crest h) flow))).
  Proof.
    intros st len centre cells v g G Hg. revert G. unfold generated_volumes, build_cross_section_geometry.
    rewrite Hg. cbn [bind]. destruct (check_requirements _ _ _ _) as [[[z tw] fw]|]; [|discriminate]. cbn [bind].
    destruct (reduce_css_points _ _); [|discriminate]. cbn [bind]. intro E.
    apply (f_equal (fun r => match r with Ok x => x | Raise _ => v end)) in E. subst v.
    cbn [exported_volumes v_total v_flow v_total_corrected v_flow_corrected]. unfold corrected_volumes. split.
    - intros [H|[e H]]; [rewrite H; auto|]. destruct (st_correction st); [rewrite H|]; auto.
    - intros crest total flow H1 H2 i x y h Hx Hy Hh. rewrite H1, H2. cbn [fst snd].
      assert (M : forall q l, nth_error l i = Some q -> forall e,
        nth_error (map2 (fun v0 x0 => nadd v0 (nmul x0 e)) l (map (share crest) (k_z (g_cols g)))) i
          = Some (nadd q (nmul (share crest h) e))).
      { clear - Hh. revert i Hh. induction (k_z (g_cols g)) as [|a k IH]; intros [|i] Hh q l Hq e; try discriminate.
        - injection Hh as ->. destruct l; [discriminate|]. injection Hq as ->. reflexivity.
        - destruct l; [discriminate|]. cbn in *. apply IH; auto. }
      split; apply M; auto.
  Qed.

  (** The volumes are not the integral of the widths over the levels in the same
      rows.  In every generated table the rows 9 and 10 are made for the same
      level (the initial one); the check moves them apart, but the volumes are
      still equal. *)
  Theorem C97_volumes_of_the_rows_refuted :
    forall st sk L nt centre method abs_thr rel_thr len minw ex faces f0 zc,
      C97_data st sk L nt centre method abs_thr rel_thr len minw ex faces f0 zc -> 0 < minw ->
      exists v z z' w w' u u' x x' y y',
        generated_volumes smooth mean correction share st (Fin len) centre (map cell_of faces) = Ok v /\
        nth_error (v_z v) 9 = Some (Fin z) /\ nth_error (v_z v) 10 = Some (Fin z') /\ z < z' /\
        nth_error (v_total_width v) 9 = Some (Fin w) /\ nth_error (v_total_width v) 10 = Some (Fin w') /\
        nth_error (v_flow_width v) 9 = Some (Fin u) /\ nth_error (v_flow_width v) 10 = Some (Fin u') /\
        0 < w /\ 0 < w' /\ 0 < u /\ 0 < u' /\
        nth_error (v_total v) 9 = Some (Fin x) /\ nth_error (v_total v) 10 = Some (Fin x') /\
        nth_error (v_flow v) 9 = Some (Fin y) /\ nth_error (v_flow v) 10 = Some (Fin y') /\
        x' == x /\ y' == y /\
        ~ x' == x + len * ((z' - z) * ((w + w') / 2)) /\
        ~ y' == y + len * ((z' - z) * ((u + u') / 2)).
  Proof.
    intros st sk L nt centre method abs_thr rel_thr len minw ex faces f0 zc D Hmin.
    destruct (checked_geometry _ _ _ _ _ _ _ _ _ _ _ _ _ _ D)
      as (g & st' & z & tw & fw & z1 & tw1 & fw1 & red & Hg & EC & ER & Kz & Kt & Kf & Lt & Lf & Lz & Lp & Zn & Pt & Pf & Eq
          & S1 & _ & _ & M1 & M2 & _ & L1 & L2 & L3).
    destruct D as (Eg & Em & Hp & Hm & Hlen & Hs & HL & Hok & Ha & Hc & Hz & Hwet).
    destruct (C61_rows_when_the_centre_falls_dry smooth mean sk L nt centre method abs_thr rel_thr len ex
      faces f0 zc Hm Hlen Hok Ha Hs HL Hc Hz)
      as (g' & steps & top & Hg' & _ & _ & _ & _ & _ & _ & _ & V1 & V2 & _).
    rewrite <- Eg, Hg in Hg'. assert (g' = g) by congruence. subst g'.
    rewrite Kz, Kt in V1. rewrite Kz, Kf in V2.
    destruct (C07_volume_is_trapezoidal_integral len tw z Lt) as (vt & Evt & Lvt & _ & Ivt & _);
      [intros ->; cbn in Lt; lia|].
    destruct (C07_volume_is_trapezoidal_integral len fw z Lf) as (vf & Evf & Lvf & _ & Ivf & _);
      [intros ->; cbn in Lf; lia|].
    assert (N : forall l i, (i < length l)%nat -> nth_error l i = Some (nth i l 0)) by (intros; apply nth_error_nth'; auto).
    assert (NF : forall l i, (i < length l)%nat -> nth_error (map Fin l) i = Some (Fin (nth i l 0)))
      by (intros; rewrite nth_error_map, N; auto).
    exists (exported_volumes correction share (st_correction st) g (map Fin z1, map Fin tw1, map Fin fw1)),
      (nth 9 z1 0), (nth 10 z1 0), (nth 9 tw1 0), (nth 10 tw1 0), (nth 9 fw1 0), (nth 10 fw1 0),
      (nth 9 vt 0), (nth 10 vt 0), (nth 9 vf 0), (nth 10 vf 0).
    split; [unfold generated_volumes, build_cross_section_geometry; rewrite Hg; cbn [bind]; rewrite EC; cbn [bind];
            rewrite ER; reflexivity|].
    cbn [exported_volumes v_z v_total v_flow v_total_width v_flow_width].
    rewrite V1, V2, Evt, Evf.
    assert (Hzz : nth 9 z1 0 < nth 10 z1 0) by (apply (S1 9%nat 10%nat); [lia|apply N; lia|apply N; lia]).
    assert (W : forall l i, Forall (fun w => minw <= w) l -> (i < length l)%nat -> 0 < nth i l 0).
    { intros l i F Hi. rewrite Forall_forall in F. pose proof (F _ (nth_In l 0 Hi)). lra. }
    assert (X : nth 10 vt 0 == nth 9 vt 0).
    { rewrite (Ivt 9%nat (nth 9 vt 0) (nth 9 z 0) (nth 10 z 0) (nth 9 tw 0) (nth 10 tw 0) (nth 10 vt 0));
        try (apply N; lia). rewrite Eq. ring. }
    assert (Y : nth 10 vf 0 == nth 9 vf 0).
    { rewrite (Ivf 9%nat (nth 9 vf 0) (nth 9 z 0) (nth 10 z 0) (nth 9 fw 0) (nth 10 fw 0) (nth 10 vf 0));
        try (apply N; lia). rewrite Eq. ring. }
    assert (P : forall a b d, 0 < a -> 0 < b -> 0 < d -> ~ 0 == len * (d * ((a + b) / 2))).
    { intros a b d Pa Pb Pd. assert (0 < len * (d * ((a + b) / 2))); [|lra].
      repeat apply Qmult_lt_0_compat; auto. lra. reflexivity. }
    repeat (split; [first [apply NF; lia|apply W; [assumption|lia]|assumption]|]).
    split; intro E.
    - apply (P (nth 9 tw1 0) (nth 10 tw1 0) (nth 10 z1 0 - nth 9 z1 0)); [apply W; auto; lia|apply W; auto; lia|lra|].
      rewrite X in E. lra.
    - apply (P (nth 9 fw1 0) (nth 10 fw1 0) (nth 10 z1 0 - nth 9 z1 0)); [apply W; auto; lia|apply W; auto; lia|lra|].
      rewrite Y in E. lra.
  Qed.
End C97.
Print Assumptions C97_one_row_per_level.
Print Assumptions C97_file_is_read_back.
Print Assumptions C97_columns_of_the_cross_section.
Print Assumptions C97_rows_hold_the_time_steps.
Print Assumptions C97_volumes_integrate_the_unchecked_widths.
Print Assumptions C97_corrected_volumes_hold_the_dike.
Print Assumptions C97_volumes_of_the_rows_refuted.

(** A control volume for which all of this holds. *)
Definition C97_settings : settings :=
  mk_settings (mkParams 0 1 1 (Fin (1 # 10)) (Fin (15 # 100)) true) (Fin (1 # 2)) 20 false (Fin (1 # 2)) 0.
Theorem C97_case :
  C97_data C97_settings 0 1 4 0 1 (1 # 10) (15 # 100) 10 (1 # 2) true C61_faces
    (mkFace 10 0 [1; 2; 1; 4] (map Fin [1; 2; 1; 4]) [1; 1; 1; 2] (M_Geometry.LInt 1)) [1; 2; 1; 4] /\
  match generated_volumes (fun v => v) (fun _ _ => NaN) (fun _ => Raise ValueError) (fun _ _ => NaN)
          C97_settings (Fin 10) 0 (map cell_of C61_faces) with
  | Ok v =>
      let show l := map (fun x => match x with Fin q => Qred q | _ => -1 end) (skipn 8 l) in
      map show [v_z v; v_fm_total v; v_fm_flow v; v_fm_wet v; v_fm_area v]
        = [[8 # 9; 1; 1.001; 2; 4]; [-1; -1; 10; 40; 180]; [-1; -1; 10; 40; 40]; [10; 10; 10; 30; 70];
           [10; 10; 10; 30; 10]] /\
      map show [v_total v; v_flow v; v_total_width v; v_flow_width v]
        = [[80 # 9; 10; 10; 30; 130]; [80 # 9; 10; 10; 20; 40]; [126 # 125; 1.009; 1.01; 3; 7];
           [126 # 125; 1.009; 1.01; 1.011; 253 # 250]] /\
      (v_total_corrected v, v_flow_corrected v) = (v_total v, v_flow v)
  | _ => False
  end.
Proof.
  split.
  - destruct C61_case_hypotheses as (Hok & Ha & _). unfold C97_data.
    do 2 (split; [reflexivity|]). split; [cbn; lia|]. split; [discriminate|]. split; [reflexivity|].
    split; [lia|]. split; [lia|]. split; [exact Hok|]. split; [exact Ha|]. split; [reflexivity|].
    split; [vm_compute; reflexivity|].
    exists 0%nat, (mkFace 10 0 [1; 2; 1; 4] (map Fin [1; 2; 1; 4]) [1; 1; 1; 2] (M_Geometry.LInt 1)).
    split; [lia|]. split; [intros u Hu; lia|]. split; [left; reflexivity|]. split; reflexivity.
  - vm_compute. repeat split.
Qed.
Print Assumptions C97_case.
