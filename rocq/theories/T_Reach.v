(** C102: the length of the control volume cancels. *)
From Coq Require Import String List Ascii ZArith QArith Qround Bool Permutation Lia Lqa.
From Verif Require Import PyBase Num Text L_Num L_List M_Geometry M_Sections M_Friction M_Simplify M_Import M_Cli M_Pipeline M_Rolling
  Spec_Same L_Same L_SameGeometry L_SameReduce T_Pipeline T_Same T_SameRun.
Import ListNotations.
Local Open Scope Q_scope.

(** ** Specification *)

(** [y] is [k] times [x]. *)
Definition times (k : Q) (x y : num) : Prop :=
  match x, y with
  | Fin a, Fin b => b == k * a
  | NaN, NaN | PInf, PInf | NInf, NInf => True
  | _, _ => False
  end.
Definition times_column (k : Q) : list num -> list num -> Prop := Forall2 (times k).

(** The reach [s'] is the reach [s] made [k] times as long: every face has [k]
    times the area and the same bed, depths, levels, velocities and section. *)
Definition longer_reach (k : Q) (s s' : selection) : Prop :=
  times_column k (s_area s) (s_area s') /\
  s_x s' = s_x s /\ s_y s' = s_y s /\ s_bed s' = s_bed s /\ s_depth s' = s_depth s /\ s_level s' = s_level s /\
  s_vel s' = s_vel s /\ s_section s' = s_section s /\ s_region s' = s_region s /\ s_islake s' = s_islake s /\
  s_chezy s' = s_chezy s /\ s_edge_faces s' = s_edge_faces s /\ s_edge_x s' = s_edge_x s /\ s_edge_y s' = s_edge_y s /\
  s_edge_section s' = s_edge_section s.

(** The geometry: levels and widths are the same, areas and volumes [k] times. *)
Definition cols_times (k : Q) (c c' : css_cols) : Prop :=
  k_z c' = k_z c /\ same_column (k_tw c) (k_tw c') /\ same_column (k_fw c) (k_fw c') /\
  times_column k (k_wet c) (k_wet c') /\ times_column k (k_flow c) (k_flow c') /\
  times_column k (k_fvol c) (k_fvol c') /\ times_column k (k_tvol c) (k_tvol c').
Definition geometry_times (k : Q) (g g' : geometry) : Prop :=
  cols_times k (g_cols g) (g_cols g') /\ times_column k (g_tvol1d g) (g_tvol1d g') /\
  times_column k (g_fvol1d g) (g_fvol1d g') /\ g_z_roughness g' = g_z_roughness g.
(** The search for the summer dike gives the same crest and [k] times the
    volumes. *)
Definition scales (k : Q) (correction : geometry -> res (num * num * num)) : Prop :=
  forall g g', geometry_times k g g' ->
    res_rel (fun r r' => num_eq (fst (fst r)) (fst (fst r')) /\ times k (snd (fst r)) (snd (fst r')) /\
                         times k (snd r) (snd r')) (correction g) (correction g').

(** ** Arithmetic *)

Section Scale.
Variable k : Q.
Hypothesis K : 0 < k.

Lemma times_isnan x y : times k x y -> isnan x = isnan y.
Proof. destruct x, y; cbn; auto; contradiction. Qed.
Lemma nadd_times x y x' y' : times k x x' -> times k y y' -> times k (nadd x y) (nadd x' y').
Proof.
  destruct x as [a| | |], x' as [a'| | |]; cbn [times]; try contradiction; intros X;
  destruct y as [b| | |], y' as [b'| | |]; cbn [times]; try contradiction; intros Y; cbn; auto.
  rewrite X, Y. ring.
Qed.
Lemma fold_times l m : times_column k l m -> forall a b, times k a b -> times k (fold_left nadd l a) (fold_left nadd m b).
Proof. induction 1; intros; cbn; auto. apply IHForall2, nadd_times; auto. Qed.
Lemma zero_times : times k (Fin 0) (Fin 0).
Proof. cbn. ring. Qed.
Lemma npsum_times l m : times_column k l m -> times k (npsum l) (npsum m).
Proof. intro H. apply fold_times; auto using zero_times. Qed.
Lemma nansum_times l m : times_column k l m -> times k (nansum l) (nansum m).
Proof.
  intro H. apply fold_times; auto using zero_times. apply (F2_filter (times k)); auto.
  intros a b E. rewrite (times_isnan a b E). reflexivity.
Qed.
Lemma inf_times_scaled p a b : b == k * a -> inf_times p b = inf_times p a.
Proof.
  intro E. unfold inf_times. rewrite (Qeq_bool_congr b 0 a 0), (Qltb_congr 0 b 0 a); [reflexivity| |].
  - rewrite E. split; intro; nra.
  - rewrite E. split; intro H; [|rewrite H; ring]. assert (0 < k * k) by nra. assert (k * (k * a) == 0) by (rewrite H; ring). nra.
Qed.
Lemma nmul_times x x' y : times k x x' -> times k (nmul x y) (nmul x' y).
Proof.
  destruct x as [a| | |], x' as [a'| | |]; cbn [times]; try contradiction; intros X; destruct y as [b| | |]; cbn [nmul times]; auto.
  - rewrite X. ring.
  - rewrite (inf_times_scaled true a a' X). unfold inf_times. destruct (Qeq_bool a 0), (Qltb 0 a); exact I.
  - rewrite (inf_times_scaled false a a' X). unfold inf_times. destruct (Qeq_bool a 0), (Qltb 0 a); exact I.
  - unfold inf_times. destruct (Qeq_bool b 0), (Qltb 0 b); exact I.
  - unfold inf_times. destruct (Qeq_bool b 0), (Qltb 0 b); exact I.
Qed.
Lemma times_eq x y z : times k x y -> num_eq y z -> times k x z.
Proof. destruct x, y, z; cbn; auto; try contradiction. intros A B. rewrite <- B. exact A. Qed.
Lemma eq_times x y z : num_eq x y -> times k y z -> times k x z.
Proof. destruct x, y, z; cbn; auto; try contradiction. intros A B. rewrite A. exact B. Qed.
Lemma times_sign a b : b == k * a -> Qeq_bool b 0 = Qeq_bool a 0 /\ Qltb 0 b = Qltb 0 a /\ Qltb b 0 = Qltb a 0.
Proof.
  intro E. split; [|split].
  - apply Qeq_bool_congr. rewrite E. split; intro H; [|rewrite H; ring].
    destruct (Qlt_le_dec 0 a); [nra|]. destruct (Qlt_le_dec a 0); nra.
  - apply Qltb_congr. rewrite E. split; intro; nra.
  - apply Qltb_congr. rewrite E. split; intro; nra.
Qed.
(** Area by length. *)
Lemma ndiv_times x y x' y' : times k x x' -> times k y y' -> num_eq (ndiv x y) (ndiv x' y').
Proof.
  destruct x as [a| | |], x' as [a'| | |]; cbn [times]; try contradiction; intros X;
  destruct y as [b| | |], y' as [b'| | |]; cbn [times]; try contradiction; intros Y; cbn [ndiv]; auto;
  try exact I; try apply Qeq_refl.
  - destruct (times_sign a a' X) as (-> & -> & _). destruct (times_sign b b' Y) as (-> & _ & _).
    destruct (Qeq_bool b 0) eqn:B; [destruct (Qeq_bool a 0), (Qltb 0 a); exact I|]. cbn.
    assert (~ b == 0) by (intro H; apply Qeq_bool_true in H; congruence). assert (~ k == 0) by lra.
    rewrite X, Y. field. auto.
  - destruct (times_sign b b' Y) as (_ & _ & ->). destruct (Qltb b 0); exact I.
  - destruct (times_sign b b' Y) as (_ & _ & ->). destruct (Qltb b 0); exact I.
Qed.
Lemma npmin_times x y x' y' : times k x x' -> times k y y' -> times k (npmin x y) (npmin x' y').
Proof.
  intros X Y. unfold npmin. rewrite (times_isnan _ _ X), (times_isnan _ _ Y).
  destruct (isnan x'); [exact I|]. destruct (isnan y'); [exact I|].
  assert (L : nltb y x = nltb y' x').
  { destruct x as [a| | |], x' as [a'| | |]; cbn [times] in X; try contradiction;
    destruct y as [b| | |], y' as [b'| | |]; cbn [times] in Y; try contradiction; cbn [nltb]; auto.
    apply Qltb_congr. rewrite X, Y. split; intro; nra. }
  rewrite L. destruct (nltb y' x'); auto.
Qed.
(** A length times a number of square metres. *)
Lemma volume_times len len' v v' : times k len len' -> num_eq v v' -> times k (nmul v len) (nmul v' len').
Proof.
  intros L V. eapply eq_times; [apply nmul_eq; [exact V|apply num_eq_refl]|].
  assert (C : forall x y, nmul x y = nmul y x \/ exists a b, x = Fin a /\ y = Fin b).
  { intros x y. destruct x, y; auto. right. eauto. }
  destruct (C v' len) as [E|(a & b & -> & ->)].
  - rewrite E. destruct (C v' len') as [E'|(a & b & -> & ->)].
    + rewrite E'. apply nmul_times, L.
    + destruct len as [l| | |]; cbn in L; try contradiction. cbn. rewrite L. ring.
  - destruct len' as [l| | |]; cbn in L; try contradiction. cbn. rewrite L. ring.
Qed.

(** ** The geometry *)

Definition cell_times (c c' : cell) : Prop :=
  times k (c_area c) (c_area c') /\ c_bed c' = c_bed c /\ c_depth c' = c_depth c /\ c_level c' = c_level c /\
  c_vel c' = c_vel c /\ c_section c' = c_section c.

Lemma masked_area_times cells cells' masks t : Forall2 cell_times cells cells' ->
  times k (masked_area cells masks t) (masked_area cells' masks t).
Proof.
  intro H. unfold masked_area. apply nansum_times. revert masks.
  induction H as [|c c' l m (E & _) F IH]; intros [|b masks]; cbn [map2]; constructor; [|apply IH].
  destruct (nth t b false); [exact E|exact I].
Qed.
Lemma masked_volume_times cells cells' depth masks t : Forall2 cell_times cells cells' ->
  times k (masked_volume cells depth masks t) (masked_volume cells' depth masks t).
Proof.
  intro H. unfold masked_volume. apply nansum_times. revert depth masks.
  induction H as [|c c' l m (E & _) F IH]; intros [|d depth] [|b masks]; cbn [combine map2]; constructor; [|apply IH].
  destruct (nth t b false); [apply nmul_times, E|exact I].
Qed.
Lemma wet_below_times cells cells' level wet dz : Forall2 cell_times cells cells' ->
  times k (wet_area_below (combine (combine cells level) wet) dz) (wet_area_below (combine (combine cells' level) wet) dz).
Proof.
  intro H. unfold wet_area_below. apply nansum_times.
  apply (F2_map (fun x x' : cell * num * bool => cell_times (fst (fst x)) (fst (fst x')) /\ snd (fst x) = snd (fst x') /\ snd x = snd x')).
  { intros a b ((E & _) & _). exact E. }
  apply F2_filter.
  - intros a b ((_ & B & _) & E & W). unfold depth_at_t0. rewrite B, E, W. reflexivity.
  - revert level wet. induction H as [|c c' l m E F IH]; intros [|v level] [|b wet]; cbn; constructor; auto.
Qed.
Lemma below_times e len len' z d cells cells' level wet c c' : times k len len' -> Forall2 cell_times cells cells' ->
  cols_times k c c' ->
  cols_times k (extend_css_below_z0 e len z d (combine (combine cells level) wet) c)
               (extend_css_below_z0 e len' z d (combine (combine cells' level) wet) c').
Proof.
  intros L H C. unfold extend_css_below_z0. cbv zeta.
  assert (F : times k (hd NaN (k_flow c)) (hd NaN (k_flow c'))).
  { destruct C as (_ & _ & _ & _ & C & _). apply (F2_hd (times k)); auto. exact I. }
  revert F C. generalize (hd NaN (k_flow c)) (hd NaN (k_flow c')). intros f f' F.
  generalize (linspace10 (nsub z (nsub z d))). intro l. revert c c'.
  induction l as [|dz l IH]; intros c c' C; [exact C|]. cbn [fold_left]. apply IH.
  destruct C as (C1 & C2 & C3 & C4 & C5 & C6 & C7). unfold below_z0_step, cols_times. cbv zeta.
  cbn [k_z k_tw k_fw k_wet k_flow k_fvol k_tvol].
  pose proof (wet_below_times cells cells' level wet dz H) as W.
  set (w := wet_area_below _ dz) in *. set (w' := wet_area_below (combine (combine cells' level) wet) dz) in *. clearbody w w'.
  assert (N : times k (if negb e then w else npmin w f) (if negb e then w' else npmin w' f')) by (destruct e; cbn; auto using npmin_times).
  split; [congruence|]. split; [constructor; auto; apply ndiv_times; auto|]. split; [constructor; auto; apply ndiv_times; auto|].
  split; [constructor; auto|]. split; [constructor; auto|]. split; constructor; auto; exact I.
Qed.

Lemma geometry_longer smooth mean p len len' i cells cells' : times k len len' -> Forall2 cell_times cells cells' ->
  res_rel (geometry_times k) (build_geometry smooth mean p len i cells) (build_geometry smooth mean p len' i cells').
Proof.
  intros L H. unfold build_geometry. cbv zeta.
  assert (E : forall f : cell -> list num, (forall c c', cell_times c c' -> f c' = f c) -> map f cells' = map f cells).
  { intros f F. induction H as [|c c' l m C H' IH]; auto. cbn. rewrite (F c c' C), IH. reflexivity. }
  rewrite (E (fun c => get_timeseries (gp_skip p) (c_level c))) by (intros c c' (_ & _ & _ & -> & _); reflexivity).
  rewrite (E (fun c => get_timeseries (gp_skip p) (c_depth c))) by (intros c c' (_ & _ & -> & _); reflexivity).
  rewrite (E (fun c => get_timeseries (gp_skip p) (c_vel c))) by (intros c c' (_ & _ & _ & _ & -> & _); reflexivity).
  set (level := map (fun c => get_timeseries (gp_skip p) (c_level c)) cells).
  set (depth := map (fun c => get_timeseries (gp_skip p) (c_depth c)) cells).
  set (vel := map (fun c => get_timeseries (gp_skip p) (c_vel c)) cells).
  destruct (fill_centre_level (nth i depth []) (nth i level [])) as [cl|e]; [|cbn; reflexivity]. cbn [bind].
  destruct (identify_lakes (gp_lake p) depth) as [[[lakes wet] corr]|e]; [|cbn; reflexivity]. cbn [bind].
  set (nt := length (nth i depth [])). set (flow := distinguish_conveyance _ _ _ _ _ _ _ _).
  set (depth2 := map (pool_correction _) _). clearbody flow depth2.
  destruct (mask_index (check_monotonicity cl) cl) as [z|e]; [|cbn; reflexivity]. cbn [bind].
  assert (V : forall masks, times_column k (map (masked_volume cells depth2 masks) (seq 0 nt)) (map (masked_volume cells' depth2 masks) (seq 0 nt))).
  { intro masks. apply F2_same. intros t _. apply masked_volume_times, H. }
  assert (A : forall masks, times_column k (map (masked_area cells masks) (seq 0 nt)) (map (masked_area cells' masks) (seq 0 nt))).
  { intro masks. apply F2_same. intros t _. apply masked_area_times, H. }
  apply (res_rel_bind (times_column k)); [apply mask_index_rel, V|]. intros tv tv' TV.
  apply (res_rel_bind (times_column k)); [apply mask_index_rel, V|]. intros fv fv' FV.
  apply (res_rel_bind (times_column k)); [apply mask_index_rel, A|]. intros wa wa' WA.
  apply (res_rel_bind (times_column k)); [apply mask_index_rel, A|]. intros fa fa' FA.
  cbn [res_rel].
  assert (K0 : cols_times k (compute_css_above_z0 len z wa fa tv fv) (compute_css_above_z0 len' z wa' fa' tv' fv')).
  { unfold cols_times, compute_css_above_z0. cbn [k_z k_tw k_fw k_wet k_flow k_fvol k_tvol].
    split; [reflexivity|]. split; [apply (F2_map (times k)); auto; intros; apply ndiv_times; auto|].
    split; [apply envelope_eq, (F2_map (times k)); auto; intros; apply ndiv_times; auto|]. auto. }
  assert (Z0 : k_z (compute_css_above_z0 len' z wa' fa' tv' fv') = k_z (compute_css_above_z0 len z wa fa tv fv)) by reflexivity.
  rewrite Z0.
  pose proof (below_times (gp_extrapolate p) len len' (hd NaN (k_z (compute_css_above_z0 len z wa fa tv fv))) (hd NaN (nth i depth []))
    cells cells' (map (hd NaN) level) (map (hd false) wet) _ _ L H K0) as K1.
  match type of K1 with cols_times _ ?a ?b => set (k1 := a) in *; set (k1' := b) in * end. clearbody k1 k1'.
  unfold geometry_times. cbn [g_cols g_tvol1d g_fvol1d g_z_roughness]. split; [exact K1|].
  destruct K1 as (C1 & C2 & C3 & _). rewrite C1.
  assert (VV : forall w w', same_column w w' -> times_column k (css_volume len w (k_z k1)) (css_volume len' w' (k_z k1))).
  { intros w w' W. unfold css_volume. constructor; [apply zero_times|]. apply (F2_map num_eq).
    - intros a b AB. apply volume_times; auto.
    - apply (cumtrapz_eq 0); auto using num_eq_refl. apply F2_refl. intro x. apply (raised_0 0); [reflexivity|apply num_eq_refl]. }
  split; [apply VV, C2|]. split; [apply VV, C3|reflexivity].
Qed.

(** ** Section widths *)

Lemma section_widths_longer len len' area area' section fw fw' cfw cfw' :
  times k len len' -> times_column k area area' -> same_column fw fw' -> same_column cfw cfw' ->
  res_rel same_widths (nsection_widths len area section fw cfw) (nsection_widths len' area' section fw' cfw').
Proof.
  intros L A F C. unfold nsection_widths. cbv zeta.
  apply (res_rel_bind (times_column k)); [apply mask_index_rel, A|]. intros a0 a0' A0.
  apply (res_rel_bind (times_column k)); [apply mask_index_rel, A|]. intros a1 a1' A1.
  apply (res_rel_bind (times_column k)); [apply mask_index_rel, A|]. intros a2 a2' A2.
  apply (res_rel_bind (times_column k)); [apply mask_index_rel, A|]. intros a3 a3' A3.
  set (m := ndiv (nadd (nansum a1) _) len). set (m' := ndiv (nadd (nansum a1') _) len').
  set (f1 := ndiv (nansum a2) len). set (f1' := ndiv (nansum a2') len').
  set (f2 := ndiv (nansum a3) len). set (f2' := ndiv (nansum a3') len').
  assert (M : num_eq m m') by (apply ndiv_times; auto; apply nadd_times; auto using nansum_times, npsum_times).
  assert (G1 : num_eq f1 f1') by (apply ndiv_times; auto using nansum_times).
  assert (G2 : num_eq f2 f2') by (apply ndiv_times; auto using nansum_times).
  clearbody m m' f1 f1' f2 f2'.
  apply (res_rel_bind num_eq); [apply py_index_rel, F|]. intros a a' AA.
  assert (D : num_eq (nsub a (nadd (nadd (nadd (Fin 0) m) f1) f2)) (nsub a' (nadd (nadd (nadd (Fin 0) m') f1') f2')))
    by (repeat first [apply nsub_eq | apply nadd_eq]; auto using num_eq_refl).
  rewrite (nltb_eq (Fin 0) _ (Fin 0) _ (num_eq_refl _) D).
  set (b := nltb (Fin 0) _).
  assert (M2 : num_eq (if b then nadd m (nsub a (nadd (nadd (nadd (Fin 0) m) f1) f2)) else m)
                      (if b then nadd m' (nsub a' (nadd (nadd (nadd (Fin 0) m') f1') f2')) else m'))
    by (destruct b; auto using nadd_eq).
  match type of M2 with num_eq ?u ?v => set (m2 := u) in *; set (m2' := v) in * end. clearbody m2 m2'.
  apply (res_rel_bind num_eq); [apply py_index_rel, C|]. intros c c' CC.
  rewrite (py_floor_eq (nmul (nsub m2 c) (Fin 100)) (nmul (nsub m2' c') (Fin 100)))
    by (apply nmul_eq; [apply nsub_eq; auto|apply num_eq_refl]).
  destruct (py_floor _) as [fl|]; cbn [bind]; [|cbn [res_rel]; reflexivity].
  destruct (Qltb _ 0); cbn [res_rel]; unfold same_widths; cbn; auto using nsub_eq, nadd_eq, num_eq_refl.
Qed.
End Scale.

Lemma cells_longer k s s' : longer_reach k s s' -> Forall2 (cell_times k) (cells_of s) (cells_of s').
Proof.
  intros (A & _ & _ & B & D & L & V & S & _). unfold cells_of. rewrite <- (F2_length _ _ _ A). apply F2_same. intros i _.
  unfold cell_times. cbn. rewrite B, D, L, V, S. repeat (split; [|reflexivity]). split; [|repeat split].
  apply F2_nth; auto. exact I.
Qed.

Lemma table_raised_0 t t' : table_rel 0 t t' ->
  same_column (fst (fst t)) (fst (fst t')) /\ same_column (snd (fst t)) (snd (fst t')) /\ same_column (snd t) (snd t').
Proof.
  intros (Z & T & F). split; [|auto]. revert Z. apply F2_impl. intros a b. apply raised_0. reflexivity.
Qed.

(** C102.  A control volume that is [k] times as long, with the same river in
    it, gives the same cross-section: levels, widths, roughness, section widths,
    floodplain base, and crest level and areas of the summer dike; or the same
    exception is raised.  Volumes are [k] times as large (geometry_longer). *)
Theorem C102_the_length_of_the_reach_does_not_matter :
  forall smooth mean correction clean st name k len len' s s' i nt,
    0 < k -> times k len len' -> longer_reach k s s' -> scales k correction ->
    res_rel (option_rel (fun c c' =>
        s_name c = s_name c' /\
        same_column (s_z c) (s_z c') /\ same_column (s_tw c) (s_tw c') /\ same_column (s_fw c) (s_fw c') /\
        same_column (s_css_z c) (s_css_z c') /\ same_column (s_css_tw c) (s_css_tw c') /\ same_column (s_css_fw c) (s_css_fw c') /\
        num_eq (s_crest c) (s_crest c') /\ num_eq (s_extra_total c) (s_extra_total c') /\ num_eq (s_extra_flow c) (s_extra_flow c') /\
        s_tables c' = s_tables c /\ same_widths (s_widths c) (s_widths c') /\ num_eq (s_base c) (s_base c') /\
        s_faces c' = s_faces c /\ s_links c' = s_links c))
      (generate_cross_section smooth mean correction clean st name len i nt s)
      (generate_cross_section smooth mean correction clean st name len' i nt s').
Proof.
  intros smooth mean correction clean st name k len len' s s' i nt K L R SC.
  pose proof R as (A & X & Y & B & D & LV & V & S & RG & IL & CH & EF & EX & EY & ES).
  unfold generate_cross_section. rewrite X. destruct (Nat.ltb (length (s_x s)) 10); [exact I|].
  unfold build_cross_section_geometry.
  pose proof (geometry_longer k K smooth mean (st_geometry st) len len' i _ _ L (cells_longer k s s' R)) as G.
  destruct (build_geometry smooth mean (st_geometry st) len i (cells_of s)) as [g|e],
           (build_geometry smooth mean (st_geometry st) len' i (cells_of s')) as [g'|e'];
    cbn [res_rel bind] in G |- *; try contradiction; [|exact G].
  pose proof G as ((Z1 & T1 & W1 & _) & G1 & G2 & GR).
  assert (SD : num_eq (fst (fst (perform_correction correction (st_correction st) g len))) (fst (fst (perform_correction correction (st_correction st) g' len'))) /\
     num_eq (snd (fst (perform_correction correction (st_correction st) g len))) (snd (fst (perform_correction correction (st_correction st) g' len'))) /\
     num_eq (snd (perform_correction correction (st_correction st) g len)) (snd (perform_correction correction (st_correction st) g' len'))).
  { unfold perform_correction. specialize (SC g g' G). destruct (st_correction st); [|repeat split; apply num_eq_refl].
    destruct (correction g) as [[[c t] f]|e], (correction g') as [[[c' t'] f']|e']; cbn [res_rel fst snd] in SC |- *; try contradiction.
    - destruct SC as (S1 & S2 & S3). split; [exact S1|]. split; apply (ndiv_times k K); auto.
    - repeat split; apply num_eq_refl. }
  assert (Z0 : raised_column 0 (k_z (g_cols g)) (k_z (g_cols g'))).
  { rewrite Z1. apply F2_refl. intro x. apply (raised_0 0); [reflexivity|apply num_eq_refl]. }
  pose proof (check_requirements_rel 0 (st_minwidth st) _ _ _ _ _ _ Z0 T1 W1) as Q1.
  destruct (check_requirements (st_minwidth st) (k_z (g_cols g)) _ _) as [[[z tw] fw]|e],
           (check_requirements (st_minwidth st) (k_z (g_cols g')) _ _) as [[[z' tw'] fw']|e'];
    cbn [res_rel bind] in Q1 |- *; try contradiction; [|exact Q1].
  pose proof (reduce_css_rel 0 (st_points st) (z, tw, fw) (z', tw', fw') Q1 (or_introl (Qeq_refl 0))) as Q2.
  destruct (reduce_css_points (st_points st) (z, tw, fw)) as [[[z2 tw2] fw2]|e],
           (reduce_css_points (st_points st) (z', tw', fw')) as [[[z2' tw2'] fw2']|e'];
    cbn [res_rel bind] in Q2 |- *; try contradiction; [|exact Q2].
  destruct (perform_correction correction (st_correction st) g len) as [[c t] f].
  destruct (perform_correction correction (st_correction st) g' len') as [[c' t'] f']. cbn [fst snd] in SD.
  assert (LN : links_of nt s' = links_of nt s) by (unfold links_of; rewrite CH, EF, ES; reflexivity). rewrite LN, GR.
  destruct (build_roughness_tables _ _ (g_z_roughness g) _) as [tabs|e]; [|cbn [bind res_rel]; reflexivity]. cbn [bind].
  destruct (table_raised_0 _ _ Q1) as (A1 & A2 & A3). destruct (table_raised_0 _ _ Q2) as (B1 & B2 & B3).
  cbn [fst snd] in A1, A2, A3, B1, B2, B3. rewrite S, B.
  pose proof (section_widths_longer k K len len' (s_area s) (s_area s') (map section_of (s_section s)) _ _ _ _ L A B3 A3) as SW.
  destruct (nsection_widths len (s_area s) _ _ _) as [w|e], (nsection_widths len' (s_area s') _ _ _) as [w'|e'];
    cbn [res_rel bind] in SW |- *; try contradiction; [|exact SW].
  destruct SD as (S1 & S2 & S3).
  assert (BA : res_rel num_eq (compute_floodplain_base c (st_base st) (s_bed s) (map section_of (s_section s)))
                              (compute_floodplain_base c' (st_base st) (s_bed s) (map section_of (s_section s)))).
  { unfold compute_floodplain_base. cbv zeta. pose proof (nsub_eq _ _ _ _ S1 (num_eq_refl (st_base st))) as N.
    destruct (existsb _ _); [|exact N]. destruct (mask_index _ _) as [beds|e]; [|cbn [bind res_rel]; reflexivity]. cbn [bind].
    rewrite (nltb_eq _ _ _ _ N (num_eq_refl (nanmean beds))). destruct (nltb _ _); [exact N|apply num_eq_refl]. }
  destruct (compute_floodplain_base c _ _ _) as [b|e], (compute_floodplain_base c' _ _ _) as [b'|e'];
    cbn [res_rel bind option_rel] in BA |- *; try contradiction; [|exact BA].
  cbn [s_name s_z s_tw s_fw s_css_z s_css_tw s_css_fw s_crest s_extra_total s_extra_flow s_tables s_widths s_base s_faces s_links].
  repeat (split; [first [reflexivity|assumption]|]).
  split; [unfold face_output_list; rewrite IL, B, RG, S, X, Y; reflexivity|].
  unfold edge_output_list. rewrite ES, EX, EY. reflexivity.
Qed.
Print Assumptions C102_the_length_of_the_reach_does_not_matter.

(** ** A case *)

(** The volume below the second level as the volume behind the dike. *)
Definition some_volume (g : geometry) : res (num * num * num) :=
  Ok (hd NaN (k_z (g_cols g)), nth 1 (g_tvol1d g) NaN, nth 1 (g_fvol1d g) NaN).
Lemma some_volume_scales k : scales k some_volume.
Proof.
  intros g g' ((Z & _) & T & F & _). cbn [res_rel some_volume fst snd]. rewrite Z. split; [apply num_eq_refl|].
  split; apply F2_nth; auto; exact I.
Qed.
Definition with_area (a : Q) (s : selection) : selection :=
  mk_selection (s_x s) (s_y s) (map (fun _ => Fin a) (s_x s)) (s_bed s) (s_depth s) (s_level s) (s_vel s) (s_section s)
    (s_chezy s) (s_region s) (s_islake s) (s_edge_faces s) (s_edge_x s) (s_edge_y s) (s_edge_section s).
Local Notation reach_run len area :=
  (generate_cross_section rolling_rows overall_mean some_volume (fun x => x) (case_settings 1 true) (T "css") (Fin len) 0 3
    (with_area area (case_selection 0 one_order))).

(** A reach of 100 m and one of 300 m with the same river. *)
Theorem C102_case :
  scales 3 some_volume /\
  longer_reach 3 (with_area 100 (case_selection 0 one_order)) (with_area 300 (case_selection 0 one_order)) /\
  exists c c', reach_run 100 100 = Ok (Some c) /\ reach_run 300 300 = Ok (Some c') /\
    same_column (s_tw c) (s_tw c') /\ s_tables c' = s_tables c /\
    num_eq (nth 12 (s_tw c) NaN) (Fin 12) /\ num_eq (s_extra_total c) (s_extra_total c') /\
    nltb (Fin 0) (s_extra_total c) = true.
Proof.
  split; [apply some_volume_scales|].
  assert (R : longer_reach 3 (with_area 100 (case_selection 0 one_order)) (with_area 300 (case_selection 0 one_order))).
  { unfold longer_reach. split; [|repeat split]. cbn [s_area with_area]. apply F2_same. intros x _. cbn. reflexivity. }
  split; [exact R|].
  pose proof (C102_the_length_of_the_reach_does_not_matter rolling_rows overall_mean some_volume (fun x => x) (case_settings 1 true)
    (T "css") 3 (Fin 100) (Fin 300) _ _ 0 3 ltac:(lra) ltac:(cbn; reflexivity) R (some_volume_scales 3)) as K.
  pose (f := fun c => (lowest_terms (nth 12 (s_tw c) NaN), nltb (Fin 0) (s_extra_total c))).
  destruct (got_some f (reach_run 100 100) (Fin 12, true)) as (c & E & G); [vm_compute; reflexivity|].
  rewrite E in K. destruct (reach_run 300 300) as [[c'|]|e]; cbn [res_rel option_rel] in K; try contradiction.
  destruct K as (_ & _ & TW & _ & _ & _ & _ & _ & X & _ & TB & _).
  unfold f in G. injection G as G1 G2. exists c, c'. split; [exact E|]. split; [reflexivity|]. split; [exact TW|]. split; [exact TB|].
  split; [|split; [exact X|exact G2]]. pose proof (lowest_terms_eq (nth 12 (s_tw c) NaN)) as N. rewrite G1 in N.
  destruct (nth 12 (s_tw c) NaN); cbn in N |- *; try contradiction. rewrite N. reflexivity.
Qed.
Print Assumptions C102_case.
