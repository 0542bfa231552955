(** C100: the resolution of the 2D mesh.  Faces are divided into smaller faces
    with the same depths, levels, velocities, bed level and section. *)
From Coq Require Import String List Ascii ZArith QArith Qround Bool Permutation Lia Lqa.
From Verif Require Import PyBase Num Text L_Num L_List M_Geometry M_Sections M_Friction M_Simplify M_Import M_Cli M_Pipeline
  Spec_Same L_Same L_SameGeometry.
Import ListNotations.
Local Open Scope Q_scope.

(** ** Specification *)

Definition positive_area (c : cell) : Prop := exists a, c_area c = Fin a /\ 0 < a.

(** A part of a face: the same data, another area. *)
Definition part_of (c p : cell) : Prop :=
  c_bed p = c_bed c /\ c_depth p = c_depth c /\ c_level p = c_level c /\ c_vel p = c_vel c /\
  c_section p = c_section c /\ positive_area p.
(** The parts of a face have its area together. *)
Definition divided (c : cell) (parts : list cell) : Prop :=
  parts <> [] /\ Forall (part_of c) parts /\ num_eq (npsum (map c_area parts)) (c_area c).
(** The mesh [cells'] is a refinement of the mesh [cells]. *)
Definition finer (cells cells' : list cell) : Prop :=
  exists parts, Forall2 divided cells parts /\ cells' = List.concat parts.

(** ** Sums over the faces *)

Lemma nadd_assoc x y z : num_eq (nadd (nadd x y) z) (nadd x (nadd y z)).
Proof. destruct x, y, z; cbn; auto. lra. Qed.
Lemma nadd_0_l x : num_eq (nadd (Fin 0) x) x.
Proof. destruct x; cbn; auto. lra. Qed.
Lemma fold_nadd_from l a : num_eq (fold_left nadd l a) (nadd a (fold_left nadd l (Fin 0))).
Proof.
  revert a. induction l as [|x l IH]; intro a; cbn.
  - destruct a; cbn; auto. lra.
  - eapply num_eq_trans; [apply IH|]. eapply num_eq_trans; [apply nadd_assoc|].
    apply nadd_eq; [apply num_eq_refl|]. apply num_eq_sym.
    eapply num_eq_trans; [apply IH|]. apply nadd_eq; [apply nadd_0_l|apply num_eq_refl].
Qed.
Lemma nansum_app l m : num_eq (nansum (l ++ m)) (nadd (nansum l) (nansum m)).
Proof. unfold nansum. rewrite filter_app, fold_left_app. apply fold_nadd_from. Qed.
Lemma nansum_cons x l : num_eq (nansum (x :: l)) (nadd (nansum [x]) (nansum l)).
Proof. apply (nansum_app [x] l). Qed.
Lemma nansum_finer {A} (f : A -> num) cells parts :
  Forall2 (fun c ps => num_eq (nansum [f c]) (nansum (map f ps))) cells parts ->
  num_eq (nansum (map f cells)) (nansum (map f (List.concat parts))).
Proof.
  induction 1 as [|c ps cells parts E F IH]; [apply num_eq_refl|]. cbn [map concat]. rewrite map_app.
  eapply num_eq_trans; [apply nansum_cons|]. apply num_eq_sym.
  eapply num_eq_trans; [apply nansum_app|]. apply num_eq_sym. apply nadd_eq; auto.
Qed.
Lemma nansum_nan {A} (l : list A) : nansum (map (fun _ => NaN) l) = Fin 0.
Proof. induction l; auto. Qed.
Lemma nansum_numbers l : Forall (fun x => isnan x = false) l -> nansum l = npsum l.
Proof.
  intro H. unfold nansum, npsum. f_equal. induction H as [|x l E F IH]; cbn; auto. rewrite E. cbn. congruence.
Qed.
Lemma npsum_cons x l : num_eq (npsum (x :: l)) (nadd x (npsum l)).
Proof.
  unfold npsum. cbn [fold_left]. eapply num_eq_trans; [apply fold_nadd_from|]. apply nadd_eq; [apply nadd_0_l|apply num_eq_refl].
Qed.

(** The parts of a face with areas [a1, a2, ...]. *)
Lemma parts_areas c ps : Forall (part_of c) ps -> exists l, map c_area ps = map Fin l /\ Forall (fun a => 0 < a) l.
Proof.
  induction 1 as [|p ps (_ & _ & _ & _ & _ & a & A & P) F (l & E & G)]; [exists []; auto|].
  exists (a :: l). split; [cbn; congruence|]. constructor; auto.
Qed.
Definition sum_of (l : list Q) : Q := fold_right Qplus 0 l.
Lemma npsum_numbers l : num_eq (npsum (map Fin l)) (Fin (sum_of l)).
Proof.
  induction l as [|a l IH]; [cbn; lra|]. cbn [map]. eapply num_eq_trans; [apply npsum_cons|].
  cbn [sum_of fold_right]. apply (nadd_eq (Fin a) _ (Fin a) (Fin (sum_of l))); auto using num_eq_refl.
Qed.
Lemma sum_positive l : l <> [] -> Forall (fun a => 0 < a) l -> 0 < sum_of l.
Proof.
  intros N H. destruct H as [|a l A H]; [congruence|]. change (0 < a + sum_of l).
  assert (0 <= sum_of l); [|lra]. clear N A. induction H as [|b l B H IH]; [cbn; lra|]. change (0 <= b + sum_of l). lra.
Qed.
Lemma nmul_sum l d : l <> [] -> Forall (fun a => 0 < a) l ->
  num_eq (npsum (map (fun a => nmul (Fin a) (Fin d)) l)) (nmul (Fin (sum_of l)) (Fin d)).
Proof.
  intros _ _. induction l as [|a l IH]; [cbn; lra|]. cbn [map]. eapply num_eq_trans; [apply npsum_cons|].
  eapply num_eq_trans; [apply nadd_eq; [apply num_eq_refl|exact IH]|].
  change (a * d + sum_of l * d == (a + sum_of l) * d). ring.
Qed.
Lemma inf_times_positive b a : 0 < a -> inf_times b a = if b then PInf else NInf.
Proof.
  intro H. unfold inf_times. destruct (Qeq_bool a 0) eqn:E; [apply Qeq_bool_true in E; lra|].
  destruct (Qltb 0 a) eqn:L; auto. apply Qltb_false in L. lra.
Qed.
Lemma npsum_infinite {A} (l : list A) x : l <> [] -> (x = PInf \/ x = NInf) -> num_eq (npsum (map (fun _ => x) l)) x.
Proof.
  intros N X. destruct l as [|a l]; [congruence|]. clear N. revert a.
  induction l as [|b l IH]; intro a; cbn [map]; [destruct X; subst; exact I|].
  eapply num_eq_trans; [apply npsum_cons|]. eapply num_eq_trans; [apply nadd_eq; [apply num_eq_refl|apply (IH b)]|].
  destruct X; subst; exact I.
Qed.

(** Area and volume of a face are those of its parts. *)
Lemma area_of_parts (b : bool) c ps : divided c ps ->
  num_eq (nansum [if b then c_area c else NaN]) (nansum (map (fun p => if b then c_area p else NaN) ps)).
Proof.
  intros (N & P & S). destruct b; [|rewrite nansum_nan; apply num_eq_refl].
  change (num_eq (nansum [c_area c]) (nansum (map c_area ps))).
  destruct (parts_areas c ps P) as (l & E & G). rewrite E in *.
  rewrite (nansum_numbers (map Fin l)) by (clear; induction l; constructor; auto).
  apply num_eq_sym. eapply num_eq_trans; [exact S|].
  pose proof (num_eq_trans _ _ _ (num_eq_sym _ _ (npsum_numbers l)) S) as X.
  destruct (c_area c); cbn in X |- *; try contradiction. lra.
Qed.
Lemma volume_of_parts (b : bool) d c ps : divided c ps ->
  num_eq (nansum [if b then nmul (c_area c) d else NaN])
         (nansum (map (fun p => if b then nmul (c_area p) d else NaN) ps)).
Proof.
  intros (N & P & S). destruct b; [|rewrite nansum_nan; apply num_eq_refl].
  change (num_eq (nansum [nmul (c_area c) d]) (nansum (map (fun p => nmul (c_area p) d) ps))).
  destruct (parts_areas c ps P) as (l & E & G). rewrite E in S.
  assert (L : l <> []) by (intros ->; destruct ps; [congruence|discriminate]).
  pose proof (sum_positive l L G) as SP.
  pose proof (num_eq_trans _ _ _ (num_eq_sym _ _ (npsum_numbers l)) S) as X.
  destruct (c_area c) as [a| | |]; cbn in X; try contradiction.
  assert (A : 0 < a) by lra.
  replace (map (fun p => nmul (c_area p) d) ps) with (map (fun a => nmul (Fin a) d) l)
    by (rewrite <- (map_map Fin (fun x => nmul x d)), <- E, map_map; reflexivity).
  assert (T : num_eq (npsum (map (fun a => nmul (Fin a) d) l)) (nmul (Fin a) d) \/ d = NaN).
  { destruct d as [d| | |]; [left|right; reflexivity|left|left].
    - eapply num_eq_trans; [apply nmul_sum; auto|]. cbn. rewrite X. reflexivity.
    - cbn [nmul]. rewrite (inf_times_positive true a A).
      rewrite (map_ext_in _ (fun _ => PInf)) by (intros q Q; rewrite Forall_forall in G; apply (inf_times_positive true), G, Q).
      apply npsum_infinite; auto.
    - cbn [nmul]. rewrite (inf_times_positive false a A).
      rewrite (map_ext_in _ (fun _ => NInf)) by (intros q Q; rewrite Forall_forall in G; apply (inf_times_positive false), G, Q).
      apply npsum_infinite; auto. }
  destruct T as [T| ->].
  - assert (M : forall q, 0 < q -> isnan d = false -> isnan (nmul (Fin q) d) = false).
    { intros q Q D. destruct d; cbn; auto; try discriminate; rewrite inf_times_positive; auto. }
    destruct (isnan d) eqn:D.
    + destruct d; try discriminate. rewrite (map_ext (fun a => nmul (Fin a) NaN) (fun _ => NaN)) by reflexivity.
      rewrite nansum_nan. apply num_eq_refl.
    + rewrite (nansum_numbers (map _ l)).
      2:{ clear -G M. induction G; constructor; auto. }
      rewrite (nansum_numbers [_]) by (constructor; auto).
      apply num_eq_sym. eapply num_eq_trans; [exact T|]. apply num_eq_sym.
      unfold npsum. cbn [fold_left]. apply nadd_0_l.
  - rewrite (map_ext (fun a => nmul (Fin a) NaN) (fun _ => NaN)) by reflexivity. rewrite nansum_nan. apply num_eq_refl.
Qed.

(** ** The geometry *)

Lemma finer_map {B} (f : cell -> B) cells parts : Forall2 divided cells parts ->
  (forall c p, part_of c p -> f p = f c) ->
  Forall2 (fun c ps => Forall (fun p => f p = f c) ps) cells parts.
Proof.
  intros H K. revert H. apply F2_impl. intros c ps (_ & P & _). revert P. apply Forall_impl. intros p. apply K.
Qed.
Lemma forallb_finer (b : cell -> bool) cells parts : Forall2 divided cells parts ->
  (forall c p, part_of c p -> b p = b c) -> forallb b (List.concat parts) = forallb b cells.
Proof.
  intros H K. induction H as [|c ps cells parts (N & P & _) F IH]; [reflexivity|]. cbn [List.concat forallb].
  rewrite forallb_app, IH. f_equal. destruct P as [|p ps A P]; [congruence|]. clear N. cbn.
  rewrite (K _ _ A). destruct (b c) eqn:E; [|reflexivity]. cbn. induction P as [|q ps B P IHP]; auto.
  cbn. rewrite (K _ _ B), E. apply IHP.
Qed.
Lemma area_finer (m : cell -> bool) cells parts : Forall2 divided cells parts ->
  (forall c p, part_of c p -> m p = m c) ->
  num_eq (nansum (map (fun c => if m c then c_area c else NaN) cells))
         (nansum (map (fun c => if m c then c_area c else NaN) (List.concat parts))).
Proof.
  intros H K. apply nansum_finer. revert H. apply F2_impl. intros c ps D.
  rewrite (map_ext_in _ (fun p => if m c then c_area p else NaN)).
  - apply (area_of_parts (m c)), D.
  - intros p I. destruct D as (_ & P & _). rewrite Forall_forall in P. rewrite (K c p (P p I)). reflexivity.
Qed.
Lemma volume_finer (m : cell -> bool) (d : cell -> num) cells parts : Forall2 divided cells parts ->
  (forall c p, part_of c p -> m p = m c) -> (forall c p, part_of c p -> d p = d c) ->
  num_eq (nansum (map (fun c => if m c then nmul (c_area c) (d c) else NaN) cells))
         (nansum (map (fun c => if m c then nmul (c_area c) (d c) else NaN) (List.concat parts))).
Proof.
  intros H K L. apply nansum_finer. revert H. apply F2_impl. intros c ps D.
  rewrite (map_ext_in _ (fun p => if m c then nmul (c_area p) (d c) else NaN)).
  - apply (volume_of_parts (m c)), D.
  - intros p I. destruct D as (_ & P & _). rewrite Forall_forall in P. rewrite (K c p (P p I)), (L c p (P p I)). reflexivity.
Qed.
Lemma nansum_filter {A} (f : A -> num) (b : A -> bool) l :
  nansum (map f (filter b l)) = nansum (map (fun x => if b x then f x else NaN) l).
Proof.
  unfold nansum. f_equal. induction l as [|x l IH]; auto. cbn [filter map]. destruct (b x); cbn [map filter].
  - destruct (negb (isnan (f x))); congruence.
  - exact IH.
Qed.
Lemma filter_map {A B} (f : A -> B) (b : B -> bool) l : filter b (map f l) = map f (filter (fun x => b (f x)) l).
Proof. induction l as [|x l IH]; auto. cbn. destruct (b (f x)); cbn; congruence. Qed.

(** What does not depend on the velocities: levels, total widths, wet areas and
    total volumes. *)
Definition same_totals (g g' : geometry) : Prop :=
  k_z (g_cols g) = k_z (g_cols g') /\ same_column (k_tw (g_cols g)) (k_tw (g_cols g')) /\
  same_column (k_wet (g_cols g)) (k_wet (g_cols g')) /\ same_column (k_tvol (g_cols g)) (k_tvol (g_cols g')) /\
  same_column (g_tvol1d g) (g_tvol1d g') /\ g_z_roughness g = g_z_roughness g'.
Definition same_flow (g g' : geometry) : Prop :=
  same_column (k_fw (g_cols g)) (k_fw (g_cols g')) /\ same_column (k_flow (g_cols g)) (k_flow (g_cols g')) /\
  same_column (k_fvol (g_cols g)) (k_fvol (g_cols g')) /\ same_column (g_fvol1d g) (g_fvol1d g').

Definition cols_fine (P : Prop) (k k' : css_cols) : Prop :=
  k_z k = k_z k' /\ same_column (k_tw k) (k_tw k') /\ same_column (k_wet k) (k_wet k') /\ same_column (k_tvol k) (k_tvol k') /\
  (P -> same_column (k_fw k) (k_fw k') /\ same_column (k_flow k) (k_flow k') /\ same_column (k_fvol k) (k_fvol k')).

Lemma below_fine (P : Prop) e len z d cells cells' k k' :
  (forall dz, num_eq (wet_area_below cells dz) (wet_area_below cells' dz)) -> cols_fine P k k' ->
  cols_fine P (extend_css_below_z0 e len z d cells k) (extend_css_below_z0 e len z d cells' k').
Proof.
  intros W K. unfold extend_css_below_z0. cbv zeta.
  assert (F : P -> num_eq (hd NaN (k_flow k)) (hd NaN (k_flow k'))).
  { intro p. destruct K as (_ & _ & _ & _ & K). apply F2_hd; [apply (K p)|exact I]. }
  revert F K. generalize (hd NaN (k_flow k)) (hd NaN (k_flow k')). intros f f' F.
  generalize (linspace10 (nsub z (nsub z d))). intro l. revert k k'.
  induction l as [|dz l IH]; intros k k' K; [exact K|]. cbn [fold_left]. apply IH.
  destruct K as (K1 & K2 & K3 & K4 & K5). unfold below_z0_step, cols_fine. cbv zeta.
  cbn [k_z k_tw k_fw k_wet k_flow k_fvol k_tvol].
  split; [congruence|]. split; [constructor; auto; apply ndiv_eq; auto using num_eq_refl|].
  split; [constructor; auto|]. split; [constructor; auto; exact I|]. intro p. destruct (K5 p) as (K6 & K7 & K8).
  assert (N : num_eq (if negb e then wet_area_below cells dz else npmin (wet_area_below cells dz) f)
                     (if negb e then wet_area_below cells' dz else npmin (wet_area_below cells' dz) f'))
    by (destruct e; cbn; auto using npmin_eq).
  split; [constructor; auto; apply ndiv_eq; auto using num_eq_refl|]. split; [constructor; auto|constructor; auto; exact I].
Qed.

Lemma select_same_length {A B} mask (l : list A) (m : list B) : length l = length m ->
  match mask_index mask l, mask_index mask m with Ok a, Ok b => length a = length b | Raise e, Raise e' => e = e' | _, _ => False end.
Proof.
  intro H. unfold mask_index. rewrite H. destruct (Nat.eqb (length mask) (length m)); [|reflexivity].
  revert l m H. induction mask as [|b mask IH]; intros [|x l] [|y m] H; cbn in *; try discriminate; try reflexivity;
    try (destruct b; reflexivity). injection H as H. destruct b; cbn; [f_equal|]; apply IH, H.
Qed.

Lemma finish_fine p len cells cells' cd cl tv tv' fv fv' wa wa' fa fa' :
  let at0 := map (fun c => (c, hd NaN (clevel p c), hd false (cwet p c))) in
  same_column tv tv' -> same_column wa wa' -> length fv = length fv' -> length fa = length fa' ->
  (forall dz, num_eq (wet_area_below (at0 cells) dz) (wet_area_below (at0 cells') dz)) ->
  res_rel (fun g g' => same_totals g g' /\ (same_column fv fv' -> same_column fa fa' -> same_flow g g'))
    (finish_geometry p len cells cd cl tv fv wa fa) (finish_geometry p len cells' cd cl tv' fv' wa' fa').
Proof.
  intros at0 TV WA LV LA B. unfold finish_geometry. cbv zeta.
  destruct (mask_index (check_monotonicity cl) cl) as [z|e]; [|reflexivity]. cbn [bind].
  apply (res_rel_bind same_column); [apply mask_index_rel, TV|]. clear tv tv' TV. intros tv tv' TV.
  pose proof (select_same_length (check_monotonicity cl) fv fv' LV) as LV'.
  assert (RV : same_column fv fv' -> res_rel same_column (mask_index (check_monotonicity cl) fv) (mask_index (check_monotonicity cl) fv'))
    by (apply mask_index_rel).
  destruct (mask_index (check_monotonicity cl) fv) as [v|e], (mask_index (check_monotonicity cl) fv') as [v'|e'];
    try contradiction; [|subst; reflexivity]. cbn [bind]. cbn [res_rel] in RV.
  apply (res_rel_bind same_column); [apply mask_index_rel, WA|]. clear wa wa' WA. intros wa wa' WA.
  pose proof (select_same_length (check_monotonicity cl) fa fa' LA) as LA'.
  assert (RA : same_column fa fa' -> res_rel same_column (mask_index (check_monotonicity cl) fa) (mask_index (check_monotonicity cl) fa'))
    by (apply mask_index_rel).
  destruct (mask_index (check_monotonicity cl) fa) as [a|e], (mask_index (check_monotonicity cl) fa') as [a'|e'];
    try contradiction; [|subst; reflexivity]. cbn [bind res_rel]. cbn [res_rel] in RA.
  set (P := same_column v v' /\ same_column a a').
  assert (K0 : cols_fine P (compute_css_above_z0 len z wa a tv v) (compute_css_above_z0 len z wa' a' tv' v')).
  { unfold cols_fine, compute_css_above_z0. cbn [k_z k_tw k_fw k_wet k_flow k_fvol k_tvol].
    split; [reflexivity|]. split; [apply (F2_map num_eq); auto; intros; apply ndiv_eq; auto using num_eq_refl|].
    split; [exact WA|]. split; [exact TV|]. intros (PV & PA).
    split; [apply envelope_eq, (F2_map num_eq); auto; intros; apply ndiv_eq; auto using num_eq_refl|]. auto. }
  set (k0 := compute_css_above_z0 len z wa a tv v) in *. set (k0' := compute_css_above_z0 len z wa' a' tv' v') in *.
  assert (Z0 : hd NaN (k_z k0) = hd NaN (k_z k0')) by (destruct K0 as (-> & _); reflexivity). rewrite Z0.
  pose proof (below_fine P (gp_extrapolate p) len (hd NaN (k_z k0')) (hd NaN cd) (at0 cells) (at0 cells') k0 k0' B K0) as K1.
  fold at0. change (map (fun c => (c, hd NaN (clevel p c), hd false (cwet p c))) cells') with (at0 cells').
  change (map (fun c => (c, hd NaN (clevel p c), hd false (cwet p c))) cells) with (at0 cells).
  set (k1 := extend_css_below_z0 _ _ _ _ (at0 cells) k0) in *. set (k1' := extend_css_below_z0 _ _ _ _ (at0 cells') k0') in *.
  destruct K1 as (K1 & K2 & K3 & K4 & K5).
  assert (ZR : raised_column 0 (k_z k1) (k_z k1')).
  { rewrite K1. apply F2_refl. intro x. apply (raised_0 0); [reflexivity|apply num_eq_refl]. }
  unfold same_totals, same_flow. cbn [g_cols g_tvol1d g_fvol1d g_z_roughness]. split.
  - split; [exact K1|]. split; [exact K2|]. split; [exact K3|]. split; [exact K4|]. split; [|reflexivity].
    apply (volume_eq 0); auto using num_eq_refl.
  - intros X Y. destruct (K5 (conj (RV X) (RA Y))) as (K6 & K7 & K8). split; [exact K6|]. split; [exact K7|].
    split; [exact K8|]. apply (volume_eq 0); auto using num_eq_refl.
Qed.

(** The mean of the three highest velocities in time step [t], the measure of
    conveyance of methods 1 and up. *)
Definition highest_velocity (p : geom_params) (cells : list cell) (t : nat) : num :=
  top3_mean (map (fun c => nth t (get_timeseries (gp_skip p) (c_vel c)) NaN) cells).

(** C100.  With the faces divided into smaller ones, and a part of the nearest
    face the nearest, levels, total widths, wet areas and total volumes of the
    geometry are the same, or the same exception is raised; so are flow widths,
    flow areas and flow volumes, if the highest velocity is the same in every
    time step. *)
Theorem C100_a_finer_mesh_partial :
  forall smooth mean p len cells cells' i i' c c',
    gp_method p <> 0%Z -> finer cells cells' ->
    nth_error cells i = Some c -> nth_error cells' i' = Some c' -> part_of c c' ->
    res_rel (fun g g' => same_totals g g' /\
               ((forall t, num_eq (highest_velocity p cells t) (highest_velocity p cells' t)) -> same_flow g g'))
      (build_geometry smooth mean p len i cells) (build_geometry smooth mean p len i' cells').
Proof.
  intros smooth mean p len cells cells' i i' c c' M (parts & D & ->) Ci Ci' CC.
  rewrite !build_geometry_cells by auto. cbv zeta.
  assert (ND : forall f : cell -> list num, nth i (map f cells) [] = f c /\ nth i' (map f (List.concat parts)) [] = f c').
  { intro f. split; apply nth_error_nth; rewrite nth_error_map; [rewrite Ci|rewrite Ci']; reflexivity. }
  rewrite (proj1 (ND (cdepth p))), (proj2 (ND (cdepth p))), (proj1 (ND (clevel p))), (proj2 (ND (clevel p))).
  assert (ED : forall c q, part_of c q -> cdepth p q = cdepth p c) by (intros a b (_ & E & _); unfold cdepth; congruence).
  assert (EL : forall c q, part_of c q -> clevel p q = clevel p c) by (intros a b (_ & _ & E & _); unfold clevel; congruence).
  assert (EV : forall c q, part_of c q -> cvel p q = cvel p c) by (intros a b (_ & _ & _ & E & _); unfold cvel; congruence).
  assert (EW : forall c q, part_of c q -> cwet p q = cwet p c) by (intros a b AB; unfold cwet, clake; rewrite (ED a b AB); reflexivity).
  rewrite (ED _ _ CC), (EL _ _ CC). set (nt := length (cdepth p c)). set (cd := cdepth p c).
  destruct (fill_centre_level cd (clevel p c)) as [cl|e]; [|reflexivity]. cbn [bind].
  rewrite (forallb_finer _ cells parts D) by (intros a b AB; rewrite (ED a b AB); reflexivity).
  destruct (forallb _ cells); [|reflexivity].
  set (top := fun t => top3_mean (map (fun c => nth t (cvel p c) NaN) cells)).
  set (top' := fun t => top3_mean (map (fun c => nth t (cvel p c) NaN) (List.concat parts))).
  assert (EF : forall h c q, part_of c q -> cflow p nt h q = cflow p nt h c).
  { intros h a b AB. unfold cflow. rewrite (ED a b AB), (EV a b AB). reflexivity. }
  assert (EE : forall c q, part_of c q -> ceff p (hd NaN cd) q = ceff p (hd NaN cd) c).
  { intros a b AB. unfold ceff, clake. rewrite (ED a b AB). reflexivity. }
  assert (MA : forall m m' : cell -> list bool, (forall t c, nth t (m c) false = nth t (m' c) false) ->
     (forall c q, part_of c q -> m q = m c) ->
     same_column (map (masked_area cells (map m cells)) (seq 0 nt)) (map (masked_area (List.concat parts) (map m' (List.concat parts))) (seq 0 nt))).
  { intros m m' MM ME. apply F2_same. intros t _. rewrite !masked_area_map.
    rewrite <- (map_ext (fun c => if nth t (m c) false then c_area c else NaN) _ )
      with (l := List.concat parts) by (intro a; rewrite (MM t a); reflexivity).
    apply (area_finer (fun c => nth t (m c) false)); auto. intros a b AB. rewrite (ME a b AB). reflexivity. }
  assert (MV : forall m m' : cell -> list bool, (forall t c, nth t (m c) false = nth t (m' c) false) ->
     (forall c q, part_of c q -> m q = m c) ->
     same_column (map (masked_volume cells (map (ceff p (hd NaN cd)) cells) (map m cells)) (seq 0 nt))
       (map (masked_volume (List.concat parts) (map (ceff p (hd NaN cd)) (List.concat parts)) (map m' (List.concat parts))) (seq 0 nt))).
  { intros m m' MM ME. apply F2_same. intros t _. rewrite !masked_volume_map.
    rewrite <- (map_ext (fun c => if nth t (m c) false then nmul (c_area c) (nth t (ceff p (hd NaN cd) c) NaN) else NaN) _ )
      with (l := List.concat parts) by (intro a; rewrite (MM t a); reflexivity).
    apply (volume_finer (fun c => nth t (m c) false) (fun c => nth t (ceff p (hd NaN cd) c) NaN)); auto.
    - intros a b AB. rewrite (ME a b AB). reflexivity.
    - intros a b AB. rewrite (EE a b AB). reflexivity. }
  set (fv := map (masked_volume cells (map (ceff p (hd NaN cd)) cells) (map (cflow p nt top) cells)) (seq 0 nt)).
  set (fv' := map (masked_volume (List.concat parts) _ (map (cflow p nt top') _)) (seq 0 nt)).
  set (fa := map (masked_area cells (map (cflow p nt top) cells)) (seq 0 nt)).
  set (fa' := map (masked_area _ (map (cflow p nt top') _)) (seq 0 nt)).
  assert (FF : (forall t, num_eq (highest_velocity p cells t) (highest_velocity p (List.concat parts) t)) ->
               same_column fv fv' /\ same_column fa fa').
  { intro H. assert (FE : forall t c, nth t (cflow p nt top c) false = nth t (cflow p nt top' c) false).
    { intros t a. replace (cflow p nt top a) with (cflow p nt top' a); [reflexivity|]. unfold cflow. apply map_ext. intro u.
      unfold conveys. f_equal. f_equal. apply nltb_eq; [|apply num_eq_refl]. apply nmul_eq; [|apply num_eq_refl].
      apply num_eq_sym, (H u). }
    split; [apply MV|apply MA]; auto. }
  assert (R : res_rel (fun g g' => same_totals g g' /\ (same_column fv fv' -> same_column fa fa' -> same_flow g g'))
    (finish_geometry p len cells cd cl
      (map (masked_volume cells (map (ceff p (hd NaN cd)) cells) (map (cwet p) cells)) (seq 0 nt)) fv
      (map (masked_area cells (map (cwet p) cells)) (seq 0 nt)) fa)
    (finish_geometry p len (List.concat parts) cd cl
      (map (masked_volume (List.concat parts) (map (ceff p (hd NaN cd)) (List.concat parts)) (map (cwet p) (List.concat parts))) (seq 0 nt)) fv'
      (map (masked_area (List.concat parts) (map (cwet p) (List.concat parts))) (seq 0 nt)) fa')).
  { apply finish_fine; auto.
    - unfold fv, fv'. rewrite !map_length. reflexivity.
    - unfold fa, fa'. rewrite !map_length. reflexivity.
    - intro dz. unfold wet_area_below. rewrite !filter_map, !map_map. cbn [fst snd]. rewrite !nansum_filter.
      apply (area_finer (fun x => nltb (Fin (-1 # 1000)) (nsub (depth_at_t0 x (hd NaN (clevel p x))) dz) && hd false (cwet p x))); auto.
      intros a b AB. rewrite (EL a b AB), (EW a b AB). unfold depth_at_t0. destruct AB as (-> & _). reflexivity. }
  revert R. destruct (finish_geometry p len cells _ _ _ _ _ _) as [g|e], (finish_geometry p len (List.concat parts) _ _ _ _ _ _) as [g'|e'];
    cbn [res_rel]; auto. intros (R1 & R2). split; [exact R1|]. intro H. destruct (FF H). auto.
Qed.
Print Assumptions C100_a_finer_mesh_partial.

(** ** Section widths *)

Lemma pick_cells {B} (b : cell -> bool) (f : cell -> B) cells :
  mask_index (map b cells) (map f cells) = Ok (map f (filter b cells)).
Proof.
  unfold mask_index. rewrite !map_length, Nat.eqb_refl. f_equal.
  induction cells as [|c cells IH]; auto. cbn. destruct (b c); cbn; congruence.
Qed.
Lemma section_areas cells parts b : Forall2 divided cells parts -> (forall c p, part_of c p -> b p = b c) ->
  num_eq (nansum (map c_area (filter b cells))) (nansum (map c_area (filter b (List.concat parts)))) /\
  num_eq (npsum (map c_area (filter b cells))) (npsum (map c_area (filter b (List.concat parts)))).
Proof.
  intros D K. assert (N : num_eq (nansum (map c_area (filter b cells))) (nansum (map c_area (filter b (List.concat parts))))).
  { rewrite !nansum_filter. apply area_finer; auto. }
  split; [exact N|].
  assert (G : forall l, Forall (fun c => isnan (c_area c) = false) l -> nansum (map c_area (filter b l)) = npsum (map c_area (filter b l))).
  { intros l H. apply nansum_numbers. induction H as [|c l C H IH]; [constructor|]. cbn. destruct (b c); auto. constructor; auto. }
  rewrite <- !G; auto.
  - clear -D. induction D as [|c ps cells parts (_ & P & _) D IH]; [constructor|]. cbn. apply Forall_app. split; auto.
    revert P. apply Forall_impl. intros p (_ & _ & _ & _ & _ & a & A & _). rewrite A. reflexivity.
  - clear -D. induction D as [|c ps cells parts (_ & P & S) D IH]; constructor; auto.
    destruct (parts_areas c ps P) as (l & E & _). rewrite E in S.
    pose proof (num_eq_trans _ _ _ (num_eq_sym _ _ (npsum_numbers l)) S) as X. destruct (c_area c); auto; contradiction.
Qed.

(** The widths of the sections are the same for the finer mesh, given the same
    flow widths. *)
Theorem C100_section_widths :
  forall len cells cells' fw fw' css_fw css_fw',
    finer cells cells' -> same_column fw fw' -> same_column css_fw css_fw' ->
    res_rel (fun w w' => num_eq (nw_main w) (nw_main w') /\ num_eq (nw_fp1 w) (nw_fp1 w') /\ num_eq (nw_fp2 w) (nw_fp2 w'))
      (nsection_widths len (map c_area cells) (map (fun c => section_of (c_section c)) cells) fw css_fw)
      (nsection_widths len (map c_area cells') (map (fun c => section_of (c_section c)) cells') fw' css_fw').
Proof.
  intros len cells cells' fw fw' css_fw css_fw' (parts & D & ->) F C. unfold nsection_widths. cbv zeta.
  rewrite !map_map.
  assert (S : forall k c p, part_of c p -> label_is k (section_of (c_section p)) = label_is k (section_of (c_section c))).
  { intros k c p (_ & _ & _ & _ & E & _). rewrite E. reflexivity. }
  rewrite !pick_cells. cbn [bind].
  pose proof (proj2 (section_areas cells parts _ D (S M_Sections.NODATA))) as A0.
  pose proof (proj1 (section_areas cells parts _ D (S 1%Z))) as A1.
  pose proof (proj1 (section_areas cells parts _ D (S 2%Z))) as A2.
  pose proof (proj1 (section_areas cells parts _ D (S 3%Z))) as A3.
  apply (res_rel_bind num_eq); [apply py_index_rel, F|]. intros l l' L.
  pose proof (ndiv_eq _ _ _ _ (nadd_eq _ _ _ _ A1 A0) (num_eq_refl len)) as W1.
  pose proof (ndiv_eq _ _ _ _ A2 (num_eq_refl len)) as W2. pose proof (ndiv_eq _ _ _ _ A3 (num_eq_refl len)) as W3.
  revert W1 W2 W3.
  generalize (ndiv (nadd (nansum (map c_area (filter (fun x => label_is 1 (section_of (c_section x))) cells)))
    (npsum (map c_area (filter (fun x => label_is M_Sections.NODATA (section_of (c_section x))) cells)))) len).
  generalize (ndiv (nadd (nansum (map c_area (filter (fun x => label_is 1 (section_of (c_section x))) (List.concat parts))))
    (npsum (map c_area (filter (fun x => label_is M_Sections.NODATA (section_of (c_section x))) (List.concat parts))))) len).
  generalize (ndiv (nansum (map c_area (filter (fun x => label_is 2 (section_of (c_section x))) cells))) len).
  generalize (ndiv (nansum (map c_area (filter (fun x => label_is 2 (section_of (c_section x))) (List.concat parts)))) len).
  generalize (ndiv (nansum (map c_area (filter (fun x => label_is 3 (section_of (c_section x))) cells))) len).
  generalize (ndiv (nansum (map c_area (filter (fun x => label_is 3 (section_of (c_section x))) (List.concat parts)))) len).
  clear A0 A1 A2 A3 S D. intros c' c b' b a' a A B G.
  set (x := nsub l (nadd (nadd (nadd (Fin 0) a) b) c)). set (x' := nsub l' (nadd (nadd (nadd (Fin 0) a') b') c')).
  assert (X : num_eq x x') by (apply nsub_eq; auto; repeat apply nadd_eq; auto using num_eq_refl).
  assert (M : num_eq (if nltb (Fin 0) x then nadd a x else a) (if nltb (Fin 0) x' then nadd a' x' else a')).
  { rewrite (nltb_eq _ _ _ _ (num_eq_refl (Fin 0)) X). destruct (nltb (Fin 0) x'); auto. apply nadd_eq; auto. }
  revert M. generalize (if nltb (Fin 0) x then nadd a x else a) (if nltb (Fin 0) x' then nadd a' x' else a'). intros m m' M.
  apply (res_rel_bind num_eq); [apply py_index_rel; auto|]. intros f f' FF.
  apply (res_rel_bind eq).
  { pose proof (nmul_eq _ _ _ _ (nsub_eq _ _ _ _ M FF) (num_eq_refl (Fin 100))) as E.
    destruct (nmul (nsub m f) (Fin 100)), (nmul (nsub m' f') (Fin 100)); cbn in E |- *; try contradiction; auto.
    apply Qfloor_comp, E. }
  intros k k' <-. destruct (Qltb (inject_Z k / 100 - (1 # 10)) 0); cbn; auto.
  split; [apply nsub_eq; auto using num_eq_refl|]. split; [apply nadd_eq; auto using num_eq_refl|auto].
Qed.
Print Assumptions C100_section_widths.

(** ** Cases *)

(** Three time steps of a channel; the water rises a metre in each. *)
Definition mesh_cell (bed vel area : Q) : cell :=
  mkCell (Fin area) (Fin bed) (map (fun w => Fin (w - bed)) [5; 6; 7]) (map Fin [5; 6; 7]) (map (fun _ => Fin vel) [5; 6; 7]) (M_Geometry.LInt 2).
Definition coarse_mesh : list cell := [mesh_cell 0 (6 # 10) 300; mesh_cell 2 (8 # 100) 300; mesh_cell 4 (8 # 100) 300].
(** The first face in three parts. *)
Definition fine_mesh : list cell :=
  [mesh_cell 0 (6 # 10) 100; mesh_cell 0 (6 # 10) 150; mesh_cell 0 (6 # 10) 50; mesh_cell 2 (8 # 100) 300; mesh_cell 4 (8 # 100) 300].
(** The second in two. *)
Definition other_fine_mesh : list cell :=
  [mesh_cell 0 (6 # 10) 300; mesh_cell 2 (8 # 100) 100; mesh_cell 2 (8 # 100) 200; mesh_cell 4 (8 # 100) 300].
Definition default_params : geom_params := mkParams 0 1 1 (Fin (1 # 10)) (Fin (15 # 100)) true.

Lemma mesh_part bed vel area a : 0 < a -> part_of (mesh_cell bed vel area) (mesh_cell bed vel a).
Proof. intro H. unfold part_of. cbn [mesh_cell c_bed c_depth c_level c_vel c_section]. repeat (split; [reflexivity|]). exists a. auto. Qed.
Lemma mesh_divided bed vel area l : l <> [] -> Forall (fun a => 0 < a) l -> sum_of l == area ->
  divided (mesh_cell bed vel area) (map (mesh_cell bed vel) l).
Proof.
  intros N P S. split; [destruct l; [congruence|discriminate]|]. split.
  - clear N S. induction P; constructor; auto. apply mesh_part; auto.
  - rewrite map_map. cbn [mesh_cell c_area]. eapply num_eq_trans; [apply npsum_numbers|exact S].
Qed.
Lemma fine_is_finer : finer coarse_mesh fine_mesh.
Proof.
  exists [map (mesh_cell 0 (6 # 10)) [100; 150; 50]; map (mesh_cell 2 (8 # 100)) [300]; map (mesh_cell 4 (8 # 100)) [300]].
  split; [|reflexivity].
  repeat (apply Forall2_cons; [apply mesh_divided; [discriminate|repeat (apply Forall_cons; [lra|]); apply Forall_nil|cbn; lra]|]).
  apply Forall2_nil.
Qed.
Lemma other_fine_is_finer : finer coarse_mesh other_fine_mesh.
Proof.
  exists [map (mesh_cell 0 (6 # 10)) [300]; map (mesh_cell 2 (8 # 100)) [100; 200]; map (mesh_cell 4 (8 # 100)) [300]].
  split; [|reflexivity].
  repeat (apply Forall2_cons; [apply mesh_divided; [discriminate|repeat (apply Forall_cons; [lra|]); apply Forall_nil|cbn; lra]|]).
  apply Forall2_nil.
Qed.

Definition mesh_run (cells : list cell) (i : nat) : res geometry :=
  build_geometry (fun v => v) (fun _ _ => NaN) default_params (Fin 100) i cells.
Definition got_geometry {X} (f : geometry -> X) (r : res geometry) : option X := match r with Ok g => Some (f g) | _ => None end.
Lemma got_geometry_some {X} (f : geometry -> X) r x : got_geometry f r = Some x -> exists g, r = Ok g /\ f g = x.
Proof. destruct r as [g|e]; cbn; intro H; try discriminate. injection H as H. eauto. Qed.
Definition in_lowest_terms (n : num) : num := match n with Fin q => Fin (Qred q) | x => x end.
Lemma in_lowest_terms_eq n : num_eq n (in_lowest_terms n).
Proof. destruct n; cbn; try exact I. symmetry. apply Qred_correct. Qed.

Lemma same_nth l m k : same_column l m -> num_eq (nth k l NaN) (nth k m NaN).
Proof. intro H. apply F2_nth; [exact H|exact I]. Qed.

(** With one of the slower faces divided the highest velocity is the same, and
    the geometry with it: thirteen rows, 9 m wide at the top. *)
Theorem C100_case :
  finer coarse_mesh other_fine_mesh /\ part_of (mesh_cell 0 (6 # 10) 300) (mesh_cell 0 (6 # 10) 300) /\
  (forall t, num_eq (highest_velocity default_params coarse_mesh t) (highest_velocity default_params other_fine_mesh t)) /\
  exists g g', mesh_run coarse_mesh 0 = Ok g /\ mesh_run other_fine_mesh 0 = Ok g' /\
  same_totals g g' /\ same_flow g g' /\ length (k_z (g_cols g)) = 13%nat /\
  num_eq (nth 12 (k_tw (g_cols g)) NaN) (Fin 9) /\ num_eq (nth 12 (k_fw (g_cols g)) NaN) (Fin 9).
Proof.
  assert (H : forall t, num_eq (highest_velocity default_params coarse_mesh t) (highest_velocity default_params other_fine_mesh t)).
  { intro t. unfold highest_velocity.
    assert (V : forall c, In c coarse_mesh \/ In c other_fine_mesh -> (3 <= t)%nat -> nth t (get_timeseries 0 (c_vel c)) NaN = NaN).
    { intros c C T. apply nth_overflow. cbn in C.
      repeat (match type of C with _ \/ _ => destruct C as [C|C] end); try contradiction; subst c; exact T. }
    destruct (Nat.ltb t 3) eqn:T.
    - apply Nat.ltb_lt in T. do 3 (destruct t as [|t]; [vm_compute; reflexivity|]). lia.
    - apply Nat.ltb_ge in T. cbn [gp_skip default_params].
      rewrite (map_ext_in _ (fun _ => NaN)) by (intros c C; apply V; auto).
      rewrite (map_ext_in _ (fun _ => NaN) other_fine_mesh) by (intros c C; apply V; auto). exact I. }
  split; [apply other_fine_is_finer|]. split; [apply mesh_part; lra|]. split; [exact H|].
  pose proof (C100_a_finer_mesh_partial (fun v => v) (fun _ _ => NaN) default_params (Fin 100) coarse_mesh other_fine_mesh 0 0 _ _
    ltac:(discriminate) other_fine_is_finer eq_refl eq_refl (mesh_part 0 (6 # 10) 300 300 ltac:(lra))) as K.
  fold (mesh_run coarse_mesh 0) in K. fold (mesh_run other_fine_mesh 0) in K.
  pose (f := fun g => (length (k_z (g_cols g)), in_lowest_terms (nth 12 (k_tw (g_cols g)) NaN), in_lowest_terms (nth 12 (k_fw (g_cols g)) NaN))).
  destruct (got_geometry_some f (mesh_run coarse_mesh 0) (13%nat, Fin 9, Fin 9)) as (g & E & G); [vm_compute; reflexivity|].
  destruct (got_geometry_some (fun _ => tt) (mesh_run other_fine_mesh 0) tt) as (g' & E' & _); [vm_compute; reflexivity|].
  rewrite E, E' in K. destruct K as (K1 & K2). unfold f in G. injection G as G1 G2 G3.
  exists g, g'. split; [exact E|]. split; [exact E'|]. split; [exact K1|]. split; [exact (K2 H)|]. split; [exact G1|].
  split; [rewrite <- G2|rewrite <- G3]; apply in_lowest_terms_eq.
Qed.
Print Assumptions C100_case.

(** With the fast face divided the three highest velocities are all its own;
    the relative threshold trebles and the other faces stop conveying: the flow
    width at the top is 3 m instead of 9 m. *)
Theorem C100_flow_width_refuted :
  finer coarse_mesh fine_mesh /\ part_of (mesh_cell 0 (6 # 10) 300) (mesh_cell 0 (6 # 10) 100) /\
  exists g g', mesh_run coarse_mesh 0 = Ok g /\ mesh_run fine_mesh 0 = Ok g' /\ same_totals g g' /\
  num_eq (nth 12 (k_fw (g_cols g)) NaN) (Fin 9) /\ num_eq (nth 12 (k_fw (g_cols g')) NaN) (Fin 3) /\ ~ same_flow g g'.
Proof.
  split; [apply fine_is_finer|]. split; [apply mesh_part; lra|].
  pose proof (C100_a_finer_mesh_partial (fun v => v) (fun _ _ => NaN) default_params (Fin 100) coarse_mesh fine_mesh 0 0 _ _
    ltac:(discriminate) fine_is_finer eq_refl eq_refl (mesh_part 0 (6 # 10) 300 100 ltac:(lra))) as K.
  fold (mesh_run coarse_mesh 0) in K. fold (mesh_run fine_mesh 0) in K.
  pose (f := fun g => in_lowest_terms (nth 12 (k_fw (g_cols g)) NaN)).
  destruct (got_geometry_some f (mesh_run coarse_mesh 0) (Fin 9)) as (g & E & G); [vm_compute; reflexivity|].
  destruct (got_geometry_some f (mesh_run fine_mesh 0) (Fin 3)) as (g' & E' & G'); [vm_compute; reflexivity|].
  rewrite E, E' in K. destruct K as (K1 & _). unfold f in G, G'.
  pose proof (in_lowest_terms_eq (nth 12 (k_fw (g_cols g)) NaN)) as N. rewrite G in N.
  pose proof (in_lowest_terms_eq (nth 12 (k_fw (g_cols g')) NaN)) as N'. rewrite G' in N'.
  exists g, g'. split; [exact E|]. split; [exact E'|]. split; [exact K1|]. split; [exact N|]. split; [exact N'|].
  intros (F & _). apply (same_nth _ _ 12) in F.
  pose proof (num_eq_trans _ _ _ (num_eq_trans _ _ _ (num_eq_sym _ _ N) F) N') as X. vm_compute in X. discriminate.
Qed.
Print Assumptions C100_flow_width_refuted.

(** The base level of the floodplain is a mean over the faces that takes no
    account of their area. *)
Theorem C100_floodplain_base_refuted :
  finer coarse_mesh fine_mesh /\
  exists b b',
    compute_floodplain_base (Fin 10) (Fin 0) (map c_bed coarse_mesh) (map (fun c => section_of (c_section c)) coarse_mesh) = Ok b /\
    compute_floodplain_base (Fin 10) (Fin 0) (map c_bed fine_mesh) (map (fun c => section_of (c_section c)) fine_mesh) = Ok b' /\
    num_eq b (Fin 2) /\ num_eq b' (Fin (6 # 5)) /\ ~ num_eq b b'.
Proof.
  split; [apply fine_is_finer|]. eexists. eexists. split; [vm_compute; reflexivity|]. split; [vm_compute; reflexivity|].
  split; [vm_compute; reflexivity|]. split; [vm_compute; reflexivity|]. intro H. vm_compute in H. discriminate.
Qed.
Print Assumptions C100_floodplain_base_refuted.

(** A control volume of nine faces is left out; with one of them divided it is
    not. *)
Definition mesh_selection (cells : list cell) : selection :=
  mk_selection (map (fun _ => Fin 0) cells) (map (fun _ => Fin 0) cells) (map c_area cells) (map c_bed cells)
    (map c_depth cells) (map c_level cells) (map c_vel cells) (map c_section cells)
    [[Fin 40; Fin 41; Fin 42]] (map (fun _ => T "r") cells) (map (fun _ => false) cells) None [Fin 0] [Fin 0] [T "main"].
Definition nine_faces : list cell := map (fun k => mesh_cell k 1 100) [0; 0; 0; 1; 1; 2; 2; 3; 4].
Definition ten_faces : list cell := map (mesh_cell 0 1) [50; 50] ++ map (fun k => mesh_cell k 1 100) [0; 0; 1; 1; 2; 2; 3; 4].
Definition mesh_css (cells : list cell) : res (option css) :=
  generate_cross_section (fun v => v) (fun _ _ => NaN) (fun _ => Raise ValueError) (fun x => x)
    (mk_settings default_params (Fin 1) 20 false (Fin (1 # 2)) 0) (T "css") (Fin 100) 0 3 (mesh_selection cells).
Theorem C100_few_faces_refuted :
  finer nine_faces ten_faces /\ cells_of (mesh_selection nine_faces) = nine_faces /\
  cells_of (mesh_selection ten_faces) = ten_faces /\
  mesh_css nine_faces = Ok None /\ exists c, mesh_css ten_faces = Ok (Some c).
Proof.
  split.
  { exists (map (mesh_cell 0 1) [50; 50] :: map (fun k => map (mesh_cell k 1) [100]) [0; 0; 1; 1; 2; 2; 3; 4]).
    split; [|reflexivity]. unfold nine_faces. cbn [map].
    repeat (apply Forall2_cons; [apply mesh_divided with (l := [50; 50]) || apply mesh_divided with (l := [100]);
      [discriminate|repeat (apply Forall_cons; [lra|]); apply Forall_nil|cbn; lra]|]).
    apply Forall2_nil. }
  split; [reflexivity|]. split; [reflexivity|]. split; [reflexivity|].
  assert (V : match mesh_css ten_faces with Ok (Some _) => true | _ => false end = true) by (vm_compute; reflexivity).
  destruct (mesh_css ten_faces) as [[c|]|e]; try discriminate. exists c. reflexivity.
Qed.
Print Assumptions C100_few_faces_refuted.
