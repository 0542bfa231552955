(** The geometry of a control volume whose faces are listed in another order,
    or whose levels are measured from another datum. *)
From Coq Require Import List ZArith QArith Bool Permutation Lia Lqa.
From Verif Require Import PyBase Num L_Num L_List M_Geometry Spec_Same L_Same.
Import ListNotations.
Local Open Scope Q_scope.

Definition cell_rel (h : Q) (c c' : cell) : Prop :=
  num_eq (c_area c) (c_area c') /\ raised h (c_bed c) (c_bed c') /\
  same_column (c_depth c) (c_depth c') /\ Forall2 (raised_level h) (c_level c) (c_level c') /\
  same_column (c_vel c) (c_vel c') /\ c_section c = c_section c'.

(** ** Time series *)

Lemma series_eq k l m : same_column l m -> same_column (get_timeseries k l) (get_timeseries k m).
Proof.
  intro H. unfold get_timeseries. apply (F2_map num_eq).
  - intros a b E. rewrite (neqb_eq a NODATA b NODATA E (num_eq_refl _)). destruct (neqb b NODATA); cbn; auto.
  - apply F2_slice_from, H.
Qed.
Lemma neqb_num_eq x y : neqb x y = true -> num_eq x y.
Proof. destruct x, y; cbn; auto; try discriminate. apply Qeq_bool_true. Qed.
Lemma series_raised h k l m : Forall2 (raised_level h) l m ->
  raised_column h (get_timeseries k l) (get_timeseries k m).
Proof.
  intro H. unfold get_timeseries. apply (F2_map (raised_level h)).
  - intros a b [[-> ->]|(N & M & E)]; [exact I|].
    destruct (neqb a NODATA) eqn:A; [apply neqb_num_eq in A; contradiction|].
    destruct (neqb b NODATA) eqn:B; [apply neqb_num_eq in B; contradiction|]. exact E.
  - apply F2_slice_from, H.
Qed.

(** ** Lakes *)

Lemma is_lake_eq L l m : same_column l m -> is_lake L l = is_lake L m.
Proof.
  intro H. unfold is_lake.
  pose proof (py_index_rel num_eq l m L H) as A. pose proof (py_index_rel num_eq l m 0 H) as B.
  destruct (py_index l L), (py_index m L); cbn [res_rel bind] in A |- *; try contradiction; [|congruence].
  destruct (py_index l 0), (py_index m 0); cbn [res_rel bind] in B |- *; try contradiction; [|congruence].
  f_equal. f_equal.
  - apply nltb_eq; auto using num_eq_refl.
  - apply nleb_eq; auto using num_eq_refl, nabs_eq, nsub_eq.
Qed.
Lemma is_lake_raises L l e : is_lake L l = Raise e -> e = IndexError.
Proof.
  unfold is_lake, py_index. intro H.
  repeat match type of H with context [if ?b then _ else _] => destruct b | context [match nth_error ?l ?k with _ => _ end] => destruct (nth_error l k) end;
    cbn in H; congruence.
Qed.
Definition lake_of (L : Z) (row : list num) : bool := match is_lake L row with Ok b => b | Raise _ => false end.
Definition lake_known (L : Z) (row : list num) : bool := match is_lake L row with Ok _ => true | Raise _ => false end.
Lemma lakes_of_rows L rows :
  map_res (is_lake L) rows = if forallb (lake_known L) rows then Ok (map (lake_of L) rows) else Raise IndexError.
Proof.
  induction rows as [|r rows IH]; [reflexivity|]. cbn [map_res forallb map]. unfold lake_known at 1, lake_of at 1.
  destruct (is_lake L r) eqn:E; cbn [andb].
  - rewrite IH. destruct (forallb _ _); reflexivity.
  - apply is_lake_raises in E. subst. reflexivity.
Qed.
Lemma lake_of_eq L l m : same_column l m -> lake_of L l = lake_of L m.
Proof. intro H. unfold lake_of. rewrite (is_lake_eq L l m H). reflexivity. Qed.
Lemma lake_known_eq L l m : same_column l m -> lake_known L l = lake_known L m.
Proof. intro H. unfold lake_known. rewrite (is_lake_eq L l m H). reflexivity. Qed.

Lemma lake_mask_from_eq l m : same_column l m -> forall b p q, num_eq p q -> lake_mask_from b p l = lake_mask_from b q m.
Proof.
  induction 1 as [|x y l m E F IH]; intros b p q P; cbn; auto.
  rewrite (nleb_eq (nsub x p) (Fin (1 # 1000)) (nsub y q) (Fin (1 # 1000))) by auto using nsub_eq, num_eq_refl.
  f_equal. apply IH, E.
Qed.
Lemma wet_not_lake_eq b l m : same_column l m -> wet_not_lake b l = wet_not_lake b m.
Proof.
  intro H. unfold wet_not_lake.
  assert (K : lake_mask_time b l = lake_mask_time b m).
  { destruct H as [|x y l m E F]; cbn; auto. f_equal. apply lake_mask_from_eq; auto. }
  rewrite K. clear K. generalize (lake_mask_time b m). clear b.
  induction H as [|x y l m E F IH]; intros [|c k]; cbn [map2]; auto.
  rewrite (nltb_eq (Fin 0) x (Fin 0) y) by auto using num_eq_refl. f_equal. apply IH.
Qed.
Lemma lake_correction_eq b l m : same_column l m ->
  same_column (lake_depth_correction b l) (lake_depth_correction b m).
Proof.
  intro H. unfold lake_depth_correction. apply (F2_map num_eq); auto. intros x y _.
  destruct b; [|apply num_eq_refl]. apply nneg_eq, F2_hd; auto. exact I.
Qed.
Lemma corrected_depth_eq l m p q : same_column l m -> same_column p q ->
  same_column (corrected_depth l p) (corrected_depth m q).
Proof.
  intros H K. unfold corrected_depth. apply (F2_map2 num_eq num_eq); auto. intros a a' b b' A B. cbv zeta.
  assert (E : num_eq (nadd a b) (nadd a' b')) by (apply nadd_eq; auto).
  rewrite (nleb_eq (Fin 0) _ (Fin 0) _ (num_eq_refl _) E). destruct (nleb _ _); auto. exact I.
Qed.
Lemma pool_correction_eq c c' l m : num_eq c c' -> same_column l m ->
  same_column (pool_correction c l) (pool_correction c' m).
Proof.
  intros C H. unfold pool_correction.
  assert (E : num_eq (hd NaN l) (hd NaN m)) by (apply F2_hd; auto; exact I).
  rewrite (nltb_eq _ _ _ _ C E). destruct (nltb c' (hd NaN m)); auto.
  apply (F2_map num_eq); auto. intros a b A. auto using nsub_eq.
Qed.

(** ** Conveyance *)

Lemma sort_le_eq x y x' y' : num_eq x x' -> num_eq y y' -> sort_le x y = sort_le x' y'.
Proof. intros A B. unfold sort_le. rewrite (isnan_eq _ _ B), (nleb_eq _ _ _ _ A B). reflexivity. Qed.
Lemma insert_num_eq x y l m : num_eq x y -> same_column l m -> same_column (insert_num x l) (insert_num y m).
Proof.
  intro E. induction 1 as [|a b l m A F IH]; cbn.
  - constructor; [exact E|constructor].
  - rewrite (sort_le_eq _ _ _ _ E A). destruct (sort_le y b); repeat (constructor; auto).
Qed.
Lemma sort_le_total x y : sort_le x y = false -> sort_le y x = true.
Proof.
  unfold sort_le. destruct x, y; cbn; auto. rewrite Qle_bool_false, Qle_bool_true. lra.
Qed.
Lemma sort_le_trans x y z : sort_le x y = true -> sort_le y z = true -> sort_le x z = true.
Proof. unfold sort_le. destruct x, y, z; cbn; auto; try discriminate. rewrite !Qle_bool_true. lra. Qed.
Lemma sort_le_antisym x y : sort_le x y = true -> sort_le y x = true -> num_eq x y.
Proof. unfold sort_le. destruct x, y; cbn; auto; try discriminate. rewrite !Qle_bool_true. intros; lra. Qed.
Lemma insert_swap x y l : same_column (insert_num x (insert_num y l)) (insert_num y (insert_num x l)).
Proof.
  assert (B0 : forall l, same_column l l) by (intro; apply F2_refl, num_eq_refl).
  induction l as [|a l IH]; cbn.
  - destruct (sort_le x y) eqn:XY, (sort_le y x) eqn:YX; cbn; auto.
    + pose proof (sort_le_antisym _ _ XY YX) as E. pose proof (num_eq_sym _ _ E). repeat (constructor; auto).
    + apply sort_le_total in XY. congruence.
  - destruct (sort_le y a) eqn:YA, (sort_le x a) eqn:XA; cbn; rewrite ?YA, ?XA.
    + destruct (sort_le x y) eqn:XY, (sort_le y x) eqn:YX; cbn; rewrite ?XA, ?YA; auto.
      * pose proof (sort_le_antisym _ _ XY YX) as E. pose proof (num_eq_sym _ _ E).
        constructor; [exact E|]. constructor; [auto|]. apply B0.
      * apply sort_le_total in XY. congruence.
    + assert (XY : sort_le x y = false).
      { destruct (sort_le x y) eqn:XY; auto. rewrite (sort_le_trans _ _ _ XY YA) in XA. discriminate. }
      rewrite ?XY. cbn. rewrite ?XA, ?YA, ?XY. apply B0.
    + assert (YX : sort_le y x = false).
      { destruct (sort_le y x) eqn:YX; auto. rewrite (sort_le_trans _ _ _ YX XA) in YA. discriminate. }
      rewrite ?YX. cbn. rewrite ?YA, ?XA, ?YX. apply B0.
    + constructor; [apply num_eq_refl|exact IH].
Qed.
Lemma sort_values_eq l m : same_column l m -> same_column (sort_values l) (sort_values m).
Proof. unfold sort_values. induction 1; cbn; [constructor|apply insert_num_eq; auto]. Qed.
Lemma same_trans l m n : same_column l m -> same_column m n -> same_column l n.
Proof. intros A B. exact (F2_trans num_eq num_eq num_eq l m num_eq_trans A n B). Qed.
Lemma sort_values_perm l m : Permutation l m -> same_column (sort_values l) (sort_values m).
Proof.
  unfold sort_values. induction 1; cbn.
  - constructor.
  - apply insert_num_eq; auto using num_eq_refl.
  - apply insert_swap.
  - eapply same_trans; eauto.
Qed.
Lemma top3_mean_reordered l m : reordered num_eq l m -> num_eq (top3_mean l) (top3_mean m).
Proof.
  intros (k & P & F). unfold top3_mean. apply nanmean_eq, F2_slice_from.
  eapply same_trans; [apply sort_values_perm, P|apply sort_values_eq, F].
Qed.

(** ** Columns as functions of one cell *)

Lemma map2_map_l {A B C D} (f : B -> C -> D) (g : A -> B) (k : A -> C) l :
  map2 f (map g l) (map k l) = map (fun x => f (g x) (k x)) l.
Proof. induction l; cbn; congruence. Qed.
Lemma map2_id_l {A C D} (f : A -> C -> D) (k : A -> C) l : map2 f l (map k l) = map (fun x => f x (k x)) l.
Proof. induction l; cbn; congruence. Qed.
Lemma combine_map_r {A B} (f : A -> B) l : combine l (map f l) = map (fun x => (x, f x)) l.
Proof. induction l; cbn; congruence. Qed.
Lemma combine_maps {A B C} (f : A -> B) (g : A -> C) l : combine (map f l) (map g l) = map (fun x => (f x, g x)) l.
Proof. induction l; cbn; congruence. Qed.
Lemma forallb_map {A B} (f : A -> B) p l : forallb p (map f l) = forallb (fun x => p (f x)) l.
Proof. induction l; cbn; congruence. Qed.
Lemma forallb_perm {A} p (l m : list A) : Permutation l m -> forallb p l = forallb p m.
Proof.
  induction 1; cbn; auto; try congruence.
  destruct (p x), (p y); reflexivity.
Qed.
Lemma forallb_reordered {A B} (R : A -> B -> Prop) p q l m : (forall a b, R a b -> p a = q b) ->
  reordered R l m -> forallb p l = forallb q m.
Proof.
  intros H (k & P & F). rewrite (forallb_perm p _ _ P). clear P. induction F as [|a b k m E F IH]; cbn; auto.
  rewrite (H _ _ E), IH. reflexivity.
Qed.

(** ** Above and below the initial level *)

Definition cols_rel (h : Q) (k k' : css_cols) : Prop :=
  raised_column h (k_z k) (k_z k') /\ same_column (k_tw k) (k_tw k') /\ same_column (k_fw k) (k_fw k') /\
  same_column (k_wet k) (k_wet k') /\ same_column (k_flow k) (k_flow k') /\
  same_column (k_fvol k) (k_fvol k') /\ same_column (k_tvol k) (k_tvol k').

Lemma envelope_eq l m : same_column l m -> same_column (flow_width_envelope l) (flow_width_envelope m).
Proof.
  induction 1 as [|x y l m E F IH]; cbn; [constructor|].
  destruct IH as [|a b r s A B]; constructor; auto. apply npmin_eq; auto.
Qed.
Lemma fill_raised h l m : raised_column h l m -> raised_column h (fill_nan_levels l) (fill_nan_levels m).
Proof.
  intro H. unfold fill_nan_levels. apply (F2_map (raised h)); auto. intros a b E.
  rewrite (isnan_raised _ _ _ E). destruct (isnan b); auto. apply nanmin_raised, H.
Qed.
Lemma above_rel h len len' z z' wet wet' flow flow' tv tv' fv fv' :
  num_eq len len' -> raised_column h z z' -> same_column wet wet' -> same_column flow flow' ->
  same_column tv tv' -> same_column fv fv' ->
  cols_rel h (compute_css_above_z0 len z wet flow tv fv) (compute_css_above_z0 len' z' wet' flow' tv' fv').
Proof.
  intros L Z W F T V. unfold compute_css_above_z0, cols_rel; cbn. repeat apply conj; auto.
  - apply fill_raised, Z.
  - apply (F2_map num_eq); auto. intros; apply ndiv_eq; auto.
  - apply envelope_eq. apply (F2_map num_eq); auto. intros; apply ndiv_eq; auto.
Qed.

Definition cell0_rel (h : Q) (x x' : cell * num * bool) : Prop :=
  cell_rel h (fst (fst x)) (fst (fst x')) /\ raised h (snd (fst x)) (snd (fst x')) /\ snd x = snd x'.
Lemma wet_area_below_eq h l l' dz dz' : reordered (cell0_rel h) l l' -> num_eq dz dz' ->
  num_eq (wet_area_below l dz) (wet_area_below l' dz').
Proof.
  intros H D. unfold wet_area_below. apply nansum_reordered. apply (reordered_map (cell0_rel h)).
  { intros a b ((A & _) & _). exact A. }
  revert H. apply reordered_filter. intros [[c v] w] [[c' v'] w'] (C & V & W). cbn [fst snd] in *. subst w'.
  f_equal. apply nltb_eq; [apply num_eq_refl|]. apply nsub_eq; [|exact D].
  unfold depth_at_t0. cbv zeta. destruct C as (_ & B & _).
  pose proof (nsub_raised h _ _ _ _ V B) as E. rewrite (isnan_eq _ _ E). destruct (isnan _); auto. apply num_eq_refl.
Qed.
Lemma below_step_rel h e len len' c c' f f' l l' k k' dz dz' :
  num_eq len len' -> raised h c c' -> num_eq f f' -> reordered (cell0_rel h) l l' -> cols_rel h k k' -> num_eq dz dz' ->
  cols_rel h (below_z0_step e len c f l k dz) (below_z0_step e len' c' f' l' k' dz').
Proof.
  intros L C F H (K1 & K2 & K3 & K4 & K5 & K6 & K7) D. unfold below_z0_step, cols_rel. cbv zeta.
  cbn [k_z k_tw k_fw k_wet k_flow k_fvol k_tvol].
  pose proof (wet_area_below_eq h l l' dz dz' H D) as W.
  assert (N : num_eq (if negb e then wet_area_below l dz else npmin (wet_area_below l dz) f)
                     (if negb e then wet_area_below l' dz' else npmin (wet_area_below l' dz') f'))
    by (destruct e; cbn; auto using npmin_eq).
  repeat apply conj; constructor; auto; try (apply ndiv_eq; auto); try exact I.
  apply nsub_raised_l; auto.
Qed.
Lemma linspace_eq a b : num_eq a b -> same_column (linspace10 a) (linspace10 b).
Proof. intro H. unfold linspace10. apply F2_same. intros k _. apply nmul_eq; auto using num_eq_refl. Qed.
Lemma below_rel h e len len' c c' d d' l l' k k' :
  num_eq len len' -> raised h c c' -> num_eq d d' -> reordered (cell0_rel h) l l' -> cols_rel h k k' ->
  cols_rel h (extend_css_below_z0 e len c d l k) (extend_css_below_z0 e len' c' d' l' k').
Proof.
  intros L C D H K. unfold extend_css_below_z0. cbv zeta.
  assert (F : num_eq (hd NaN (k_flow k)) (hd NaN (k_flow k'))).
  { destruct K as (_ & _ & _ & _ & K & _). apply F2_hd; auto. exact I. }
  revert K. apply (F2_fold num_eq (cols_rel h)).
  - intros. apply below_step_rel; auto.
  - apply linspace_eq, (nsub_raised h); auto. apply nsub_raised_l; auto.
Qed.

(** ** Volumes *)

Lemma cumtrapz_eq h y y' : same_column y y' -> forall x x' a a', raised_column h x x' -> num_eq a a' ->
  same_column (cumtrapz_from a y x) (cumtrapz_from a' y' x').
Proof.
  induction 1 as [|y0 y0' y y' E F IH]; intros x x' a a' X A; cbn; [constructor|].
  destruct F as [|y1 y1' y y' E1 F]; [constructor|].
  destruct X as [|x0 x0' x x' G X]; [constructor|]. destruct X as [|x1 x1' x x' G1 X]; [constructor|].
  assert (K : num_eq (nadd a (ndiv (nmul (nsub x1 x0) (nadd y1 y0)) (Fin 2)))
                     (nadd a' (ndiv (nmul (nsub x1' x0') (nadd y1' y0')) (Fin 2)))).
  { apply nadd_eq; auto. apply ndiv_eq; [|apply num_eq_refl]. apply nmul_eq; [apply (nsub_raised h); auto|apply nadd_eq; auto]. }
  constructor; [exact K|]. apply IH; [constructor; auto|exact K].
Qed.
Lemma volume_eq h len len' w w' z z' : num_eq len len' -> same_column w w' -> raised_column h z z' ->
  same_column (css_volume len w z) (css_volume len' w' z').
Proof.
  intros L W Z. unfold css_volume. constructor; [apply num_eq_refl|].
  apply (F2_map num_eq); [intros; apply nmul_eq; auto|]. apply (cumtrapz_eq h); auto. apply num_eq_refl.
Qed.

(** ** Monotonicity *)

Lemma monotone_raised h l m : raised_column h l m -> check_monotonicity l = check_monotonicity m.
Proof.
  intro H. unfold check_monotonicity. rewrite (F2_length _ _ _ H).
  generalize (seq 1 (length m - 1)) [true]. intro s. induction s as [|i s IH]; intro mask; cbn; auto.
  unfold monotonicity_step at 2 4.
  rewrite (nltb_raised h _ _ (nth (last_true mask) m NaN) (nth i m NaN)) by (apply F2_nth; auto; exact I).
  destruct (nltb _ _); apply IH.
Qed.

(** ** The centre of the cross-section *)

Lemma fill_centre_rel h d d' l l' : same_column d d' -> raised_column h l l' ->
  res_rel (raised_column h) (fill_centre_level d l) (fill_centre_level d' l').
Proof.
  intros D L. unfold fill_centre_level. destruct L as [|a b l l' A L]; [reflexivity|]. cbn [res_rel].
  assert (M : raised h (nanmin (map2 nsub (a :: l) d)) (nanmin (map2 nsub (b :: l') d'))).
  { apply nanmin_raised. apply (F2_map2 (raised h) num_eq); auto. intros; apply nsub_raised_l; auto. }
  apply (F2_map (raised h)); [|constructor; auto]. intros u v E. rewrite (isnan_raised _ _ _ E). destruct (isnan v); auto.
Qed.

(** ** The whole geometry *)

Definition geometry_rel (h : Q) (g g' : geometry) : Prop :=
  cols_rel h (g_cols g) (g_cols g') /\ same_column (g_tvol1d g) (g_tvol1d g') /\
  same_column (g_fvol1d g) (g_fvol1d g') /\ raised_column h (g_z_roughness g) (g_z_roughness g').

Section CellFunctions.
  Variable p : geom_params.
  Definition cdepth (c : cell) : list num := get_timeseries (gp_skip p) (c_depth c).
  Definition clevel (c : cell) : list num := get_timeseries (gp_skip p) (c_level c).
  Definition cvel (c : cell) : list num := get_timeseries (gp_skip p) (c_vel c).
  Definition clake (c : cell) : bool := lake_of (gp_lake p) (cdepth c).
  Definition cwet (c : cell) : list bool := wet_not_lake (clake c) (cdepth c).
  Definition cflow (nt : nat) (top : nat -> num) (c : cell) : list bool :=
    map (fun t => conveys (gp_abs p) (gp_rel p) (top t) (nth t (cdepth c) NaN) (nth t (cvel c) NaN)) (seq 0 nt).
  Definition ceff (c0 : num) (c : cell) : list num :=
    pool_correction c0 (corrected_depth (cdepth c) (lake_depth_correction (clake c) (cdepth c))).
End CellFunctions.

Lemma masked_area_map cells m t : masked_area cells (map m cells) t =
  nansum (map (fun c => if nth t (m c) false then c_area c else NaN) cells).
Proof. unfold masked_area. rewrite map2_id_l. reflexivity. Qed.
Lemma masked_volume_map cells d m t : masked_volume cells (map d cells) (map m cells) t =
  nansum (map (fun c => if nth t (m c) false then nmul (c_area c) (nth t (d c) NaN) else NaN) cells).
Proof. unfold masked_volume. rewrite combine_map_r, map2_map_l. reflexivity. Qed.

Definition finish_geometry (p : geom_params) (len : num) (cells : list cell) (cd cl tvol fvol wet flow : list num)
  : res geometry :=
  let mono := check_monotonicity cl in
  cl' <- mask_index mono cl ;;
  tvol' <- mask_index mono tvol ;;
  fvol' <- mask_index mono fvol ;;
  wet' <- mask_index mono wet ;;
  flow' <- mask_index mono flow ;;
  let k0 := compute_css_above_z0 len cl' wet' flow' tvol' fvol' in
  let cells0 := map (fun c => (c, hd NaN (clevel p c), hd false (cwet p c))) cells in
  let k1 := extend_css_below_z0 (gp_extrapolate p) len (hd NaN (k_z k0)) (hd NaN cd) cells0 k0 in
  Ok (mkGeometry k1 (css_volume len (k_tw k1) (k_z k1)) (css_volume len (k_fw k1) (k_z k1)) cl).

Lemma build_geometry_cells smooth mean p len i cells : gp_method p <> 0%Z ->
  build_geometry smooth mean p len i cells =
  (let cd := nth i (map (cdepth p) cells) [] in
   let nt := length cd in
   let top := fun t => top3_mean (map (fun c => nth t (cvel p c) NaN) cells) in
   let d2 := ceff p (hd NaN cd) in
   cl <- fill_centre_level cd (nth i (map (clevel p) cells) []) ;;
   if forallb (fun c => lake_known (gp_lake p) (cdepth p c)) cells then
     finish_geometry p len cells cd cl
       (map (masked_volume cells (map d2 cells) (map (cwet p) cells)) (seq 0 nt))
       (map (masked_volume cells (map d2 cells) (map (cflow p nt top) cells)) (seq 0 nt))
       (map (masked_area cells (map (cwet p) cells)) (seq 0 nt))
       (map (masked_area cells (map (cflow p nt top) cells)) (seq 0 nt))
   else Raise IndexError).
Proof.
  intro M. unfold build_geometry. cbv zeta.
  change (map (fun c => get_timeseries (gp_skip p) (c_depth c)) cells) with (map (cdepth p) cells).
  change (map (fun c => get_timeseries (gp_skip p) (c_level c)) cells) with (map (clevel p) cells).
  change (map (fun c => get_timeseries (gp_skip p) (c_vel c)) cells) with (map (cvel p) cells).
  set (cd := nth i (map (cdepth p) cells) []).
  destruct (fill_centre_level cd (nth i (map (clevel p) cells) [])) as [cl|e]; [|reflexivity]. cbn [bind].
  unfold identify_lakes. rewrite lakes_of_rows, forallb_map.
  destruct (forallb _ cells); [|reflexivity]. cbn [bind].
  assert (D : distinguish_conveyance smooth mean (gp_method p) (gp_abs p) (gp_rel p) (length cd)
                (map (cdepth p) cells) (map (cvel p) cells) =
              map (cflow p (length cd) (fun t => top3_mean (map (fun c => nth t (cvel p c) NaN) cells))) cells).
  { unfold distinguish_conveyance. destruct (gp_method p =? 0)%Z eqn:E; [apply Z.eqb_eq in E; contradiction|].
    assert (V : max_velocity_method (gp_abs p) (gp_rel p) (length cd) (map (cdepth p) cells) (map (cvel p) cells) =
              map (cflow p (length cd) (fun t => top3_mean (map (fun c => nth t (cvel p c) NaN) cells))) cells).
    { unfold max_velocity_method. rewrite map2_map_l. unfold cflow, column. apply map_ext. intro c.
      apply map_ext. intro t. rewrite map_map. reflexivity. }
    rewrite V. destruct (gp_method p =? 1)%Z; reflexivity. }
  rewrite D. clear D.
  rewrite !map_map. rewrite !map2_map_l. rewrite combine_map_r. rewrite !map_map. rewrite combine_maps.
  reflexivity.
Qed.

Lemma build_geometry_rel h smooth mean smooth' mean' p len len' cells cells' i i' c c' :
  gp_method p <> 0%Z -> num_eq len len' -> reordered (cell_rel h) cells cells' ->
  nth_error cells i = Some c -> nth_error cells' i' = Some c' -> cell_rel h c c' ->
  res_rel (geometry_rel h) (build_geometry smooth mean p len i cells) (build_geometry smooth' mean' p len' i' cells').
Proof.
  intros M L R Ci Ci' CC. rewrite !build_geometry_cells by auto. cbv zeta.
  assert (ND : forall f : cell -> list num, nth i (map f cells) [] = f c /\ nth i' (map f cells') [] = f c').
  { intro f. split; apply nth_error_nth; rewrite nth_error_map; [rewrite Ci|rewrite Ci']; reflexivity. }
  rewrite (proj1 (ND (cdepth p))), (proj2 (ND (cdepth p))), (proj1 (ND (clevel p))), (proj2 (ND (clevel p))).
  assert (RD : forall a b, cell_rel h a b -> same_column (cdepth p a) (cdepth p b)).
  { intros a b (_ & _ & D & _). apply series_eq, D. }
  assert (RL : forall a b, cell_rel h a b -> raised_column h (clevel p a) (clevel p b)).
  { intros a b (_ & _ & _ & D & _). apply series_raised, D. }
  assert (RV : forall a b, cell_rel h a b -> same_column (cvel p a) (cvel p b)).
  { intros a b (_ & _ & _ & _ & D & _). apply series_eq, D. }
  assert (RA : forall a b, cell_rel h a b -> num_eq (c_area a) (c_area b)) by (intros a b (D & _); exact D).
  pose proof (RD _ _ CC) as CD. rewrite (F2_length _ _ _ CD). set (nt := length (cdepth p c')).
  apply (res_rel_bind (raised_column h)).
  { apply fill_centre_rel; auto. }
  intros cl cl' CL.
  rewrite (forallb_reordered (cell_rel h) _ (fun c => lake_known (gp_lake p) (cdepth p c)) cells cells')
    by (auto; intros a b AB; apply lake_known_eq, RD, AB).
  destruct (forallb _ cells'); [|reflexivity].
  set (top := fun t => top3_mean (map (fun c => nth t (cvel p c) NaN) cells)).
  set (top' := fun t => top3_mean (map (fun c => nth t (cvel p c) NaN) cells')).
  assert (RK : forall a b, cell_rel h a b -> clake p a = clake p b).
  { intros a b AB. apply lake_of_eq, RD, AB. }
  assert (RW : forall a b, cell_rel h a b -> cwet p a = cwet p b).
  { intros a b AB. unfold cwet. rewrite (RK a b AB). apply wet_not_lake_eq, RD, AB. }
  assert (RT : forall t, num_eq (top t) (top' t)).
  { intro t. apply top3_mean_reordered. revert R. apply reordered_map. intros a b AB. apply F2_nth; [exact (RV a b AB)|exact I]. }
  assert (RF : forall a b, cell_rel h a b -> cflow p nt top a = cflow p nt top' b).
  { intros a b AB. unfold cflow. apply map_ext. intro t. unfold conveys.
    assert (E1 : num_eq (nth t (cdepth p a) NaN) (nth t (cdepth p b) NaN)) by (apply F2_nth; [exact (RD a b AB)|exact I]).
    assert (E2 : num_eq (nth t (cvel p a) NaN) (nth t (cvel p b) NaN)) by (apply F2_nth; [exact (RV a b AB)|exact I]).
    rewrite (nltb_eq (Fin 0) _ (Fin 0) _ (num_eq_refl _) E1).
    rewrite (nltb_eq (nmul (top t) (gp_rel p)) _ (nmul (top' t) (gp_rel p)) _ (nmul_eq _ _ _ _ (RT t) (num_eq_refl _)) E2).
    rewrite (nltb_eq (gp_abs p) _ (gp_abs p) _ (num_eq_refl _) E2). reflexivity. }
  assert (RE : forall a b, cell_rel h a b -> same_column (ceff p (hd NaN (cdepth p c)) a) (ceff p (hd NaN (cdepth p c')) b)).
  { intros a b AB. unfold ceff. rewrite (RK a b AB). apply pool_correction_eq.
    - apply F2_hd; [exact CD|exact I].
    - apply corrected_depth_eq; auto. apply lake_correction_eq; auto. }
  assert (MA : forall m m' : cell -> list bool, (forall a b, cell_rel h a b -> m a = m' b) ->
     same_column (map (masked_area cells (map m cells)) (seq 0 nt)) (map (masked_area cells' (map m' cells')) (seq 0 nt))).
  { intros m m' MM. apply F2_same. intros t _. rewrite !masked_area_map. apply nansum_reordered.
    revert R. apply reordered_map. intros a b AB. rewrite (MM a b AB). destruct (nth t (m' b) false); auto. exact I. }
  assert (MV : forall m m' : cell -> list bool, (forall a b, cell_rel h a b -> m a = m' b) ->
     same_column (map (masked_volume cells (map (ceff p (hd NaN (cdepth p c))) cells) (map m cells)) (seq 0 nt))
                 (map (masked_volume cells' (map (ceff p (hd NaN (cdepth p c'))) cells') (map m' cells')) (seq 0 nt))).
  { intros m m' MM. apply F2_same. intros t _. rewrite !masked_volume_map. apply nansum_reordered.
    revert R. apply reordered_map. intros a b AB. rewrite (MM a b AB). destruct (nth t (m' b) false); [|exact I].
    apply nmul_eq; auto. apply F2_nth; [exact (RE a b AB)|exact I]. }
  unfold finish_geometry. cbv zeta. rewrite (monotone_raised h cl cl' CL).
  apply (res_rel_bind (raised_column h)); [apply mask_index_rel, CL|]. intros z z' Z.
  apply (res_rel_bind same_column); [apply mask_index_rel, MV, RW|]. intros tv tv' TV.
  apply (res_rel_bind same_column); [apply mask_index_rel, MV, RF|]. intros fv fv' FV.
  apply (res_rel_bind same_column); [apply mask_index_rel, MA, RW|]. intros wa wa' WA.
  apply (res_rel_bind same_column); [apply mask_index_rel, MA, RF|]. intros fa fa' FA.
  cbn [res_rel].
  pose proof (above_rel h len len' z z' wa wa' fa fa' tv tv' fv fv' L Z WA FA TV FV) as K0.
  set (k0 := compute_css_above_z0 len z wa fa tv fv) in *. set (k0' := compute_css_above_z0 len' z' wa' fa' tv' fv') in *.
  assert (K1 : cols_rel h
     (extend_css_below_z0 (gp_extrapolate p) len (hd NaN (k_z k0)) (hd NaN (cdepth p c))
       (map (fun c => (c, hd NaN (clevel p c), hd false (cwet p c))) cells) k0)
     (extend_css_below_z0 (gp_extrapolate p) len' (hd NaN (k_z k0')) (hd NaN (cdepth p c'))
       (map (fun c => (c, hd NaN (clevel p c), hd false (cwet p c))) cells') k0')).
  { apply below_rel; auto.
    - destruct K0 as (K0 & _). apply F2_hd; [exact K0|exact I].
    - apply F2_hd; [exact CD|exact I].
    - revert R. apply reordered_map. intros a b AB. unfold cell0_rel. cbn [fst snd]. split; [exact AB|]. split.
      + apply F2_hd; [exact (RL a b AB)|exact I].
      + rewrite (RW a b AB). reflexivity. }
  match goal with |- geometry_rel h (mkGeometry ?a _ _ _) (mkGeometry ?b _ _ _) => set (k1 := a) in *; set (k1' := b) in * end.
  unfold geometry_rel. cbn [g_cols g_tvol1d g_fvol1d g_z_roughness].
  pose proof K1 as (Z1 & T1 & F1 & _). split; [exact K1|]. split; [apply (volume_eq h); auto|].
  split; [apply (volume_eq h); auto|exact CL].
Qed.
