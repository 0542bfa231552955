(** C103: the output interval of the 2D run. *)
From Coq Require Import String List Ascii ZArith QArith Qround Bool Permutation Lia Lqa.
From Verif Require Import PyBase Num Text L_Num L_List L_Require M_Geometry M_Sections M_Friction M_Import M_Cli
  M_Pipeline M_Rolling Spec_Same L_Same L_SameGeometry T_Pipeline T_Limb T_SameRun.
Import ListNotations.
Local Open Scope Q_scope.

(** ** Specification *)

(** The entries of a series at the maps [keep]. *)
Definition at_maps {A} (d : A) (keep : list nat) (l : list A) : list A := map (fun k => nth k l d) keep.
(** Maps of a series of [n], in the order of time and beginning with the first. *)
Definition maps_of (n : nat) (keep : list nat) : Prop :=
  (exists rest, keep = 0%nat :: rest) /\ Forall (fun k => (k < n)%nat) keep /\
  (forall i j, (i < j < length keep)%nat -> (nth i keep 0 < nth j keep 0)%nat).
Definition rising_water (levels : list Q) : Prop :=
  forall i j, (i < j < length levels)%nat -> nth i levels 0 < nth j levels 0.

(** The face [b] is the face [a] in a run of which only the maps [keep] are
    written.  The maps are counted after those that are skipped, and the skipped
    maps and the map that decides on lakes ([p] and [p']) may have another
    number. *)
Definition fewer_maps (p p' : geom_params) (n : nat) (keep : list nat) (a b : cell) : Prop :=
  c_area b = c_area a /\ c_bed b = c_bed a /\ length (cdepth p a) = n /\
  cdepth p' b = at_maps NaN keep (cdepth p a) /\ clevel p' b = at_maps NaN keep (clevel p a) /\
  cvel p' b = at_maps NaN keep (cvel p a).
(** Both runs have the same lakes, and they begin to rise at the same map. *)
Definition same_lakes (p p' : geom_params) (keep : list nat) (a b : cell) : Prop :=
  lake_known (gp_lake p') (cdepth p' b) = true /\ clake p' b = clake p a /\
  (clake p a = true -> cwet p' b = at_maps false keep (cwet p a)).
Definition same_parameters (p p' : geom_params) : Prop :=
  gp_method p' = gp_method p /\ gp_abs p' = gp_abs p /\ gp_rel p' = gp_rel p /\ gp_extrapolate p' = gp_extrapolate p.

(** The geometry [g'] has the rows of [g] of the maps [keep]: ten rows from the
    bed to the first level are the same, above it level, total width, areas and
    volumes are those of [g].  The flow width is a minimum over the rows above. *)
Definition rows_of (keep : list nat) (g g' : geometry) : Prop :=
  exists zb tb fb wb ab nb za ta fa wa aa fv tv,
    length zb = 10%nat /\ length za = length (g_z_roughness g) /\
    k_z (g_cols g) = zb ++ za /\ k_z (g_cols g') = zb ++ at_maps NaN keep za /\
    k_tw (g_cols g) = tb ++ ta /\ k_tw (g_cols g') = tb ++ at_maps NaN keep ta /\
    k_fw (g_cols g) = fb ++ flow_width_envelope fa /\ k_fw (g_cols g') = fb ++ flow_width_envelope (at_maps NaN keep fa) /\
    k_wet (g_cols g) = wb ++ wa /\ k_wet (g_cols g') = wb ++ at_maps NaN keep wa /\
    k_flow (g_cols g) = ab ++ aa /\ k_flow (g_cols g') = ab ++ at_maps NaN keep aa /\
    k_fvol (g_cols g) = nb ++ fv /\ k_fvol (g_cols g') = nb ++ at_maps NaN keep fv /\
    k_tvol (g_cols g) = nb ++ tv /\ k_tvol (g_cols g') = nb ++ at_maps NaN keep tv /\
    g_z_roughness g' = at_maps NaN keep (g_z_roughness g).

(** ** Entries of lists *)

Lemma at_maps_seq {A} (d : A) n keep f : Forall (fun k => (k < n)%nat) keep -> at_maps d keep (map f (seq 0 n)) = map f keep.
Proof.
  intro H. unfold at_maps. induction H as [|k keep K H IH]; auto. cbn [map]. rewrite IH. f_equal.
  rewrite (nth_indep _ d (f 0%nat)) by (rewrite map_length, seq_length; exact K).
  rewrite map_nth, seq_nth by exact K. reflexivity.
Qed.
Lemma nth_at_maps {A} (d : A) keep l t : (t < length keep)%nat -> nth t (at_maps d keep l) d = nth (nth t keep 0%nat) l d.
Proof.
  intro T. unfold at_maps. rewrite (nth_indep _ d (nth 0 l d)) by (rewrite map_length; exact T).
  exact (map_nth (fun k => nth k l d) keep 0%nat t).
Qed.
Lemma seq_maps {A} (f : nat -> A) keep : map (fun t => f (nth t keep 0%nat)) (seq 0 (length keep)) = map f keep.
Proof.
  induction keep as [|k keep IH]; auto. cbn [length seq map nth]. f_equal. rewrite <- seq_shift, map_map. exact IH.
Qed.
Lemma seq_at_maps {A} (d : A) n keep f g : Forall (fun k => (k < n)%nat) keep ->
  (forall t, (t < length keep)%nat -> g t = f (nth t keep 0%nat)) ->
  map g (seq 0 (length keep)) = at_maps d keep (map f (seq 0 n)).
Proof.
  intros K H. rewrite (at_maps_seq d n keep f K), <- (seq_maps f keep). apply map_ext_in. intros t T. apply in_seq in T. apply H. lia.
Qed.
Lemma at_maps_map {A B} (d : A) (e : B) (f : A -> B) n keep l : length l = n -> Forall (fun k => (k < n)%nat) keep ->
  at_maps e keep (map f l) = map f (at_maps d keep l).
Proof.
  intros L K. unfold at_maps. rewrite map_map. apply map_ext_in. intros k H. rewrite Forall_forall in K. specialize (K k H).
  rewrite (nth_indep _ e (f d)) by (rewrite map_length; lia). apply map_nth.
Qed.
Lemma at_maps_map2 {A B C} (d : A) (e : B) (x : C) (f : A -> B -> C) n keep l m : length l = n -> length m = n ->
  Forall (fun k => (k < n)%nat) keep -> at_maps x keep (map2 f l m) = map2 f (at_maps d keep l) (at_maps e keep m).
Proof.
  intros L M K. unfold at_maps. induction K as [|k keep K0 K IH]; auto. cbn [map map2]. rewrite IH. f_equal.
  clear -L M K0. subst n. revert k m M K0. induction l as [|a l IH]; intros [|k] [|b m] M K0; cbn in *; try lia; auto.
  apply IH; lia.
Qed.
Lemma at_maps_length {A} (d : A) keep l : length (at_maps d keep l) = length keep.
Proof. apply map_length. Qed.
Lemma hd_at_maps {A} (d : A) n keep l : maps_of n keep -> hd d (at_maps d keep l) = hd d l.
Proof. intros ((rest & ->) & _). cbn. destruct l; reflexivity. Qed.
Lemma maps_of_positive n keep : maps_of n keep -> (0 < n)%nat /\ (0 < length keep)%nat.
Proof. intros ((rest & ->) & H & _). inversion H. cbn. lia. Qed.

Lemma F2_nth_error {A B} (R : A -> B -> Prop) l m i a : Forall2 R l m -> nth_error l i = Some a ->
  exists b, nth_error m i = Some b /\ R a b.
Proof.
  intro H. revert i. induction H as [|x y l m E F IH]; intros [|i] I; try discriminate; cbn in *; eauto.
  injection I as <-. eauto.
Qed.

(** ** Rising water *)

Lemma records_rising best l : rising_water (best :: l) -> records_from best l = repeat true (length l).
Proof.
  revert best. induction l as [|x l IH]; intros best H; auto. cbn.
  pose proof (H 0%nat 1%nat ltac:(cbn; lia)) as K. cbn in K. destruct (Qltb best x) eqn:E; [|qb; lra].
  f_equal. apply IH. intros i j J. exact (H (S i) (S j) ltac:(cbn in *; lia)).
Qed.
Lemma monotone_rising l : l <> [] -> rising_water l -> check_monotonicity (map Fin l) = repeat true (length l).
Proof. destruct l as [|a l]; [congruence|]. intros _ H. rewrite check_monotonicity_records, records_rising; auto. Qed.
Lemma mask_all {A} n (l : list A) : length l = n -> mask_index (repeat true n) l = Ok l.
Proof.
  intro L. unfold mask_index. rewrite repeat_length, L, Nat.eqb_refl. f_equal. subst n.
  induction l as [|x l IH]; cbn; congruence.
Qed.
Lemma at_maps_Fin keep l n : length l = n -> Forall (fun k => (k < n)%nat) keep ->
  at_maps NaN keep (map Fin l) = map Fin (at_maps 0 keep l).
Proof. intros L K. exact (at_maps_map 0 NaN Fin n keep l L K). Qed.
Lemma rising_at_maps keep l : maps_of (length l) keep -> rising_water l -> rising_water (at_maps 0 keep l).
Proof.
  intros (_ & K & O) R i j J. rewrite at_maps_length in J. rewrite !nth_at_maps by lia. apply R. split; [apply O; lia|].
  rewrite Forall_forall in K. apply K, nth_In. lia.
Qed.
Lemma fill_finite d l : l <> [] -> fill_centre_level d (map Fin l) = Ok (map Fin l).
Proof.
  destruct l as [|a l]; [congruence|]. intros _. unfold fill_centre_level. cbn [map]. f_equal.
  generalize (nanmin (map2 nsub (Fin a :: map Fin l) d)). intro b. cbn [isnan]. f_equal. induction l; cbn; congruence.
Qed.

(** ** The rows below the first level *)

Definition rows_below e len z d cells f : css_cols :=
  fold_left (below_z0_step e len z f cells) (linspace10 (nsub z (nsub z d))) (mkCols [] [] [] [] [] [] []).
Lemma below_prepends e len z f cells l k :
  fold_left (below_z0_step e len z f cells) l k =
  let b := fold_left (below_z0_step e len z f cells) l (mkCols [] [] [] [] [] [] []) in
  mkCols (k_z b ++ k_z k) (k_tw b ++ k_tw k) (k_fw b ++ k_fw k) (k_wet b ++ k_wet k) (k_flow b ++ k_flow k)
    (k_fvol b ++ k_fvol k) (k_tvol b ++ k_tvol k).
Proof.
  revert k. induction l as [|dz l IH]; intro k; [destruct k; reflexivity|]. cbn [fold_left].
  rewrite IH. cbv zeta. rewrite (IH (below_z0_step e len z f cells (mkCols [] [] [] [] [] [] []) dz)). cbv zeta.
  unfold below_z0_step at 2 4 6 8 10 12 14 16 18 20 22 24 26 28. cbv zeta.
  cbn [k_z k_tw k_fw k_wet k_flow k_fvol k_tvol]. rewrite <- !app_assoc. reflexivity.
Qed.
Lemma extend_prepends e len z d cells k :
  extend_css_below_z0 e len z d cells k =
  let b := rows_below e len z d cells (hd NaN (k_flow k)) in
  mkCols (k_z b ++ k_z k) (k_tw b ++ k_tw k) (k_fw b ++ k_fw k) (k_wet b ++ k_wet k) (k_flow b ++ k_flow k)
    (k_fvol b ++ k_fvol k) (k_tvol b ++ k_tvol k).
Proof. unfold extend_css_below_z0, rows_below. cbv zeta. apply below_prepends. Qed.
Lemma below_volumes e len z d cells f : k_fvol (rows_below e len z d cells f) = k_tvol (rows_below e len z d cells f) /\
  length (k_z (rows_below e len z d cells f)) = 10%nat.
Proof. unfold rows_below, linspace10. split; reflexivity. Qed.

Definition stack (b : css_cols) (len : num) (z wa fa tv fv : list num) : css_cols :=
  mkCols (k_z b ++ z) (k_tw b ++ map (fun a => ndiv a len) wa) (k_fw b ++ flow_width_envelope (map (fun a => ndiv a len) fa))
    (k_wet b ++ wa) (k_flow b ++ fa) (k_fvol b ++ fv) (k_tvol b ++ tv).
Definition with_volumes (len : num) (z : list num) (k : css_cols) : geometry :=
  mkGeometry k (css_volume len (k_tw k) (k_z k)) (css_volume len (k_fw k) (k_z k)) z.
Lemma fill_levels_finite l : fill_nan_levels (map Fin l) = map Fin l.
Proof. unfold fill_nan_levels. cbv zeta. generalize (nanmin (map Fin l)). intro b. induction l; cbn; congruence. Qed.
Lemma finish_rising p len cells cd levels tv fv wa fa : levels <> [] -> rising_water levels ->
  length tv = length levels -> length fv = length levels -> length wa = length levels -> length fa = length levels ->
  finish_geometry p len cells cd (map Fin levels) tv fv wa fa =
  Ok (with_volumes len (map Fin levels)
       (stack (rows_below (gp_extrapolate p) len (hd NaN (map Fin levels)) (hd NaN cd)
                (map (fun c => (c, hd NaN (clevel p c), hd false (cwet p c))) cells) (hd NaN fa)) len (map Fin levels) wa fa tv fv)).
Proof.
  intros NE RS L1 L2 L3 L4. unfold finish_geometry. cbv zeta.
  rewrite (monotone_rising levels NE RS).
  rewrite (mask_all _ (map Fin levels)) by apply map_length. rewrite (mask_all _ tv L1), (mask_all _ fv L2), (mask_all _ wa L3), (mask_all _ fa L4).
  cbn [bind]. unfold with_volumes.
  match goal with |- Ok (mkGeometry ?a _ _ _) = Ok (mkGeometry ?b _ _ _) => assert (E : a = b) end.
  { rewrite extend_prepends. unfold compute_css_above_z0. cbn [k_z k_tw k_fw k_wet k_flow k_fvol k_tvol].
    rewrite fill_levels_finite. reflexivity. }
  rewrite E. reflexivity.
Qed.
Lemma rows_below_same e len z d cells cells' f :
  (forall dz, wet_area_below cells' dz = wet_area_below cells dz) -> rows_below e len z d cells' f = rows_below e len z d cells f.
Proof.
  intro H. unfold rows_below. generalize (linspace10 (nsub z (nsub z d))). intro l.
  generalize (mkCols [] [] [] [] [] [] []). induction l as [|dz l IH]; intro k; auto. cbn [fold_left]. rewrite <- IH. f_equal.
  unfold below_z0_step. rewrite H. reflexivity.
Qed.

(** ** The flow width *)

Lemma envelope_length l : length (flow_width_envelope l) = length l.
Proof. induction l as [|x l IH]; auto. cbn. destruct (flow_width_envelope l); cbn in *; auto. Qed.
(** Every entry of the envelope is at most each of the widths from there on, and
    is one of them. *)
Fixpoint lowest_from (x : Q) (l : list Q) : Q := match l with [] => x | y :: l' => let m := lowest_from y l' in if Qltb m x then m else x end.
Lemma envelope_cons x l : exists r, flow_width_envelope (map Fin (x :: l)) = Fin (lowest_from x l) :: r /\
  r = flow_width_envelope (map Fin l).
Proof.
  revert x. induction l as [|y l IH]; intro x; [exists []; split; reflexivity|].
  destruct (IH y) as (r & E & _). exists (flow_width_envelope (map Fin (y :: l))). split; [|reflexivity].
  cbn [map] in *. cbn [flow_width_envelope] in *. rewrite E. cbn [lowest_from]. cbv zeta. unfold npmin. cbn [isnan nltb].
  destruct (Qltb _ _); reflexivity.
Qed.
Lemma lowest_le x l : forall y, In y (x :: l) -> lowest_from x l <= y.
Proof.
  revert x. induction l as [|z l IH]; intros x y [<-|Y]; cbn [lowest_from]; try contradiction; try lra; cbv zeta.
  - destruct (Qltb _ x) eqn:E; qb; lra.
  - pose proof (IH z y Y) as K. destruct (Qltb _ x) eqn:E; qb; lra.
Qed.
Lemma lowest_in x l : In (lowest_from x l) (x :: l).
Proof.
  revert x. induction l as [|z l IH]; intro x; cbn [lowest_from]; [left; reflexivity|]. cbv zeta.
  destruct (Qltb _ x); [right; apply IH|left; reflexivity].
Qed.
Lemma envelope_nth l k : (k < length l)%nat ->
  exists q, nth k (flow_width_envelope (map Fin l)) NaN = Fin q /\
    (exists j, (k <= j < length l)%nat /\ q = nth j l 0) /\ (forall j, (k <= j < length l)%nat -> q <= nth j l 0).
Proof.
  revert k. induction l as [|x l IH]; intros k K; cbn [length] in K; [lia|].
  destruct (envelope_cons x l) as (r & E & R). rewrite E. destruct k as [|k]; cbn [nth].
  - exists (lowest_from x l). split; [reflexivity|]. split.
    + destruct (In_nth (x :: l) _ 0 (lowest_in x l)) as (j & J & N). exists j. split; [cbn [length] in *; lia|auto].
    + intros j J. apply lowest_le. apply (nth_In (x :: l) 0). cbn [length] in *. lia.
  - subst r. destruct (IH k ltac:(lia)) as (q & Q & (j & J & N) & L). exists q. split; [exact Q|]. split.
    + exists (S j). split; [cbn [length]; lia|exact N].
    + intros [|i] I0; [lia|]. apply L. cbn [length] in I0. lia.
Qed.

(** With fewer maps the flow width at a level is not smaller, since the minimum
    is taken over fewer rows, and it is the same if the widths rise. *)
Theorem C103_fewer_maps_do_not_narrow_the_flow_width :
  forall keep w, maps_of (length w) keep ->
    Forall2 (fun x y => nleb x y = true) (at_maps NaN keep (flow_width_envelope (map Fin w)))
                                         (flow_width_envelope (at_maps NaN keep (map Fin w))) /\
    ((forall i j, (i <= j < length w)%nat -> nth i w 0 <= nth j w 0) ->
      same_column (at_maps NaN keep (flow_width_envelope (map Fin w))) (flow_width_envelope (at_maps NaN keep (map Fin w)))).
Proof.
  intros keep w M. pose proof M as (_ & K & O). rewrite (at_maps_Fin keep w (length w) eq_refl K).
  assert (N : forall (R : num -> num -> Prop),
    (forall t, (t < length keep)%nat -> R (nth (nth t keep 0%nat) (flow_width_envelope (map Fin w)) NaN)
                                          (nth t (flow_width_envelope (map Fin (at_maps 0 keep w))) NaN)) ->
    Forall2 R (at_maps NaN keep (flow_width_envelope (map Fin w))) (flow_width_envelope (map Fin (at_maps 0 keep w)))).
  { intros R H.
    assert (L : length (flow_width_envelope (map Fin (at_maps 0 keep w))) = length keep)
      by (rewrite envelope_length, map_length, at_maps_length; reflexivity).
    revert H L. generalize (flow_width_envelope (map Fin (at_maps 0 keep w))). clear. unfold at_maps.
    induction keep as [|k keep IH]; intros [|x l] H L; try discriminate; cbn [map]; constructor.
    - exact (H 0%nat ltac:(cbn; lia)).
    - apply IH; [|cbn in L; lia]. intros t T. exact (H (S t) ltac:(cbn; lia)). }
  assert (B : forall t, (t < length keep)%nat -> (nth t keep 0 < length w)%nat).
  { intros t T. rewrite Forall_forall in K. apply K, nth_In, T. }
  split; [apply N|intro R; apply N]; intros t T;
    destruct (envelope_nth w (nth t keep 0%nat) (B t T)) as (q & -> & (j & J & Q) & L);
    destruct (envelope_nth (at_maps 0 keep w) t ltac:(rewrite at_maps_length; exact T)) as (q' & -> & (j' & J' & Q') & L');
    rewrite at_maps_length in *; rewrite nth_at_maps in Q' by lia.
  - cbn [nleb]. apply Qle_bool_iff. rewrite Q'. apply L. split; [|apply B; lia].
    destruct (Nat.eq_dec t j') as [->|NE]; [lia|]. pose proof (O t j' ltac:(lia)). lia.
  - cbn [num_eq]. assert (q == nth (nth t keep 0%nat) w 0).
    { apply Qle_antisym; [apply L; split; [lia|apply B; exact T]|]. rewrite Q. apply R. lia. }
    assert (q' == nth (nth t keep 0%nat) w 0); [|lra]. apply Qle_antisym.
    + specialize (L' t ltac:(lia)). rewrite nth_at_maps in L' by exact T. exact L'.
    + rewrite Q'. apply R. split; [|apply B; lia]. destruct (Nat.eq_dec t j') as [->|NE]; [lia|]. pose proof (O t j' ltac:(lia)). lia.
Qed.
Print Assumptions C103_fewer_maps_do_not_narrow_the_flow_width.

(** ** The geometry *)

Theorem C103_the_output_interval_does_not_matter_partial :
  forall smooth mean p p' len n keep cells cells' i c levels g,
    gp_method p <> 0%Z -> same_parameters p p' -> maps_of n keep ->
    Forall2 (fun a b => fewer_maps p p' n keep a b /\ same_lakes p p' keep a b) cells cells' ->
    nth_error cells i = Some c -> clevel p c = map Fin levels -> length levels = n -> rising_water levels ->
    build_geometry smooth mean p len i cells = Ok g ->
    exists g', build_geometry smooth mean p' len i cells' = Ok g' /\ rows_of keep g g'.
Proof.
  intros smooth mean p p' len n keep cells cells' i c levels g M (P1 & P2 & P3 & P4) KM R Ci LV LN RS G.
  pose proof KM as (K0 & KF & KO). pose proof (maps_of_positive n keep KM) as (N0 & N1).
  rewrite build_geometry_cells in G by exact M. rewrite build_geometry_cells by (rewrite P1; exact M). cbv zeta in *.
  destruct (F2_nth_error _ _ _ _ _ R Ci) as (c' & Ci' & CC).
  assert (ND : forall (q : geom_params) (f : cell -> list num), nth i (map f cells) [] = f c /\ nth i (map f cells') [] = f c').
  { intros q f. split; apply nth_error_nth; rewrite nth_error_map; [rewrite Ci|rewrite Ci']; reflexivity. }
  rewrite (proj1 (ND p (cdepth p))), (proj1 (ND p (clevel p))) in G. rewrite (proj2 (ND p (cdepth p'))), (proj2 (ND p (clevel p'))).
  clear ND. pose proof CC as ((_ & _ & CD & CD' & CL' & _) & _).
  rewrite LV in G. rewrite CL', LV, (at_maps_Fin keep levels n LN KF).
  assert (NE : levels <> []) by (intros ->; cbn in LN; lia).
  assert (NE' : at_maps 0 keep levels <> []).
  { intro E. apply (f_equal (@length Q)) in E. rewrite at_maps_length in E. cbn in E. lia. }
  rewrite (fill_finite _ levels NE) in G. rewrite (fill_finite _ _ NE'). cbn [bind] in G |- *.
  rewrite CD', (at_maps_length NaN). rewrite CD in G. rewrite (hd_at_maps NaN n keep _ KM). set (c0 := hd NaN (cdepth p c)) in *.
  destruct (forallb (fun c => lake_known (gp_lake p) (cdepth p c)) cells) eqn:FL; [|discriminate].
  assert (FL' : forallb (fun c => lake_known (gp_lake p') (cdepth p' c)) cells' = true).
  { clear -R. induction R as [|a b l m (_ & E & _) F IH]; auto. cbn. rewrite E, IH. reflexivity. }
  rewrite FL'. clear FL FL'.
  set (RR := fun a b => fewer_maps p p' n keep a b /\ same_lakes p p' keep a b) in *.
  (* masks *)
  assert (WM : forall a b, RR a b -> cwet p' b = at_maps false keep (cwet p a)).
  { intros a b ((_ & _ & D & D' & _) & _ & L1 & L2). destruct (clake p a) eqn:LK; [apply L2; reflexivity|].
    unfold cwet. rewrite L1, LK, D'. unfold wet_not_lake.
    assert (F : forall l, lake_mask_time false l = map (fun _ => false) l).
    { intros [|x l]; auto. cbn. f_equal. revert x. induction l as [|y l IH]; intro x; auto. cbn. rewrite andb_false_r, IH. reflexivity. }
    rewrite !F. rewrite (at_maps_map2 NaN false false _ n) by (rewrite ?map_length; auto). f_equal.
    rewrite (at_maps_map NaN false _ n) by auto. reflexivity. }
  assert (EF : forall a b, RR a b -> ceff p' c0 b = at_maps NaN keep (ceff p c0 a)).
  { intros a b ((_ & _ & D & D' & _) & _ & L1 & _). unfold ceff. rewrite L1, D'.
    assert (E1 : lake_depth_correction (clake p a) (at_maps NaN keep (cdepth p a)) = at_maps NaN keep (lake_depth_correction (clake p a) (cdepth p a))).
    { unfold lake_depth_correction. rewrite (hd_at_maps NaN n keep _ KM), (at_maps_map NaN NaN _ n) by auto. reflexivity. }
    assert (E0 : length (lake_depth_correction (clake p a) (cdepth p a)) = n) by (unfold lake_depth_correction; rewrite map_length; exact D).
    assert (E2 : corrected_depth (at_maps NaN keep (cdepth p a)) (lake_depth_correction (clake p a) (at_maps NaN keep (cdepth p a))) =
                 at_maps NaN keep (corrected_depth (cdepth p a) (lake_depth_correction (clake p a) (cdepth p a)))).
    { rewrite E1. unfold corrected_depth. symmetry. apply at_maps_map2 with (n := n); auto. }
    rewrite E2. unfold pool_correction. rewrite (hd_at_maps NaN n keep _ KM). destruct (nltb _ _); [|reflexivity].
    symmetry. apply at_maps_map with (n := n); auto. rewrite corrected_length by congruence. exact D. }
  set (top := fun t => top3_mean (map (fun c => nth t (cvel p c) NaN) cells)) in *.
  set (top' := fun t => top3_mean (map (fun c => nth t (cvel p' c) NaN) cells')).
  assert (TT : forall t, (t < length keep)%nat -> top' t = top (nth t keep 0%nat)).
  { intros t T. unfold top, top'. f_equal. symmetry. apply (F2_map_eq RR); [|exact R].
    intros a b ((_ & _ & _ & _ & _ & E) & _). rewrite E, nth_at_maps by exact T. reflexivity. }
  assert (FM : forall a b, RR a b -> cflow p' (length keep) top' b = at_maps false keep (cflow p n top a)).
  { intros a b ((_ & _ & D & D' & _ & V) & _). unfold cflow. apply seq_at_maps; [exact KF|]. intros t T.
    rewrite D', V, !nth_at_maps, P2, P3, TT by exact T. reflexivity. }
  assert (MA : forall m m' : cell -> list bool, (forall a b, RR a b -> m' b = at_maps false keep (m a)) ->
     map (masked_area cells' (map m' cells')) (seq 0 (length keep)) = at_maps NaN keep (map (masked_area cells (map m cells)) (seq 0 n))).
  { intros m m' MM. apply seq_at_maps; [exact KF|]. intros t T. rewrite !masked_area_map. f_equal. symmetry.
    apply (F2_map_eq RR); [|exact R]. intros a b AB. rewrite (MM a b AB), nth_at_maps by exact T.
    destruct AB as ((-> & _) & _). reflexivity. }
  assert (MV : forall m m' : cell -> list bool, (forall a b, RR a b -> m' b = at_maps false keep (m a)) ->
     map (masked_volume cells' (map (ceff p' c0) cells') (map m' cells')) (seq 0 (length keep)) =
     at_maps NaN keep (map (masked_volume cells (map (ceff p c0) cells) (map m cells)) (seq 0 n))).
  { intros m m' MM. apply seq_at_maps; [exact KF|]. intros t T. rewrite !masked_volume_map. f_equal. symmetry.
    apply (F2_map_eq RR); [|exact R]. intros a b AB. rewrite (MM a b AB), (EF a b AB), !nth_at_maps by exact T.
    destruct AB as ((-> & _) & _). reflexivity. }
  rewrite (MA (cwet p) (cwet p') WM), (MV (cwet p) (cwet p') WM).
  rewrite (MA (cflow p n top) (cflow p' (length keep) top') FM), (MV (cflow p n top) (cflow p' (length keep) top') FM).
  clear MA MV.
  set (tv := map (masked_volume cells _ (map (cwet p) cells)) _) in *. set (fv := map (masked_volume cells _ (map (cflow p n top) cells)) _) in *.
  set (wa := map (masked_area cells (map (cwet p) cells)) _) in *. set (fa := map (masked_area cells (map (cflow p n top) cells)) _) in *.
  assert (LL : length tv = n /\ length fv = n /\ length wa = n /\ length fa = n)
    by (unfold tv, fv, wa, fa; rewrite !map_length, seq_length; auto).
  clearbody tv fv wa fa. destruct LL as (L1 & L2 & L3 & L4).
  rewrite (finish_rising p len cells _ levels tv fv wa fa NE RS) in G by congruence.
  assert (RS' : rising_water (at_maps 0 keep levels)) by (apply rising_at_maps; [rewrite LN; exact KM|exact RS]).
  rewrite (finish_rising p' len cells' _ _ _ _ _ _ NE' RS') by (rewrite !at_maps_length; reflexivity).
  rewrite !(hd_at_maps NaN n keep _ KM). fold c0 in G |- *. rewrite <- (at_maps_Fin keep levels n LN KF), (hd_at_maps NaN n keep _ KM), P4.
  rewrite (rows_below_same _ _ _ _ (map (fun c => (c, hd NaN (clevel p c), hd false (cwet p c))) cells)).
  2:{ intro dz. unfold wet_area_below. f_equal. symmetry.
      apply (F2_filter_map (fun x y => nsub (depth_at_t0 (fst (fst x)) (snd (fst x))) dz = nsub (depth_at_t0 (fst (fst y)) (snd (fst y))) dz /\
                             snd x = snd y /\ c_area (fst (fst x)) = c_area (fst (fst y)))).
      - intros x y (-> & -> & ->). auto.
      - apply (F2_map RR); [|exact R]. intros a b AB. cbn [fst snd]. rewrite (WM a b AB), (hd_at_maps false n keep _ KM).
        destruct AB as ((A1 & A2 & _ & _ & A3 & _) & _). rewrite A3, (hd_at_maps NaN n keep _ KM), A1. unfold depth_at_t0. rewrite A2. auto. }
  revert G. match goal with |- context [rows_below ?e ?l ?z ?d ?c ?f] =>
    destruct (below_volumes e l z d c f) as (B1 & B2); generalize dependent (rows_below e l z d c f) end.
  intros b B1 B2 G. injection G as <-. eexists. split; [reflexivity|].
  unfold rows_of, with_volumes, stack. cbn [g_cols g_tvol1d g_fvol1d g_z_roughness k_z k_tw k_fw k_wet k_flow k_fvol k_tvol].
  exists (k_z b), (k_tw b), (k_fw b), (k_wet b), (k_flow b), (k_tvol b), (map Fin levels), (map (fun a => ndiv a len) wa),
    (map (fun a => ndiv a len) fa), wa, fa, fv, tv.
  rewrite !(at_maps_map NaN NaN (fun a => ndiv a len) n) by auto. rewrite B1.
  repeat (split; [first [assumption|reflexivity]|]). reflexivity.
Qed.
Print Assumptions C103_the_output_interval_does_not_matter_partial.

(** ** Roughness *)

(** Links of a run of which only the maps [keep] are written. *)
Definition fewer_maps_links (skip skip' : nat) (keep : list nat) (d d' : links) : Prop :=
  edge_section d' = edge_section d /\ edge_faces d' = edge_faces d /\ area_full d' = area_full d /\
  nsteps d' = (skip' + length keep)%nat /\
  Forall2 (fun r r' => forall k, (k < length keep)%nat -> nth (skip' + k) r' NaN = nth (skip + nth k keep 0) r NaN)%nat
    (chezy d) (chezy d').
Definition rows_of_table (keep : list nat) (t t' : string * table num) : Prop :=
  fst t' = fst t /\ level (snd t') = at_maps NaN keep (level (snd t)) /\ friction (snd t') = at_maps NaN keep (friction (snd t)).

Lemma slice_seq skip n : slice_from (Z.of_nat skip) (seq 0 (skip + n)) = seq skip n.
Proof.
  unfold slice_from, slice_bound. rewrite seq_length. destruct (Z.of_nat skip <? 0)%Z eqn:E; [apply Z.ltb_lt in E; lia|].
  rewrite Nat2Z.id, Nat.min_r by lia. rewrite seq_app, skipn_app, seq_length, Nat.sub_diag. cbn [skipn].
  rewrite skipn_all2 by (rewrite seq_length; lia). reflexivity.
Qed.
Lemma steps_fewer (F : list num -> num) skip skip' n keep rows rows' : maps_of n keep ->
  Forall2 (fun r r' => forall k, (k < length keep)%nat -> nth (skip' + k) r' NaN = nth (skip + nth k keep 0) r NaN)%nat rows rows' ->
  map (fun t => F (M_Friction.column t rows')) (seq skip' (length keep)) =
  at_maps NaN keep (map (fun t => F (M_Friction.column t rows)) (seq skip n)).
Proof.
  intros (_ & K & _) R.
  assert (S : forall a m, seq a m = map (Nat.add a) (seq 0 m)).
  { intros a m. revert a. induction m as [|m IH]; intro a; auto. cbn [seq map]. rewrite Nat.add_0_r, (IH (S a)), <- seq_shift, map_map.
    f_equal. apply map_ext. intro. lia. }
  rewrite (S skip'), (S skip), !map_map. apply seq_at_maps; [exact K|]. intros t T.
  unfold M_Friction.column. f_equal. symmetry. revert R. apply F2_map_eq. intros r r' E. symmetry. apply E, T.
Qed.
Lemma build_table_fewer w skip skip' n keep (z : list num) d d' name t : maps_of n keep -> nsteps d = (skip + n)%nat ->
  fewer_maps_links skip skip' keep d d' ->
  build_table w (Z.of_nat skip) z d name = Ok t ->
  exists t', build_table w (Z.of_nat skip') (at_maps NaN keep z) d' name = Ok t' /\ rows_of_table keep (name, t) (name, t').
Proof.
  intros KM N (ES & EF & A & N' & CH) H. unfold build_table in *.
  assert (SI : section_is name d' = section_is name d) by (unfold section_is; rewrite ES; reflexivity).
  rewrite SI, EF, A, N', slice_seq. rewrite N, slice_seq in H.
  destruct (mask_index _ (chezy d)) as [rows|] eqn:ER; [|discriminate]. cbn [bind] in H.
  destruct (select_rows _ _ _ (chezy d') rows CH ER) as (rows' & -> & RR). cbn [bind].
  assert (MT : forall fr, make_table z fr = Ok t ->
    exists t', make_table (at_maps NaN keep z) (at_maps NaN keep fr) = Ok t' /\ rows_of_table keep (name, t) (name, t')).
  { intros fr E. unfold make_table in *. rewrite !at_maps_length, Nat.eqb_refl.
    destruct (Nat.eqb (length z) (length fr)); [|discriminate]. injection E as <-. eexists. split; [reflexivity|].
    split; [reflexivity|]. split; reflexivity. }
  destruct (Z.eqb w 0).
  - cbn [bind] in *. unfold friction_simple in *.
    rewrite (steps_fewer (fun l => nan_to_zero (nanmean (map zero_to_nan l))) skip skip' n keep rows rows' KM RR). apply MT, H.
  - destruct (Z.eqb w 1); [|discriminate].
    match type of H with bind (bind ?m _) _ = _ => destruct m as [efs|]; [|discriminate] end; cbn [bind] in *.
    unfold friction_area in *. destruct (area_full d) as [ar|].
    + cbv zeta in *. cbn [bind] in *.
      rewrite (steps_fewer (fun l => nan_to_zero (npsum (map2 nmul (map zero_to_nan l) (map (fun a => ndiv a (npsum (map (link_area ar) efs))) (map (link_area ar) efs))))) skip skip' n keep rows rows' KM RR).
      apply MT, H.
    + destruct efs as [|e efs]; [|discriminate]. cbn [bind] in *.
      rewrite (steps_fewer (fun _ => Fin 0) skip skip' n keep rows rows' KM RR). apply MT, H.
Qed.
Lemma assoc_set_fewer keep s t t' tabs tabs' : rows_of_table keep (s, t) (s, t') -> Forall2 (rows_of_table keep) tabs tabs' ->
  Forall2 (rows_of_table keep) (assoc_set s t tabs) (assoc_set s t' tabs').
Proof.
  intros T. induction 1 as [|[a b] [a' b'] l m E F IH]; cbn; [constructor; auto|].
  pose proof E as (E1 & _). cbn in E1. subst a'. destruct (String.eqb s a); constructor; auto.
  destruct T as (_ & T2 & T3). split; [reflexivity|]. auto.
Qed.

(** The roughness tables of a run with fewer maps are those rows of the tables
    of the run with all maps. *)
Theorem C103_roughness_of_fewer_maps :
  forall w skip skip' n keep (z : list num) d d' tabs, maps_of n keep -> nsteps d = (skip + n)%nat ->
    fewer_maps_links skip skip' keep d d' ->
    build_roughness_tables w (Z.of_nat skip) z d = Ok tabs ->
    exists tabs', build_roughness_tables w (Z.of_nat skip') (at_maps NaN keep z) d' = Ok tabs' /\ Forall2 (rows_of_table keep) tabs tabs'.
Proof.
  intros w skip skip' n keep z d d' tabs KM N R. unfold build_roughness_tables. pose proof R as (-> & _).
  generalize (np_unique (edge_section d)). intro names.
  assert (G : forall a a', Forall2 (rows_of_table keep) a a' ->
    fold_res (fun tabs s => t <- build_table w (Z.of_nat skip) z d s ;; Ok (assoc_set s t tabs)) names a = Ok tabs ->
    exists tabs', fold_res (fun tabs s => t <- build_table w (Z.of_nat skip') (at_maps NaN keep z) d' s ;; Ok (assoc_set s t tabs)) names a' = Ok tabs' /\
      Forall2 (rows_of_table keep) tabs tabs').
  { induction names as [|nm names IH]; intros a a' A H; cbn [fold_res] in *; [injection H as <-; eauto|].
    destruct (build_table w (Z.of_nat skip) z d nm) as [t|] eqn:E; [|discriminate]. cbn [bind] in H.
    destruct (build_table_fewer w skip skip' n keep z d d' nm t KM N R E) as (t' & -> & T). cbn [bind].
    eapply IH; [|exact H]. apply assoc_set_fewer; auto. }
  intro H. apply (G [] []); [constructor|exact H].
Qed.
Print Assumptions C103_roughness_of_fewer_maps.

(** ** Cases and refutations *)

(** Two faces of 10 m2 in a control volume of 1 m: the channel and a second
    face with the given depths and velocities. *)
Definition two_faces (depths velocities : list Q) : list cell :=
  [mkCell (Fin 10) (Fin 0) (map Fin [1; 2; 3; 4; 5]) (map Fin [1; 2; 3; 4; 5]) (map Fin [1; 1; 1; 1; 1]) (M_Geometry.LInt 1);
   mkCell (Fin 10) (Fin 0) (map Fin depths) (map Fin depths) (map Fin velocities) (M_Geometry.LInt 2)].
Definition every_other (l : list num) : list num := at_maps NaN [0; 2; 4]%nat l.
Definition coarse (c : cell) : cell :=
  mkCell (c_area c) (c_bed c) (every_other (c_depth c)) (every_other (c_level c)) (every_other (c_vel c)) (c_section c).
Definition interval_run (cells : list cell) : res geometry :=
  build_geometry rolling_rows overall_mean (mkParams 0 1 1 (Fin (1 # 2)) (Fin 1) true) (Fin 1) 0 cells.
Definition columns (r : res geometry) : option (list num * list num * list num) :=
  match r with
  | Ok g => Some (map lowest_terms (skipn 10 (k_z (g_cols g))), map lowest_terms (skipn 10 (k_tw (g_cols g))),
                  map lowest_terms (skipn 10 (k_fw (g_cols g))))
  | Raise _ => None
  end.

(** The second face is a floodplain of which the flow width rises. *)
Definition floodplain : list cell := two_faces [0; 0; 1; 2; 3] [0; 0; 1; 1; 1].
Theorem C103_case :
  maps_of 5 [0; 2; 4]%nat /\
  Forall2 (fun a b => fewer_maps (mkParams 0 1 1 (Fin (1 # 2)) (Fin 1) true) (mkParams 0 1 1 (Fin (1 # 2)) (Fin 1) true) 5 [0; 2; 4]%nat a b /\
                      same_lakes (mkParams 0 1 1 (Fin (1 # 2)) (Fin 1) true) (mkParams 0 1 1 (Fin (1 # 2)) (Fin 1) true) [0; 2; 4]%nat a b)
    floodplain (map coarse floodplain) /\
  columns (interval_run floodplain) = Some (map Fin [1; 2; 3; 4; 5], map Fin [10; 10; 20; 20; 20], map Fin [10; 10; 20; 20; 20]) /\
  columns (interval_run (map coarse floodplain)) = Some (map Fin [1; 3; 5], map Fin [10; 20; 20], map Fin [10; 20; 20]).
Proof.
  split; [|split; [|split; vm_compute; reflexivity]].
  - split; [eauto|]. split; [repeat constructor|]. intros i j J. cbn in J.
    destruct i as [|[|[|i]]], j as [|[|[|j]]]; cbn; lia.
  - constructor; [|constructor; [|constructor]]; (split; [repeat split|]); (split; [reflexivity|]; split; [reflexivity|]; intro H; vm_compute in H; discriminate).
Qed.
Print Assumptions C103_case.

(** A lake that rises by 0.8 mm from one map to the next.  It never counts in
    the run with all maps, since it never rises by more than 1 mm between two
    maps, although it has risen by 1.6 mm at the end; with every other map it
    counts at the end. *)
Definition slow_lake : list cell := two_faces [1; 1; 1; 1 + (8 # 10000); 1 + (16 # 10000)] [0; 0; 0; 0; 0].
Theorem C103_lakes_refuted :
  columns (interval_run slow_lake) = Some (map Fin [1; 2; 3; 4; 5], map Fin [10; 10; 10; 10; 10], map Fin [10; 10; 10; 10; 10]) /\
  columns (interval_run (map coarse slow_lake)) = Some (map Fin [1; 3; 5], map Fin [10; 10; 20], map Fin [10; 10; 10]).
Proof. split; vm_compute; reflexivity. Qed.
Print Assumptions C103_lakes_refuted.

(** A face that does not convey for the time of one map: with that map the flow
    width is smaller at the levels below as well. *)
Definition interrupted : list cell := two_faces [1; 2; 3; 4; 5] [1; 1; 1; 0; 1].
Theorem C103_flow_width_refuted :
  columns (interval_run interrupted) = Some (map Fin [1; 2; 3; 4; 5], map Fin [20; 20; 20; 20; 20], map Fin [10; 10; 10; 10; 20]) /\
  columns (interval_run (map coarse interrupted)) = Some (map Fin [1; 3; 5], map Fin [20; 20; 20], map Fin [20; 20; 20]).
Proof. split; vm_compute; reflexivity. Qed.
Print Assumptions C103_flow_width_refuted.
