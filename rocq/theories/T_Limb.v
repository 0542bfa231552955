(** C101: what follows the highest water level (the falling limb of the flood
    wave) does not matter. *)
From Coq Require Import String List Ascii ZArith QArith Qround Bool Permutation Lia Lqa.
From Verif Require Import PyBase Num Text L_Num L_List L_Require M_Geometry M_Sections M_Friction M_Simplify M_Import M_Cli
  M_Pipeline M_Rolling Spec_Same L_Same L_SameGeometry T_Pipeline M_Levels T_Friction T_Levels T_SameRun.
Import ListNotations.
Local Open Scope Q_scope.

(** ** Specification *)

(** The face [c'] is the face [c] with [k] more output maps. *)
Definition more_maps (n k : nat) (c c' : cell) : Prop :=
  c_area c' = c_area c /\ c_bed c' = c_bed c /\ c_section c' = c_section c /\
  length (c_depth c) = n /\ length (c_level c) = n /\ length (c_vel c) = n /\
  (exists x, length x = k /\ c_depth c' = c_depth c ++ x) /\
  (exists x, length x = k /\ c_level c' = c_level c ++ x) /\
  (exists x, length x = k /\ c_vel c' = c_vel c ++ x).
(** In the additional maps the water at the location is not higher than it has
    been before, after the maps that are skipped. *)
Definition no_higher (skip : Z) (c c' : cell) : Prop :=
  exists levels ys, get_timeseries skip (c_level c) = map Fin levels /\ c_level c' = c_level c ++ map Fin ys /\
    Forall (fun y => ~ y == -999 /\ exists x, In x levels /\ y <= x) ys.

(** ** Lists that become longer *)

Definition no_data (v : num) : num := if neqb v M_Geometry.NODATA then NaN else v.
Lemma series_app skip l x : (0 <= skip)%Z -> (skip <= Z.of_nat (length l))%Z ->
  get_timeseries skip (l ++ x) = get_timeseries skip l ++ map no_data x.
Proof.
  intros S L. unfold get_timeseries, slice_from, slice_bound. rewrite app_length.
  destruct (skip <? 0)%Z eqn:E; [apply Z.ltb_lt in E; lia|].
  replace (Nat.min (length l + length x) (Z.to_nat skip)) with (Z.to_nat skip) by lia.
  replace (Nat.min (length l) (Z.to_nat skip)) with (Z.to_nat skip) by lia.
  rewrite skipn_app, map_app. replace (Z.to_nat skip - length l)%nat with 0%nat by lia. reflexivity.
Qed.
Lemma series_length skip l : (0 <= skip)%Z -> length (get_timeseries skip l) = (length l - Z.to_nat skip)%nat.
Proof.
  intro S. unfold get_timeseries, slice_from, slice_bound. destruct (skip <? 0)%Z eqn:E; [apply Z.ltb_lt in E; lia|].
  rewrite map_length, skipn_length. lia.
Qed.
Lemma nth_app_l {A} (l m : list A) d t : (t < length l)%nat -> nth t (l ++ m) d = nth t l d.
Proof. apply app_nth1. Qed.
Lemma hd_app_l {A} (l m : list A) d : l <> [] -> hd d (l ++ m) = hd d l.
Proof. destruct l; [congruence|reflexivity]. Qed.

Lemma py_index_app {A} (l m : list A) k x : (0 <= k)%Z -> py_index l k = Ok x -> py_index (l ++ m) k = Ok x.
Proof.
  intros K H. unfold py_index in *. destruct (k <? 0)%Z eqn:E; [apply Z.ltb_lt in E; lia|]. rewrite E in *.
  destruct (nth_error l (Z.to_nat k)) eqn:N; [|discriminate]. rewrite nth_error_app1, N; auto.
  apply nth_error_Some. congruence.
Qed.
Lemma is_lake_app L l m b : (0 <= L)%Z -> is_lake L l = Ok b -> is_lake L (l ++ m) = Ok b.
Proof.
  intros K H. unfold is_lake in *.
  destruct (py_index l L) as [x|] eqn:E; [|discriminate]. destruct (py_index l 0) as [y|] eqn:F; [|discriminate].
  rewrite (py_index_app l m L x K E), (py_index_app l m 0 y) by (auto; lia). exact H.
Qed.
Lemma mask_from_app b p l m : exists r, lake_mask_from b p (l ++ m) = lake_mask_from b p l ++ r.
Proof.
  revert b p. induction l as [|x l IH]; intros b p; cbn; [eexists; reflexivity|].
  destruct (IH (nleb (nsub x p) (Fin (1 # 1000)) && b)%bool x) as (r & ->). exists r. reflexivity.
Qed.
Lemma mask_from_length b p l : length (lake_mask_from b p l) = length l.
Proof. revert b p. induction l; intros; cbn; auto. Qed.
Lemma mask_time_length b l : length (lake_mask_time b l) = length l.
Proof. destruct l; cbn; auto using mask_from_length. Qed.
Lemma map2_app_le {A B C} (f : A -> B -> C) l m l' m' : length l = length m -> map2 f (l ++ l') (m ++ m') = map2 f l m ++ map2 f l' m'.
Proof. revert m. induction l as [|a l IH]; intros [|b m] H; try discriminate; auto. cbn. rewrite IH; auto. Qed.
Lemma wet_app b l m : l <> [] -> exists r, wet_not_lake b (l ++ m) = wet_not_lake b l ++ r.
Proof.
  intro N. unfold wet_not_lake. destruct l as [|x l]; [congruence|].
  destruct (mask_from_app b x l m) as (r & E).
  assert (M : lake_mask_time b ((x :: l) ++ m) = lake_mask_time b (x :: l) ++ r) by (cbn [lake_mask_time app]; rewrite E; reflexivity).
  rewrite M, map2_app_le by (rewrite mask_time_length; reflexivity). eexists. reflexivity.
Qed.
Lemma wet_length b l : length (wet_not_lake b l) = length l.
Proof.
  unfold wet_not_lake. pose proof (mask_time_length b l) as H. revert H. generalize (lake_mask_time b l).
  induction l as [|x l IH]; intros [|y k] H; try discriminate; auto. cbn. f_equal. auto.
Qed.
Lemma lake_correction_app b l m : l <> [] ->
  exists r, lake_depth_correction b (l ++ m) = lake_depth_correction b l ++ r.
Proof. intro N. unfold lake_depth_correction. rewrite map_app, hd_app_l by auto. eexists. reflexivity. Qed.
Lemma corrected_app l m p q : length l = length p -> corrected_depth (l ++ m) (p ++ q) = corrected_depth l p ++ corrected_depth m q.
Proof. apply map2_app_le. Qed.
Lemma corrected_length l p : length l = length p -> length (corrected_depth l p) = length l.
Proof. unfold corrected_depth. revert p. induction l as [|x l IH]; intros [|y p] H; try discriminate; auto. cbn. f_equal. auto. Qed.
Lemma pool_app c l m : l <> [] -> exists r, pool_correction c (l ++ m) = pool_correction c l ++ r.
Proof.
  intro N. unfold pool_correction. rewrite hd_app_l by auto. destruct (nltb c (hd NaN l)).
  - rewrite map_app. eexists. reflexivity.
  - eexists. reflexivity.
Qed.
Lemma pool_length c l : length (pool_correction c l) = length l.
Proof. unfold pool_correction. destruct (nltb _ _); auto using map_length. Qed.

(** The record highs are those of before. *)
Lemma records_app best l m : (forall y, In y m -> y <= best \/ exists x, In x l /\ y <= x) ->
  records_from best (l ++ m) = records_from best l ++ repeat false (length m).
Proof.
  revert best. induction l as [|x l IH]; intros best H; cbn.
  - assert (K : forall y, In y m -> y <= best) by (intros y Y; destruct (H y Y) as [|(x & [] & _)]; auto).
    clear H. induction m as [|y m IH]; cbn; auto. assert (L : y <= best) by (apply K; left; auto).
    destruct (Qltb best y) eqn:E; [qb; lra|]. f_equal. apply IH. intros z Z. apply K. right. exact Z.
  - destruct (Qltb best x) eqn:E; cbn; f_equal; apply IH; intros y Y; qb.
    + destruct (H y Y) as [L|(w & [<-|W] & L)]; [left; lra|left; auto|right; eauto].
    + destruct (H y Y) as [L|(w & [<-|W] & L)]; [left; auto|left; lra|right; eauto].
Qed.
Lemma monotone_app l m : l <> [] -> (forall y, In y m -> exists x, In x l /\ y <= x) ->
  check_monotonicity (map Fin (l ++ m)) = check_monotonicity (map Fin l) ++ repeat false (length m).
Proof.
  intros N H. destruct l as [|a l]; [congruence|]. rewrite <- app_comm_cons, !check_monotonicity_records, records_app; auto.
  intros y Y. destruct (H y Y) as (x & [<-|X] & L); eauto.
Qed.
Lemma select_false {A} n (l : list A) : select (repeat false n) l = [].
Proof. revert l. induction n; intros [|x l]; cbn; auto. Qed.
Lemma mask_index_app {A} mask (l m : list A) k : length mask = length l -> length m = k ->
  mask_index (mask ++ repeat false k) (l ++ m) = mask_index mask l.
Proof.
  intros L M. unfold mask_index. rewrite !app_length, repeat_length, L, M, !Nat.eqb_refl. f_equal.
  revert l L. induction mask as [|b mask IH]; intros [|x l] L; try discriminate; cbn; [apply select_false|].
  destruct b; [f_equal|]; apply IH; injection L as L; exact L.
Qed.

Lemma F2_map_eq {A B C} (R : A -> B -> Prop) (f : A -> C) (g : B -> C) l m :
  (forall a b, R a b -> f a = g b) -> Forall2 R l m -> map f l = map g m.
Proof. intro H. induction 1; cbn; f_equal; auto. Qed.
Lemma F2_filter_map {A B C} (R : A -> B -> Prop) (b : A -> bool) (b' : B -> bool) (f : A -> C) (g : B -> C) l m :
  (forall a c, R a c -> b a = b' c /\ f a = g c) -> Forall2 R l m -> map f (filter b l) = map g (filter b' m).
Proof.
  intro H. induction 1 as [|x y l m E F IH]; auto. cbn. destruct (H x y E) as (-> & G). destruct (b' y); cbn; congruence.
Qed.
Lemma map_seq_app {A} (f : nat -> A) a n k : map f (seq a (n + k)) = map f (seq a n) ++ map f (seq (a + n) k).
Proof. rewrite seq_app, map_app. reflexivity. Qed.

(** ** The geometry *)

(** Geometries that differ in the levels of the roughness tables only. *)
Definition same_but_roughness (g g' : geometry) : Prop :=
  g_cols g' = g_cols g /\ g_tvol1d g' = g_tvol1d g /\ g_fvol1d g' = g_fvol1d g.

Lemma extend_below_same e len z d cells cells' k :
  (forall dz, wet_area_below cells' dz = wet_area_below cells dz) ->
  extend_css_below_z0 e len z d cells' k = extend_css_below_z0 e len z d cells k.
Proof.
  intro H. unfold extend_css_below_z0. cbv zeta. generalize (hd NaN (k_flow k)). intro f.
  generalize (linspace10 (nsub z (nsub z d))). intro l. revert k.
  induction l as [|dz l IH]; intro k; auto. cbn [fold_left]. rewrite <- IH. f_equal. unfold below_z0_step. rewrite H. reflexivity.
Qed.

(** C101.  If a geometry can be built, it can be built from the longer series
    too, and its columns are the same: levels, widths, areas and volumes.  The
    levels of the roughness tables get the additional levels at their end. *)
Theorem C101_the_falling_limb_does_not_matter_partial :
  forall smooth mean p len n k cells cells' i c c' g,
    gp_method p <> 0%Z -> (0 <= gp_skip p)%Z -> (0 <= gp_lake p)%Z ->
    Forall2 (more_maps n k) cells cells' ->
    nth_error cells i = Some c -> nth_error cells' i = Some c' -> no_higher (gp_skip p) c c' ->
    build_geometry smooth mean p len i cells = Ok g ->
    exists g', build_geometry smooth mean p len i cells' = Ok g' /\ same_but_roughness g g' /\
      exists ys, length ys = k /\ c_level c' = c_level c ++ map Fin ys /\ g_z_roughness g' = g_z_roughness g ++ map Fin ys.
Proof.
  intros smooth mean p len n k cells cells' i c c' g M S0 L0 R Ci Ci' (levels & ys & LV & LX & NH) G.
  rewrite build_geometry_cells in G |- * by auto. cbv zeta in *.
  assert (ND : forall f : cell -> list num, nth i (map f cells) [] = f c /\ nth i (map f cells') [] = f c').
  { intro f. split; apply nth_error_nth; rewrite nth_error_map; [rewrite Ci|rewrite Ci']; reflexivity. }
  rewrite (proj1 (ND (cdepth p))), (proj1 (ND (clevel p))) in G. rewrite (proj2 (ND (cdepth p))), (proj2 (ND (clevel p))).
  clear ND.
  (* some map is not skipped *)
  assert (N1 : levels <> []).
  { intros ->. unfold clevel in G. rewrite LV in G. discriminate. }
  assert (CC : more_maps n k c c').
  { clear -R Ci Ci'. revert i Ci Ci'. induction R as [|a b l m E F IH]; intros [|i] H H'; cbn in *; try discriminate; eauto. congruence. }
  assert (LN : (length levels = n - Z.to_nat (gp_skip p))%nat).
  { destruct CC as (_ & _ & _ & _ & D & _). rewrite <- D, <- (series_length _ _ S0), LV, map_length. reflexivity. }
  assert (N2 : (Z.to_nat (gp_skip p) < n)%nat) by (destruct levels; [congruence|cbn in LN; lia]).
  (* the series of a face *)
  assert (ED : forall a b, more_maps n k a b -> cdepth p a <> [] /\ length (cdepth p a) = length levels /\
                 exists x, length x = k /\ cdepth p b = cdepth p a ++ x).
  { intros a b (_ & _ & _ & D & _ & _ & (x & X & E) & _). unfold cdepth. rewrite E, series_app by lia.
    rewrite (series_length _ _ S0), D. split; [|split; [lia|exists (map no_data x); split; [rewrite map_length; auto|reflexivity]]].
    intro Z. apply (f_equal (@length num)) in Z. rewrite (series_length _ _ S0) in Z. cbn in Z. lia. }
  assert (EV : forall a b, more_maps n k a b -> length (cvel p a) = length levels /\ exists x, length x = k /\ cvel p b = cvel p a ++ x).
  { intros a b (_ & _ & _ & _ & _ & D & _ & _ & (x & X & E)). unfold cvel. rewrite E, series_app by lia.
    rewrite (series_length _ _ S0), D. split; [lia|exists (map no_data x); split; [rewrite map_length; auto|reflexivity]]. }
  assert (EL : forall a b, more_maps n k a b -> hd NaN (clevel p b) = hd NaN (clevel p a)).
  { intros a b (_ & _ & _ & _ & D & _ & _ & (x & X & E) & _). unfold clevel. rewrite E, series_app by lia.
    apply hd_app_l. intro Z. apply (f_equal (@length num)) in Z. rewrite (series_length _ _ S0) in Z. cbn in Z. lia. }
  (* the location *)
  assert (Y : map no_data (map Fin ys) = map Fin ys).
  { clear -NH. induction NH as [|y ys (Y & _) F IH]; auto. cbn [map]. rewrite IH. f_equal. unfold no_data.
    destruct (neqb (Fin y) M_Geometry.NODATA) eqn:E; auto. cbn in E. apply Qeq_bool_true in E. contradiction. }
  assert (YK : length ys = k).
  { destruct CC as (_ & _ & _ & _ & _ & _ & _ & (x & X & E) & _). rewrite LX in E. apply app_inv_head in E.
    rewrite <- E, map_length in X. exact X. }
  assert (CL : clevel p c' = map Fin (levels ++ ys)).
  { unfold clevel. rewrite LX, series_app, LV, Y, map_app; auto. destruct CC as (_ & _ & _ & _ & D & _). lia. }
  assert (FC : forall d l, l <> [] -> fill_centre_level d (map Fin l) = Ok (map Fin l)).
  { intros d [|a l] N; [congruence|]. unfold fill_centre_level. cbn [map]. f_equal.
    generalize (nanmin (map2 nsub (Fin a :: map Fin l) d)). intro b. cbn [isnan]. f_equal.
    clear. induction l; cbn; congruence. }
  assert (CL0 : clevel p c = map Fin levels) by exact LV.
  rewrite CL. rewrite CL0 in G. rewrite (FC _ levels N1) in G.
  rewrite FC by (destruct levels; [congruence|discriminate]). cbn [bind] in G |- *.
  destruct (ED c c' CC) as (CD0 & CD1 & cx & CX & CD). rewrite CD, app_length, CX, CD1. rewrite CD1 in G.
  rewrite hd_app_l by exact CD0. set (nt := length levels) in *.
  destruct (forallb (fun c => lake_known (gp_lake p) (cdepth p c)) cells) eqn:FL; [|discriminate].
  assert (KN : forall a b, more_maps n k a b -> lake_known (gp_lake p) (cdepth p a) = true ->
                 lake_known (gp_lake p) (cdepth p b) = true /\ clake p b = clake p a).
  { intros a b AB. destruct (ED a b AB) as (_ & _ & x & _ & E). unfold clake, lake_known, lake_of. rewrite E.
    destruct (is_lake (gp_lake p) (cdepth p a)) as [f|] eqn:I; [|discriminate]. rewrite (is_lake_app _ _ x f L0 I). auto. }
  (* all faces have a known lake state *)
  assert (R' : Forall2 (fun a b => more_maps n k a b /\ clake p b = clake p a) cells cells' /\
               forallb (fun c => lake_known (gp_lake p) (cdepth p c)) cells' = true).
  { clear -R FL KN. induction R as [|a b l m E F IH]; [split; auto|]. cbn in FL |- *. apply andb_true_iff in FL. destruct FL as (F1 & F2).
    destruct (KN a b E F1) as (K1 & K2). destruct (IH F2) as (I1 & I2). rewrite K1, I2. split; auto. }
  destruct R' as (R' & ->). clear R FL KN.
  set (c0 := hd NaN (cdepth p c)) in *.
  assert (W : forall a b, more_maps n k a b /\ clake p b = clake p a -> length (cwet p a) = nt /\ exists r, cwet p b = cwet p a ++ r).
  { intros a b (AB & K). destruct (ED a b AB) as (N & D & x & _ & E). unfold cwet. rewrite K, E, wet_length. split; [exact D|].
    apply wet_app, N. }
  assert (EF : forall a b, more_maps n k a b /\ clake p b = clake p a -> length (ceff p c0 a) = nt /\ exists r, ceff p c0 b = ceff p c0 a ++ r).
  { intros a b (AB & K). destruct (ED a b AB) as (N & D & x & _ & E). unfold ceff. rewrite K, E.
    destruct (lake_correction_app (clake p a) (cdepth p a) x N) as (r & ->).
    assert (LL : length (cdepth p a) = length (lake_depth_correction (clake p a) (cdepth p a)))
      by (unfold lake_depth_correction; rewrite map_length; reflexivity).
    rewrite corrected_app by exact LL. rewrite pool_length, corrected_length by exact LL. split; [exact D|].
    apply pool_app. intro Z. apply (f_equal (@length num)) in Z. rewrite corrected_length in Z by exact LL. rewrite D in Z.
    cbn in Z. unfold nt in Z. destruct levels; [congruence|discriminate]. }
  set (top := fun t => top3_mean (map (fun c => nth t (cvel p c) NaN) cells)) in *.
  set (top' := fun t => top3_mean (map (fun c => nth t (cvel p c) NaN) cells')).
  assert (TT : forall t, (t < nt)%nat -> top' t = top t).
  { intros t T. unfold top, top'. f_equal. symmetry.
    apply (F2_map_eq (fun a b => more_maps n k a b /\ clake p b = clake p a)); [|exact R'].
    intros a b (AB & _). destruct (EV a b AB) as (D & x & _ & ->). rewrite nth_app_l; [reflexivity|rewrite D; exact T]. }
  assert (FM : forall a b t, more_maps n k a b /\ clake p b = clake p a -> (t < nt)%nat ->
                 nth t (cflow p (nt + k) top' b) false = nth t (cflow p nt top a) false).
  { intros a b t (AB & _) T. unfold cflow. rewrite map_seq_app, nth_app_l by (rewrite map_length, seq_length; exact T).
    assert (EQ : forall u, In u (seq 0 nt) ->
      conveys (gp_abs p) (gp_rel p) (top' u) (nth u (cdepth p b) NaN) (nth u (cvel p b) NaN) =
      conveys (gp_abs p) (gp_rel p) (top u) (nth u (cdepth p a) NaN) (nth u (cvel p a) NaN)).
    { intros u U. apply in_seq in U. destruct (ED a b AB) as (_ & D & x & _ & ->). destruct (EV a b AB) as (D' & x' & _ & ->).
      rewrite TT, !nth_app_l by (rewrite ?D, ?D'; lia). reflexivity. }
    rewrite (map_ext_in _ _ _ EQ). reflexivity. }
  assert (WM : forall a b t, more_maps n k a b /\ clake p b = clake p a -> (t < nt)%nat ->
                 nth t (cwet p b) false = nth t (cwet p a) false).
  { intros a b t AB T. destruct (W a b AB) as (D & r & ->). rewrite nth_app_l; [reflexivity|rewrite D; exact T]. }
  assert (MA : forall m m' : cell -> list bool,
     (forall a b t, more_maps n k a b /\ clake p b = clake p a -> (t < nt)%nat -> nth t (m' b) false = nth t (m a) false) ->
     map (masked_area cells' (map m' cells')) (seq 0 (nt + k)) =
     map (masked_area cells (map m cells)) (seq 0 nt) ++ map (masked_area cells' (map m' cells')) (seq nt k)).
  { intros m m' MM. rewrite map_seq_app. f_equal. apply map_ext_in. intros t T. apply in_seq in T. rewrite !masked_area_map.
    f_equal. symmetry. apply (F2_map_eq (fun a b => more_maps n k a b /\ clake p b = clake p a)); [|exact R'].
    intros a b AB. rewrite (MM a b t AB) by lia. destruct AB as ((-> & _) & _). reflexivity. }
  assert (MV : forall m m' : cell -> list bool,
     (forall a b t, more_maps n k a b /\ clake p b = clake p a -> (t < nt)%nat -> nth t (m' b) false = nth t (m a) false) ->
     map (masked_volume cells' (map (ceff p c0) cells') (map m' cells')) (seq 0 (nt + k)) =
     map (masked_volume cells (map (ceff p c0) cells) (map m cells)) (seq 0 nt) ++
     map (masked_volume cells' (map (ceff p c0) cells') (map m' cells')) (seq nt k)).
  { intros m m' MM. rewrite map_seq_app. f_equal. apply map_ext_in. intros t T. apply in_seq in T. rewrite !masked_volume_map.
    f_equal. symmetry. apply (F2_map_eq (fun a b => more_maps n k a b /\ clake p b = clake p a)); [|exact R'].
    intros a b AB. rewrite (MM a b t AB) by lia. destruct (EF a b AB) as (D & r & ->). rewrite nth_app_l by (rewrite D; lia).
    destruct AB as ((-> & _) & _). reflexivity. }
  rewrite (MA (cwet p) (cwet p) WM), (MV (cwet p) (cwet p) WM).
  rewrite (MA (cflow p nt top) (cflow p (nt + k) top') FM), (MV (cflow p nt top) (cflow p (nt + k) top') FM).
  clear MA MV. unfold finish_geometry in *. cbv zeta in *.
  rewrite monotone_app; [|exact N1|intros y Y0; rewrite Forall_forall in NH; apply (NH y Y0)].
  assert (ML : length (check_monotonicity (map Fin levels)) = nt).
  { destruct levels as [|a l]; [congruence|]. rewrite check_monotonicity_records. cbn. rewrite records_from_length. reflexivity. }
  rewrite map_app, YK. rewrite !mask_index_app by (rewrite ?map_length, ?seq_length; auto).
  match type of G with bind ?m _ = _ => destruct m as [z|]; [|discriminate] end; cbn [bind] in G |- *.
  match type of G with bind ?m _ = _ => destruct m as [tv|]; [|discriminate] end; cbn [bind] in G |- *.
  match type of G with bind ?m _ = _ => destruct m as [fv|]; [|discriminate] end; cbn [bind] in G |- *.
  match type of G with bind ?m _ = _ => destruct m as [wa|]; [|discriminate] end; cbn [bind] in G |- *.
  match type of G with bind ?m _ = _ => destruct m as [fa|]; [|discriminate] end; cbn [bind] in G |- *.
  fold c0 in G. rewrite hd_app_l by exact CD0. fold c0.
  rewrite (extend_below_same _ _ _ _ (map (fun c => (c, hd NaN (clevel p c), hd false (cwet p c))) cells)).
  2:{ intro dz. unfold wet_area_below. f_equal. symmetry.
      apply (F2_filter_map (fun x y => nsub (depth_at_t0 (fst (fst x)) (snd (fst x))) dz = nsub (depth_at_t0 (fst (fst y)) (snd (fst y))) dz /\
                             snd x = snd y /\ c_area (fst (fst x)) = c_area (fst (fst y)))).
      - intros x y (-> & -> & ->). auto.
      - apply (F2_map (fun a b => more_maps n k a b /\ clake p b = clake p a)); [|exact R']. intros a b AB. cbn [fst snd].
        destruct (W a b AB) as (D & r & E). rewrite E, hd_app_l by (intro Z; rewrite Z in D; unfold nt in D; destruct levels; [congruence|discriminate]).
        rewrite (EL a b (proj1 AB)). unfold depth_at_t0. destruct AB as ((-> & -> & _) & _). auto. }
  revert G. match goal with |- Ok (mkGeometry ?a _ _ _) = Ok g -> _ => generalize a as k1 end.
  intros k1 G. injection G as <-.
  exists (mkGeometry k1 (css_volume len (k_tw k1) (k_z k1)) (css_volume len (k_fw k1) (k_z k1)) (map Fin levels ++ map Fin ys)).
  unfold same_but_roughness. cbn [g_cols g_tvol1d g_fvol1d g_z_roughness].
  split; [reflexivity|]. split; [auto|]. exists ys. auto.
Qed.
Print Assumptions C101_the_falling_limb_does_not_matter_partial.

(** ** The cross-section *)

(** The control volume [s'] is [s] with [k] more output maps. *)
Definition longer_run (n k : nat) (s s' : selection) : Prop :=
  Forall2 (more_maps n k) (cells_of s) (cells_of s') /\
  s_x s' = s_x s /\ s_y s' = s_y s /\ s_area s' = s_area s /\ s_bed s' = s_bed s /\ s_section s' = s_section s /\
  s_region s' = s_region s /\ s_islake s' = s_islake s /\
  s_edge_faces s' = s_edge_faces s /\ s_edge_x s' = s_edge_x s /\ s_edge_y s' = s_edge_y s /\ s_edge_section s' = s_edge_section s /\
  Forall2 (fun r r' => length r = n /\ exists x, length x = k /\ r' = r ++ x) (s_chezy s) (s_chezy s').
(** The table [t'] is the table [t] with more rows at its end. *)
Definition longer_table (k : nat) (ys : list Q) (t t' : string * table num) : Prop :=
  fst t' = fst t /\ level (snd t') = level (snd t) ++ map Fin ys /\
  exists x, length x = k /\ friction (snd t') = friction (snd t) ++ x.
(** All of a cross-section but its roughness tables. *)
Definition without_tables (c : css) : css :=
  mk_css (s_name c) (s_z c) (s_tw c) (s_fw c) (s_css_z c) (s_css_tw c) (s_css_fw c) (s_crest c) (s_extra_total c) (s_extra_flow c)
    [] (s_widths c) (s_base c) (s_faces c) (s_links c).

Lemma seq_slice skip n k : (0 <= skip)%Z -> (skip <= Z.of_nat n)%Z ->
  slice_from skip (seq 0 (n + k)) = slice_from skip (seq 0 n) ++ seq n k.
Proof.
  intros S L. unfold slice_from, slice_bound. rewrite !seq_length.
  destruct (skip <? 0)%Z eqn:E; [apply Z.ltb_lt in E; lia|].
  replace (Nat.min (n + k) (Z.to_nat skip)) with (Z.to_nat skip) by lia.
  replace (Nat.min n (Z.to_nat skip)) with (Z.to_nat skip) by lia.
  rewrite seq_app, skipn_app, seq_length. replace (Z.to_nat skip - n)%nat with 0%nat by lia. reflexivity.
Qed.
Lemma in_slice {A} skip (l : list A) x : In x (slice_from skip l) -> In x l.
Proof. unfold slice_from. intro H. rewrite <- (firstn_skipn (slice_bound (length l) skip) l). apply in_or_app. auto. Qed.
Definition longer_row (n k : nat) (r r' : list num) : Prop := length r = n /\ exists x, length x = k /\ r' = r ++ x.
Lemma friction_simple_longer n k skip rows rows' : (0 <= skip)%Z -> (skip <= Z.of_nat n)%Z ->
  Forall2 (longer_row n k) rows rows' ->
  exists x, length x = k /\
    friction_simple (slice_from skip (seq 0 (n + k))) rows' = friction_simple (slice_from skip (seq 0 n)) rows ++ x.
Proof.
  intros S L H. rewrite seq_slice by auto. unfold friction_simple. rewrite map_app.
  exists (map (fun t => nan_to_zero (nanmean (map zero_to_nan (M_Friction.column t rows')))) (seq n k)).
  split; [rewrite map_length, seq_length; reflexivity|]. f_equal. apply map_ext_in. intros t T.
  apply in_slice in T. apply in_seq in T. unfold M_Friction.column. do 3 f_equal.
  symmetry. revert H. apply F2_map_eq. intros r r' (D & x & _ & ->). rewrite nth_app_l; [reflexivity|lia].
Qed.
Lemma select_rows {A B} (R : A -> B -> Prop) mask l m r : Forall2 R l m -> mask_index mask l = Ok r ->
  exists r', mask_index mask m = Ok r' /\ Forall2 R r r'.
Proof.
  intros H E. pose proof (mask_index_rel R mask l m H) as K. rewrite E in K.
  destruct (mask_index mask m) as [r'|]; cbn in K; [eauto|contradiction].
Qed.

Lemma build_table_longer w skip n k (z : list num) ys s s' name t : (0 <= skip)%Z -> (skip <= Z.of_nat n)%Z ->
  longer_run n k s s' -> length ys = k ->
  build_table w skip z (links_of n s) name = Ok t ->
  exists t', build_table w skip (z ++ map Fin ys) (links_of (n + k) s') name = Ok t' /\ longer_table k ys (name, t) (name, t').
Proof.
  intros S L (_ & _ & _ & _ & _ & _ & _ & _ & EF & _ & _ & ES & CH) YK H. unfold build_table in *.
  assert (SI : section_is name (links_of (n + k) s') = section_is name (links_of n s)).
  { unfold section_is, links_of. cbn [edge_section]. rewrite ES. reflexivity. }
  rewrite SI. cbn [chezy nsteps edge_faces area_full links_of] in *. rewrite EF.
  destruct (mask_index _ (s_chezy s)) as [rows|] eqn:ER; [|discriminate]. cbn [bind] in H.
  destruct (select_rows (longer_row n k) _ _ (s_chezy s') rows CH ER) as (rows' & -> & RR). cbn [bind].
  assert (MT : forall fr x, length x = k -> make_table z fr = Ok t ->
    exists t', make_table (z ++ map Fin ys) (fr ++ x) = Ok t' /\ longer_table k ys (name, t) (name, t')).
  { intros fr x X E. unfold make_table in *. rewrite !app_length, map_length.
    destruct (Nat.eqb (length z) (length fr)) eqn:Q; [|discriminate]. injection E as <-. apply Nat.eqb_eq in Q.
    rewrite Q, X, YK, Nat.eqb_refl. eexists. split; [reflexivity|]. split; [reflexivity|]. split; [reflexivity|].
    exists x. auto. }
  destruct (Z.eqb w 0).
  - destruct (friction_simple_longer n k skip rows rows' S L RR) as (x & X & ->). cbn [bind] in *. apply MT; auto.
  - destruct (Z.eqb w 1); [|discriminate].
    match type of H with bind (bind ?m _) _ = _ => destruct m as [efs|]; [|discriminate] end; cbn [bind] in *.
    destruct efs as [|e efs]; [|discriminate]. cbn [friction_area bind] in *. rewrite seq_slice, map_app by auto.
    apply MT; auto. rewrite map_length, seq_length. reflexivity.
Qed.
Lemma assoc_set_longer k ys s t t' tabs tabs' : longer_table k ys (s, t) (s, t') -> Forall2 (longer_table k ys) tabs tabs' ->
  Forall2 (longer_table k ys) (assoc_set s t tabs) (assoc_set s t' tabs').
Proof.
  intros T. induction 1 as [|[a b] [a' b'] l m E F IH]; cbn; [constructor; auto|].
  pose proof E as (E1 & _). cbn in E1. subst a'. destruct (String.eqb s a); constructor; auto.
  destruct T as (_ & T2 & T3). split; [reflexivity|]. auto.
Qed.
Lemma tables_longer w skip n k (z : list num) ys s s' tabs : (0 <= skip)%Z -> (skip <= Z.of_nat n)%Z ->
  longer_run n k s s' -> length ys = k ->
  build_roughness_tables w skip z (links_of n s) = Ok tabs ->
  exists tabs', build_roughness_tables w skip (z ++ map Fin ys) (links_of (n + k) s') = Ok tabs' /\ Forall2 (longer_table k ys) tabs tabs'.
Proof.
  intros S L R YK. unfold build_roughness_tables.
  assert (ES : edge_section (links_of (n + k) s') = edge_section (links_of n s)).
  { destruct R as (_ & _ & _ & _ & _ & _ & _ & _ & _ & _ & _ & ES & _). unfold links_of. cbn [edge_section]. rewrite ES. reflexivity. }
  rewrite ES. generalize (np_unique (edge_section (links_of n s))). intro names.
  assert (G : forall a a', Forall2 (longer_table k ys) a a' ->
    fold_res (fun tabs s0 => t <- build_table w skip z (links_of n s) s0 ;; Ok (assoc_set s0 t tabs)) names a = Ok tabs ->
    exists tabs', fold_res (fun tabs s0 => t <- build_table w skip (z ++ map Fin ys) (links_of (n + k) s') s0 ;; Ok (assoc_set s0 t tabs)) names a' = Ok tabs' /\
      Forall2 (longer_table k ys) tabs tabs').
  { induction names as [|nm names IH]; intros a a' A H; cbn [fold_res] in *; [injection H as <-; eauto|].
    destruct (build_table w skip z (links_of n s) nm) as [t|] eqn:E; [|discriminate]. cbn [bind] in H.
    destruct (build_table_longer w skip n k z ys s s' nm t S L R YK E) as (t' & -> & T). cbn [bind].
    eapply IH; [|exact H]. apply assoc_set_longer; auto. }
  intro H. apply (G [] []); [constructor|exact H].
Qed.

(** C101 for the whole cross-section: all of it is the same, except for the
    roughness tables, which get a row for every additional map, at their end. *)
Theorem C101_cross_section_partial :
  forall smooth mean correction clean st name len n k s s' i c c' r,
    gp_method (st_geometry st) <> 0%Z -> (0 <= gp_skip (st_geometry st))%Z -> (0 <= gp_lake (st_geometry st))%Z ->
    (forall g g', same_but_roughness g g' -> correction g' = correction g) ->
    longer_run n k s s' ->
    nth_error (cells_of s) i = Some c -> nth_error (cells_of s') i = Some c' -> no_higher (gp_skip (st_geometry st)) c c' ->
    generate_cross_section smooth mean correction clean st name len i n s = Ok (Some r) ->
    exists r', generate_cross_section smooth mean correction clean st name len i (n + k) s' = Ok (Some r') /\
      without_tables r' = without_tables r /\
      exists ys, c_level c' = c_level c ++ map Fin ys /\ Forall2 (longer_table k ys) (s_tables r) (s_tables r').
Proof.
  intros smooth mean correction clean st name len n k s s' i c c' r M S0 L0 CO R Ci Ci' NH G.
  unfold generate_cross_section in *. pose proof R as (RC & X & Y & A & B & SE & RE & IL & EF & EX & EY & ES & CH).
  rewrite X. destruct (Nat.ltb (length (s_x s)) 10); [discriminate|].
  unfold build_cross_section_geometry in *.
  destruct (build_geometry smooth mean (st_geometry st) len i (cells_of s)) as [g|] eqn:EG; [|discriminate].
  destruct (C101_the_falling_limb_does_not_matter_partial smooth mean (st_geometry st) len n k (cells_of s) (cells_of s') i c c' g
    M S0 L0 RC Ci Ci' NH EG) as (g' & -> & SG & ys & YK & LX & ZR).
  assert (SK : (gp_skip (st_geometry st) <= Z.of_nat n)%Z).
  { destruct (Z_le_gt_dec (gp_skip (st_geometry st)) (Z.of_nat n)) as [|GT]; auto. exfalso.
    rewrite build_geometry_cells in EG by auto. cbv zeta in EG.
    assert (N : nth i (map (clevel (st_geometry st)) (cells_of s)) [] = []).
    { rewrite (nth_error_nth _ _ _ (map_nth_error (clevel (st_geometry st)) _ _ Ci)).
      assert (D : length (c_level c) = n).
      { clear -RC Ci. revert i Ci. induction RC as [|a b l m E F IH]; intros [|i] H; cbn in H; try discriminate; eauto.
        injection H as <-. destruct E as (_ & _ & _ & _ & D & _). exact D. }
      apply length_zero_iff_nil. unfold clevel. rewrite series_length by auto. lia. }
    rewrite N in EG. discriminate. }
  cbn [bind] in *. pose proof SG as (SG1 & SG2 & SG3).
  assert (PC : perform_correction correction (st_correction st) g' len = perform_correction correction (st_correction st) g len).
  { unfold perform_correction. rewrite (CO g g' SG). reflexivity. }
  rewrite PC, SG1. destruct (check_requirements _ _ _ _) as [full|]; [|discriminate]. cbn [bind] in *.
  destruct (reduce_css_points (st_points st) full) as [red|]; [|discriminate]. cbn [bind] in *.
  destruct (perform_correction correction (st_correction st) g len) as ((crest & total) & flow).
  destruct full as ((z & tw) & fw). destruct red as ((z' & tw') & fw').
  rewrite ZR. destruct (build_roughness_tables _ _ (g_z_roughness g) _) as [tabs|] eqn:ET; [|discriminate].
  destruct (tables_longer (st_weighing st) (gp_skip (st_geometry st)) n k (g_z_roughness g) ys s s' tabs S0 SK R YK ET) as (tabs' & -> & TT).
  cbn [bind] in *. rewrite SE, A, B.
  destruct (nsection_widths _ _ _ _ _) as [w|]; [|discriminate]. cbn [bind] in *.
  destruct (compute_floodplain_base _ _ _ _) as [base|]; [|discriminate]. cbn [bind] in *. injection G as <-.
  eexists. split; [reflexivity|]. cbn [s_tables]. split; [|eauto].
  unfold without_tables. cbn [s_name s_z s_tw s_fw s_css_z s_css_tw s_css_fw s_crest s_extra_total s_extra_flow s_widths s_base s_faces s_links].
  assert (FO : face_output_list clean name s' = face_output_list clean name s).
  { unfold face_output_list. rewrite IL, B, RE, SE, X, Y. reflexivity. }
  assert (EO : edge_output_list clean name s' = edge_output_list clean name s).
  { unfold edge_output_list. rewrite ES, EX, EY. reflexivity. }
  rewrite FO, EO. reflexivity.
Qed.
Print Assumptions C101_cross_section_partial.

(** ** A case and refutations *)

(** The water rises from 1 to 3 m; in the longer run it falls to 2 m afterwards.
    The friction is 38 + 2 z at all time steps. *)
Definition limb_settings (method : Z) : settings :=
  mk_settings (mkParams 0 1 method (Fin (1 # 100)) (Fin (3 # 100)) false) (Fin (1 # 2)) 20 false (Fin (1 # 2)) 0.
Definition limb_run (method : Z) (n : nat) (s : selection) : res (option css) :=
  generate_cross_section rolling_rows overall_mean (fun _ => Raise ValueError) (fun x => x)
    (limb_settings method) (T "waal_1000.0") (Fin 10) 0 n s.
Definition rising : selection := selection_with false [1; 2; 3] [40; 42; 44].
Definition rising_and_falling : selection := selection_with false [1; 2; 3; 2] [40; 42; 44; 42].

Lemma rising_longer : longer_run 3 1 rising rising_and_falling.
Proof.
  unfold longer_run. split.
  { unfold rising, rising_and_falling. cbv [cells_of selection_with faces_with]. cbn.
    repeat match goal with |- Forall2 _ (_ :: _) (_ :: _) => constructor | |- Forall2 _ [] [] => constructor end;
    (unfold more_maps; cbn; repeat (split; [reflexivity|]); split; [eexists [_]; split; reflexivity|];
     split; eexists [_]; split; reflexivity). }
  repeat (split; [reflexivity|]). constructor; [|constructor]. split; [reflexivity|]. exists [Fin 42]. split; reflexivity.
Qed.

(** The theorem applies to this pair of runs. *)
Theorem C101_case :
  exists c c', limb_run 1 3 rising = Ok (Some c) /\ limb_run 1 4 rising_and_falling = Ok (Some c') /\
    without_tables c' = without_tables c /\ (length (s_z c) > 0)%nat /\
    s_tables c = [("main"%string, mk_table (map Fin [1; 2; 3]) (map Fin [40; 42; 44]))] /\
    s_tables c' = [("main"%string, mk_table (map Fin [1; 2; 3; 2]) (map Fin [40; 42; 44; 42]))].
Proof.
  set (f := fun c => (length (s_z c), s_tables c)).
  destruct (got_some f (limb_run 1 3 rising) (13%nat, [("main"%string, mk_table (map Fin [1; 2; 3]) (map Fin [40; 42; 44]))]))
    as (c & E & G); [vm_compute; reflexivity|].
  destruct (got_some s_tables (limb_run 1 4 rising_and_falling) [("main"%string, mk_table (map Fin [1; 2; 3; 2]) (map Fin [40; 42; 44; 42]))])
    as (c' & E' & G'); [vm_compute; reflexivity|].
  destruct (nth_error (cells_of rising) 0) as [a|] eqn:A; [|discriminate].
  destruct (nth_error (cells_of rising_and_falling) 0) as [a'|] eqn:A'; [|discriminate].
  assert (NH : no_higher 0 a a').
  { injection A as <-. injection A' as <-. exists [1; 2; 3], [2]. split; [reflexivity|]. split; [reflexivity|].
    constructor; [|constructor]. split; [discriminate|]. exists 3. split; [cbn; auto|]. discriminate. }
  destruct (C101_cross_section_partial rolling_rows overall_mean (fun _ => Raise ValueError) (fun x => x) (limb_settings 1)
    (T "waal_1000.0") (Fin 10) 3 1 rising rising_and_falling 0 a a' c
    ltac:(discriminate) ltac:(discriminate) ltac:(discriminate) (fun _ _ _ => eq_refl) rising_longer A A' NH E) as (r & ER & W & _).
  exists c, c'. change (3 + 1)%nat with 4%nat in ER. fold (limb_run 1 4 rising_and_falling) in ER.
  assert (r = c') by congruence. subst r. unfold f in G. injection G as G1 G2. rewrite G1.
  split; [exact E|]. split; [exact E'|]. split; [exact W|]. split; [lia|]. split; [exact G2|exact G'].
Qed.
Print Assumptions C101_case.

(** The roughness at the common levels is another: the level at the end of the
    table is not its highest level any more, and all levels above it get the
    friction of the last time step. *)
Theorem C101_roughness_refuted :
  exists c c', limb_run 1 3 rising = Ok (Some c) /\ limb_run 1 4 rising_and_falling = Ok (Some c') /\
    exists levels v v',
      interpolate_friction_n linear_search [s_tables c] = ([[("main"%string, mk_table (map Fin levels) (map Fin v))]], true) /\
      interpolate_friction_n linear_search [s_tables c'] = ([[("main"%string, mk_table (map Fin levels) (map Fin v'))]], true) /\
      length levels = 20%nat /\
      (forall k, (k < 20)%nat -> nth k v 0 == 38 + 2 * nth k levels 0) /\
      (forall k, (11 <= k < 20)%nat -> 2 < nth k levels 0 /\ nth k v' 0 == 42).
Proof.
  destruct C101_case as (c & c' & E & E' & _ & _ & T1 & T2). exists c, c'. split; [exact E|]. split; [exact E'|].
  rewrite T1, T2. exists (arange 1 3), (map (np_interp linear_search [1; 2; 3] [40; 42; 44]) (arange 1 3)),
    (map (np_interp linear_search [1; 2; 3; 2] [40; 42; 44; 42]) (arange 1 3)).
  split; [vm_compute; reflexivity|]. split; [vm_compute; reflexivity|]. split; [vm_compute; reflexivity|]. split.
  - intros k Hk. do 20 (destruct k as [|k]; [vm_compute; reflexivity|]). lia.
  - intros k Hk. do 11 (destruct k as [|k]; [lia|]).
    do 9 (destruct k as [|k]; [split; vm_compute; reflexivity|]). lia.
Qed.
Print Assumptions C101_roughness_refuted.

(** The legacy method compares with the mean velocity over all output maps.  The
    water flows at 1 m/s while it rises and at 4 m/s while it falls (a gate is
    opened): with a relative threshold of one half, the faces convey water in the
    run that stops at the highest level, and they do not in the run that goes
    on. *)
Definition with_velocity (v : list Q) (s : selection) : selection :=
  mk_selection (s_x s) (s_y s) (s_area s) (s_bed s) (s_depth s) (s_level s) (map (fun _ => map Fin v) (s_vel s)) (s_section s)
    (s_chezy s) (s_region s) (s_islake s) (s_edge_faces s) (s_edge_x s) (s_edge_y s) (s_edge_section s).
Definition slow_rise : selection := with_velocity [1; 1; 1] (selection_with false [1; 2; 3] [40; 42; 44]).
Definition slow_rise_fast_fall : selection :=
  with_velocity [1; 1; 1; 4; 4] (selection_with false [1; 2; 3; 2; 1] [40; 42; 44; 42; 40]).
Definition gate_settings (method : Z) : settings :=
  mk_settings (mkParams 0 1 method (Fin (1 # 10)) (Fin (1 # 2)) true) (Fin (1 # 2)) 20 false (Fin (1 # 2)) 0.
Definition gate_run (method : Z) (n : nat) (s : selection) : res (option css) :=
  generate_cross_section rolling_rows overall_mean (fun _ => Raise ValueError) (fun x => x)
    (gate_settings method) (T "waal_1000.0") (Fin 10) 0 n s.

Theorem C101_mean_method_refuted :
  longer_run 3 2 slow_rise slow_rise_fast_fall /\
  exists c c', gate_run 0 3 slow_rise = Ok (Some c) /\ gate_run 0 5 slow_rise_fast_fall = Ok (Some c') /\
    num_eq (nth 12 (s_fw c) NaN) (Fin (20003 # 1000)) /\ num_eq (nth 12 (s_fw c') NaN) (Fin (64 # 125)) /\
    exists d d', gate_run 1 3 slow_rise = Ok (Some d) /\ gate_run 1 5 slow_rise_fast_fall = Ok (Some d') /\
      num_eq (nth 12 (s_fw d) NaN) (Fin (20003 # 1000)) /\ num_eq (nth 12 (s_fw d') NaN) (Fin (20003 # 1000)).
Proof.
  split.
  - unfold longer_run. split.
    { unfold slow_rise, slow_rise_fast_fall. cbv [cells_of with_velocity selection_with faces_with]. cbn.
      repeat match goal with |- Forall2 _ (_ :: _) (_ :: _) => constructor | |- Forall2 _ [] [] => constructor end;
      (unfold more_maps; cbn; repeat (split; [reflexivity|]); split; [eexists [_; _]; split; reflexivity|];
       split; eexists [_; _]; split; reflexivity). }
    repeat (split; [reflexivity|]). constructor; [|constructor]. split; [reflexivity|]. exists [Fin 42; Fin 40]. split; reflexivity.
  - pose (f := fun c => lowest_terms (nth 12 (s_fw c) NaN)).
    destruct (got_some f (gate_run 0 3 slow_rise) (Fin (20003 # 1000))) as (c & E & G); [vm_compute; reflexivity|].
    destruct (got_some f (gate_run 0 5 slow_rise_fast_fall) (Fin (64 # 125))) as (c' & E' & G'); [vm_compute; reflexivity|].
    destruct (got_some f (gate_run 1 3 slow_rise) (Fin (20003 # 1000))) as (d & D & H); [vm_compute; reflexivity|].
    destruct (got_some f (gate_run 1 5 slow_rise_fast_fall) (Fin (20003 # 1000))) as (d' & D' & H'); [vm_compute; reflexivity|].
    assert (K : forall c x, f c = x -> num_eq (nth 12 (s_fw c) NaN) x).
    { intros r x <-. apply num_eq_sym, lowest_terms_eq. }
    exists c, c'. split; [exact E|]. split; [exact E'|]. split; [apply K, G|]. split; [apply K, G'|].
    exists d, d'. split; [exact D|]. split; [exact D'|]. split; [apply K, H|apply K, H'].
Qed.
Print Assumptions C101_mean_method_refuted.
