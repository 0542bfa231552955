(** End-to-end characterisation of build_geometry on complete data (C61). *)
From Coq Require Import String List ZArith QArith Qabs Bool Lia Lqa Qfield Permutation.
From Verif Require Import PyBase Num Spec L_Num M_Geometry L_Require L_Profile L_Cells T_Require T_Profile T_Cells.
Import ListNotations.
Local Open Scope Q_scope.

(** ** Specification of one control volume *)

(** 2D data of one face: plain numbers except the water level, which is
    missing where the face is dry. *)
Record face := mkFace {
  f_area : Q; f_bed : Q; f_depth : list Q; f_level : list num; f_vel : list Q; f_section : label }.

Definition cell_of (f : face) : cell :=
  mkCell (Fin (f_area f)) (Fin (f_bed f)) (map Fin (f_depth f)) (f_level f) (map Fin (f_vel f)) (f_section f).

Definition level_entry_ok (v : num) : Prop := v = NaN \/ exists q, v = Fin q /\ ~ q == -999.

Definition face_ok (nt : nat) (f : face) : Prop :=
  length (f_depth f) = nt /\ length (f_level f) = nt /\ length (f_vel f) = nt /\
  Forall (fun d => 0 <= d) (f_depth f) /\ Forall (fun v => 0 <= v) (f_vel f) /\
  Forall level_entry_ok (f_level f).

(** Depth and velocity at step [t] after dropping [s] maps. *)
Definition depth_at (s : nat) (f : face) (t : nat) : Q := nth (s + t) (f_depth f) 0.
Definition vel_at (s : nat) (f : face) (t : nat) : Q := nth (s + t) (f_vel f) 0.

(** Lake test at lake step [L]. *)
Definition lakeb (s L : nat) (f : face) : bool :=
  Qltb 0 (depth_at s f L) && Qle_bool (Qabs (depth_at s f L - depth_at s f 0)) (1 # 100).

(** Wet, and not a lake that is still at rest. *)
Definition activeb (s L : nat) (t : nat) (f : face) : bool :=
  Qltb 0 (depth_at s f t) &&
  negb (lakeb s L f &&
        forallb (fun u => Qle_bool (depth_at s f (S u) - depth_at s f u) (1 # 1000)) (seq 0 t)).

(** [m] is the mean of the three largest elements (all, if fewer). *)
Definition is_top3_mean (l : list Q) (m : Q) : Prop :=
  exists hi lo, Permutation l (lo ++ hi) /\ length hi = Nat.min 3 (length l) /\
    (forall a b, In a lo -> In b hi -> a <= b) /\
    m == Qsum hi / inject_Z (Z.of_nat (length hi)).

Definition conveyb (s : nat) (abs_thr rel_thr top : Q) (t : nat) (f : face) : bool :=
  Qltb 0 (depth_at s f t) && (Qltb (top * rel_thr) (vel_at s f t) || Qltb abs_thr (vel_at s f t)).

(** Volume counted for a face. *)
Definition counted_depth (s L : nat) (c0 : Q) (f : face) (t : nat) : Q :=
  let above u := depth_at s f u - (if lakeb s L f then depth_at s f 0 else 0) in
  if Qltb (above t) 0 then 0
  else above t - (if Qltb c0 (above 0%nat) then above 0%nat - c0 else 0).

(** Initial depth from level and bed. *)
Definition initial_depth (s : nat) (f : face) : Q :=
  match nth s (f_level f) NaN with Fin l => l - f_bed f | _ => 0 end.

(** ** Lemmas *)
Lemma skipn_nth {A} (d : A) s l t : nth t (skipn s l) d = nth (s + t) l d.
Proof.
  revert l; induction s as [|s IH]; intros l; simpl; auto.
  destruct l; [destruct t; auto|]. apply IH.
Qed.

Lemma get_timeseries_fin s row :
  Forall (fun d => 0 <= d) row ->
  get_timeseries (Z.of_nat s) (map Fin row) = map Fin (skipn s row).
Proof.
  intros H. unfold get_timeseries, slice_from, slice_bound.
  destruct (Z.of_nat s <? 0)%Z eqn:E; [apply Z.ltb_lt in E; lia|].
  rewrite Nat2Z.id, map_length.
  assert (Hs : skipn (Nat.min (length row) s) (map Fin row) = map Fin (skipn s row)).
  { rewrite skipn_map. f_equal. destruct (Nat.le_gt_cases s (length row)).
    - rewrite Nat.min_r by lia. auto.
    - rewrite Nat.min_l by lia. rewrite !skipn_all2 by lia. auto. }
  rewrite Hs, map_map. apply map_ext_in. intros q Hq.
  assert (0 <= q).
  { apply (proj1 (Forall_forall _ _) H). rewrite <- (firstn_skipn s row). apply in_or_app; auto. }
  unfold NODATA, neqb. destruct (Qeq_bool q (-999)) eqn:E1; auto. qb. lra.
Qed.

Lemma get_timeseries_level s row :
  Forall level_entry_ok row ->
  get_timeseries (Z.of_nat s) row = skipn s row.
Proof.
  intros H. unfold get_timeseries, slice_from, slice_bound.
  destruct (Z.of_nat s <? 0)%Z eqn:E; [apply Z.ltb_lt in E; lia|].
  rewrite Nat2Z.id.
  assert (Hs : skipn (Nat.min (length row) s) row = skipn s row).
  { destruct (Nat.le_gt_cases s (length row)).
    - rewrite Nat.min_r by lia. auto.
    - rewrite Nat.min_l by lia. rewrite !skipn_all2 by lia. auto. }
  rewrite Hs. rewrite <- map_id. apply map_ext_in. intros q Hq.
  assert (Ho : level_entry_ok q).
  { apply (proj1 (Forall_forall _ _) H). rewrite <- (firstn_skipn s row). apply in_or_app; auto. }
  destruct Ho as [->|(x & -> & Hx)]; auto. simpl.
  destruct (Qeq_bool x (-999)) eqn:E1; auto. qb. contradiction.
Qed.

Lemma select_In_iff {A} (d : A) mask : forall l x,
  In x (select mask l) <-> exists i, (i < length l)%nat /\ nth i mask false = true /\ nth i l d = x.
Proof.
  induction mask as [|b mask IH]; intros l x; simpl.
  - split; [tauto|]. intros (i & _ & H & _). destruct i; discriminate.
  - destruct l as [|a l]; [destruct b; simpl; (split; [tauto|]); intros (i & H & _); lia|].
    destruct b; simpl; rewrite IH; split.
    + intros [->|(i & Hi & Hm & Hx)].
      * exists 0%nat. simpl. split; [lia|auto].
      * exists (S i). simpl. split; [lia|auto].
    + intros ([|i] & Hi & Hm & Hx); simpl in *; [left; auto|]. right. exists i. split; [lia|auto].
    + intros (i & Hi & Hm & Hx). exists (S i). simpl. split; [lia|auto].
    + intros ([|i] & Hi & Hm & Hx); simpl in *; [discriminate|]. exists i. split; [lia|auto].
Qed.

Lemma select_seq_sorted mask : forall k n i j a b,
  (i < j)%nat -> nth_error (select mask (seq k n)) i = Some a ->
  nth_error (select mask (seq k n)) j = Some b -> (a < b)%nat.
Proof.
  assert (Hge : forall mask k n a, In a (select mask (seq k n)) -> (k <= a)%nat).
  { intros m k n a Ha. apply (subsequence_In _ _ _ (select_subsequence _ _)) in Ha.
    apply in_seq in Ha. lia. }
  induction mask as [|b0 mask IH]; intros k n i j a b Hij Ha Hb; simpl in *; [destruct i; discriminate|].
  destruct n as [|n]; simpl in *; [destruct b0; destruct i; discriminate|].
  destruct b0.
  - destruct j as [|j]; [lia|]. simpl in Hb. destruct i as [|i]; simpl in Ha.
    + inversion Ha; subst. apply nth_error_In in Hb. apply Hge in Hb. lia.
    + eapply IH with (i := i) (j := j); eauto. lia.
  - eapply IH with (i := i) (j := j); eauto.
Qed.

Lemma fill_nan_levels_fin l : fill_nan_levels (map Fin l) = map Fin l.
Proof. unfold fill_nan_levels. rewrite map_map. apply map_ext. auto. Qed.

Lemma combine_map {A B C} (f : A -> B) (g : A -> C) l :
  combine (map f l) (map g l) = map (fun x => (f x, g x)) l.
Proof. induction l; simpl; congruence. Qed.

Lemma map2_map {A B C D} (h : B -> C -> D) (f : A -> B) (g : A -> C) l :
  map2 h (map f l) (map g l) = map (fun x => h (f x) (g x)) l.
Proof. induction l; simpl; congruence. Qed.

Lemma Qsum_if_map_zero {A} (a : A -> Q) (p : A -> bool) l :
  Qsum (map (fun x => if p x then a x else 0) l) == Qsum_if a p l.
Proof.
  unfold Qsum_if. induction l as [|x l IH]; simpl; [lra|]. destruct (p x); simpl; lra.
Qed.

(** ** Masks of the model on complete data *)
Section Masks.
Variables (s L nt : nat) (faces : list face).
Hypothesis Hok : Forall (face_ok nt) faces.
Hypothesis Hs : (s < nt)%nat.
Hypothesis HL : (L < nt - s)%nat.

Definition drow (f : face) : list Q := skipn s (f_depth f).
Definition vrow (f : face) : list Q := skipn s (f_vel f).

Lemma in_ok f : In f faces -> face_ok nt f.
Proof. apply Forall_forall. auto. Qed.

Lemma drow_length f : In f faces -> length (drow f) = (nt - s)%nat.
Proof. intros H. apply in_ok in H. unfold drow. rewrite skipn_length. destruct H as (-> & _). auto. Qed.
Lemma vrow_length f : In f faces -> length (vrow f) = (nt - s)%nat.
Proof. intros H. apply in_ok in H. unfold vrow. rewrite skipn_length. destruct H as (_ & _ & -> & _). auto. Qed.

Lemma drow_nth f t : nth t (drow f) 0 = depth_at s f t.
Proof. apply skipn_nth. Qed.
Lemma vrow_nth f t : nth t (vrow f) 0 = vel_at s f t.
Proof. apply skipn_nth. Qed.

Lemma drow_nonneg f : In f faces -> Forall (fun d => 0 <= d) (drow f).
Proof.
  intros H. apply in_ok in H. destruct H as (_ & _ & _ & H & _). unfold drow.
  apply Forall_forall. intros x Hx. apply (proj1 (Forall_forall _ _) H).
  rewrite <- (firstn_skipn s (f_depth f)). apply in_or_app; auto.
Qed.

Lemma is_lake_face f : In f faces -> is_lake (Z.of_nat L) (map Fin (drow f)) = Ok (lakeb s L f).
Proof.
  intros H. pose proof (drow_length f H) as Hl. unfold is_lake.
  destruct (py_index_Ok (map Fin (drow f)) (Z.of_nat L)) as (a & -> & Ha); [rewrite map_length; lia|].
  destruct (py_index_Ok (map Fin (drow f)) 0) as (b & -> & Hb); [rewrite map_length; lia|].
  rewrite Nat2Z.id in Ha. change (Z.to_nat 0) with 0%nat in Hb.
  rewrite nth_error_map, (nth_error_nth' _ 0) in Ha by lia.
  rewrite nth_error_map, (nth_error_nth' _ 0) in Hb by lia.
  cbn [option_map] in Ha, Hb.
  assert (a = Fin (depth_at s f L)) by (rewrite drow_nth in Ha; congruence).
  assert (b = Fin (depth_at s f 0)) by (rewrite drow_nth in Hb; congruence).
  subst. reflexivity.
Qed.

Lemma map_res_map {A B C} (g : A -> B) (f : B -> res C) (h : A -> C) l :
  (forall x, In x l -> f (g x) = Ok (h x)) -> map_res f (map g l) = Ok (map h l).
Proof.
  induction l as [|x l IH]; intros H; simpl; auto.
  rewrite H by (simpl; auto). rewrite IH by (intros; apply H; simpl; auto). auto.
Qed.

Lemma identify_lakes_faces :
  identify_lakes (Z.of_nat L) (map (fun f => map Fin (drow f)) faces) =
  Ok (map (lakeb s L) faces,
      map (fun f => wet_not_lake (lakeb s L f) (map Fin (drow f))) faces,
      map (fun f => lake_depth_correction (lakeb s L f) (map Fin (drow f))) faces).
Proof.
  unfold identify_lakes. rewrite (map_res_map _ _ (lakeb s L)) by (intros; apply is_lake_face; auto).
  cbn [bind]. rewrite !map2_map. reflexivity.
Qed.

Lemma wet_mask_face f t : In f faces -> (t < nt - s)%nat ->
  nth t (wet_not_lake (lakeb s L f) (map Fin (drow f))) false = activeb s L t f.
Proof.
  intros H Ht. pose proof (drow_length f H) as Hl. unfold wet_not_lake.
  assert (Hlm : exists b, nth_error (lake_mask_time (lakeb s L f) (map Fin (drow f))) t = Some b).
  { destruct (nth_error (lake_mask_time (lakeb s L f) (map Fin (drow f))) t) eqn:E; [eauto|].
    apply nth_error_None in E. rewrite lake_mask_time_length, map_length in E. lia. }
  destruct Hlm as [b Hb].
  rewrite (nth_error_nth (map2 _ _ _) t _ (x := nltb (Fin 0) (Fin (depth_at s f t)) && negb b)).
  2: { rewrite nth_error_map2, Hb, nth_error_map.
       rewrite (nth_error_nth' (drow f) 0) by lia. rewrite drow_nth. reflexivity. }
  apply lake_mask_time_spec in Hb. unfold activeb.
  change (nltb (Fin 0) (Fin (depth_at s f t))) with (Qltb 0 (depth_at s f t)). f_equal. f_equal.
  apply eq_iff_eq_true. rewrite Hb, andb_true_iff, forallb_forall.
  split; intros [H1 H2]; split; auto.
  - intros u Hu. apply in_seq in Hu. qb. specialize (H2 u). rewrite !drow_nth in H2. apply H2. lia.
  - intros u Hu. specialize (H2 u). rewrite !drow_nth. apply Qle_bool_true. apply H2. apply in_seq. lia.
Qed.

Lemma wet_mask_hd f : In f faces ->
  hd false (wet_not_lake (lakeb s L f) (map Fin (drow f))) = activeb s L 0 f.
Proof.
  intros H. rewrite <- (wet_mask_face f 0 H) by lia.
  destruct (wet_not_lake (lakeb s L f) (map Fin (drow f))); auto.
Qed.

Variables (abs_thr rel_thr : Q).
Hypothesis Hne : faces <> [].

Lemma top_exists t : (t < nt - s)%nat -> exists m,
  top3_mean (column NaN t (map (fun f => map Fin (vrow f)) faces)) = Fin m /\
  is_top3_mean (map (fun f => vel_at s f t) faces) m.
Proof.
  intros Ht.
  assert (Hc : column NaN t (map (fun f => map Fin (vrow f)) faces) = map Fin (map (fun f => vel_at s f t) faces)).
  { unfold column. rewrite !map_map. apply map_ext_in. intros f Hf.
    rewrite nth_map_Fin by (rewrite (vrow_length f Hf); auto). rewrite vrow_nth. auto. }
  rewrite Hc. destruct (top3_mean_fin (map (fun f => vel_at s f t) faces)) as (hi & lo & m & Hm & H).
  { destruct faces; simpl; congruence. }
  exists m. split; auto. exists hi, lo. tauto.
Qed.

Definition top_of (t : nat) : Q :=
  match top3_mean (column NaN t (map (fun f => map Fin (vrow f)) faces)) with Fin m => m | _ => 0 end.

Lemma top_of_spec t : (t < nt - s)%nat -> is_top3_mean (map (fun f => vel_at s f t) faces) (top_of t).
Proof. intros Ht. destruct (top_exists t Ht) as (m & Hm & H). unfold top_of. rewrite Hm. auto. Qed.

Definition flow_row (f : face) : list bool :=
  map (fun t => conveys (Fin abs_thr) (Fin rel_thr)
                  (top3_mean (column NaN t (map (fun f => map Fin (vrow f)) faces)))
                  (nth t (map Fin (drow f)) NaN) (nth t (map Fin (vrow f)) NaN)) (seq 0 (nt - s)).

Lemma flow_mask_faces smooth mean method : method <> 0%Z ->
  distinguish_conveyance smooth mean method (Fin abs_thr) (Fin rel_thr) (nt - s)
    (map (fun f => map Fin (drow f)) faces) (map (fun f => map Fin (vrow f)) faces)
  = map flow_row faces.
Proof.
  intros Hm. unfold distinguish_conveyance.
  destruct (method =? 0)%Z eqn:E; [apply Z.eqb_eq in E; lia|].
  assert (G : max_velocity_method (Fin abs_thr) (Fin rel_thr) (nt - s)
    (map (fun f => map Fin (drow f)) faces) (map (fun f => map Fin (vrow f)) faces) = map flow_row faces).
  { unfold max_velocity_method. rewrite map2_map. reflexivity. }
  destruct (method =? 1)%Z; exact G.
Qed.

Lemma flow_row_face f t : In f faces -> (t < nt - s)%nat ->
  nth t (flow_row f) false = conveyb s abs_thr rel_thr (top_of t) t f.
Proof.
  intros H Ht. unfold flow_row.
  match goal with |- nth t (map ?g _) false = _ =>
    rewrite nth_indep with (d' := g 0%nat) by (rewrite map_length, seq_length; auto);
    rewrite (map_nth g) end.
  rewrite seq_nth by auto. change (0 + t)%nat with t.
  rewrite !nth_map_Fin by (rewrite ?drow_length, ?vrow_length; auto).
  rewrite drow_nth, vrow_nth. destruct (top_exists t Ht) as (m & Hm & _).
  unfold top_of. rewrite Hm. reflexivity.
Qed.

(** Areas and volumes over masks. *)
Lemma masked_area_faces (mask : face -> list bool) (p : face -> bool) t :
  (forall f, In f faces -> nth t (mask f) false = p f) ->
  exists a, masked_area (map cell_of faces) (map mask faces) t = Fin a /\ a == Qsum_if f_area p faces.
Proof.
  intros H. unfold masked_area. rewrite map2_map.
  destruct (fold_nadd_optional (map (fun x => if nth t (mask x) false then c_area (cell_of x) else NaN) faces)
              (map (fun f => if p f then f_area f else 0) faces)) as (a & Ha & He).
  { clear -H. induction faces as [|f l IH]; simpl; [constructor|]. constructor.
    - rewrite H by (simpl; auto). destruct (p f); [right; eexists; split; reflexivity | left; split; reflexivity].
    - apply IH. intros; apply H; simpl; auto. }
  exists a. split; auto. rewrite He. apply Qsum_if_map_zero.
Qed.

Lemma masked_volume_faces (mask : face -> list bool) (p : face -> bool) (c0 : Q) t :
  (t < nt - s)%nat ->
  (forall f, In f faces -> nth t (mask f) false = p f) ->
  exists v, masked_volume (map cell_of faces)
       (map (fun f => pool_correction (Fin c0) (corrected_depth (map Fin (drow f))
                        (lake_depth_correction (lakeb s L f) (map Fin (drow f))))) faces)
       (map mask faces) t = Fin v /\
    v == Qsum_if (fun f => f_area f * counted_depth s L c0 f t) p faces.
Proof.
  intros Ht H. unfold masked_volume. rewrite combine_map, map2_map.
  match goal with |- exists v, nansum (map ?g _) = _ /\ _ =>
    destruct (fold_nadd_optional (map g faces)
              (map (fun f => if p f then f_area f * counted_depth s L c0 f t else 0) faces)) as (a & Ha & He) end.
  { assert (Hin : forall f, In f faces -> In f faces) by auto. revert Hin H.
    generalize faces at 1 3 4 5 as l. induction l as [|f l IH]; intros Hin H; simpl; [constructor|]. constructor.
    - rewrite H by (simpl; auto). destruct (p f); [|left; split; reflexivity].
      assert (Hf : In f faces) by (apply Hin; simpl; auto).
      pose proof (model_depth_entry (lakeb s L f) c0 (drow f) t (drow_nonneg f Hf)) as Hd.
      rewrite drow_length in Hd by auto. specialize (Hd Ht).
      unfold effective_depth in Hd. rewrite !drow_nth in Hd. unfold counted_depth.
      cbn [fst snd].
      destruct (Qltb (depth_at s f t - (if lakeb s L f then depth_at s f 0 else 0)) 0).
      + rewrite Hd. left. split; [reflexivity|ring].
      + destruct Hd as (d' & Hd & Hq). rewrite Hd. right. eexists. split; [reflexivity|].
        rewrite Hq. reflexivity.
    - apply IH; intros; [apply Hin|apply H]; simpl; auto. }
  exists a. split; auto. rewrite He. apply Qsum_if_map_zero.
Qed.

(** The same sums for any masks, one per face. *)
Lemma map2_over_combine {A B C} (f : A -> B -> C) l : forall m, map2 f l m = map (fun x => f (fst x) (snd x)) (combine l m).
Proof. induction l as [|a l IH]; intros [|b m]; cbn; try reflexivity. f_equal. apply IH. Qed.
Lemma masked_area_masks (masks : list (list bool)) t :
  exists a, masked_area (map cell_of faces) masks t = Fin a /\
    a == Qsum_if (fun x => f_area (fst x)) (fun x : face * list bool => nth t (snd x) false) (combine faces masks).
Proof.
  unfold masked_area. rewrite map2_over_combine.
  destruct (fold_nadd_optional
     (map (fun x : cell * list bool => if nth t (snd x) false then c_area (fst x) else NaN) (combine (map cell_of faces) masks))
     (map (fun x : face * list bool => if nth t (snd x) false then f_area (fst x) else 0) (combine faces masks))) as (a & Ha & He).
  { clear. revert masks. induction faces as [|f l IH]; intros [|m masks]; cbn; try constructor.
    - destruct (nth t m false); [right; eexists; split; reflexivity | left; split; reflexivity].
    - apply IH. }
  exists a. split; [exact Ha|]. rewrite He. apply Qsum_if_map_zero.
Qed.
Lemma masked_volume_masks (masks : list (list bool)) (c0 : Q) t :
  (t < nt - s)%nat ->
  exists v, masked_volume (map cell_of faces)
       (map (fun f => pool_correction (Fin c0) (corrected_depth (map Fin (drow f))
                        (lake_depth_correction (lakeb s L f) (map Fin (drow f))))) faces)
       masks t = Fin v /\
    v == Qsum_if (fun x => f_area (fst x) * counted_depth s L c0 (fst x) t)
           (fun x : face * list bool => nth t (snd x) false) (combine faces masks).
Proof.
  intro Ht. unfold masked_volume. rewrite combine_map, map2_over_combine.
  match goal with |- exists v, nansum (map ?g _) = _ /\ _ => set (G := g) end.
  match goal with |- exists v, nansum (map _ (combine (map ?h _) _)) = _ /\ _ => set (K := h) end.
  destruct (fold_nadd_optional (map G (combine (map K faces) masks))
     (map (fun x : face * list bool => if nth t (snd x) false then f_area (fst x) * counted_depth s L c0 (fst x) t else 0)
        (combine faces masks))) as (a & Ha & He).
  { assert (Hin : forall f, In f faces -> In f faces) by auto. revert Hin.
    generalize faces at 1 3 4 as l. intro l. revert masks. induction l as [|f l IH]; intros [|m masks] Hin; cbn [map combine]; try constructor.
    - unfold G, K. cbn [fst snd]. destruct (nth t m false); [|left; split; reflexivity].
      assert (Hf : In f faces) by (apply Hin; simpl; auto).
      pose proof (model_depth_entry (lakeb s L f) c0 (drow f) t (drow_nonneg f Hf)) as Hd.
      rewrite drow_length in Hd by auto. specialize (Hd Ht).
      unfold effective_depth in Hd. rewrite !drow_nth in Hd. unfold counted_depth.
      destruct (Qltb (depth_at s f t - (if lakeb s L f then depth_at s f 0 else 0)) 0).
      + rewrite Hd. left. split; [reflexivity|ring].
      + destruct Hd as (d' & Hd & Hq). rewrite Hd. right. eexists. split; [reflexivity|].
        rewrite Hq. reflexivity.
    - apply IH. intros; apply Hin; simpl; auto. }
  exists a. split; auto. rewrite He. apply Qsum_if_map_zero.
Qed.

End Masks.

Lemma fill_known_levels depth zc : zc <> [] -> fill_centre_level depth (map Fin zc) = Ok (map Fin zc).
Proof.
  intro N. unfold fill_centre_level. destruct zc as [|z zc']; [congruence|].
  change (map Fin (z :: zc')) with (Fin z :: map Fin zc'). cbv iota. f_equal.
  change (Fin z :: map Fin zc') with (map Fin (z :: zc')). rewrite map_map. apply map_ext. auto.
Qed.
Lemma fill_centre_length depth level out : fill_centre_level depth level = Ok out -> length out = length level.
Proof. unfold fill_centre_level. destruct level; [discriminate|]. intro H. injection H as <-. cbn [length]. rewrite map_length. reflexivity. Qed.

(** The rows in terms of the masks of the conveying faces: [flow] and [flow_volume]
    are the area and volume under the masks at a time step. *)
Lemma rows_of_masks :
  forall smooth mean (s L nt centre : nat) (method : Z) (abs_thr rel_thr len : Q) (ex : bool)
         (faces : list face) (f0 : face) (zc : list Q) (flowm : list (list bool)) (flow flow_volume : nat -> Q),
    0 < len ->
    Forall (face_ok nt) faces -> Forall (fun f => 0 <= f_area f) faces ->
    (s < nt)%nat -> (L < nt - s)%nat ->
    nth_error faces centre = Some f0 ->
    fill_centre_level (map Fin (skipn s (f_depth f0))) (skipn s (f_level f0)) = Ok (map Fin zc) ->
    let c0 := depth_at s f0 0 in
    let z0 := nth 0 zc 0 in
    distinguish_conveyance smooth mean method (Fin abs_thr) (Fin rel_thr) (nt - s)
      (map (fun f => map Fin (drow s f)) faces) (map (fun f => map Fin (vrow s f)) faces) = flowm ->
    (forall t, (t < nt - s)%nat -> exists a, masked_area (map cell_of faces) flowm t = Fin a /\ a == flow t) ->
    (forall t, (t < nt - s)%nat -> exists v, masked_volume (map cell_of faces)
       (map (fun f => pool_correction (Fin c0) (corrected_depth (map Fin (drow s f))
                        (lake_depth_correction (lakeb s L f) (map Fin (drow s f))))) faces) flowm t = Fin v /\ v == flow_volume t) ->
    (forall t, (t < nt - s)%nat -> 0 <= flow t) ->
    exists g steps,
      build_geometry smooth mean
        (mkParams (Z.of_nat s) (Z.of_nat L) method (Fin abs_thr) (Fin rel_thr) ex)
        (Fin len) centre (map cell_of faces) = Ok g /\
      (forall t, In t steps <->
         (t < nt - s)%nat /\ forall u, (u < t)%nat -> nth u zc 0 < nth t zc 0) /\
      (forall i j a b, (i < j)%nat -> nth_error steps i = Some a -> nth_error steps j = Some b ->
         (a < b)%nat) /\
      (* rows above the initial level *)
      (forall j t, nth_error steps j = Some t -> exists A F V W,
         nth_error (k_z (g_cols g)) (10 + j) = Some (Fin (nth t zc 0)) /\
         nth_error (k_wet (g_cols g)) (10 + j) = Some (Fin A) /\
         A == Qsum_if f_area (activeb s L t) faces /\
         nth_error (k_tw (g_cols g)) (10 + j) = Some (Fin (A / len)) /\
         nth_error (k_flow (g_cols g)) (10 + j) = Some (Fin F) /\
         F == flow t /\
         nth_error (k_tvol (g_cols g)) (10 + j) = Some (Fin V) /\
         V == Qsum_if (fun f => f_area f * counted_depth s L c0 f t) (activeb s L t) faces /\
         nth_error (k_fvol (g_cols g)) (10 + j) = Some (Fin W) /\
         W == flow_volume t) /\
      (exists raw w, skipn 10 (k_fw (g_cols g)) = map Fin w /\
         rowwise (fun r t => r == flow t / len) raw steps /\
         nondecreasing w /\ rowwise Qle w raw /\
         (forall v, nondecreasing v -> rowwise Qle v raw -> rowwise Qle v w)) /\
      (* the ten rows below *)
      (exists zs ts fs, firstn 10 (k_z (g_cols g)) = map Fin zs /\
         firstn 10 (k_tw (g_cols g)) = map Fin ts /\ firstn 10 (k_fw (g_cols g)) = map Fin fs /\
         length zs = 10%nat /\ length ts = 10%nat /\ length fs = 10%nat /\
         nondecreasing zs /\ nondecreasing ts /\ nondecreasing fs /\ rowwise Qle fs ts /\
         (forall j z w, nth_error zs j = Some z -> nth_error ts j = Some w ->
            z == z0 - c0 * inject_Z (9 - Z.of_nat j) / 9 /\
            w == Qsum_if f_area
                   (fun f => Qltb (z0 - z - (1 # 1000)) (initial_depth s f) && activeb s L 0 f) faces / len)) /\
      (* nothing else, and the 1D volumes *)
      length (k_z (g_cols g)) = (10 + length steps)%nat /\
      g_tvol1d g = css_volume (Fin len) (k_tw (g_cols g)) (k_z (g_cols g)) /\
      g_fvol1d g = css_volume (Fin len) (k_fw (g_cols g)) (k_z (g_cols g)) /\
      g_z_roughness g = map Fin zc /\
      (* the 2D columns below the initial level *)
      firstn 10 (k_tvol (g_cols g)) = repeat NaN 10 /\ firstn 10 (k_fvol (g_cols g)) = repeat NaN 10 /\
      (exists fs ws qs, firstn 10 (k_fw (g_cols g)) = map Fin fs /\ Forall (fun w => 0 <= w) fs /\
         firstn 10 (k_wet (g_cols g)) = map Fin ws /\ firstn 10 (k_flow (g_cols g)) = map Fin qs).
Proof.
  intros smooth mean s L nt centre method abs_thr rel_thr len ex faces f0 zc flowm flow flow_volume
    Hlen Hok Harea Hs HL Hcen Hzc c0 z0 Hconv Hflow Hfv Hflow0.
  assert (Hin0 : In f0 faces) by (eapply nth_error_In; eauto).
  assert (Hne : faces <> []) by (intros ->; destruct centre; discriminate).
  pose proof (in_ok nt faces Hok f0 Hin0) as Hok0.
  assert (Hzlen : length zc = (nt - s)%nat).
  { apply fill_centre_length in Hzc. rewrite map_length, skipn_length in Hzc. destruct Hok0 as (_ & E & _). lia. }
  set (mono := check_monotonicity (map Fin zc)).
  set (steps := select mono (seq 0 (nt - s))).
  assert (Hzne : zc <> []) by (intros ->; simpl in Hzlen; lia).
  pose proof (C03_mask_is_record_highs zc Hzne) as Hmono. cbv zeta in Hmono. fold mono in Hmono.
  destruct Hmono as (Hmlen & Hrec & _).
  (* matrices *)
  assert (Hdepth : map (fun c => get_timeseries (Z.of_nat s) (c_depth c)) (map cell_of faces)
                 = map (fun f => map Fin (drow s f)) faces).
  { rewrite map_map. apply map_ext_in. intros f Hf. apply get_timeseries_fin.
    apply (in_ok nt faces Hok f Hf). }
  assert (Hvel : map (fun c => get_timeseries (Z.of_nat s) (c_vel c)) (map cell_of faces)
                 = map (fun f => map Fin (vrow s f)) faces).
  { rewrite map_map. apply map_ext_in. intros f Hf. apply get_timeseries_fin.
    apply (in_ok nt faces Hok f Hf). }
  assert (Hlevel : map (fun c => get_timeseries (Z.of_nat s) (c_level c)) (map cell_of faces)
                 = map (fun f => skipn s (f_level f)) faces).
  { rewrite map_map. apply map_ext_in. intros f Hf. apply get_timeseries_level.
    apply (in_ok nt faces Hok f Hf). }
  assert (Hcd : nth centre (map (fun f => map Fin (drow s f)) faces) [] = map Fin (drow s f0)).
  { erewrite nth_error_nth; [reflexivity|]. rewrite nth_error_map, Hcen. auto. }
  assert (Hcl : nth centre (map (fun f => skipn s (f_level f)) faces) [] = skipn s (f_level f0)).
  { erewrite nth_error_nth; [reflexivity|]. rewrite nth_error_map, Hcen. auto. }
  assert (Hdl : length (drow s f0) = (nt - s)%nat) by (apply (drow_length s nt faces); auto).
  assert (Hhd : hd NaN (map Fin (drow s f0)) = Fin c0).
  { unfold c0. rewrite <- drow_nth. destruct (drow s f0); [simpl in Hdl; lia|reflexivity]. }
  assert (Hfill : fill_centre_level (map Fin (drow s f0)) (skipn s (f_level f0)) = Ok (map Fin zc)) by exact Hzc.
  (* columns as functions of the time step *)
  set (wetm := map (fun f => wet_not_lake (lakeb s L f) (map Fin (drow s f))) faces).
  set (dep := map (fun f => pool_correction (Fin c0) (corrected_depth (map Fin (drow s f))
                        (lake_depth_correction (lakeb s L f) (map Fin (drow s f))))) faces).
  set (cells := map cell_of faces).
  fold cells in Hflow, Hfv. fold dep in Hfv.
  set (k0 := compute_css_above_z0 (Fin len) (select mono (map Fin zc))
               (select mono (map (masked_area cells wetm) (seq 0 (nt - s))))
               (select mono (map (masked_area cells flowm) (seq 0 (nt - s))))
               (select mono (map (masked_volume cells dep wetm) (seq 0 (nt - s))))
               (select mono (map (masked_volume cells dep flowm) (seq 0 (nt - s))))).
  set (cells0 := combine (combine cells (map (hd NaN) (map (fun f => skipn s (f_level f)) faces)))
                         (map (hd false) wetm)).
  set (k1 := extend_css_below_z0 ex (Fin len) (hd NaN (k_z k0)) (Fin c0) cells0 k0).
  assert (Hbuild : build_geometry smooth mean
        (mkParams (Z.of_nat s) (Z.of_nat L) method (Fin abs_thr) (Fin rel_thr) ex)
        (Fin len) centre cells
      = Ok (mkGeometry k1 (css_volume (Fin len) (k_tw k1) (k_z k1))
                          (css_volume (Fin len) (k_fw k1) (k_z k1)) (map Fin zc))).
  { unfold build_geometry. cbn [gp_skip gp_lake gp_method gp_abs gp_rel gp_extrapolate].
    unfold cells. rewrite Hdepth, Hvel, Hlevel, Hcd, Hcl, Hfill. cbn [bind].
    rewrite (identify_lakes_faces s L nt faces Hok Hs HL). cbn [bind].
    rewrite map_length, Hdl.
    rewrite Hconv.
    rewrite Hhd. fold mono. unfold mask_index.
    rewrite !map_length, seq_length, Hmlen, Hzlen, Nat.eqb_refl. cbn [bind].
    rewrite map2_map, map_map. reflexivity. }
  (* areas and volumes *)
  assert (Hwet : forall t, (t < nt - s)%nat -> exists a, masked_area cells wetm t = Fin a /\
             a == Qsum_if f_area (activeb s L t) faces).
  { intros t Ht. apply masked_area_faces. intros f Hf. apply (wet_mask_face s L nt faces); auto. }
  assert (Htv : forall t, (t < nt - s)%nat -> exists v, masked_volume cells dep wetm t = Fin v /\
             v == Qsum_if (fun f => f_area f * counted_depth s L c0 f t) (activeb s L t) faces).
  { intros t Ht. apply (masked_volume_faces s L nt faces); auto.
    intros f Hf. apply (wet_mask_face s L nt faces); auto. }
  assert (Hsteps : forall t, In t steps <->
         (t < nt - s)%nat /\ forall u, (u < t)%nat -> nth u zc 0 < nth t zc 0).
  { intros t. unfold steps. rewrite (select_In_iff 0%nat). rewrite seq_length. split.
    - intros (i & Hi & Hm & Ht). rewrite seq_nth in Ht by auto. simpl in Ht. subst i.
      split; auto. intros u Hu.
      assert (Hx : nth_error zc t = Some (nth t zc 0)) by (apply nth_error_nth'; lia).
      apply (proj1 (Hrec t _ Hx) Hm u); auto. apply nth_error_nth'. lia.
    - intros [Ht Hall]. exists t. split; auto. rewrite seq_nth by auto. split; auto.
      assert (Hx : nth_error zc t = Some (nth t zc 0)) by (apply nth_error_nth'; lia).
      apply (Hrec t _ Hx). intros k y Hk Hy.
      assert (y = nth k zc 0) by (erewrite nth_error_nth; eauto). subst. auto. }
  assert (Hstep_lt : forall t, In t steps -> (t < nt - s)%nat) by (intros t Ht; apply Hsteps in Ht; tauto).
  assert (Hst0 : exists rest, steps = 0%nat :: rest).
  { unfold steps, mono. destruct zc as [|z zc']; [congruence|].
    rewrite check_monotonicity_records. replace (nt - s)%nat with (S (length zc')) by (simpl in Hzlen; lia).
    simpl. eauto. }
  destruct Hst0 as [rest Hst0].
  (* the columns above z0 *)
  assert (Hkz : k_z k0 = map Fin (map (fun t => nth t zc 0) steps)).
  { unfold k0, compute_css_above_z0. cbn [k_z]. rewrite <- map_select, fill_nan_levels_fin. f_equal.
    unfold steps. rewrite map_select. f_equal.
    rewrite <- Hzlen. clear. induction zc as [|z l IH] using rev_ind; auto.
    rewrite app_length, Nat.add_1_r, seq_S, map_app. simpl. f_equal.
    - rewrite IH at 1. apply map_ext_in. intros t Ht. apply in_seq in Ht. rewrite app_nth1 by lia. auto.
    - rewrite app_nth2, Nat.sub_diag by lia. auto. }
  set (qf := fun t => match masked_area cells flowm t with Fin q => q | _ => 0 end).
  assert (Hqf : map (masked_area cells flowm) steps = map Fin (map qf steps)).
  { rewrite map_map. apply map_ext_in. intros t Ht. unfold qf.
    destruct (Hflow t (Hstep_lt t Ht)) as (a & -> & _). auto. }
  assert (Hkf : k_flow k0 = map Fin (map qf steps)).
  { unfold k0, compute_css_above_z0. cbn [k_flow]. rewrite <- map_select. fold steps. apply Hqf. }
  assert (Hqfs : forall t, In t steps -> qf t == flow t).
  { intros t Ht. unfold qf. destruct (Hflow t (Hstep_lt t Ht)) as (a & -> & He). auto. }
  assert (Hareas : forall f, In f faces -> 0 <= f_area f) by (apply Forall_forall; auto).
  assert (H0in : In 0%nat steps) by (rewrite Hst0; simpl; auto).
  assert (Hf0 : 0 <= qf 0%nat) by (rewrite Hqfs by auto; apply Hflow0; lia).
  assert (Hz0 : hd NaN (k_z k0) = Fin z0) by (rewrite Hkz, Hst0; reflexivity).
  (* cells at t0 *)
  set (specs := map (fun f => (f_area f, initial_depth s f, activeb s L 0 f)) faces).
  assert (Hcells0 : Forall2 cell0_is cells0 specs).
  { unfold cells0, cells, wetm, specs. rewrite !map_map, !combine_map.
    assert (Hin : forall f, In f faces -> In f faces) by auto. revert Hin. generalize faces at 1 3 4 as l.
    induction l as [|f l IH]; intros Hin; simpl; [constructor|]. constructor.
    - assert (Hf : In f faces) by (apply Hin; simpl; auto).
      unfold cell0_is. split; [reflexivity|]. split; [apply (wet_mask_hd s L nt faces); auto|].
      pose proof (in_ok nt faces Hok f Hf) as (_ & Hll & _ & _ & _ & Hlv).
      assert (Hlv0 : hd NaN (skipn s (f_level f)) = nth s (f_level f) NaN).
      { replace (nth s (f_level f) NaN) with (nth 0 (skipn s (f_level f)) NaN)
          by (rewrite skipn_nth; f_equal; lia).
        destruct (skipn s (f_level f)); auto. }
      rewrite Hlv0. unfold initial_depth.
      assert (Hent : level_entry_ok (nth s (f_level f) NaN)).
      { apply (proj1 (Forall_forall _ _) Hlv). apply nth_In. lia. }
      destruct Hent as [->|(q & -> & _)].
      + right. split; [auto|reflexivity].
      + left. exists q, (f_bed f). repeat split; reflexivity.
    - apply IH. intros. apply Hin. simpl. auto. }
  assert (Hpos : Forall (fun x => 0 <= fst (fst x)) specs).
  { unfold specs. apply Forall_map. simpl. auto. }
  assert (Hd0 : 0 <= c0).
  { unfold c0, depth_at. destruct Hok0 as (Hl0 & _ & _ & Hp & _).
    apply (proj1 (Forall_forall _ _) Hp). apply nth_In. lia. }
  destruct (C05_extension_below_initial_level ex len z0 c0 cells0 specs (k_z k0) (k_tw k0) (k_fw k0)
              (k_wet k0) (map Fin (map qf rest)) (k_fvol k0) (k_tvol k0) (qf 0%nat) Hlen Hd0 Hf0 Hcells0 Hpos)
    as (zs & ts & fs & ws & qs & Hext & Lz & Lt & Lf & Lw & Lq & Pz & Nz & Nt & Nf & Rft & Ff & Pw & Pq).
  assert (Hk0 : k0 = mkCols (k_z k0) (k_tw k0) (k_fw k0) (k_wet k0) (Fin (qf 0%nat) :: map Fin (map qf rest))
                       (k_fvol k0) (k_tvol k0)).
  { transitivity (mkCols (k_z k0) (k_tw k0) (k_fw k0) (k_wet k0) (k_flow k0) (k_fvol k0) (k_tvol k0)).
    - destruct k0; reflexivity.
    - rewrite Hkf at 1. rewrite Hst0. reflexivity. }
  assert (Hk1 : k1 = mkCols (map Fin zs ++ k_z k0) (map Fin ts ++ k_tw k0) (map Fin fs ++ k_fw k0)
               (map Fin ws ++ k_wet k0) (map Fin qs ++ k_flow k0)
               (repeat NaN 10 ++ k_fvol k0) (repeat NaN 10 ++ k_tvol k0)).
  { unfold k1. rewrite Hz0. rewrite Hk0 at 1. rewrite Hext. rewrite Hkf, Hst0. reflexivity. }
  clear Hext.
  exists (mkGeometry k1 (css_volume (Fin len) (k_tw k1) (k_z k1))
                          (css_volume (Fin len) (k_fw k1) (k_z k1)) (map Fin zc)), steps.
  split; [exact Hbuild|].
  split; [exact Hsteps|].
  split; [intros i j a b; apply select_seq_sorted|].
  cbn [g_cols g_tvol1d g_fvol1d g_z_roughness].
  assert (Happ : forall (l : list Q) (m : list num) j, length l = 10%nat ->
            nth_error (map Fin l ++ m) (10 + j) = nth_error m j).
  { intros l m j Hl. rewrite nth_error_app2 by (rewrite map_length; lia). rewrite map_length, Hl.
    f_equal. lia. }
  assert (Happ' : forall (m : list num) j, nth_error (repeat NaN 10 ++ m) (10 + j) = nth_error m j) by reflexivity.
  assert (Hcol : forall (f : nat -> num) j t, nth_error steps j = Some t ->
            nth_error (select mono (map f (seq 0 (nt - s)))) j = Some (f t)).
  { intros f j t Hj. rewrite <- map_select. fold steps. rewrite nth_error_map, Hj. auto. }
  split.
  { intros j t Hj. assert (Ht : (t < nt - s)%nat) by (apply Hstep_lt; eapply nth_error_In; eauto).
    destruct (Hwet t Ht) as (A & HA & EA). destruct (Hflow t Ht) as (F & HF & EF).
    destruct (Htv t Ht) as (V & HV & EV). destruct (Hfv t Ht) as (W & HW & EW).
    exists A, F, V, W. rewrite Hk1. cbn [k_z k_tw k_wet k_flow k_tvol k_fvol].
    rewrite !Happ, !Happ' by auto.
    split; [rewrite Hkz, map_map, nth_error_map, Hj; reflexivity|].
    split; [unfold k0, compute_css_above_z0; cbn [k_wet]; rewrite (Hcol _ _ _ Hj), HA; reflexivity|].
    split; [exact EA|].
    split; [unfold k0, compute_css_above_z0; cbn [k_tw]; rewrite nth_error_map, (Hcol _ _ _ Hj), HA; simpl;
            destruct (Qeq_bool len 0) eqn:E; qb; [lra|reflexivity]|].
    split; [unfold k0, compute_css_above_z0; cbn [k_flow]; rewrite (Hcol _ _ _ Hj), HF; reflexivity|].
    split; [exact EF|].
    split; [unfold k0, compute_css_above_z0; cbn [k_tvol]; rewrite (Hcol _ _ _ Hj), HV; reflexivity|].
    split; [exact EV|].
    split; [unfold k0, compute_css_above_z0; cbn [k_fvol]; rewrite (Hcol _ _ _ Hj), HW; reflexivity|].
    exact EW. }
  assert (Hlen0 : ~ len == 0) by lra.
  assert (Hskip10 : forall (l : list Q) (m : list num), length l = 10%nat -> skipn 10 (map Fin l ++ m) = m).
  { intros l m Hl. rewrite skipn_app, skipn_all2 by (rewrite map_length; lia).
    rewrite map_length, Hl. reflexivity. }
  assert (Hfirst10 : forall (l : list Q) (m : list num), length l = 10%nat -> firstn 10 (map Fin l ++ m) = map Fin l).
  { intros l m Hl. rewrite firstn_app, map_length, Hl. rewrite firstn_all2 by (rewrite map_length; lia).
    simpl. apply app_nil_r. }
  split.
  { destruct (C04_flow_width_is_greatest_envelope len (select mono (map Fin zc))
       (select mono (map (masked_area cells wetm) (seq 0 (nt - s))))
       (select mono (map (masked_volume cells dep wetm) (seq 0 (nt - s))))
       (select mono (map (masked_volume cells dep flowm) (seq 0 (nt - s))))
       (map qf steps) Hlen0) as (w & Hw & Nw & Rw & _ & Gw & _).
    exists (map (fun a => a / len) (map qf steps)), w. split.
    - rewrite Hk1. cbn [k_fw]. rewrite Hskip10 by auto. rewrite <- Hw.
      unfold k0, compute_css_above_z0. cbn [k_fw].
      rewrite <- map_select. fold steps. rewrite Hqf. reflexivity.
    - split; [|split; [exact Nw|split; [exact Rw|exact Gw]]].
      rewrite map_map. clear -Hqfs. induction steps as [|t l IH]; simpl; constructor.
      + rewrite Hqfs by (simpl; auto). reflexivity.
      + apply IH. intros; apply Hqfs; simpl; auto. }
  split.
  { exists zs, ts, fs. rewrite Hk1. cbn [k_z k_tw k_fw]. rewrite !Hfirst10 by auto.
    do 6 (split; [auto|]). do 4 (split; [auto|]).
    intros j z w Hz Hw. split; [apply Pz; auto|].
    assert (Hj : (j < 10)%nat) by (rewrite <- Lz; apply nth_error_Some; congruence).
    destruct (nth_error ws j) as [a|] eqn:Ea; [|apply nth_error_None in Ea; lia].
    destruct (nth_error qs j) as [q|] eqn:Eq; [|apply nth_error_None in Eq; lia].
    destruct (nth_error fs j) as [fv|] eqn:Ef; [|apply nth_error_None in Ef; lia].
    destruct (Pq _ _ _ _ _ Ea Eq Hw Ef) as (Hwa & _). rewrite Hwa, (Pw _ _ _ Hz Ea).
    assert (Hs' : Qsum_if (fun s => fst (fst s)) (fun s => Qltb (z0 - z - (1 # 1000)) (snd (fst s)) && snd s) specs
       = Qsum_if f_area (fun f => Qltb (z0 - z - (1 # 1000)) (initial_depth s f) && activeb s L 0 f) faces).
    { unfold Qsum_if, specs. f_equal. clear. induction faces as [|f l IH]; simpl; auto.
      destruct (Qltb (z0 - z - (1 # 1000)) (initial_depth s f) && activeb s L 0 f); simpl; congruence. }
    rewrite Hs'. reflexivity. }
  split; [rewrite Hk1; cbn [k_z]; rewrite app_length, map_length, Lz, Hkz, !map_length; reflexivity|].
  do 3 (split; [reflexivity|]). rewrite Hk1. cbn [k_tvol k_fvol k_fw k_wet k_flow].
  do 2 (split; [reflexivity|]). exists fs, ws, qs. rewrite !Hfirst10 by auto. auto.
Qed.

(** C61.  [zc] are the levels at the centre, a missing one replaced as in C64.
    The rows above the initial level are, in order, the
    retained time steps (record highs of the centre level); the level, wet
    area, total width, flow area and both 2D volumes of a row are those of that
    one time step.  The ten rows below are obtained from the initial depths of
    the faces that are active at the start. *)
Theorem C61_rows_when_the_centre_falls_dry :
  forall smooth mean (s L nt centre : nat) (method : Z) (abs_thr rel_thr len : Q) (ex : bool)
         (faces : list face) (f0 : face) (zc : list Q),
    method <> 0%Z -> 0 < len ->
    Forall (face_ok nt) faces -> Forall (fun f => 0 <= f_area f) faces ->
    (s < nt)%nat -> (L < nt - s)%nat ->
    nth_error faces centre = Some f0 ->
    fill_centre_level (map Fin (skipn s (f_depth f0))) (skipn s (f_level f0)) = Ok (map Fin zc) ->
    let c0 := depth_at s f0 0 in
    let z0 := nth 0 zc 0 in
    exists g steps top,
      build_geometry smooth mean
        (mkParams (Z.of_nat s) (Z.of_nat L) method (Fin abs_thr) (Fin rel_thr) ex)
        (Fin len) centre (map cell_of faces) = Ok g /\
      (forall t, (t < nt - s)%nat ->
         is_top3_mean (map (fun f => vel_at s f t) faces) (top t)) /\
      (forall t, In t steps <->
         (t < nt - s)%nat /\ forall u, (u < t)%nat -> nth u zc 0 < nth t zc 0) /\
      (forall i j a b, (i < j)%nat -> nth_error steps i = Some a -> nth_error steps j = Some b ->
         (a < b)%nat) /\
      (* rows above the initial level *)
      (forall j t, nth_error steps j = Some t -> exists A F V W,
         nth_error (k_z (g_cols g)) (10 + j) = Some (Fin (nth t zc 0)) /\
         nth_error (k_wet (g_cols g)) (10 + j) = Some (Fin A) /\
         A == Qsum_if f_area (activeb s L t) faces /\
         nth_error (k_tw (g_cols g)) (10 + j) = Some (Fin (A / len)) /\
         nth_error (k_flow (g_cols g)) (10 + j) = Some (Fin F) /\
         F == Qsum_if f_area (conveyb s abs_thr rel_thr (top t) t) faces /\
         nth_error (k_tvol (g_cols g)) (10 + j) = Some (Fin V) /\
         V == Qsum_if (fun f => f_area f * counted_depth s L c0 f t) (activeb s L t) faces /\
         nth_error (k_fvol (g_cols g)) (10 + j) = Some (Fin W) /\
         W == Qsum_if (fun f => f_area f * counted_depth s L c0 f t)
                (conveyb s abs_thr rel_thr (top t) t) faces) /\
      (exists raw w, skipn 10 (k_fw (g_cols g)) = map Fin w /\
         rowwise (fun r t => r == Qsum_if f_area (conveyb s abs_thr rel_thr (top t) t) faces / len) raw steps /\
         nondecreasing w /\ rowwise Qle w raw /\
         (forall v, nondecreasing v -> rowwise Qle v raw -> rowwise Qle v w)) /\
      (* the ten rows below *)
      (exists zs ts fs, firstn 10 (k_z (g_cols g)) = map Fin zs /\
         firstn 10 (k_tw (g_cols g)) = map Fin ts /\ firstn 10 (k_fw (g_cols g)) = map Fin fs /\
         length zs = 10%nat /\ length ts = 10%nat /\ length fs = 10%nat /\
         nondecreasing zs /\ nondecreasing ts /\ nondecreasing fs /\ rowwise Qle fs ts /\
         (forall j z w, nth_error zs j = Some z -> nth_error ts j = Some w ->
            z == z0 - c0 * inject_Z (9 - Z.of_nat j) / 9 /\
            w == Qsum_if f_area
                   (fun f => Qltb (z0 - z - (1 # 1000)) (initial_depth s f) && activeb s L 0 f) faces / len)) /\
      (* nothing else, and the 1D volumes *)
      length (k_z (g_cols g)) = (10 + length steps)%nat /\
      g_tvol1d g = css_volume (Fin len) (k_tw (g_cols g)) (k_z (g_cols g)) /\
      g_fvol1d g = css_volume (Fin len) (k_fw (g_cols g)) (k_z (g_cols g)) /\
      g_z_roughness g = map Fin zc /\
      (* the 2D columns below the initial level *)
      firstn 10 (k_tvol (g_cols g)) = repeat NaN 10 /\ firstn 10 (k_fvol (g_cols g)) = repeat NaN 10 /\
      (exists fs ws qs, firstn 10 (k_fw (g_cols g)) = map Fin fs /\ Forall (fun w => 0 <= w) fs /\
         firstn 10 (k_wet (g_cols g)) = map Fin ws /\ firstn 10 (k_flow (g_cols g)) = map Fin qs).
Proof.
  intros smooth mean s L nt centre method abs_thr rel_thr len ex faces f0 zc
    Hmeth Hlen Hok Harea Hs HL Hcen Hzc c0 z0.
  assert (Hne : faces <> []) by (intros ->; destruct centre; discriminate).
  set (top := top_of s faces).
  destruct (rows_of_masks smooth mean s L nt centre method abs_thr rel_thr len ex faces f0 zc
    (map (flow_row s nt faces abs_thr rel_thr) faces)
    (fun t => Qsum_if f_area (conveyb s abs_thr rel_thr (top t) t) faces)
    (fun t => Qsum_if (fun f => f_area f * counted_depth s L c0 f t) (conveyb s abs_thr rel_thr (top t) t) faces)
    Hlen Hok Harea Hs HL Hcen Hzc) as (g & steps & B & Rest).
  - apply (flow_mask_faces s L nt faces Hs HL abs_thr rel_thr smooth mean method Hmeth).
  - intros t Ht. apply masked_area_faces. intros f Hf. apply (flow_row_face s nt faces); auto.
  - intros t Ht. apply (masked_volume_faces s L nt faces); auto.
    intros f Hf. apply (flow_row_face s nt faces); auto.
  - intros t Ht. apply Qsum_if_nonneg. apply Forall_forall. exact Harea.
  - exists g, steps, top. split; [exact B|].
    split; [intros t Ht; apply (top_of_spec s nt faces); auto|]. exact Rest.
Qed.
Print Assumptions C61_rows_when_the_centre_falls_dry.

(** For every conveyance method, also the legacy one, with the mask of the method
    (C10) in the place of the rule. *)
Theorem C61_rows_for_every_method :
  forall smooth mean (s L nt centre : nat) (method : Z) (abs_thr rel_thr len : Q) (ex : bool)
         (faces : list face) (f0 : face) (zc : list Q),
    0 < len ->
    Forall (face_ok nt) faces -> Forall (fun f => 0 <= f_area f) faces ->
    (s < nt)%nat -> (L < nt - s)%nat ->
    nth_error faces centre = Some f0 ->
    fill_centre_level (map Fin (skipn s (f_depth f0))) (skipn s (f_level f0)) = Ok (map Fin zc) ->
    let c0 := depth_at s f0 0 in
    let z0 := nth 0 zc 0 in
    let masks := distinguish_conveyance smooth mean method (Fin abs_thr) (Fin rel_thr) (nt - s)
      (map (fun f => map Fin (skipn s (f_depth f))) faces) (map (fun f => map Fin (skipn s (f_vel f))) faces) in
    let flow t := Qsum_if (fun x => f_area (fst x)) (fun x : face * list bool => nth t (snd x) false) (combine faces masks) in
    let flow_volume t := Qsum_if (fun x => f_area (fst x) * counted_depth s L c0 (fst x) t)
      (fun x : face * list bool => nth t (snd x) false) (combine faces masks) in
    exists g steps,
      build_geometry smooth mean
        (mkParams (Z.of_nat s) (Z.of_nat L) method (Fin abs_thr) (Fin rel_thr) ex)
        (Fin len) centre (map cell_of faces) = Ok g /\
      (forall t, In t steps <->
         (t < nt - s)%nat /\ forall u, (u < t)%nat -> nth u zc 0 < nth t zc 0) /\
      (forall i j a b, (i < j)%nat -> nth_error steps i = Some a -> nth_error steps j = Some b ->
         (a < b)%nat) /\
      (* rows above the initial level *)
      (forall j t, nth_error steps j = Some t -> exists A F V W,
         nth_error (k_z (g_cols g)) (10 + j) = Some (Fin (nth t zc 0)) /\
         nth_error (k_wet (g_cols g)) (10 + j) = Some (Fin A) /\
         A == Qsum_if f_area (activeb s L t) faces /\
         nth_error (k_tw (g_cols g)) (10 + j) = Some (Fin (A / len)) /\
         nth_error (k_flow (g_cols g)) (10 + j) = Some (Fin F) /\
         F == flow t /\
         nth_error (k_tvol (g_cols g)) (10 + j) = Some (Fin V) /\
         V == Qsum_if (fun f => f_area f * counted_depth s L c0 f t) (activeb s L t) faces /\
         nth_error (k_fvol (g_cols g)) (10 + j) = Some (Fin W) /\
         W == flow_volume t) /\
      (exists raw w, skipn 10 (k_fw (g_cols g)) = map Fin w /\
         rowwise (fun r t => r == flow t / len) raw steps /\
         nondecreasing w /\ rowwise Qle w raw /\
         (forall v, nondecreasing v -> rowwise Qle v raw -> rowwise Qle v w)) /\
      (* the ten rows below *)
      (exists zs ts fs, firstn 10 (k_z (g_cols g)) = map Fin zs /\
         firstn 10 (k_tw (g_cols g)) = map Fin ts /\ firstn 10 (k_fw (g_cols g)) = map Fin fs /\
         length zs = 10%nat /\ length ts = 10%nat /\ length fs = 10%nat /\
         nondecreasing zs /\ nondecreasing ts /\ nondecreasing fs /\ rowwise Qle fs ts /\
         (forall j z w, nth_error zs j = Some z -> nth_error ts j = Some w ->
            z == z0 - c0 * inject_Z (9 - Z.of_nat j) / 9 /\
            w == Qsum_if f_area
                   (fun f => Qltb (z0 - z - (1 # 1000)) (initial_depth s f) && activeb s L 0 f) faces / len)) /\
      (* nothing else, and the 1D volumes *)
      length (k_z (g_cols g)) = (10 + length steps)%nat /\
      g_tvol1d g = css_volume (Fin len) (k_tw (g_cols g)) (k_z (g_cols g)) /\
      g_fvol1d g = css_volume (Fin len) (k_fw (g_cols g)) (k_z (g_cols g)) /\
      g_z_roughness g = map Fin zc /\
      (* the 2D columns below the initial level *)
      firstn 10 (k_tvol (g_cols g)) = repeat NaN 10 /\ firstn 10 (k_fvol (g_cols g)) = repeat NaN 10 /\
      (exists fs ws qs, firstn 10 (k_fw (g_cols g)) = map Fin fs /\ Forall (fun w => 0 <= w) fs /\
         firstn 10 (k_wet (g_cols g)) = map Fin ws /\ firstn 10 (k_flow (g_cols g)) = map Fin qs).
Proof.
  intros smooth mean s L nt centre method abs_thr rel_thr len ex faces f0 zc Hlen Hok Harea Hs HL Hcen Hzc c0 z0 masks flow flow_volume.
  apply (rows_of_masks smooth mean s L nt centre method abs_thr rel_thr len ex faces f0 zc masks flow flow_volume Hlen Hok Harea Hs HL Hcen Hzc).
  - reflexivity.
  - intros t _. apply masked_area_masks.
  - intros t Ht. apply (masked_volume_masks s L nt faces); auto.
  - intros t _. apply Qsum_if_nonneg. intros [f m] I. apply in_combine_l in I. rewrite Forall_forall in Harea. auto.
Qed.
Print Assumptions C61_rows_for_every_method.

(** On complete data [zc] are the levels at the centre as they are. *)
Theorem C61_rows_describe_retained_time_steps :
  forall smooth mean (s L nt centre : nat) (method : Z) (abs_thr rel_thr len : Q) (ex : bool)
         (faces : list face) (f0 : face) (zc : list Q),
    method <> 0%Z -> 0 < len ->
    Forall (face_ok nt) faces -> Forall (fun f => 0 <= f_area f) faces ->
    (s < nt)%nat -> (L < nt - s)%nat ->
    nth_error faces centre = Some f0 -> skipn s (f_level f0) = map Fin zc ->
    let c0 := depth_at s f0 0 in
    let z0 := nth 0 zc 0 in
    exists g steps top,
      build_geometry smooth mean
        (mkParams (Z.of_nat s) (Z.of_nat L) method (Fin abs_thr) (Fin rel_thr) ex)
        (Fin len) centre (map cell_of faces) = Ok g /\
      (forall t, (t < nt - s)%nat ->
         is_top3_mean (map (fun f => vel_at s f t) faces) (top t)) /\
      (forall t, In t steps <->
         (t < nt - s)%nat /\ forall u, (u < t)%nat -> nth u zc 0 < nth t zc 0) /\
      (forall i j a b, (i < j)%nat -> nth_error steps i = Some a -> nth_error steps j = Some b ->
         (a < b)%nat) /\
      (* rows above the initial level *)
      (forall j t, nth_error steps j = Some t -> exists A F V W,
         nth_error (k_z (g_cols g)) (10 + j) = Some (Fin (nth t zc 0)) /\
         nth_error (k_wet (g_cols g)) (10 + j) = Some (Fin A) /\
         A == Qsum_if f_area (activeb s L t) faces /\
         nth_error (k_tw (g_cols g)) (10 + j) = Some (Fin (A / len)) /\
         nth_error (k_flow (g_cols g)) (10 + j) = Some (Fin F) /\
         F == Qsum_if f_area (conveyb s abs_thr rel_thr (top t) t) faces /\
         nth_error (k_tvol (g_cols g)) (10 + j) = Some (Fin V) /\
         V == Qsum_if (fun f => f_area f * counted_depth s L c0 f t) (activeb s L t) faces /\
         nth_error (k_fvol (g_cols g)) (10 + j) = Some (Fin W) /\
         W == Qsum_if (fun f => f_area f * counted_depth s L c0 f t)
                (conveyb s abs_thr rel_thr (top t) t) faces) /\
      (exists raw w, skipn 10 (k_fw (g_cols g)) = map Fin w /\
         rowwise (fun r t => r == Qsum_if f_area (conveyb s abs_thr rel_thr (top t) t) faces / len) raw steps /\
         nondecreasing w /\ rowwise Qle w raw /\
         (forall v, nondecreasing v -> rowwise Qle v raw -> rowwise Qle v w)) /\
      (* the ten rows below *)
      (exists zs ts fs, firstn 10 (k_z (g_cols g)) = map Fin zs /\
         firstn 10 (k_tw (g_cols g)) = map Fin ts /\ firstn 10 (k_fw (g_cols g)) = map Fin fs /\
         length zs = 10%nat /\ length ts = 10%nat /\ length fs = 10%nat /\
         nondecreasing zs /\ nondecreasing ts /\ nondecreasing fs /\ rowwise Qle fs ts /\
         (forall j z w, nth_error zs j = Some z -> nth_error ts j = Some w ->
            z == z0 - c0 * inject_Z (9 - Z.of_nat j) / 9 /\
            w == Qsum_if f_area
                   (fun f => Qltb (z0 - z - (1 # 1000)) (initial_depth s f) && activeb s L 0 f) faces / len)) /\
      (* nothing else, and the 1D volumes *)
      length (k_z (g_cols g)) = (10 + length steps)%nat /\
      g_tvol1d g = css_volume (Fin len) (k_tw (g_cols g)) (k_z (g_cols g)) /\
      g_fvol1d g = css_volume (Fin len) (k_fw (g_cols g)) (k_z (g_cols g)) /\
      g_z_roughness g = map Fin zc /\
      (* the 2D columns below the initial level *)
      firstn 10 (k_tvol (g_cols g)) = repeat NaN 10 /\ firstn 10 (k_fvol (g_cols g)) = repeat NaN 10 /\
      (exists fs ws qs, firstn 10 (k_fw (g_cols g)) = map Fin fs /\ Forall (fun w => 0 <= w) fs /\
         firstn 10 (k_wet (g_cols g)) = map Fin ws /\ firstn 10 (k_flow (g_cols g)) = map Fin qs).
Proof.
  intros smooth mean s L nt centre method abs_thr rel_thr len ex faces f0 zc
    Hmeth Hlen Hok Harea Hs HL Hcen Hzc.
  apply C61_rows_when_the_centre_falls_dry; auto.
  rewrite Hzc. apply fill_known_levels.
  intros ->. apply (f_equal (@length num)) in Hzc. rewrite skipn_length in Hzc.
  destruct (in_ok nt faces Hok f0 (nth_error_In _ _ Hcen)) as (_ & E & _). cbn in Hzc. lia.
Qed.
Print Assumptions C61_rows_describe_retained_time_steps.

Definition C61_faces : list face :=
  [ mkFace 10 0 [1; 2; 1; 4] (map Fin [1; 2; 1; 4]) [1; 1; 1; 2] (LInt 1);
    mkFace 20 1 [0; 1; 0; 3] [NaN; Fin 2; NaN; Fin 4] [0; 1; 0; 1 # 20] (LInt 2);
    mkFace 40 (-1) [3; 3; 3; 5] (map Fin [2; 2; 2; 4]) [0; 0; 0; 0] (LInt 2) ].
Example C61_case_hypotheses :
  Forall (face_ok 4) C61_faces /\ Forall (fun f => 0 <= f_area f) C61_faces /\
  skipn 0 (f_level (mkFace 10 0 [1; 2; 1; 4] (map Fin [1; 2; 1; 4]) [1; 1; 1; 2] (LInt 1)))
    = map Fin [1; 2; 1; 4].
Proof.
  assert (F : forall q, ~ q == -999 -> level_entry_ok (Fin q)) by (intros; right; eauto).
  assert (N : level_entry_ok NaN) by (left; auto).
  unfold C61_faces, face_ok.
  repeat (first [split | apply Forall_cons | apply Forall_nil | exact N
    | (apply F; discriminate) | reflexivity | (simpl; discriminate)]).
Qed.
Example C61_case :
  match build_geometry (fun v => v) (fun _ _ => NaN) (mkParams 0 1 1 (Fin (1 # 10)) (Fin (15 # 100)) true)
    (Fin 10) 0 (map cell_of C61_faces) with
  | Ok g => map (fun x => match x with Fin q => Qred q | _ => -1 end) (skipn 10 (k_tvol (g_cols g)))
            = [10; 40; 180]
  | _ => False
  end.
Proof. vm_compute. reflexivity. Qed.

(** C62.  Missing for the full property: resting lakes that move.  If every
    conveying face is also active, flow area is at most wet area and (with
    non-negative counted depths) flow volume at most total volume. *)
Theorem C62_flow_area_within_wet_area_partial :
  forall smooth mean (s L nt centre : nat) (method : Z) (abs_thr rel_thr len : Q) (ex : bool)
         (faces : list face) (f0 : face) (zc : list Q) g,
    method <> 0%Z -> 0 < len ->
    Forall (face_ok nt) faces -> Forall (fun f => 0 <= f_area f) faces ->
    (s < nt)%nat -> (L < nt - s)%nat ->
    nth_error faces centre = Some f0 ->
    fill_centre_level (map Fin (skipn s (f_depth f0))) (skipn s (f_level f0)) = Ok (map Fin zc) ->
    (* no resting lake has velocity *)
    (forall f t, In f faces -> (t < nt - s)%nat -> lakeb s L f = true -> activeb s L t f = false ->
       vel_at s f t == 0) -> 0 <= abs_thr -> 0 <= rel_thr ->
    build_geometry smooth mean
        (mkParams (Z.of_nat s) (Z.of_nat L) method (Fin abs_thr) (Fin rel_thr) ex)
        (Fin len) centre (map cell_of faces) = Ok g ->
    forall j A F, nth_error (k_wet (g_cols g)) (10 + j) = Some (Fin A) ->
      nth_error (k_flow (g_cols g)) (10 + j) = Some (Fin F) -> F <= A.
Proof.
  intros smooth mean s L nt centre method abs_thr rel_thr len ex faces f0 zc g
    Hmeth Hlen Hok Harea Hs HL Hcen Hzc Hrest Ha Hr Hg j A F HA HF.
  destruct (C61_rows_when_the_centre_falls_dry smooth mean s L nt centre method abs_thr rel_thr len ex
    faces f0 zc Hmeth Hlen Hok Harea Hs HL Hcen Hzc)
    as (g' & steps & top & Hg' & Htop & Hsteps & _ & Hrows & _ & _ & Hlz & _).
  rewrite Hg in Hg'. assert (g = g') by congruence. subst g'.
  assert (Hj : (10 + j < length (k_wet (g_cols g)))%nat) by (apply nth_error_Some; congruence).
  destruct (C06_columns_aligned _ _ _ _ _ _ _ Hg) as (n & _ & Ln & _ & _ & Lw & _).
  destruct (nth_error steps j) as [t|] eqn:Et; [|apply nth_error_None in Et; lia].
  destruct (Hrows j t Et) as (A' & F' & V & W & _ & HA' & EA & _ & HF' & EF & _).
  assert (A' = A) by congruence. assert (F' = F) by congruence. subst. rewrite EA, EF.
  assert (Ht : (t < nt - s)%nat) by (apply nth_error_In in Et; apply Hsteps in Et; tauto).
  apply Qsum_if_le; [apply Forall_forall; auto|].
  intros f Hf Hc. destruct (activeb s L t f) eqn:Eact; auto. exfalso.
  unfold conveyb in Hc. apply andb_true_iff in Hc. destruct Hc as [Hwet Hc].
  destruct (lakeb s L f) eqn:El.
  - pose proof (Hrest f t Hf Ht El Eact) as Hv. apply orb_true_iff in Hc.
    assert (Htop0 : 0 <= top t).
    { destruct (Htop t Ht) as (hi & lo & Hp & Hl & _ & ->). apply Qmean_ge_min.
      - intros ->. rewrite map_length in Hl. destruct faces; [destruct centre; discriminate|]. simpl in Hl. lia.
      - intros x Hx. assert (Hx' : In x (map (fun f => vel_at s f t) faces)).
        { eapply Permutation_in; [apply Permutation_sym; eauto|]. apply in_or_app; auto. }
        apply in_map_iff in Hx'. destruct Hx' as (f' & <- & Hf').
        destruct (in_ok nt faces Hok f' Hf') as (_ & _ & Hvl & _ & Hvp & _).
        apply (proj1 (Forall_forall _ _) Hvp). apply nth_In. lia. }
    destruct Hc as [Hc|Hc]; qb.
    + assert (0 <= top t * rel_thr) by (apply Qmult_le_0_compat; auto). lra.
    + lra.
  - unfold activeb in Eact. rewrite El, Hwet in Eact. discriminate.
Qed.
Print Assumptions C62_flow_area_within_wet_area_partial.

(** A resting lake with a velocity conveys although it is not counted as wet. *)
Definition C62_lake : list face :=
  [ mkFace 10 0 [1; 2] (map Fin [1; 2]) [1; 1] (LInt 1);
    mkFace 40 (-1) [2; 2] (map Fin [1; 1]) [1; 1] (LInt 2) ].
Theorem C62_flow_area_within_wet_area_refuted :
  exists p len faces g A F,
    Forall (face_ok 2) faces /\ Forall (fun f => 0 <= f_area f) faces /\
    build_geometry (fun x => x) (fun _ _ => NaN) p len 0 (map cell_of faces) = Ok g /\
    nth_error (k_wet (g_cols g)) 10 = Some (Fin A) /\
    nth_error (k_flow (g_cols g)) 10 = Some (Fin F) /\ A < F.
Proof.
  exists (mkParams 0 1 1 (Fin (1 # 10)) (Fin (15 # 100)) true), (Fin 10), C62_lake.
  eexists. exists (0 + 10), (0 + 10 + 40).
  assert (Fq : forall q, ~ q == -999 -> level_entry_ok (Fin q)) by (intros; right; eauto).
  split.
  { unfold C62_lake, face_ok.
    repeat (first [split | apply Forall_cons | apply Forall_nil
      | (apply Fq; discriminate) | reflexivity | (simpl; discriminate)]). }
  split; [repeat constructor; simpl; discriminate|].
  split; [reflexivity|]. split; [vm_compute; reflexivity|]. split; [vm_compute; reflexivity|]. reflexivity.
Qed.
Print Assumptions C62_flow_area_within_wet_area_refuted.
