(** C102: the search for the summer dike and the length of the control volume. *)
From Coq Require Import List ZArith Bool Reals Lra Lia.
From Verif Require Import PyBase M_Correction T_SameDike.
Import ListNotations.
Local Open Scope R_scope.

(** The same cross-section of a reach [k] times as long. *)
Definition scale_missing (k : R) (m : option R) : option R := option_map (Rmult k) m.
Definition scale_volumes (k : R) (c : css) : css :=
  {| css_z := css_z c; css_tv := map (Rmult k) (css_tv c); css_fv := map (Rmult k) (css_fv c);
     fm_tv := map (scale_missing k) (fm_tv c); fm_fv := map (scale_missing k) (fm_fv c) |}.

(** All measured volumes are at least a cubic metre, for both lengths. *)
Definition not_small (k : R) (l : list (option R)) : Prop :=
  Forall (fun m => match m with Some m => 1 <= m /\ 1 <= k * m | None => True end) l.

(** A search that follows the unit of volume. *)
Definition follows_the_volume (k : R) (opt : optimiser) : Prop :=
  (forall f g x, (forall y, g (k * y) = f y) -> min1 opt g (k * x) = k * min1 opt f x) /\
  (forall f g a b, (forall a b, g (a, k * b) = f (a, b)) ->
     min2 opt g (a, k * b) = (fst (min2 opt f (a, b)), k * snd (min2 opt f (a, b)))) /\
  (forall f g a b c, (forall a b c, g (a, k * b, k * c) = f (a, b, c)) ->
     min3 opt g (a, k * b, k * c) =
       (fst (fst (min3 opt f (a, b, c))), k * snd (fst (min3 opt f (a, b, c))), k * snd (min3 opt f (a, b, c)))).

Lemma add_extra_scaled tau z volume crest extra k :
  add_extra tau z (map (Rmult k) volume) crest (k * extra) = map (Rmult k) (add_extra tau z volume crest extra).
Proof.
  revert volume. induction z as [|a z IH]; intros [|v volume]; try reflexivity.
  unfold add_extra in *. cbn [map map2]. rewrite IH. f_equal. ring.
Qed.
Lemma row_error_scaled k p m : 0 < k -> match m with Some m => 1 <= m /\ 1 <= k * m | None => True end ->
  row_error (k * p) (scale_missing k m) = row_error p m.
Proof.
  intros K M. destruct m as [m|]; [|reflexivity]. cbn. destruct M as (M1 & M2).
  rewrite !Rmax_left by lra. field. lra.
Qed.
Lemma volume_error_scaled k p m : 0 < k -> not_small k m ->
  volume_error (map (Rmult k) p) (map (scale_missing k) m) = volume_error p m.
Proof.
  intros K M. revert p. induction M as [|x m X M IH]; intros [|v p]; try reflexivity.
  unfold volume_error in *. cbn [map map2 Rsum fold_right]. rewrite (row_error_scaled k v x K X). f_equal. apply IH.
Qed.
Lemma plus_scaled k a b : map2 Rplus (map (Rmult k) a) (map (Rmult k) b) = map (Rmult k) (map2 Rplus a b).
Proof. revert b. induction a as [|x a IH]; intros [|y b]; try reflexivity. cbn. rewrite IH. f_equal. ring. Qed.
Lemma missing_scaled k a b : map2 add_missing (map (scale_missing k) a) (map (scale_missing k) b) = map (scale_missing k) (map2 add_missing a b).
Proof.
  revert b. induction a as [|x a IH]; intros [|y b]; try reflexivity. cbn [map map2]. rewrite IH. f_equal.
  destruct x, y; cbn; auto. f_equal. ring.
Qed.
Lemma not_small_sum k a b : 0 < k -> not_small k a -> not_small k b -> not_small k (map2 add_missing a b).
Proof.
  intros K A B. revert b B. induction A as [|x a X A IH]; intros b B; [constructor|].
  destruct B as [|y b Y B]; [constructor|]. cbn [map2]. constructor; [|apply IH, B].
  destruct x, y; cbn; auto. lra.
Qed.

(** Whatever the search, in each of its stages it is given the same errors. *)
Theorem C102_the_search_sees_the_same_errors :
  forall k tau c volume crest et ef, 0 < k -> not_small k (fm_tv c) -> not_small k (fm_fv c) ->
    cost_both tau (scale_volumes k c) (map (Rmult k) volume) (crest, k * et) = cost_both tau c volume (crest, et) /\
    cost_single tau (scale_volumes k c) (map (Rmult k) volume) crest (k * et) = cost_single tau c volume crest et /\
    cost_combined tau (scale_volumes k c) (crest, k * et, k * ef) = cost_combined tau c (crest, et, ef).
Proof.
  intros k tau c volume crest et ef K M N. unfold cost_both, cost_single, cost_combined, scale_volumes.
  cbn [fst snd css_z css_tv css_fv fm_tv fm_fv]. rewrite !add_extra_scaled, plus_scaled, missing_scaled.
  rewrite !volume_error_scaled by auto using not_small_sum. auto.
Qed.
Print Assumptions C102_the_search_sees_the_same_errors.

(** The dike of the longer reach: the same crest level, areas and shares, and
    [k] times the volumes. *)
Definition longer_dike (k : R) (r : correction) : correction :=
  {| tv_corrected := map (Rmult k) (tv_corrected r); fv_corrected := map (Rmult k) (fv_corrected r);
     crest_level := crest_level r;
     extra_total_volume := k * extra_total_volume r; extra_flow_volume := k * extra_flow_volume r;
     extra_total_area := extra_total_area r; extra_flow_area := extra_flow_area r;
     extra_area_percentage := extra_area_percentage r |}.

Lemma Rmax_scaled k x y : 0 < k -> Rmax (k * x) (k * y) = k * Rmax x y.
Proof. intro K. apply RmaxRmult. lra. Qed.
Lemma Rmin_scaled k x y : 0 < k -> Rmin (k * x) (k * y) = k * Rmin x y.
Proof.
  intro K. unfold Rmin. destruct (Rle_dec x y), (Rle_dec (k * x) (k * y)); auto; exfalso; nra.
Qed.
Lemma Rmax0_scaled k x : 0 < k -> Rmax (k * x) 0 = k * Rmax x 0.
Proof. intro K. rewrite <- (Rmax_scaled k x 0 K). f_equal. ring. Qed.

Lemma optimize_scaled k opt method tau c crest tv fv : 0 < k -> follows_the_volume k opt ->
  not_small k (fm_tv c) -> not_small k (fm_fv c) ->
  optimize_sd_storage opt method tau (scale_volumes k c) crest (k * tv) (k * fv) =
  (fst (fst (optimize_sd_storage opt method tau c crest tv fv)),
   k * snd (fst (optimize_sd_storage opt method tau c crest tv fv)), k * snd (optimize_sd_storage opt method tau c crest tv fv)).
Proof.
  intros K (M1 & M2 & M3) S1 S2. unfold optimize_sd_storage.
  set (m := if Z.eqb method 0 || Z.eqb method 1 || Z.eqb method 2 then method else 0%Z).
  assert (E : forall v cr et ef, _) by (intros v cr et ef; exact (C102_the_search_sees_the_same_errors k tau c v cr et ef K S1 S2)).
  destruct (Z.eqb m 0); [|destruct (Z.eqb m 1)]; cbv zeta; cbn [css_tv css_fv scale_volumes];
  change {| css_z := css_z c; css_tv := map (Rmult k) (css_tv c); css_fv := map (Rmult k) (css_fv c);
            fm_tv := map (scale_missing k) (fm_tv c); fm_fv := map (scale_missing k) (fm_fv c) |} with (scale_volumes k c).
  - rewrite (M2 (cost_both tau c (css_tv c))) by (intros; apply (E _ _ _ 0)).
    cbn [fst snd]. rewrite (M1 (cost_single tau c (css_fv c) (fst (min2 opt (cost_both tau c (css_tv c)) (crest, tv)))))
      by (intros; apply (E _ _ _ 0)). rewrite !Rmax0_scaled, Rmin_scaled by exact K. reflexivity.
  - rewrite (M2 (cost_both tau c (css_fv c))) by (intros; apply (E _ _ _ 0)).
    cbn [fst snd]. rewrite (M1 (cost_single tau c (css_tv c) (fst (min2 opt (cost_both tau c (css_fv c)) (crest, tv)))))
      by (intros; apply (E _ _ _ 0)). rewrite !Rmax0_scaled, Rmax_scaled by exact K. reflexivity.
  - rewrite (M3 (cost_combined tau c)) by (intros; apply (E [])). cbn [fst snd].
    rewrite !Rmax0_scaled, Rmin_scaled by exact K. reflexivity.
Qed.

Lemma error_rows_scaled k v m : map2 error_row (map (Rmult k) v) (map (scale_missing k) m) = map (scale_missing k) (map2 error_row v m).
Proof.
  revert m. induction v as [|x v IH]; intros [|y m]; try reflexivity. cbn [map map2]. rewrite IH. f_equal.
  destruct y; cbn; auto. f_equal. ring.
Qed.
Lemma nanargmin_scaled k l : 0 < k -> nanargmin (map (scale_missing k) l) = nanargmin l.
Proof.
  intro K. unfold nanargmin.
  assert (H : forall l n best, nanargmin_from n (option_map (fun p => (fst p, k * snd p)) best) (map (scale_missing k) l) = nanargmin_from n best l).
  { clear l. induction l as [|[x|] l IH]; intros n best; cbn [map scale_missing option_map nanargmin_from].
    - destruct best as [(i & b)|]; reflexivity.
    - destruct best as [(i & b)|]; cbn [option_map fst snd].
      + destruct (Rlt_dec (k * x) (k * b)), (Rlt_dec x b); try (exfalso; nra).
        * apply (IH (S n) (Some (n, x))).
        * apply (IH (S n) (Some (i, b))).
      + apply (IH (S n) (Some (n, x))).
    - apply IH. }
  apply (H l 0%nat None).
Qed.
Lemma last_scaled k l : last (map (scale_missing k) l) None = scale_missing k (last l None).
Proof. induction l as [|x [|y l] IH]; try reflexivity. exact IH. Qed.

Theorem C102_the_dike_of_the_longer_reach :
  forall opt nan_start method tau len c k, 0 < k -> len <> 0 -> follows_the_volume k opt ->
    not_small k (fm_tv c) -> not_small k (fm_fv c) ->
    calculate_correction opt (k * nan_start) method tau (k * len) (scale_volumes k c) =
    on_result (longer_dike k) (calculate_correction opt nan_start method tau len c).
Proof.
  intros opt nan_start method tau len c k K LEN F S1 S2. unfold calculate_correction.
  cbn [css_tv css_fv css_z fm_tv fm_fv scale_volumes]. rewrite !error_rows_scaled, nanargmin_scaled by exact K.
  set (terr := map2 error_row (css_tv c) (fm_tv c)). set (ferr := map2 error_row (css_fv c) (fm_fv c)).
  destruct (nanargmin terr) as [i|]; [|reflexivity].
  destruct (nth_error (css_z c) i) as [crest0|]; [|reflexivity].
  rewrite !last_scaled.
  assert (ST : forall l, match scale_missing k (last l None) with Some x => Rabs x | None => k * nan_start end =
                         k * match last l None with Some x => Rabs x | None => nan_start end).
  { intro l. destruct (last l None); cbn; auto. rewrite Rabs_mult, (Rabs_pos_eq k); lra. }
  rewrite !ST. 
  destruct terr as [|t terr']; [reflexivity|]. destruct ferr as [|f ferr']; [reflexivity|]. cbn [map].
  change {| css_z := css_z c; css_tv := map (Rmult k) (css_tv c); css_fv := map (Rmult k) (css_fv c);
            fm_tv := map (scale_missing k) (fm_tv c); fm_fv := map (scale_missing k) (fm_fv c) |} with (scale_volumes k c).
  rewrite optimize_scaled by assumption.
  destruct (optimize_sd_storage opt method tau c crest0 _ _) as ((crest & et) & ef). cbn [fst snd on_result].
  unfold longer_dike. cbn [tv_corrected fv_corrected crest_level extra_total_volume extra_flow_volume extra_total_area
    extra_flow_area extra_area_percentage]. rewrite !add_extra_scaled.
  replace (k * et / (k * len)) with (et / len) by (field; lra). replace (k * ef / (k * len)) with (ef / len) by (field; lra).
  reflexivity.
Qed.
Print Assumptions C102_the_dike_of_the_longer_reach.

(** Below a cubic metre the errors are not the same: they are divided by one
    cubic metre whatever the length of the reach, so the weight of such a row
    against the others changes. *)
Definition small_reach : css :=
  {| css_z := [0]; css_tv := [1]; css_fv := [1]; fm_tv := [Some (1 / 2)]; fm_fv := [Some (1 / 2)] |}.
Theorem C102_below_a_cubic_metre_refuted :
  cost_both 1 small_reach (css_tv small_reach) (0, 0) = 1 / 4 /\
  cost_both 1 (scale_volumes 4 small_reach) (map (Rmult 4) (css_tv small_reach)) (0, 4 * 0) = 1.
Proof.
  unfold cost_both, small_reach, scale_volumes, volume_error, add_extra, row_error, scale_missing. cbn.
  rewrite Rmax_right by lra. rewrite Rmax_left by lra. split; field_simplify; try lra.
Qed.
Print Assumptions C102_below_a_cubic_metre_refuted.

Theorem C102_dike_case :
  follows_the_volume 2 {| min1 f x := x; min2 f x := x; min3 f x := x |} /\
  not_small 2 [None; Some 100; Some 300] /\
  exists r, calculate_correction {| min1 f x := x; min2 f x := x; min3 f x := x |} 0 0 1 100
              {| css_z := [0; 1; 2]; css_tv := [0; 100; 200]; css_fv := [0; 50; 100];
                 fm_tv := [None; Some 100; Some 300]; fm_fv := [None; Some 50; Some 150] |} = Ok r.
Proof.
  split; [|split].
  - split; [|split]; intros; reflexivity.
  - repeat constructor; lra.
  - unfold calculate_correction. cbn [css_tv css_fv css_z fm_tv fm_fv map2 error_row nanargmin nanargmin_from].
    unfold nanargmin. cbn [nanargmin_from].
    destruct (Rlt_dec (200 - 300) (100 - 100)) as [L|L]; [|exfalso; lra]. cbn [nth_error].
    destruct (optimize_sd_storage _ 0 1 _ 2 _ _) as ((crest & et) & ef). eexists. reflexivity.
Qed.
Print Assumptions C102_dike_case.
