(** Theorems for C14, C15 and C63: summer dike correction. *)
From Coq Require Import List ZArith Reals Lra Lia Bool.
From Verif Require Import PyBase Spec_Real L_List M_Correction.
Import ListNotations.
Local Open Scope R_scope.

(** ** C15: the transition *)

Lemma share_exp tau crest h :
  extra_share tau crest h = / (1 + exp (ln delta / tau * (h - (crest + (1 / 2) * tau)))).
Proof. unfold extra_share, Rpower. rewrite ln_exp, Rmult_1_r. unfold Rdiv. lra. Qed.

Lemma ln_delta_neg : ln delta < 0.
Proof. rewrite <- ln_1. apply ln_increasing; unfold delta; lra. Qed.

Lemma slope_neg tau : 0 < tau -> ln delta / tau < 0.
Proof.
  intros H. unfold Rdiv. pose proof ln_delta_neg. pose proof (Rinv_0_lt_compat _ H).
  rewrite <- (Rmult_0_l (/ tau)). apply Rmult_lt_compat_r; auto.
Qed.

Lemma share_bounds tau crest h : 0 < extra_share tau crest h < 1.
Proof.
  rewrite share_exp. pose proof (exp_pos (ln delta / tau * (h - (crest + (1 / 2) * tau)))) as H.
  split; [apply Rinv_0_lt_compat; lra|].
  rewrite <- Rinv_1 at 3. apply Rinv_lt_contravar; lra.
Qed.

Lemma share_increasing tau crest h h' : 0 < tau -> h < h' ->
  extra_share tau crest h < extra_share tau crest h'.
Proof.
  intros Ht Hh. rewrite !share_exp. pose proof (slope_neg tau Ht) as Hs.
  set (s := ln delta / tau) in *. set (m := crest + (1 / 2) * tau).
  pose proof (exp_pos (s * (h - m))). pose proof (exp_pos (s * (h' - m))).
  apply Rinv_lt_contravar.
  - apply Rmult_lt_0_compat; lra.
  - apply Rplus_lt_compat_l, exp_increasing.
    replace (s * (h - m)) with (s * h - s * m) by ring.
    replace (s * (h' - m)) with (s * h' - s * m) by ring.
    apply Rplus_lt_compat_r. apply Rmult_lt_gt_compat_neg_l; auto.
Qed.

Lemma share_mono tau crest h h' : 0 < tau -> h <= h' ->
  extra_share tau crest h <= extra_share tau crest h'.
Proof.
  intros Ht [H|H]; [left; apply share_increasing; auto | subst; lra].
Qed.

Lemma exp_half_ln : exp (- (ln delta) / 2) > 316.
Proof.
  assert (Hsq : exp (- (ln delta) / 2) * exp (- (ln delta) / 2) = 100000).
  { rewrite <- exp_plus. replace (- (ln delta) / 2 + - (ln delta) / 2) with (- ln delta) by field.
    rewrite exp_Ropp, exp_ln by (unfold delta; lra). unfold delta. field. }
  pose proof (exp_pos (- (ln delta) / 2)).
  destruct (Rlt_dec 316 (exp (- (ln delta) / 2))) as [|Hn]; auto.
  exfalso. assert (exp (- (ln delta) / 2) <= 316) by lra. nra.
Qed.

(** C15. *)
Theorem C15_transition_is_a_smooth_step :
  forall tau crest : R, 0 < tau ->
    (forall h, 0 < extra_share tau crest h < 1) /\
    (forall h h', h < h' -> extra_share tau crest h < extra_share tau crest h') /\
    extra_share tau crest (crest + tau / 2) = 1 / 2 /\
    (forall d, extra_share tau crest (crest + tau / 2 + d) =
               1 - extra_share tau crest (crest + tau / 2 - d)) /\
    extra_share tau crest crest < 4 / 1000 /\
    extra_share tau crest (crest + tau) > 996 / 1000.
Proof.
  intros tau crest Ht.
  assert (Hsym : forall d, extra_share tau crest (crest + tau / 2 + d) =
               1 - extra_share tau crest (crest + tau / 2 - d)).
  { intros d. rewrite !share_exp.
    replace (ln delta / tau * (crest + tau / 2 + d - (crest + 1 / 2 * tau)))
      with (- (ln delta / tau * (- d))) by (field; lra).
    replace (ln delta / tau * (crest + tau / 2 - d - (crest + 1 / 2 * tau)))
      with (ln delta / tau * (- d)) by (field; lra).
    rewrite exp_Ropp. set (e := exp (ln delta / tau * - d)).
    assert (0 < e) by apply exp_pos. field. lra. }
  assert (Hc : extra_share tau crest crest < 4 / 1000).
  { rewrite share_exp.
    replace (ln delta / tau * (crest - (crest + 1 / 2 * tau))) with (- (ln delta) / 2) by (field; lra).
    pose proof exp_half_ln.
    replace (4 / 1000) with (/ 250) by field. apply Rinv_lt_contravar; nra. }
  split; [intros; apply share_bounds|]. split; [intros; apply share_increasing; auto|].
  split; [|split; [auto|split; [auto|]]].
  - specialize (Hsym 0). rewrite Rplus_0_r, Rminus_0_r in Hsym. lra.
  - specialize (Hsym (tau / 2)).
    replace (crest + tau / 2 + tau / 2) with (crest + tau) in Hsym by field.
    replace (crest + tau / 2 - tau / 2) with crest in Hsym by field. lra.
Qed.
Print Assumptions C15_transition_is_a_smooth_step.

Example C15_case : extra_share (1 / 2) 3 (3 + 1 / 2) > 996 / 1000.
Proof. apply (C15_transition_is_a_smooth_step (1 / 2) 3). lra. Qed.

(** ** C14 *)

Lemma optimize_bounds opt method tau c z0 t0 f0 :
  let '(crest, et, ef) := optimize_sd_storage opt method tau c z0 t0 f0 in
  0 <= ef <= et.
Proof.
  unfold optimize_sd_storage.
  destruct (Z.eqb method 0 || Z.eqb method 1 || Z.eqb method 2);
  repeat match goal with |- context [if ?b then _ else _] => destruct b end;
  unfold Rmin, Rmax; repeat match goal with |- context [Rle_dec ?a ?b] => destruct (Rle_dec a b) end; lra.
Qed.

Lemma add_extra_nth tau z v crest e i x :
  nth_error (add_extra tau z v crest e) i = Some x <->
  exists h w, nth_error z i = Some h /\ nth_error v i = Some w /\
              x = w + extra_share tau crest h * e.
Proof.
  unfold add_extra. revert v i; induction z as [|h z IH]; intros v i.
  - destruct i; simpl; (split; [discriminate | intros (h & w & H & _); discriminate]).
  - destruct v as [|w v].
    + destruct i; simpl; (split; [discriminate | intros (h' & w' & _ & H & _); discriminate]).
    + destruct i as [|i]; simpl.
      * split; [intros [= <-]; eauto|]. intros (h' & w' & [= <-] & [= <-] & ->). auto.
      * apply IH.
Qed.

Lemma add_extra_length tau z v crest e : length v = length z ->
  length (add_extra tau z v crest e) = length z.
Proof.
  unfold add_extra. revert v; induction z; intros [|w v] H; simpl in *; try discriminate; auto.
Qed.

Lemma add_extra_nondecreasing tau z v crest e :
  0 < tau -> 0 <= e -> Rnondecreasing z -> Rnondecreasing v ->
  Rnondecreasing (add_extra tau z v crest e).
Proof.
  intros Ht He Hz Hv i j a b Hij Ha Hb.
  apply (proj1 (add_extra_nth _ _ _ _ _ _ _)) in Ha. apply (proj1 (add_extra_nth _ _ _ _ _ _ _)) in Hb.
  destruct Ha as (h & w & H1 & H2 & ->). destruct Hb as (h' & w' & H1' & H2' & ->).
  apply Rplus_le_compat; [apply (Hv i j); auto|]. apply Rmult_le_compat_r; auto.
  apply share_mono; auto. apply (Hz i j); auto.
Qed.

Lemma add_extra_ge tau z v crest e i a b :
  0 <= e -> nth_error v i = Some a -> nth_error (add_extra tau z v crest e) i = Some b -> a <= b.
Proof.
  intros He Ha Hb. apply (proj1 (add_extra_nth _ _ _ _ _ _ _)) in Hb.
  destruct Hb as (h & w & H1 & H2 & ->). rewrite Ha in H2. inversion H2; subst.
  pose proof (share_bounds tau crest h). assert (0 <= extra_share tau crest h * e) by (apply Rmult_le_pos; lra). lra.
Qed.

(** C14.  Whatever the optimiser returns. *)
Theorem C14_extra_volumes_are_consistent :
  forall opt nan_start method tau len c k,
    0 < tau -> 0 < len ->
    length (css_tv c) = length (css_z c) -> length (css_fv c) = length (css_z c) ->
    Rnondecreasing (css_z c) -> Rnondecreasing (css_tv c) -> Rnondecreasing (css_fv c) ->
    calculate_correction opt nan_start method tau len c = Ok k ->
    0 <= extra_total_area k /\
    0 <= extra_flow_area k <= extra_total_area k /\
    0 <= extra_flow_volume k <= extra_total_volume k /\
    length (tv_corrected k) = length (css_tv c) /\ length (fv_corrected k) = length (css_fv c) /\
    Rnondecreasing (tv_corrected k) /\ Rnondecreasing (fv_corrected k) /\
    (forall i a b, nth_error (css_tv c) i = Some a -> nth_error (tv_corrected k) i = Some b -> a <= b) /\
    (forall i a b, nth_error (css_fv c) i = Some a -> nth_error (fv_corrected k) i = Some b -> a <= b) /\
    (* the corrected volume is the volume plus the active share of the extra volume *)
    (forall i h a b, nth_error (css_z c) i = Some h -> nth_error (css_tv c) i = Some a ->
       nth_error (tv_corrected k) i = Some b ->
       b = a + extra_share tau (crest_level k) h * extra_total_volume k) /\
    (forall i h a b, nth_error (css_z c) i = Some h -> nth_error (css_fv c) i = Some a ->
       nth_error (fv_corrected k) i = Some b ->
       b = a + extra_share tau (crest_level k) h * extra_flow_volume k).
Proof.
  intros opt ns method tau len c k Ht Hl L1 L2 Mz Mt Mf H.
  unfold calculate_correction in H.
  destruct (nanargmin _) as [j|]; [|discriminate].
  destruct (nth_error (css_z c) j) as [z0|]; [|discriminate].
  set (te := map2 error_row (css_tv c) (fm_tv c)) in *.
  set (fe := map2 error_row (css_fv c) (fm_fv c)) in *.
  set (t0 := match last te None with Some x => Rabs x | None => ns end) in *.
  set (f0 := match last fe None with Some x => Rabs x | None => ns end) in *.
  pose proof (optimize_bounds opt method tau c z0 t0 f0) as Hb.
  destruct (optimize_sd_storage opt method tau c z0 t0 f0) as [[crest et] ef].
  assert (Hk : k = {| tv_corrected := add_extra tau (css_z c) (css_tv c) crest et;
                    fv_corrected := add_extra tau (css_z c) (css_fv c) crest ef;
                    crest_level := crest; extra_total_volume := et; extra_flow_volume := ef;
                    extra_total_area := et / len; extra_flow_area := ef / len;
                    extra_area_percentage := map (extra_share tau crest) (css_z c) |}).
  { destruct te; [discriminate|]. destruct fe; [discriminate|]. congruence. }
  clear H. subst k. cbn.
  assert (Hi : 0 < / len) by (apply Rinv_0_lt_compat; auto).
  split; [unfold Rdiv; apply Rmult_le_pos; lra|].
  split; [split; [unfold Rdiv; apply Rmult_le_pos; lra | unfold Rdiv; apply Rmult_le_compat_r; lra]|].
  split; [lra|]. split; [rewrite add_extra_length; auto|]. split; [rewrite add_extra_length; auto|].
  split; [apply add_extra_nondecreasing; auto; lra|].
  split; [apply add_extra_nondecreasing; auto; lra|].
  split; [intros i a b; apply add_extra_ge; lra|].
  split; [intros i a b; apply add_extra_ge; lra|].
  split; intros i h a b H1 H2 H3; apply (proj1 (add_extra_nth _ _ _ _ _ _ _)) in H3;
    destruct H3 as (h' & w' & G1 & G2 & ->); rewrite H1 in G1; rewrite H2 in G2; congruence.
Qed.
Print Assumptions C14_extra_volumes_are_consistent.

(** C14.  Unknown methods behave as method 0. *)
Theorem C14_unknown_method_is_method_zero :
  forall opt nan_start method tau len c,
    method <> 1%Z -> method <> 2%Z ->
    calculate_correction opt nan_start method tau len c =
    calculate_correction opt nan_start 0 tau len c.
Proof.
  intros opt ns m tau len c H1 H2.
  assert (E : forall z0 t0 f0, optimize_sd_storage opt m tau c z0 t0 f0 =
                               optimize_sd_storage opt 0 tau c z0 t0 f0).
  { intros. unfold optimize_sd_storage.
    destruct (Z.eqb_spec m 0); [subst; auto|]. destruct (Z.eqb_spec m 1); [congruence|].
    destruct (Z.eqb_spec m 2); [congruence|]. auto. }
  unfold calculate_correction. destruct (nanargmin _); auto.
  destruct (nth_error _ _); auto. rewrite E. auto.
Qed.
Print Assumptions C14_unknown_method_is_method_zero.

(** The correction does not fail on columns of equal, non-zero length with at
    least one row where the 2D total volume is known. *)
Lemma nanargmin_from_some l : forall k b,
  (b <> None \/ exists x, In (Some x) l) -> exists j, nanargmin_from k b l = Some j.
Proof.
  induction l as [|[x|] l IH]; intros k b H.
  - destruct H as [H|[x []]]. destruct b as [[i ?]|]; [|congruence]. simpl. eauto.
  - simpl. destruct b as [[i w]|].
    + destruct (Rlt_dec x w); apply IH; left; discriminate.
    + apply IH. left. discriminate.
  - simpl. apply IH. destruct H as [H|[x [H|H]]]; auto; [discriminate|]. right. eauto.
Qed.

Lemma nanargmin_from_lt l : forall k b j,
  (forall i w, b = Some (i, w) -> (i < k)%nat) ->
  nanargmin_from k b l = Some j -> (j < k + length l)%nat.
Proof.
  induction l as [|[x|] l IH]; intros k b j Hb H; simpl in H.
  - destruct b as [[i w]|]; [|discriminate]. inversion H; subst. simpl. specialize (Hb j w eq_refl). lia.
  - destruct b as [[i w]|].
    + destruct (Rlt_dec x w); apply IH in H; simpl; try lia; intros i' w' [= <- <-]; try lia.
      specialize (Hb i w eq_refl). lia.
    + apply IH in H; simpl; try lia. intros i' w' [= <- <-]. lia.
  - apply IH in H; simpl; try lia. intros i w E. specialize (Hb i w E). lia.
Qed.

Lemma map2_length' {A B C} (f : A -> B -> C) l : forall m, length m = length l -> length (map2 f l m) = length l.
Proof. induction l; intros [|y m] H; simpl in *; try discriminate; auto. Qed.

Theorem C14_correction_is_defined :
  forall opt nan_start method tau len c,
    length (css_tv c) = length (css_z c) -> length (css_fv c) = length (css_z c) ->
    length (fm_tv c) = length (css_z c) -> length (fm_fv c) = length (css_z c) ->
    (exists m, In (Some m) (fm_tv c)) ->
    exists k, calculate_correction opt nan_start method tau len c = Ok k.
Proof.
  intros opt ns m tau len c L1 L2 L3 L4 [x Hx]. unfold calculate_correction, nanargmin.
  assert (Hin : exists y, In (Some y) (map2 error_row (css_tv c) (fm_tv c))).
  { assert (L : length (fm_tv c) = length (css_tv c)) by lia.
    revert Hx L. generalize (css_tv c) (fm_tv c). clear. 
    induction l; intros l' Hx L; destruct l' as [|[y|] l']; simpl in *; try discriminate; try contradiction.
    - eauto.
    - destruct Hx as [Hx|Hx]; [discriminate|]. destruct (IHl l') as [y Hy]; auto. eauto. }
  destruct (nanargmin_from_some (map2 error_row (css_tv c) (fm_tv c)) 0 None) as [j Hj]; auto.
  rewrite Hj. apply nanargmin_from_lt in Hj; [|discriminate].
  rewrite map2_length' in Hj by lia.
  destruct (nth_error (css_z c) j) as [z0|] eqn:Ez; [|apply nth_error_None in Ez; lia].
  destruct (map2 error_row (css_tv c) (fm_tv c)) as [|e te] eqn:Et; [destruct Hin as [? []]|].
  destruct (map2 error_row (css_fv c) (fm_fv c)) as [|f fe] eqn:Ef.
  { apply (f_equal (@length _)) in Ef. rewrite map2_length' in Ef by lia. simpl in Ef. lia. }
  match goal with |- context [optimize_sd_storage ?a ?b ?c0 ?d ?e0 ?f0 ?g] =>
    destruct (optimize_sd_storage a b c0 d e0 f0 g) as [[? ?] ?] end.
  eauto.
Qed.
Print Assumptions C14_correction_is_defined.

(** Without flow volumes the search is refused, also if there are total volumes. *)
Theorem C14_no_flow_volumes :
  forall opt nan_start method tau len c k,
    nanargmin (map2 error_row (css_tv c) (fm_tv c)) = Some k -> (k < length (css_z c))%nat ->
    css_fv c = [] \/ fm_fv c = [] ->
    calculate_correction opt nan_start method tau len c = Raise IndexError.
Proof.
  intros opt ns m tau len c k E L F. unfold calculate_correction. rewrite E.
  destruct (nth_error (css_z c) k) eqn:N; [|reflexivity].
  assert (X : map2 error_row (css_fv c) (fm_fv c) = []).
  { destruct F as [-> | ->]; [reflexivity|destruct (css_fv c); reflexivity]. }
  rewrite X. destruct (map2 error_row (css_tv c) (fm_tv c)); reflexivity.
Qed.
Print Assumptions C14_no_flow_volumes.

Definition example_css : css :=
  {| css_z := [0; 1; 2]; css_tv := [0; 1; 3]; css_fv := [0; 1; 2];
     fm_tv := [None; Some 2; Some 5]; fm_fv := [None; Some 1; Some 3] |}.
Definition example_opt : optimiser :=
  {| min1 := fun _ x => x + 7; min2 := fun _ x => x; min3 := fun _ x => x |}.
Example C14_case : exists k,
  calculate_correction example_opt 0 5 (1 / 2) 10 example_css = Ok k /\ 0 <= extra_flow_area k.
Proof.
  destruct (C14_correction_is_defined example_opt 0 5 (1 / 2) 10 example_css) as [k Hk]; auto.
  { exists 2. simpl. auto. }
  exists k. split; auto.
  assert (M : forall a b c : R, a <= b -> b <= c -> Rnondecreasing [a; b; c]).
  { intros a b c H1 H2 i j x y Hij Hx Hy.
    destruct i as [|[|[|[|i]]]]; simpl in Hx; try discriminate; injection Hx as <-;
    destruct j as [|[|[|[|j]]]]; simpl in Hy; try discriminate; injection Hy as <-; try lra; lia. }
  assert (T : 0 < 1 / 2) by lra. assert (L : 0 < 10) by lra.
  assert (M1 : Rnondecreasing (css_z example_css)) by (apply M; lra).
  assert (M2 : Rnondecreasing (css_tv example_css)) by (apply M; lra).
  assert (M3 : Rnondecreasing (css_fv example_css)) by (apply M; lra).
  destruct (C14_extra_volumes_are_consistent example_opt 0 5 (1 / 2) 10 example_css k
              T L eq_refl eq_refl M1 M2 M3 Hk) as (_ & H & _). lra.
Qed.

(** ** C63: what the optimisation minimises *)

Lemma row_error_nonneg p m : 0 <= row_error p m.
Proof. destruct m; simpl; [|lra]. pose proof (pow2_ge_0 ((p - r) / Rmax r 1)). simpl in H. lra. Qed.

Lemma Rsum_nonneg l : Forall (fun x => 0 <= x) l -> 0 <= Rsum l.
Proof. induction 1; simpl; lra. Qed.

Lemma volume_error_nonneg p m : 0 <= volume_error p m.
Proof.
  apply Rsum_nonneg. revert m; induction p; intros [|y m]; simpl; constructor; auto. apply row_error_nonneg.
Qed.

(** The error is zero exactly when the prediction is right in every row with a
    known 2D volume. *)
Theorem C63_volume_error_measures_mismatch :
  forall predicted measured, length measured = length predicted ->
    0 <= volume_error predicted measured /\
    (volume_error predicted measured = 0 <->
     forall i p m, nth_error predicted i = Some p -> nth_error measured i = Some (Some m) -> p = m).
Proof.
  intros p m L. split; [apply volume_error_nonneg|]. revert m L.
  induction p as [|a p IH]; intros [|b m] L; simpl in L; try discriminate.
  - split; [intros _ [|i]; simpl; discriminate | reflexivity].
  - assert (L' : length m = length p) by lia. specialize (IH m L').
    change (volume_error (a :: p) (b :: m)) with (row_error a b + volume_error p m).
    pose proof (row_error_nonneg a b) as H1. pose proof (volume_error_nonneg p m) as H2.
    assert (Hz : row_error a b = 0 <-> (forall x, b = Some x -> a = x)).
    { destruct b as [x|]; simpl; [|split; auto; discriminate].
      assert (Hm : 0 < Rmax x 1) by (apply Rlt_le_trans with 1; [lra | apply Rmax_r]).
      split.
      - intros E y [= <-]. 
        assert (E2 : (a - x) / Rmax x 1 = 0).
        { rewrite Rmult_1_r in E. destruct (Rmult_integral _ _ E); auto. }
        unfold Rdiv in E2. destruct (Rmult_integral _ _ E2) as [E3|E3]; [lra|].
        pose proof (Rinv_0_lt_compat _ Hm). lra.
      - intros E. rewrite (E x eq_refl). replace (x - x) with 0 by ring. unfold Rdiv. ring. }
    split.
    + intros E i q w Hq Hw. assert (row_error a b = 0) by lra. assert (volume_error p m = 0) by lra.
      destruct i as [|i]; simpl in Hq, Hw.
      * inversion Hq; inversion Hw; subst. apply Hz; auto.
      * eapply (proj1 IH); eauto.
    + intros H. assert (row_error a b = 0).
      { apply Hz. intros x ->. apply (H O); auto. }
      assert (volume_error p m = 0).
      { apply IH. intros i q w Hq Hw. apply (H (S i)); auto. }
      lra.
Qed.
Print Assumptions C63_volume_error_measures_mismatch.

(** An optimiser that always finds a minimum. *)
Definition exact (opt : optimiser) : Prop :=
  (forall f x0, (exists x, is_minimum f x) -> is_minimum f (min1 opt f x0)) /\
  (forall f x0, (exists x, is_minimum f x) -> is_minimum f (min2 opt f x0)) /\
  (forall f x0, (exists x, is_minimum f x) -> is_minimum f (min3 opt f x0)).

(** C63.  With method 0 the total volume reaches the best possible fit: no
    other crest level and non-negative extra volume fits better, if the
    optimiser is exact and returns a non-negative volume. *)
Theorem C63_total_volume_fit_is_optimal_partial :
  forall opt nan_start tau len c k,
    exact opt ->
    calculate_correction opt nan_start 0 tau len c = Ok k ->
    (exists x, is_minimum (cost_both tau c (css_tv c)) x) ->
    (forall f x0, 0 <= snd (min2 opt f x0)) ->
    forall crest extra,
      volume_error (tv_corrected k) (fm_tv c) <=
      volume_error (add_extra tau (css_z c) (css_tv c) crest extra) (fm_tv c).
Proof.
  intros opt ns tau len c k (_ & Ho & _) H Hex Hpos crest extra. unfold calculate_correction in H.
  destruct (nanargmin _) as [j|]; [|discriminate].
  destruct (nth_error (css_z c) j) as [z0|]; [|discriminate].
  set (te := map2 error_row (css_tv c) (fm_tv c)) in *.
  set (fe := map2 error_row (css_fv c) (fm_fv c)) in *.
  set (t0 := match last te None with Some x => Rabs x | None => ns end) in *.
  set (f0 := match last fe None with Some x => Rabs x | None => ns end) in *.
  unfold optimize_sd_storage in H. cbn [Z.eqb orb] in H.
  set (x := min2 opt (cost_both tau c (css_tv c)) (z0, t0)) in *.
  assert (Hx := Ho (cost_both tau c (css_tv c)) (z0, t0) Hex (crest, extra)).
  assert (Hp := Hpos (cost_both tau c (css_tv c)) (z0, t0)).
  fold x in Hx, Hp.
  assert (Hk : tv_corrected k = add_extra tau (css_z c) (css_tv c) (fst x) (Rmax (snd x) 0)).
  { destruct te; [discriminate|]. destruct fe; [discriminate|]. 
    match type of H with Ok ?a = Ok _ => assert (Hg : k = a) by congruence end. subst k. reflexivity. }
  rewrite Hk, Rmax_left by lra. exact Hx.
Qed.
Print Assumptions C63_total_volume_fit_is_optimal_partial.

(** C63, refuted for the flow volume: even with an exact optimiser and a flow
    volume that already agrees with the 2D flow volume, method 0 adds extra
    flow volume, because the flow stage is fitted to the 2D total volume. *)
Theorem C63_flow_volume_fit_refuted :
  exists c, fm_fv c = map Some (css_fv c) /\
    forall opt nan_start k, exact opt ->
      calculate_correction opt nan_start 0 (1 / 2) 1 c = Ok k ->
      0 < extra_flow_volume k /\
      0 < volume_error (fv_corrected k) (fm_fv c) /\
      volume_error (css_fv c) (fm_fv c) = 0.
Proof.
  set (c := {| css_z := [0]; css_tv := [2]; css_fv := [1]; fm_tv := [Some 4]; fm_fv := [Some 1] |}).
  exists c. split; [reflexivity|]. intros opt ns k (H1 & H2 & _) H.
  unfold calculate_correction in H. 
  change (nanargmin (map2 error_row (css_tv c) (fm_tv c))) with (Some O) in H.
  cbv iota beta in H. change (nth_error (css_z c) 0) with (Some 0) in H. cbv iota beta in H.
  unfold optimize_sd_storage in H. cbn [Z.eqb orb] in H. cbv zeta in H.
  set (start_t := match last (map2 error_row (css_tv c) (fm_tv c)) None with Some x => Rabs x | None => ns end) in *.
  set (start_f := match last (map2 error_row (css_fv c) (fm_fv c)) None with Some x => Rabs x | None => ns end) in *.
  set (x := min2 opt (cost_both (1 / 2) c (css_tv c)) (0, start_t)) in *.
  set (y := min1 opt (cost_single (1 / 2) c (css_fv c) (fst x)) start_f) in *.
  set (sh := extra_share (1 / 2) (fst x) 0) in *.
  assert (Hsh : 0 < sh < 1) by apply share_bounds.
  (* stage 1 *)
  assert (Hc1 : forall p, cost_both (1 / 2) c (css_tv c) p =
                ((2 + extra_share (1 / 2) (fst p) 0 * snd p - 4) / Rmax 4 1) ^ 2 + 0) by reflexivity.
  assert (Hm4 : Rmax 4 1 = 4) by (rewrite Rmax_left; lra).
  assert (Hx : is_minimum (cost_both (1 / 2) c (css_tv c)) x).
  { apply H2. exists (0, 2 / extra_share (1 / 2) 0 0). intros p. rewrite !Hc1. cbn [fst snd].
    pose proof (share_bounds (1 / 2) 0 0).
    replace (2 + extra_share (1 / 2) 0 0 * (2 / extra_share (1 / 2) 0 0) - 4) with 0 by (field; lra).
    pose proof (pow2_ge_0 ((2 + extra_share (1 / 2) (fst p) 0 * snd p - 4) / Rmax 4 1)).
    unfold Rdiv at 1. rewrite Rmult_0_l. lra. }
  assert (Ex : sh * snd x = 2).
  { pose proof (Hx (fst x, 2 / sh)) as Hx'. rewrite !Hc1 in Hx'. cbn [fst snd] in Hx'. fold sh in Hx'.
    replace (2 + sh * (2 / sh) - 4) with 0 in Hx' by (field; lra).
    rewrite Hm4 in Hx'. nra. }
  (* stage 2 *)
  assert (Hc2 : forall q, cost_single (1 / 2) c (css_fv c) (fst x) q =
                ((1 + sh * q - 4) / Rmax 4 1) ^ 2 + 0) by reflexivity.
  assert (Hy : is_minimum (cost_single (1 / 2) c (css_fv c) (fst x)) y).
  { apply H1. exists (3 / sh). intros q. rewrite !Hc2.
    replace (1 + sh * (3 / sh) - 4) with 0 by (field; lra).
    pose proof (pow2_ge_0 ((1 + sh * q - 4) / Rmax 4 1)).
    unfold Rdiv at 1. rewrite Rmult_0_l. lra. }
  assert (Ey : sh * y = 3).
  { pose proof (Hy (3 / sh)) as Hy'. rewrite !Hc2 in Hy'.
    replace (1 + sh * (3 / sh) - 4) with 0 in Hy' by (field; lra). rewrite Hm4 in Hy'. nra. }
  assert (Px : 0 < snd x) by nra. assert (Py : 0 < y) by nra.
  assert (Hef : Rmin (Rmax y 0) (Rmax (snd x) 0) = snd x).
  { rewrite !Rmax_left by lra. apply Rmin_right. nra. }
  rewrite Hef in H.
  assert (Hg : extra_flow_volume k = snd x /\ fv_corrected k = [1 + sh * snd x]).
  { simpl map2 in H. cbv iota beta in H. match type of H with Ok ?a = Ok _ => assert (Hg : k = a) by congruence end. subst k. split; reflexivity. }
  destruct Hg as [G1 G2]. rewrite G1, G2. split; auto.
  unfold volume_error. cbn [fm_fv c css_fv map2 row_error Rsum fold_right]. rewrite Rmax_left by lra. split.
  - rewrite Ex. lra.
  - unfold Rdiv. ring.
Qed.
Print Assumptions C63_flow_volume_fit_refuted.
