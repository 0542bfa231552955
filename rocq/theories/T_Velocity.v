(** C120: the search for the summer dike and the conveying volumes. *)
From Coq Require Import Reals Lra List ZArith Bool Lia.
From Verif Require Import PyBase M_Correction.
Import ListNotations.
Local Open Scope R_scope.

(** The same levels and total volumes, and as many flow volumes. *)
Definition same_totals (a b : css) : Prop :=
  css_z a = css_z b /\ css_tv a = css_tv b /\ fm_tv a = fm_tv b /\
  length (css_fv a) = length (css_fv b) /\ length (fm_fv a) = length (fm_fv b).
Definition crest_and_total (c : correction) : R * R * R * list R :=
  (crest_level c, extra_total_volume c, extra_total_area c, extra_area_percentage c).

Lemma error_empty a : forall b a' b', length a = length a' -> length b = length b' ->
  (map2 error_row a b = [] <-> map2 error_row a' b' = []).
Proof. intros b a' b' L M. destruct a, a', b, b'; try discriminate; split; intro H; try reflexivity; discriminate. Qed.

(** C120: with the method 0, also taken for an unknown method, the crest level
    and the extra total volume do not depend on the flow volumes, whatever the
    minimiser does. *)
Theorem C120_crest_from_total_volumes_partial :
  forall opt nan_start method tau len a b, method <> 1%Z -> method <> 2%Z -> same_totals a b ->
    res_map crest_and_total (calculate_correction opt nan_start method tau len a) =
    res_map crest_and_total (calculate_correction opt nan_start method tau len b) /\
    res_map tv_corrected (calculate_correction opt nan_start method tau len a) =
    res_map tv_corrected (calculate_correction opt nan_start method tau len b).
Proof.
  intros opt ns method tau len a b M1 M2 (EZ & ET & EF & L1 & L2). unfold calculate_correction. rewrite EZ, ET, EF. cbv zeta.
  destruct (nanargmin (map2 error_row (css_tv b) (fm_tv b))) as [k|]; [|split; reflexivity].
  destruct (nth_error (css_z b) k) as [c0|]; [|split; reflexivity].
  pose proof (error_empty _ _ _ _ L1 L2) as EE.
  destruct (map2 error_row (css_tv b) (fm_tv b)) as [|e es]; [split; reflexivity|].
  destruct (map2 error_row (css_fv a) (fm_fv a)) as [|x xs], (map2 error_row (css_fv b) (fm_fv b)) as [|y ys];
    [split; reflexivity|discriminate (proj1 EE eq_refl)|discriminate (proj2 EE eq_refl)|].
  assert (MM : (if Z.eqb method 0 || Z.eqb method 1 || Z.eqb method 2 then method else 0)%Z = 0%Z).
  { destruct (Z.eqb_spec method 0); [subst; reflexivity|]. destruct (Z.eqb_spec method 1); [contradiction|].
    destruct (Z.eqb_spec method 2); [contradiction|reflexivity]. }
  unfold optimize_sd_storage. rewrite MM. cbn [Z.eqb]. unfold cost_both. rewrite EZ, ET, EF. split; reflexivity.
Qed.
Print Assumptions C120_crest_from_total_volumes_partial.

(** A minimiser that stops where the fit is perfect without extra volume, and
    else gives its starting point. *)
Definition stopping : optimiser :=
  {| min1 := fun f x => if Req_EM_T (f 0) 0 then 0 else x;
     min2 := fun f x => if Req_EM_T (f (0, 0)) 0 then (0, 0) else x;
     min3 := fun f x => if Req_EM_T (f (0, 0, 0)) 0 then (0, 0, 0) else x |}.
Definition dike_case (flow : R) : css :=
  {| css_z := [1]; css_tv := [2]; css_fv := [flow]; fm_tv := [Some 2]; fm_fv := [Some 2] |}.

Lemma no_extra tau (h v : R) : [v + extra_share tau 0 h * 0] = [v].
Proof. f_equal. lra. Qed.

(** With the methods 1 and 2 the crest level depends on the flow volumes. *)
Theorem C120_crest_with_other_methods_refuted :
  forall method, method = 1%Z \/ method = 2%Z ->
    same_totals (dike_case 2) (dike_case 1) /\
    res_map crest_level (calculate_correction stopping 0 method (1 / 2) 1 (dike_case 2)) = Ok 0 /\
    res_map crest_level (calculate_correction stopping 0 method (1 / 2) 1 (dike_case 1)) = Ok 1.
Proof.
  intros method M. split; [repeat split|].
  assert (ARG : nanargmin (map2 error_row [2] [Some 2]) = Some 0%nat) by reflexivity.
  assert (B : forall v m, Rmax m 1 = m -> volume_error [v] [Some m] = ((v - m) / m) ^ 2 + 0).
  { intros v m E. unfold volume_error, Rsum. cbn [map2 fold_right row_error]. rewrite E. reflexivity. }
  assert (M2 : Rmax 2 1 = 2) by (apply Rmax_left; lra).
  assert (M4 : Rmax (2 + 2) 1 = 2 + 2) by (apply Rmax_left; lra).
  destruct M as [-> | ->]; unfold calculate_correction, dike_case; cbn [css_z css_tv css_fv fm_tv fm_fv]; rewrite ARG;
    cbn [map2 nth_error]; unfold optimize_sd_storage; cbn [Z.eqb Pos.eqb orb]; unfold stopping; cbn [min1 min2 min3].
  - unfold cost_both; cbn [css_z css_tv css_fv fm_tv fm_fv fst snd]; unfold add_extra; cbn [map2]. rewrite !no_extra, !(B _ 2 M2). split.
    + destruct (Req_EM_T (((2 - 2) / 2) ^ 2 + 0) 0) as [_|N]; [reflexivity|exfalso; apply N; field].
    + destruct (Req_EM_T (((1 - 2) / 2) ^ 2 + 0) 0) as [E|_]; [exfalso; lra|reflexivity].
  - unfold cost_combined; cbn [css_z css_tv css_fv fm_tv fm_fv fst snd]; unfold add_extra; cbn [map2 add_missing]. rewrite !(B _ (2 + 2) M4). split.
    + replace (2 + extra_share (1 / 2) 0 1 * 0 + (2 + extra_share (1 / 2) 0 1 * 0)) with 4 by ring.
      destruct (Req_EM_T (((4 - (2 + 2)) / (2 + 2)) ^ 2 + 0) 0) as [_|N]; [reflexivity|exfalso; lra].
    + replace (2 + extra_share (1 / 2) 0 1 * 0 + (1 + extra_share (1 / 2) 0 1 * 0)) with 3 by ring.
      destruct (Req_EM_T (((3 - (2 + 2)) / (2 + 2)) ^ 2 + 0) 0) as [E|_]; [exfalso; lra|reflexivity].
Qed.
Print Assumptions C120_crest_with_other_methods_refuted.
