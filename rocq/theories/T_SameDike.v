(** C99: the search for the summer dike and the vertical datum. *)
From Coq Require Import List ZArith Bool Reals Lra Lia.
From Verif Require Import PyBase M_Correction.
Import ListNotations.
Local Open Scope R_scope.

(** The same cross-section with its levels measured from a datum [h] lower. *)
Definition raise_levels (h : R) (c : css) : css :=
  {| css_z := map (fun z => z + h) (css_z c); css_tv := css_tv c; css_fv := css_fv c; fm_tv := fm_tv c; fm_fv := fm_fv c |}.

Lemma extra_share_raised tau crest z h : extra_share tau (crest + h) (z + h) = extra_share tau crest z.
Proof. unfold extra_share. replace (z + h - (crest + h + 1 / 2 * tau)) with (z - (crest + 1 / 2 * tau)) by ring. reflexivity. Qed.
Lemma add_extra_raised tau z volume crest extra h :
  add_extra tau (map (fun z => z + h) z) volume (crest + h) extra = add_extra tau z volume crest extra.
Proof.
  revert volume. induction z as [|a z IH]; intros [|v volume]; try reflexivity.
  unfold add_extra in *. cbn [map map2]. rewrite extra_share_raised, IH. reflexivity.
Qed.

(** A search over two or three unknowns, of which the first is a level, that
    follows the datum: with the same errors at raised levels it ends at the
    raised level.  The search for a single volume depends on the errors only. *)
Definition follows_the_datum (h : R) (opt : optimiser) : Prop :=
  (forall f g x, (forall y, g y = f y) -> min1 opt g x = min1 opt f x) /\
  (forall f g a b, (forall a b, g (a + h, b) = f (a, b)) ->
     min2 opt g (a + h, b) = (fst (min2 opt f (a, b)) + h, snd (min2 opt f (a, b)))) /\
  (forall f g a b c, (forall a b c, g (a + h, b, c) = f (a, b, c)) ->
     min3 opt g (a + h, b, c) =
       (fst (fst (min3 opt f (a, b, c))) + h, snd (fst (min3 opt f (a, b, c))), snd (min3 opt f (a, b, c)))).

(** Whatever the search, in each of its stages it is given the same errors:
    those of a crest level and a volume for the one datum are those of the
    raised crest level and the same volume for the other. *)
Theorem C99_the_search_sees_the_same_errors :
  forall h tau c volume crest et ef,
    cost_both tau (raise_levels h c) volume (crest + h, et) = cost_both tau c volume (crest, et) /\
    cost_single tau (raise_levels h c) volume (crest + h) et = cost_single tau c volume crest et /\
    cost_combined tau (raise_levels h c) (crest + h, et, ef) = cost_combined tau c (crest, et, ef).
Proof.
  intros h tau c volume crest et ef. unfold cost_both, cost_single, cost_combined, raise_levels.
  cbn [fst snd css_z css_tv css_fv fm_tv fm_fv]. rewrite !add_extra_raised. auto.
Qed.
Print Assumptions C99_the_search_sees_the_same_errors.

(** The dike of the raised cross-section is the dike of the cross-section with
    its crest raised: volumes, areas and the corrected volumes are the same. *)
Definition raise_crest (h : R) (r : correction) : correction :=
  {| tv_corrected := tv_corrected r; fv_corrected := fv_corrected r; crest_level := crest_level r + h;
     extra_total_volume := extra_total_volume r; extra_flow_volume := extra_flow_volume r;
     extra_total_area := extra_total_area r; extra_flow_area := extra_flow_area r;
     extra_area_percentage := extra_area_percentage r |}.
Definition on_result {A B} (f : A -> B) (r : res A) : res B := match r with Ok x => Ok (f x) | Raise e => Raise e end.

Lemma optimize_raised h opt method tau c crest tv fv : follows_the_datum h opt ->
  optimize_sd_storage opt method tau (raise_levels h c) (crest + h) tv fv =
  (fst (fst (optimize_sd_storage opt method tau c crest tv fv)) + h,
   snd (fst (optimize_sd_storage opt method tau c crest tv fv)), snd (optimize_sd_storage opt method tau c crest tv fv)).
Proof.
  intros (M1 & M2 & M3). unfold optimize_sd_storage.
  set (m := if Z.eqb method 0 || Z.eqb method 1 || Z.eqb method 2 then method else 0%Z).
  destruct (Z.eqb m 0); [|destruct (Z.eqb m 1)]; cbv zeta; cbn [css_tv css_fv raise_levels].
  - rewrite (M2 (cost_both tau c (css_tv c))) by (intros; apply (C99_the_search_sees_the_same_errors h tau c _ _ _ 0)).
    cbn [fst snd]. rewrite (M1 (cost_single tau c (css_fv c) (fst (min2 opt (cost_both tau c (css_tv c)) (crest, tv)))))
      by (intros; apply (C99_the_search_sees_the_same_errors h tau c _ _ _ 0)). reflexivity.
  - rewrite (M2 (cost_both tau c (css_fv c))) by (intros; apply (C99_the_search_sees_the_same_errors h tau c _ _ _ 0)).
    cbn [fst snd]. rewrite (M1 (cost_single tau c (css_tv c) (fst (min2 opt (cost_both tau c (css_fv c)) (crest, tv)))))
      by (intros; apply (C99_the_search_sees_the_same_errors h tau c _ _ _ 0)). reflexivity.
  - rewrite (M3 (cost_combined tau c)) by (intros; apply (C99_the_search_sees_the_same_errors h tau c [])). reflexivity.
Qed.

Theorem C99_the_dike_follows_the_datum :
  forall opt nan_start method tau len c h, follows_the_datum h opt ->
    calculate_correction opt nan_start method tau len (raise_levels h c) =
    on_result (raise_crest h) (calculate_correction opt nan_start method tau len c).
Proof.
  intros opt nan_start method tau len c h F. unfold calculate_correction. cbn [css_tv css_fv css_z fm_tv fm_fv raise_levels].
  destruct (nanargmin (map2 error_row (css_tv c) (fm_tv c))) as [k|]; [|reflexivity].
  rewrite nth_error_map. destruct (nth_error (css_z c) k) as [crest0|]; cbn [option_map]; [|reflexivity].
  set (terr := map2 error_row (css_tv c) (fm_tv c)). set (ferr := map2 error_row (css_fv c) (fm_fv c)).
  destruct terr as [|t terr']; [reflexivity|]. destruct ferr as [|f ferr']; [reflexivity|].
  change {| css_z := map (fun z => z + h) (css_z c); css_tv := css_tv c; css_fv := css_fv c; fm_tv := fm_tv c; fm_fv := fm_fv c |}
    with (raise_levels h c).
  rewrite optimize_raised by exact F.
  destruct (optimize_sd_storage opt method tau c crest0 _ _) as ((crest & et) & ef). cbn [fst snd on_result].
  unfold raise_crest. cbn [tv_corrected fv_corrected crest_level extra_total_volume extra_flow_volume extra_total_area
    extra_flow_area extra_area_percentage]. rewrite !add_extra_raised, map_map.
  rewrite (map_ext (fun z => extra_share tau (crest + h) (z + h)) (extra_share tau crest)) by (intro z; apply extra_share_raised).
  reflexivity.
Qed.
Print Assumptions C99_the_dike_follows_the_datum.

(** A search that ends at once follows the datum, and a search that prefers the
    better of the two points a metre apart does. *)
Definition one_step : optimiser :=
  {| min1 f x := if Rlt_dec (f (x + 1)) (f x) then x + 1 else x;
     min2 f x := if Rlt_dec (f (fst x + 1, snd x)) (f x) then (fst x + 1, snd x) else x;
     min3 f x := if Rlt_dec (f (fst (fst x) + 1, snd (fst x), snd x)) (f x) then (fst (fst x) + 1, snd (fst x), snd x) else x |}.
Theorem C99_dike_case :
  (forall h, follows_the_datum h one_step) /\
  exists r, calculate_correction one_step 0 0 1 100
              {| css_z := [0; 1; 2]; css_tv := [0; 100; 200]; css_fv := [0; 50; 100];
                 fm_tv := [None; Some 100; Some 300]; fm_fv := [None; Some 50; Some 150] |} = Ok r.
Proof.
  split.
  - intro h. split; [|split].
    + intros f g x E. cbn. rewrite !E. reflexivity.
    + intros f g a b E. cbn [min2 one_step fst snd]. replace (a + h + 1) with ((a + 1) + h) by ring. rewrite !E.
      destruct (Rlt_dec (f (a + 1, b)) (f (a, b))); reflexivity.
    + intros f g a b c E. cbn [min3 one_step fst snd]. replace (a + h + 1) with ((a + 1) + h) by ring. rewrite !E.
      destruct (Rlt_dec (f (a + 1, b, c)) (f (a, b, c))); reflexivity.
  - unfold calculate_correction. cbn [css_tv css_fv css_z fm_tv fm_fv map2 error_row nanargmin nanargmin_from].
    unfold nanargmin. cbn [nanargmin_from].
    destruct (Rlt_dec (200 - 300) (100 - 100)) as [L|L]; [|exfalso; lra]. cbn [nth_error].
    destruct (optimize_sd_storage one_step 0 1 _ 2 _ _) as ((crest & et) & ef). eexists. reflexivity.
Qed.
Print Assumptions C99_dike_case.
