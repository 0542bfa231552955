(** C122: lower velocity thresholds do not reduce the conveyance. *)
From Coq Require Import String List Ascii ZArith QArith Qminmax Bool Lia Lqa Permutation.
From Verif Require Import PyBase Num Text L_Num L_List M_Geometry M_Sections M_Friction M_Simplify M_Import M_Pipeline T_Pipeline T_Mesh T_Parts T_Settings.
Import ListNotations.
Local Open Scope Q_scope.

(** ** Specification *)

(** Two finite numbers in order. *)
Definition nle (x y : num) : Prop := exists a b, x = Fin a /\ y = Fin b /\ a <= b.
(** A velocity, or none. *)
Definition speed (v : num) : Prop := v = NaN \/ exists q, v = Fin q /\ 0 <= q.
(** A face with a finite area and with velocities. *)
Definition plain_cell (c : cell) : Prop := (exists a, c_area c = Fin a /\ 0 <= a) /\ Forall speed (c_vel c).
(** The same settings with other thresholds. *)
Definition with_thresholds (ab re : num) (p : geom_params) : geom_params :=
  mkParams (gp_skip p) (gp_lake p) (gp_method p) ab re (gp_extrapolate p).
(** The mean velocity of method 0 is a velocity. *)
Definition mean_speed (smooth : list (list num) -> list (list num)) (mean : list (list num) -> nat -> num) : Prop :=
  forall v t, Forall (Forall speed) v -> speed (mean (smooth v) t).

(** ** Masks *)

Definition submask (m m' : list bool) : Prop := forall t, nth t m false = true -> nth t m' false = true.

Lemma lower_product maxv r r' v : speed maxv -> nle r' r -> nltb (nmul maxv r) v = true -> nltb (nmul maxv r') v = true.
Proof.
  intros S (a & b & -> & -> & L) H. destruct S as [->|(q & -> & Q)]; [discriminate|]. cbn [nmul] in *.
  destruct v; cbn [nltb] in *; try discriminate; [|reflexivity]. apply Qltb_true in H. apply Qltb_true. nra.
Qed.
Lemma lower_product' maxv r r' v : speed maxv -> nle r' r -> nltb (nmul r maxv) v = true -> nltb (nmul r' maxv) v = true.
Proof.
  intros S (a & b & -> & -> & L) H. destruct S as [->|(q & -> & Q)]; [discriminate|]. cbn [nmul] in *.
  destruct v; cbn [nltb] in *; try discriminate; [|reflexivity]. apply Qltb_true in H. apply Qltb_true. nra.
Qed.
Lemma lower_bound r r' v : nle r' r -> nltb r v = true -> nltb r' v = true.
Proof.
  intros (a & b & -> & -> & L) H. destruct v; cbn [nltb] in *; try discriminate; [|reflexivity]. apply Qltb_true in H. apply Qltb_true. lra.
Qed.

Lemma sort_speed l : Forall speed l -> Forall speed (sort_values l).
Proof.
  assert (I : forall x m, speed x -> Forall speed m -> Forall speed (insert_num x m)).
  { intros x m X M. induction M as [|y m Y M IH]; cbn [insert_num]; [auto|]. destruct (sort_le x y); auto. }
  intro F. induction F as [|x l X F IH]; [constructor|]. cbn [sort_values fold_right]. apply I; assumption.
Qed.
Lemma slice_speed k l : Forall speed l -> Forall speed (slice_from k l).
Proof.
  unfold slice_from. generalize (slice_bound (length l) k). intros n F. revert n.
  induction F as [|x l X F IH]; intros [|n]; cbn [skipn]; auto.
Qed.
Lemma mean_of_speeds l : Forall speed l -> speed (nanmean l).
Proof.
  intro F. unfold nanmean. set (m := filter (fun x => negb (isnan x)) l).
  assert (M : Forall (fun v => exists q, v = Fin q /\ 0 <= q) m).
  { apply Forall_forall. intros x I. apply filter_In in I. destruct I as [I N]. rewrite Forall_forall in F. destruct (F x I) as [->|E]; [discriminate|exact E]. }
  clearbody m. destruct m as [|x m]; [left; reflexivity|]. right. set (l' := x :: m) in *.
  assert (SUM : forall k acc, 0 <= acc -> Forall (fun v => exists q, v = Fin q /\ 0 <= q) k -> exists s, fold_left nadd k (Fin acc) = Fin s /\ 0 <= s).
  { intros k. induction k as [|y k IH]; intros acc A K; [exists acc; auto|]. inversion K as [|? ? (q & -> & Q) K']; subst. cbn [fold_left nadd].
    apply IH; [lra|exact K']. }
  destruct (SUM l' 0 (Qle_refl 0) M) as (s & E & P). unfold npsum. rewrite E.
  assert (N : exists n, nofnat (length l') = Fin n /\ 0 < n).
  { unfold nofnat. eexists. split; [reflexivity|]. unfold l'. cbn [length]. unfold Qlt. cbn. lia. }
  destruct N as (n & -> & NP). cbn [ndiv]. destruct (Qeq_bool n 0) eqn:Z; [apply Qeq_bool_iff in Z; lra|].
  exists (s / n). split; [reflexivity|]. apply Qle_shift_div_l; [exact NP|lra].
Qed.
Lemma column_speed t vel : Forall (Forall speed) vel -> Forall speed (M_Geometry.column NaN t vel).
Proof.
  intro F. unfold M_Geometry.column. apply Forall_map. eapply Forall_impl; [|exact F]. intros row R. cbv beta.
  destruct (nth_in_or_default t row NaN) as [I| ->]; [rewrite Forall_forall in R; auto|left; reflexivity].
Qed.

Lemma nth_map_seq (g : nat -> bool) n t : nth t (map g (seq 0 n)) false = if Nat.ltb t n then g t else false.
Proof.
  destruct (Nat.ltb_spec t n) as [L|L].
  - rewrite (nth_indep _ false (g 0%nat)) by (rewrite map_length, seq_length; exact L). rewrite map_nth, seq_nth by exact L. reflexivity.
  - apply nth_overflow. rewrite map_length, seq_length. exact L.
Qed.

Lemma max_grow (top : nat -> num) ab ab' re re' nt depth : (forall t, speed (top t)) -> nle ab' ab -> nle re' re -> forall vel : list (list num),
  Forall2 submask
    (map2 (fun drow vrow => map (fun t => conveys ab re (top t) (nth t drow NaN) (nth t vrow NaN)) (seq 0 nt)) depth vel)
    (map2 (fun drow vrow => map (fun t => conveys ab' re' (top t) (nth t drow NaN) (nth t vrow NaN)) (seq 0 nt)) depth vel).
Proof.
  intros TOP A R. induction depth as [|d depth IH]; intros [|v vel]; [constructor..|]. cbn [map2]. constructor; [|apply IH].
  intros t. rewrite !nth_map_seq. destruct (Nat.ltb t nt); [|discriminate]. unfold conveys. rewrite !andb_true_iff, !orb_true_iff.
  intros [D [C|C]]; (split; [exact D|]); [left; exact (lower_product _ _ _ _ (TOP t) R C)|right; exact (lower_bound _ _ _ A C)].
Qed.
Lemma mean_grow (top : nat -> num) ab ab' re re' nt depth : (forall t, speed (top t)) -> nle ab' ab -> nle re' re -> forall vel : list (list num),
  Forall2 submask
    (map2 (fun drow vrow => map (fun t => nltb (Fin 0) (nth t drow NaN) && nltb ab (nth t vrow NaN) && nltb (nmul re (top t)) (nth t vrow NaN)) (seq 0 nt)) depth vel)
    (map2 (fun drow vrow => map (fun t => nltb (Fin 0) (nth t drow NaN) && nltb ab' (nth t vrow NaN) && nltb (nmul re' (top t)) (nth t vrow NaN)) (seq 0 nt)) depth vel).
Proof.
  intros TOP A R. induction depth as [|d depth IH]; intros [|v vel]; [constructor..|]. cbn [map2]. constructor; [|apply IH].
  intros t. rewrite !nth_map_seq. destruct (Nat.ltb t nt); [|discriminate]. rewrite !andb_true_iff. intros [[D C] E].
  split; [split; [exact D|exact (lower_bound _ _ _ A C)]|exact (lower_product' _ _ _ _ (TOP t) R E)].
Qed.
Lemma masks_grow smooth mean method ab ab' re re' nt depth vel : mean_speed smooth mean -> Forall (Forall speed) vel ->
  nle ab' ab -> nle re' re ->
  Forall2 submask (distinguish_conveyance smooth mean method ab re nt depth vel) (distinguish_conveyance smooth mean method ab' re' nt depth vel).
Proof.
  intros MS V A R. unfold distinguish_conveyance.
  assert (M1 : Forall2 submask (max_velocity_method ab re nt depth vel) (max_velocity_method ab' re' nt depth vel)).
  { apply (max_grow (fun t => top3_mean (M_Geometry.column NaN t vel))); auto.
    intro t. unfold top3_mean. apply mean_of_speeds, slice_speed, sort_speed, column_speed, V. }
  destruct (Z.eqb method 0); [|destruct (Z.eqb method 1); exact M1].
  apply (mean_grow (fun t => mean (smooth vel) t)); auto.
Qed.

(** ** Areas and widths *)

Lemma nle_refl a : nle (Fin a) (Fin a).
Proof. exists a, a. repeat split. apply Qle_refl. Qed.
Lemma sum_le l m : Forall2 (fun x y => (x = NaN /\ (y = NaN \/ exists b, y = Fin b /\ 0 <= b)) \/ nle x y) l m -> forall a b, a <= b ->
  nle (fold_left nadd (filter (fun x => negb (isnan x)) l) (Fin a)) (fold_left nadd (filter (fun x => negb (isnan x)) m) (Fin b)).
Proof.
  intro F. induction F as [|x y l m H F IH]; intros a b L; [exists a, b; auto|].
  destruct H as [[-> [->|(q & -> & Q)]]|(p & q & -> & -> & Q)]; cbn [filter isnan negb fold_left nadd]; apply IH; lra.
Qed.
Lemma area_grows cells masks masks' t : Forall plain_cell cells -> Forall2 submask masks masks' ->
  nle (masked_area cells masks t) (masked_area cells masks' t).
Proof.
  intros C M. unfold masked_area, nansum. apply sum_le; [|apply Qle_refl]. revert cells C. induction M as [|m m' l l' S M IH]; intros [|c cells] C; [constructor..|].
  cbn [map2]. inversion C as [|? ? [(a & E & P) _] C']; subst. constructor; [|apply IH; exact C']. specialize (S t).
  destruct (nth t m false).
  - rewrite (S eq_refl), E. right. exists a, a. repeat split. apply Qle_refl.
  - left. split; [reflexivity|]. destruct (nth t m' false); [right; exists a; auto|left; reflexivity].
Qed.
Lemma below_finite cells x y dz : Forall plain_cell cells -> exists a, wet_area_below (combine (combine cells x) y) dz = Fin a.
Proof.
  intro C. unfold wet_area_below, nansum.
  set (l := map _ _). assert (F : Forall (fun v => exists a, v = Fin a) l).
  { apply Forall_forall. intros v I. unfold l in I. apply in_map_iff in I. destruct I as ([[c a] b] & <- & I). apply filter_In in I. destruct I as [I _].
    apply in_combine_l, in_combine_l in I. rewrite Forall_forall in C. destruct (C c I) as [(q & E & _) _]. exists q. exact E. }
  clearbody l. generalize 0. induction F as [|v l (a & ->) F IH]; intro acc; [exists acc; reflexivity|]. cbn [filter isnan negb fold_left nadd]. apply IH.
Qed.
Lemma div_le x y q : 0 < q -> nle x y -> nle (ndiv x (Fin q)) (ndiv y (Fin q)).
Proof.
  intros Q (a & b & -> & -> & L). cbn [ndiv]. destruct (Qeq_bool q 0) eqn:E; [apply Qeq_bool_iff in E; lra|].
  exists (a / q), (b / q). repeat split. unfold Qdiv. apply Qmult_le_compat_r; [exact L|]. apply Qlt_le_weak, Qinv_lt_0_compat, Q.
Qed.
Lemma divs_le l m q : 0 < q -> Forall2 nle l m -> Forall2 nle (map (fun x => ndiv x (Fin q)) l) (map (fun x => ndiv x (Fin q)) m).
Proof. intros Q F. induction F; cbn [map]; constructor; auto. apply div_le; assumption. Qed.
Lemma min_le x x' y y' : nle x x' -> nle y y' -> nle (npmin x y) (npmin x' y').
Proof.
  intros (a & a' & -> & -> & L) (b & b' & -> & -> & M). unfold npmin. cbn [isnan nltb].
  destruct (Qltb b a) eqn:E1, (Qltb b' a') eqn:E2; qb; eexists; eexists; (split; [reflexivity|]); (split; [reflexivity|]); lra.
Qed.
Lemma envelope_le l m : Forall2 nle l m -> Forall2 nle (flow_width_envelope l) (flow_width_envelope m).
Proof.
  intro F. induction F as [|x y l m H F IH]; [constructor|]. cbn [flow_width_envelope].
  inversion IH as [|u v r s UV RS E1 E2]; [repeat constructor; exact H|]. constructor; [apply min_le; assumption|constructor; assumption].
Qed.
Lemma select_le mask l m : Forall2 nle l m -> Forall2 nle (select mask l) (select mask m).
Proof.
  intro F. revert mask. induction F as [|x y l m H F IH]; intros [|[] mask]; cbn [select]; auto.
Qed.

(** The columns of two geometries: wider flow widths and areas; the total
    widths are finite. *)
Definition wider_cols (a b : css_cols) : Prop :=
  k_z a = k_z b /\ k_tw a = k_tw b /\ k_wet a = k_wet b /\ k_tvol a = k_tvol b /\ Forall2 nle (k_tw a) (k_tw a) /\ Forall2 nle (k_fw a) (k_fw b) /\ Forall2 nle (k_flow a) (k_flow b).
Lemma below_wider ex len c0 fa fa' cells l : 0 < len -> (forall dz, exists a, wet_area_below cells dz = Fin a) -> (ex = true -> nle fa fa') -> forall k k',
  wider_cols k k' ->
  wider_cols (fold_left (below_z0_step ex (Fin len) c0 fa cells) l k) (fold_left (below_z0_step ex (Fin len) c0 fa' cells) l k').
Proof.
  intros LP W FA. induction l as [|dz l IH]; intros k k' H; [exact H|]. cbn [fold_left]. apply IH. unfold wider_cols, below_z0_step in *.
  cbn [k_z k_tw k_fw k_wet k_flow k_fvol k_tvol length]. destruct H as (-> & -> & -> & -> & FT & F1 & F2). split; [reflexivity|]. do 3 (split; [reflexivity|]).
  destruct (W dz) as (a & ->). repeat split; constructor; auto.
  - apply div_le; [exact LP|apply nle_refl].
  - apply div_le; [exact LP|]. destruct ex; cbn [negb]; [|apply nle_refl]. apply min_le; [apply nle_refl|auto].
  - destruct ex; cbn [negb]; [|apply nle_refl]. apply min_le; [apply nle_refl|auto].
Qed.
Lemma finish_wider ex len c0 cells cl0 cl w tv fl fl' fv fv' : 0 < len -> (forall dz, exists a, wet_area_below cells dz = Fin a) ->
  Forall2 nle w w -> Forall2 nle fl fl' -> fl <> [] ->
  wider_cols (g_cols (finish ex (Fin len) c0 cells cl0 (compute_css_above_z0 (Fin len) cl w fl tv fv)))
             (g_cols (finish ex (Fin len) c0 cells cl0 (compute_css_above_z0 (Fin len) cl w fl' tv fv'))).
Proof.
  intros LP W FW F N. unfold finish, extend_css_below_z0. cbn [g_cols].
  set (k0 := compute_css_above_z0 (Fin len) cl w fl tv fv). set (k0' := compute_css_above_z0 (Fin len) cl w fl' tv fv').
  assert (SC : wider_cols k0 k0').
  { unfold wider_cols, k0, k0', compute_css_above_z0. cbn [k_z k_tw k_fw k_wet k_flow k_fvol k_tvol]. repeat (split; [reflexivity|]).
    split; [apply divs_le; assumption|]. split; [apply envelope_le, divs_le; assumption|exact F]. }
  assert (FA : nle (hd NaN (k_flow k0)) (hd NaN (k_flow k0'))).
  { unfold k0, k0', compute_css_above_z0. cbn [k_flow]. destruct F; [contradiction N; reflexivity|assumption]. }
  assert (EZ : k_z k0 = k_z k0') by (destruct SC as (-> & _); reflexivity). clearbody k0 k0'. rewrite EZ.
  apply below_wider; auto.
Qed.

Lemma mono_first l : exists m, check_monotonicity l = true :: m.
Proof.
  unfold check_monotonicity. generalize (seq 1 (length l - 1)). intro s.
  assert (K : forall s m, exists m', fold_left (monotonicity_step l) s (true :: m) = true :: m'); [|exact (K s [])].
  clear s. intro s. induction s as [|i s IH]; intro m; [exists m; reflexivity|]. cbn [fold_left].
  assert (ST : exists m2, monotonicity_step l (true :: m) i = true :: m2)
    by (unfold monotonicity_step; cbv zeta; destruct (nltb _ _); cbn [app]; eexists; reflexivity).
  destruct ST as (m2 & ->). apply IH.
Qed.

Lemma mask_areas cells mono fm fm' nt : Forall plain_cell cells -> Forall2 submask fm fm' -> (exists m, mono = true :: m) ->
  both (fun l l' => Forall2 nle l l' /\ l <> []) (mask_index mono (map (masked_area cells fm) (seq 0 nt))) (mask_index mono (map (masked_area cells fm') (seq 0 nt))).
Proof.
  intros C G (m & ->). unfold mask_index. rewrite !map_length, seq_length.
  destruct (Nat.eqb_spec (length (true :: m)) nt) as [L|]; [|reflexivity]. cbn [both]. split.
  - apply select_le. generalize (seq 0 nt). intro l. induction l; cbn [map]; constructor; auto. apply area_grows; assumption.
  - subst nt. cbn [length seq map select]. discriminate.
Qed.
Definition wider (g g' : M_Geometry.geometry) : Prop := wider_cols (g_cols g) (g_cols g').
Lemma geometry_wider smooth mean p ab re len centre cells : mean_speed smooth mean -> 0 < len -> Forall plain_cell cells ->
  nle ab (gp_abs p) -> nle re (gp_rel p) ->
  both wider (build_geometry smooth mean p (Fin len) centre cells)
    (build_geometry smooth mean (with_thresholds ab re p) (Fin len) centre cells).
Proof.
  intros MS LP C A R. unfold build_geometry.
  cbn [with_thresholds gp_skip gp_lake gp_method gp_abs gp_rel gp_extrapolate].
  set (level := map (fun c => get_timeseries (gp_skip p) (c_level c)) cells).
  set (depth := map (fun c => get_timeseries (gp_skip p) (c_depth c)) cells).
  set (vel := map (fun c => get_timeseries (gp_skip p) (c_vel c)) cells).
  assert (V : Forall (Forall speed) vel).
  { unfold vel. apply Forall_map. eapply Forall_impl; [|exact C]. intros c [_ S]. unfold get_timeseries. apply Forall_map.
    eapply Forall_impl; [|exact (slice_speed (gp_skip p) _ S)]. intros v Q. cbv beta. destruct (neqb v M_Geometry.NODATA); [left; reflexivity|exact Q]. }
  clearbody level depth vel. cbv zeta.
  destruct (fill_centre_level _ _) as [cl0|]; [|reflexivity]. cbn [bind].
  destruct (identify_lakes _ _) as [[[lakes wet] corr]|]; [|reflexivity]. cbn [bind].
  destruct (mask_index _ cl0) as [cl|]; [|reflexivity]. cbn [bind].
  destruct (mask_index _ _) as [tv|]; [|reflexivity]. cbn [bind].
  pose proof (mono_first cl0) as NE. set (mono := check_monotonicity cl0) in *. set (nt := length (nth centre depth [])).
  pose proof (masks_grow smooth mean (gp_method p) (gp_abs p) ab (gp_rel p) re nt depth vel MS V A R) as G.
  set (fm := distinguish_conveyance smooth mean (gp_method p) (gp_abs p) (gp_rel p) nt depth vel) in *.
  set (fm' := distinguish_conveyance smooth mean (gp_method p) ab re nt depth vel) in *. clearbody fm fm'.
  set (depth2 := map _ (map2 _ depth corr)).
  pose proof (mask_ok_length mono (map (masked_volume cells depth2 fm) (seq 0 nt)) (map (masked_volume cells depth2 fm') (seq 0 nt))
    ltac:(rewrite !map_length; reflexivity)) as L1.
  destruct (mask_index mono (map (masked_volume cells depth2 fm) (seq 0 nt))) as [fv|],
    (mask_index mono (map (masked_volume cells depth2 fm') (seq 0 nt))) as [fv'|]; try contradiction; [|exact L1]. cbn [bind].
  assert (WW : Forall2 submask wet wet) by (clear; induction wet; constructor; auto; intros t H; exact H).
  pose proof (mask_areas cells mono wet wet nt C WW NE) as FW.
  destruct (mask_index mono (map (masked_area cells wet) (seq 0 nt))) as [w|]; [|reflexivity]. cbn [bind both] in FW |- *.
  pose proof (mask_areas cells mono fm fm' nt C G NE) as FL.
  destruct (mask_index mono (map (masked_area cells fm) (seq 0 nt))) as [fl|],
    (mask_index mono (map (masked_area cells fm') (seq 0 nt))) as [fl'|]; try contradiction; [|exact FL]. cbn [bind both].
  exact (finish_wider _ _ _ _ _ _ _ _ _ _ _ _ LP (fun dz => below_finite cells _ _ dz C) (proj1 FW) (proj1 FL) (proj2 FL)).
Qed.
(** C122: with lower thresholds the levels, total widths and total volumes are
    the same and no flow width is smaller, before the widths are repaired. *)
Theorem C122_lower_thresholds_widen_the_flow_partial :
  forall smooth mean p ab re len centre cells g, mean_speed smooth mean -> 0 < len -> Forall plain_cell cells ->
    nle ab (gp_abs p) -> nle re (gp_rel p) ->
    build_geometry smooth mean p (Fin len) centre cells = Ok g ->
    exists g', build_geometry smooth mean (with_thresholds ab re p) (Fin len) centre cells = Ok g' /\
      wider_cols (g_cols g) (g_cols g').
Proof.
  intros smooth mean p ab re len centre cells g MS LP C A R H.
  pose proof (geometry_wider smooth mean p ab re len centre cells MS LP C A R) as B. rewrite H in B.
  destruct (build_geometry _ _ (with_thresholds ab re p) _ _ _) as [g'|]; [|contradiction]. exists g'. split; [reflexivity|exact B].
Qed.
Print Assumptions C122_lower_thresholds_widen_the_flow_partial.

(** ** The repair of the widths *)

Lemma zero_widths_le w l m : Forall2 nle l m -> Forall2 nle (check_remove_zero_widths (Fin w) l) (check_remove_zero_widths (Fin w) m).
Proof.
  intro F. unfold check_remove_zero_widths. induction F as [|x y l m (a & b & -> & -> & L) F IH]; cbn [map]; constructor; auto. cbn [nltb].
  destruct (Qltb a w) eqn:E1, (Qltb b w) eqn:E2; qb; eexists; eexists; (split; [reflexivity|]); (split; [reflexivity|]); lra.
Qed.
(** Entry [k] of the first list exceeds that of the second by [k] millimetres
    at most. *)
Fixpoint nearly (k : Z) (l m : list num) : Prop :=
  match l, m with
  | [], [] => True
  | x :: l', y :: m' => (exists a b, x = Fin a /\ y = Fin b /\ a <= b + (k # 1000)) /\ nearly (k + 1) l' m'
  | _, _ => False
  end.
Lemma millimetre k : ((k + 1) # 1000) == (k # 1000) + (1 # 1000).
Proof. unfold Qeq. cbn. lia. Qed.
Lemma sweep_le l m : Forall2 nle l m -> forall k a b, a <= b + (k # 1000) -> (0 <= k)%Z ->
  nearly (k + 1) (increasing_sweep (Fin a) l) (increasing_sweep (Fin b) m).
Proof.
  intro F. induction F as [|x y l m (p & q & -> & -> & L) F IH]; intros k a b AB K; cbn [increasing_sweep]; [exact Logic.I|].
  pose proof (millimetre k) as MK. assert (K0 : 0 <= k # 1000) by (unfold Qle; cbn; lia).
  set (r := k # 1000) in *. set (r' := (k + 1) # 1000) in *.
  assert (LX : forall u v, nleb (Fin u) (Fin v) = true <-> u <= v) by (intros; cbn [nleb]; apply Qle_bool_iff).
  destruct (nleb (Fin p) (Fin a)) eqn:E1, (nleb (Fin q) (Fin b)) eqn:E2; cbn [nadd nearly];
    try (apply LX in E1); try (apply LX in E2);
    try (assert (N1 : ~ p <= a) by (intro Q; apply LX in Q; congruence)); try (assert (N2 : ~ q <= b) by (intro Q; apply LX in Q; congruence));
    (assert (B : exists u v : Q, u <= v + r') by (exists 0, 0; lra)); clear B;
    (split; [eexists; eexists; split; [reflexivity|]; split; [reflexivity|]; fold r'; lra|apply IH; [fold r'; lra|lia]]).
Qed.
Lemma increasing_le l m : Forall2 nle l m -> nearly 0 (check_increasing_order l) (check_increasing_order m).
Proof.
  intros [|x y l' m' (a & b & -> & -> & L) F]; [exact Logic.I|]. cbn [check_increasing_order nearly]. split.
  - exists a, b. repeat split. setoid_replace (0 # 1000) with 0 by reflexivity. lra.
  - apply (sweep_le _ _ F 0); [setoid_replace (0 # 1000) with 0 by reflexivity; lra|lia].
Qed.
Lemma total_le tw : Forall (fun x => exists a, x = Fin a) tw -> forall l m k, (0 <= k)%Z -> nearly k l m ->
  nearly k (check_total_ge_flow tw l) (check_total_ge_flow tw m).
Proof.
  intro F. unfold check_total_ge_flow. induction F as [|x tw (a & ->) F IH]; intros l m k K N.
  - destruct l, m; try contradiction; exact Logic.I.
  - destruct l as [|y l], m as [|z m]; try contradiction; [exact Logic.I|]. cbn [nearly] in N. destruct N as [(p & q & -> & -> & L) N].
    specialize (IH l m (k + 1)%Z ltac:(lia) N). cbn [map2 nearly nltb]. split; [|exact IH].
    assert (K0 : 0 <= k # 1000) by (unfold Qle; cbn; lia). set (r := k # 1000) in *.
    destruct (Qltb a p) eqn:E1, (Qltb a q) eqn:E2; qb; eexists; eexists; (split; [reflexivity|]); (split; [reflexivity|]); lra.
Qed.
Lemma nearly_finite l m k : nearly k l m -> Forall (fun x => exists a, x = Fin a) l.
Proof.
  revert m k. induction l as [|x l IH]; intros [|y m] k N; try contradiction; [constructor|]. destruct N as [(a & b & -> & _) N].
  constructor; [eauto|exact (IH m _ N)].
Qed.
Lemma nearly_nth l m : forall k i a b, nearly k l m -> nth_error l i = Some (Fin a) -> nth_error m i = Some (Fin b) -> a <= b + ((k + Z.of_nat i) # 1000).
Proof.
  revert m. induction l as [|x l IH]; intros [|y m] k i a b N A B; try contradiction; [destruct i; discriminate|].
  destruct N as [(p & q & -> & -> & L) N]. destruct i as [|i]; cbn [nth_error] in A, B.
  - injection A as ->. injection B as ->. rewrite Z.add_0_r. exact L.
  - specialize (IH m (k + 1)%Z i a b N A B). replace (k + Z.of_nat (S i))%Z with (k + 1 + Z.of_nat i)%Z by lia. exact IH.
Qed.
Lemma nearly_shape l m : forall k, nearly k l m -> length l = length m /\ forall i, (i < length l)%nat -> exists a b, nth_error l i = Some (Fin a) /\ nth_error m i = Some (Fin b).
Proof.
  revert m. induction l as [|x l IH]; intros [|y m] k N; try contradiction; [split; [reflexivity|]; intros i I; cbn in I; lia|].
  destruct N as [(p & q & -> & -> & _) N]. destruct (IH m _ N) as [E G]. split; [cbn [length]; congruence|].
  intros [|i] I; cbn [length nth_error] in *; [exists p, q; auto|]. apply G. lia.
Qed.

(** Settings with other thresholds. *)
Definition lower_settings (ab re : num) (st : settings) : settings :=
  set_conveyance (gp_method (st_geometry st)) ab re (gp_extrapolate (st_geometry st)) st.
(** C122 for the columns of a cross-section before they are simplified: row [i]
    loses [i] millimetres at most, through the repair of equal widths. *)
Theorem C122_repaired_widths_partial :
  forall smooth mean correction clean st ab re id len centre nt s w cs cs', mean_speed smooth mean -> 0 < len -> Forall plain_cell (M_Pipeline.cells_of s) ->
    nle ab (gp_abs (st_geometry st)) -> nle re (gp_rel (st_geometry st)) -> st_minwidth st = Fin w ->
    generate_cross_section smooth mean correction clean st id (Fin len) centre nt s = Ok (Some cs) ->
    generate_cross_section smooth mean correction clean (lower_settings ab re st) id (Fin len) centre nt s = Ok (Some cs') ->
    s_css_z cs = s_css_z cs' /\ s_css_tw cs = s_css_tw cs' /\ length (s_css_fw cs) = length (s_css_fw cs') /\
    forall i, (i < length (s_css_fw cs))%nat ->
      exists a b, nth_error (s_css_fw cs) i = Some (Fin a) /\ nth_error (s_css_fw cs') i = Some (Fin b) /\ a <= b + (Z.of_nat i # 1000).
Proof.
  intros smooth mean correction clean st ab re id len centre nt s w cs cs' MS LP C A R MW H H'.
  destruct (css_made _ _ _ _ _ _ _ _ _ _ _ H) as [g [A1 A2 _ _ _ _ _ _ _ _]].
  destruct (css_made _ _ _ _ _ _ _ _ _ _ _ H') as [g' [B1 B2 _ _ _ _ _ _ _ _]].
  cbn [lower_settings set_conveyance st_geometry st_minwidth] in B1, B2.
  pose proof (geometry_wider smooth mean (st_geometry st) ab re len centre _ MS LP C A R) as G.
  unfold with_thresholds in G. rewrite A1, B1 in G. cbn [both] in G. destruct G as (Z1 & Z2 & _ & _ & FT & FF & _).
  rewrite MW in A2, B2. unfold check_requirements in A2, B2. rewrite <- Z1, <- Z2 in B2.
  destruct (check_remove_duplicate_zeroes _); [|discriminate]. cbn [bind] in A2, B2.
  injection A2 as P1 P2 P3. injection B2 as Q1 Q2 Q3. rewrite <- P1, <- P2, <- P3, <- Q1, <- Q2, <- Q3. split; [reflexivity|]. split; [reflexivity|].
  pose proof (total_le _ (nearly_finite _ _ _ (increasing_le _ _ (zero_widths_le w _ _ FT))) _ _ 0 ltac:(lia) (increasing_le _ _ (zero_widths_le w _ _ FF))) as N.
  destruct (nearly_shape _ _ _ N) as [E SH]. split; [exact E|]. intros i I. destruct (SH i I) as (u & v & EA & EB). exists u, v.
  split; [exact EA|]. split; [exact EB|]. exact (nearly_nth _ _ 0 i u v N EA EB).
Qed.
Print Assumptions C122_repaired_widths_partial.

(** ** A case *)

(** Faces with water from step [k] on. *)
Definition flooded_from (k : nat) (vel area : Q) : cell :=
  mkCell (Fin area) (Fin 0) (map (fun t => if Nat.leb k t then Fin 1 else Fin 0) [0; 1; 2]%nat) (map Fin [1; 2; 3])
    (map (fun t => if Nat.leb k t then Fin vel else Fin 0) [0; 1; 2]%nat) (M_Geometry.LInt 2).
Definition threshold_faces (small : Q) : list cell :=
  repeat (flooded_from 0 1 10) 9 ++ [flooded_from 1 1 110; flooded_from 2 (1 # 10) small; flooded_from 2 0 1000].
Definition high_settings : settings :=
  mk_settings (mkParams 0 1 1 (Fin (1 # 2)) (Fin (1 # 2)) false) (Fin (1 # 2)) 20 false (Fin (1 # 2)) 0.
Definition threshold_css (small : Q) (st : settings) : res (option M_Pipeline.css) :=
  generate_cross_section (fun v => v) (fun _ _ => Fin 0) (fun _ => Raise ValueError) (fun x => x) st (T "css") (Fin 10) 0 3
    (mesh_selection (threshold_faces small)).
Definition low_settings : settings := lower_settings (Fin (1 # 100)) (Fin (3 # 100)) high_settings.
Definition last_width (r : res (option M_Pipeline.css)) : num := ask (fun c => last (s_css_fw c) NaN) NaN r.
Lemma threshold_faces_plain small : 0 <= small -> Forall plain_cell (M_Pipeline.cells_of (mesh_selection (threshold_faces small))).
Proof.
  intro P. assert (F : forall k v a, 0 <= v -> 0 <= a -> plain_cell (flooded_from k v a)).
  { intros k v a V A. split; [exists a; auto|]. cbn [flooded_from c_vel]. apply Forall_map. apply Forall_forall. intros t _. right.
    destruct (Nat.leb k t); eexists; (split; [reflexivity|]); [exact V|discriminate]. }
  assert (E : M_Pipeline.cells_of (mesh_selection (threshold_faces small)) = threshold_faces small) by reflexivity.
  rewrite E. unfold threshold_faces. cbn [repeat app]. repeat (apply Forall_cons; [apply F; first [exact P|discriminate]|]). constructor.
Qed.
(** The assumptions hold and a slow face of 50 m2 counts with the low
    thresholds only. *)
Theorem C122_case :
  mean_speed (fun v => v) (fun _ _ => Fin 0) /\ Forall plain_cell (M_Pipeline.cells_of (mesh_selection (threshold_faces 50))) /\
  neqb (last_width (threshold_css 50 high_settings)) (Fin (20001 # 1000)) = true /\
  neqb (last_width (threshold_css 50 low_settings)) (Fin 25) = true.
Proof.
  split; [intros v t _; right; exists 0; split; [reflexivity|discriminate]|]. split; [apply threshold_faces_plain; discriminate|].
  split; vm_compute; reflexivity.
Qed.
Print Assumptions C122_case.
(** A slow face of 50 cm2 reduces the width: without it the width is that of the
    level below and so is raised by a millimetre, with it the width is larger by
    half a millimetre and is kept. *)
Theorem C122_repair_refuted :
  Forall plain_cell (M_Pipeline.cells_of (mesh_selection (threshold_faces (5 # 1000)))) /\
  neqb (last_width (threshold_css (5 # 1000) high_settings)) (Fin (200010 # 10000)) = true /\
  neqb (last_width (threshold_css (5 # 1000) low_settings)) (Fin (200005 # 10000)) = true.
Proof. split; [apply threshold_faces_plain; discriminate|]. split; vm_compute; reflexivity. Qed.
Print Assumptions C122_repair_refuted.
