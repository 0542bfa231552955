(** C113: faces that stay dry, and their links, do not matter. *)
From Coq Require Import String List Ascii ZArith QArith Qround Bool Permutation Sorted Lia Lqa.
From Verif Require Import PyBase Num Text L_Num L_List M_Geometry M_Sections M_Friction M_Simplify M_Import M_Cli M_Pipeline
  Spec_Same L_Same L_SameGeometry L_SameReduce T_Pipeline T_Friction T_Same T_Mesh.
Import ListNotations.
Local Open Scope Q_scope.

(** ** Specification *)

(** No water in any of the used time steps: a depth that is zero, negative or
    missing.  [n] is the number of time steps in the file. *)
Definition stays_dry (p : geom_params) (n : nat) (d : cell) : Prop :=
  length (c_depth d) = n /\ Forall (fun x => nltb (Fin 0) x = false) (get_timeseries (gp_skip p) (c_depth d)).

(** [cells'] are the faces [cells], in their order, with dry faces that satisfy
    [P] anywhere between them. *)
Inductive with_dry (p : geom_params) (n : nat) (P : cell -> Prop) : list cell -> list cell -> Prop :=
| with_nil : with_dry p n P [] []
| with_face c l l' : with_dry p n P l l' -> with_dry p n P (c :: l) (c :: l')
| with_more d l l' : stays_dry p n d -> P d -> with_dry p n P l l' -> with_dry p n P l (d :: l').

(** The velocity of a dry face is zero in all used time steps. *)
Definition stands_still (p : geom_params) (n : nat) (d : cell) : Prop :=
  forall t, (t < n)%nat -> num_eq (nth t (get_timeseries (gp_skip p) (c_vel d)) NaN) (Fin 0).
(** The velocities of a face are known in all used time steps. *)
Definition velocity_known (p : geom_params) (n : nat) (c : cell) : Prop :=
  forall t, (t < n)%nat -> exists q, nth t (get_timeseries (gp_skip p) (c_vel c)) NaN = Fin q /\ 0 <= q.

(** ** The sums leave out the dry faces *)

Lemma dry_never_wet p n d t : stays_dry p n d -> nth t (cwet p d) false = false.
Proof.
  intros (_ & F). unfold cwet, wet_not_lake. change (get_timeseries (gp_skip p) (c_depth d)) with (cdepth p d) in F.
  generalize (lake_mask_time (clake p d) (cdepth p d)). revert t.
  induction F as [|x l X F IH]; intros t m; [destruct t; reflexivity|].
  destruct m as [|b m]; [destruct t; reflexivity|]. cbn [map2]. destruct t; cbn [nth]; [rewrite X; reflexivity|apply IH].
Qed.
Lemma dry_first p n d : stays_dry p n d -> hd false (cwet p d) = false.
Proof. intro H. pose proof (dry_never_wet p n d 0 H) as K. destruct (cwet p d); exact K. Qed.
Lemma dry_never_flows p n d nt top t : stays_dry p n d -> nth t (cflow p nt top d) false = false.
Proof.
  intros (_ & F). unfold cflow. change (get_timeseries (gp_skip p) (c_depth d)) with (cdepth p d) in F.
  assert (K : forall u, nltb (Fin 0) (nth u (cdepth p d) NaN) = false).
  { intro u. destruct (Nat.ltb u (length (cdepth p d))) eqn:U.
    - apply Nat.ltb_lt in U. rewrite Forall_forall in F. apply F, nth_In, U.
    - apply Nat.ltb_ge in U. rewrite nth_overflow by exact U. reflexivity. }
  destruct (nth_in_or_default t (map (fun u => conveys (gp_abs p) (gp_rel p) (top u) (nth u (cdepth p d) NaN) (nth u (cvel p d) NaN)) (seq 0 nt)) false) as [I|I].
  - apply in_map_iff in I. destruct I as (u & <- & _). unfold conveys. rewrite K. reflexivity.
  - exact I.
Qed.

Lemma nansum_with_dry p n P (f : cell -> num) cells cells' : with_dry p n P cells cells' ->
  (forall d, stays_dry p n d -> f d = NaN) -> nansum (map f cells') = nansum (map f cells).
Proof.
  intros W K. unfold nansum. f_equal. induction W as [|c l l' W IH|d l l' D _ W IH]; [reflexivity| |].
  - cbn [map filter]. destruct (negb _); congruence.
  - cbn [map filter]. rewrite (K d D). exact IH.
Qed.
Lemma filter_with_dry {B} p n P (g : cell -> B) (b : B -> bool) cells cells' : with_dry p n P cells cells' ->
  (forall d, stays_dry p n d -> b (g d) = false) -> filter b (map g cells') = filter b (map g cells).
Proof.
  intros W K. induction W as [|c l l' W IH|d l l' D _ W IH]; [reflexivity| |].
  - cbn [map filter]. destruct (b (g c)); congruence.
  - cbn [map filter]. rewrite (K d D). exact IH.
Qed.
Lemma depth_length p c d : length (c_depth d) = length (c_depth c) -> length (cdepth p d) = length (cdepth p c).
Proof. intro H. unfold cdepth, get_timeseries. rewrite !map_length. unfold slice_from. rewrite !skipn_length, H. reflexivity. Qed.
Lemma py_index_ok {A} (l m : list A) k : length l = length m ->
  match py_index l k, py_index m k with Ok _, Ok _ => True | Raise _, Raise _ => True | _, _ => False end.
Proof.
  intro H. unfold py_index. cbv zeta. rewrite H.
  set (k' := if (k <? 0)%Z then (k + Z.of_nat (length m))%Z else k). destruct (k' <? 0)%Z; [exact I|].
  destruct (nth_error l (Z.to_nat k')) eqn:E, (nth_error m (Z.to_nat k')) eqn:F; auto.
  - apply nth_error_None in F. assert (Z.to_nat k' < length l)%nat by (apply nth_error_Some; congruence). lia.
  - apply nth_error_None in E. assert (Z.to_nat k' < length m)%nat by (apply nth_error_Some; congruence). lia.
Qed.
Lemma lake_known_length L l m : length l = length m -> lake_known L l = lake_known L m.
Proof.
  intro H. unfold lake_known, is_lake. pose proof (py_index_ok l m L H) as A. pose proof (py_index_ok l m 0 H) as B.
  destruct (py_index l L), (py_index m L); try contradiction; cbn [bind]; auto.
  destruct (py_index l 0), (py_index m 0); try contradiction; reflexivity.
Qed.
Lemma known_with_dry p n P cells cells' c : with_dry p n P cells cells' -> In c cells -> length (c_depth c) = n ->
  forallb (fun c => lake_known (gp_lake p) (cdepth p c)) cells' = forallb (fun c => lake_known (gp_lake p) (cdepth p c)) cells.
Proof.
  intros W I N.
  assert (K : forallb (fun c => lake_known (gp_lake p) (cdepth p c)) cells' =
              (forallb (fun c => lake_known (gp_lake p) (cdepth p c)) cells &&
               (lake_known (gp_lake p) (cdepth p c) || Nat.eqb (length cells') (length cells)))).
  { clear I. induction W as [|a l l' W IH|d l l' (D & _) _ W IH]; [destruct (lake_known _ _); reflexivity| |].
    - cbn [forallb length]. rewrite IH, <- andb_assoc. reflexivity.
    - cbn [forallb length].
      assert (LE : (length l <= length l')%nat) by (clear -W; induction W; cbn; lia).
      rewrite IH. rewrite (lake_known_length (gp_lake p) (cdepth p d) (cdepth p c)) by (apply depth_length; congruence).
      destruct (lake_known _ (cdepth p c)) eqn:E; cbn [andb orb]; [destruct (Nat.eqb _ _); rewrite ?andb_true_r; reflexivity|].
      destruct (Nat.eqb_spec (S (length l')) (length l)); [lia|]. rewrite andb_false_r. reflexivity. }
  rewrite K. destruct (forallb _ cells) eqn:E; [|reflexivity]. rewrite forallb_forall in E. rewrite (E c I). reflexivity.
Qed.

Lemma below_same e len z d cells cells' k :
  (forall dz, wet_area_below cells' dz = wet_area_below cells dz) ->
  extend_css_below_z0 e len z d cells' k = extend_css_below_z0 e len z d cells k.
Proof.
  intro W. unfold extend_css_below_z0. cbv zeta. generalize (hd NaN (k_flow k)) (linspace10 (nsub z (nsub z d))).
  intros f l. revert k. induction l as [|dz l IH]; intro k; [reflexivity|]. cbn [fold_left].
  replace (below_z0_step e len z f cells' k dz) with (below_z0_step e len z f cells k dz); [apply IH|].
  unfold below_z0_step. rewrite W. reflexivity.
Qed.
Lemma finish_same p n P len cells cells' cd cl tv fv wa fa : with_dry p n P cells cells' ->
  finish_geometry p len cells' cd cl tv fv wa fa = finish_geometry p len cells cd cl tv fv wa fa.
Proof.
  intro W. unfold finish_geometry. cbv zeta.
  repeat (match goal with |- bind ?m _ = bind ?m _ => destruct m; [|reflexivity] end; cbn [bind]).
  rewrite (below_same _ _ _ _ (map (fun c => (c, hd NaN (clevel p c), hd false (cwet p c))) cells)); [reflexivity|].
  intro dz. unfold wet_area_below. f_equal. f_equal. apply (filter_with_dry p n P); [exact W|].
  intros d D. cbn [fst snd]. rewrite (dry_first p n d D). apply andb_false_r.
Qed.

(** ** The three highest velocities *)

Lemma lowest_first z l : num_eq z (Fin 0) -> Forall (fun x => exists q, x = Fin q /\ 0 <= q) l ->
  sort_values (z :: l) = z :: sort_values l.
Proof.
  intros Z F. unfold sort_values. cbn [fold_right].
  assert (G : Forall (fun x => exists q, x = Fin q /\ 0 <= q) (fold_right insert_num [] l)).
  { induction F as [|x l X F IH]; [constructor|]. cbn [fold_right]. revert IH. generalize (fold_right insert_num [] l). clear -X.
    intros m M. induction M as [|y m Y M IH]; cbn; [auto|]. destruct (sort_le x y); auto. }
  destruct G as [|y m (q & -> & Q) G]; [reflexivity|]. cbn [insert_num]. unfold sort_le.
  destruct z as [a| | |]; try contradiction. cbn in Z. cbn [isnan nleb orb].
  replace (Qle_bool a q) with true by (symmetry; apply Qle_bool_iff; lra). reflexivity.
Qed.
Lemma sort_length l : length (sort_values l) = length l.
Proof.
  unfold sort_values. induction l as [|x l IH]; [reflexivity|]. cbn [fold_right length]. rewrite <- IH.
  generalize (fold_right insert_num [] l). clear. intro m. induction m as [|y m IH]; [reflexivity|]. cbn.
  destruct (sort_le x y); cbn; auto.
Qed.
Lemma lowest_not_among_three z l : num_eq z (Fin 0) -> Forall (fun x => exists q, x = Fin q /\ 0 <= q) l ->
  (3 <= length l)%nat -> top3_mean (z :: l) = top3_mean l.
Proof.
  intros Z F L. unfold top3_mean. rewrite lowest_first by assumption. f_equal. unfold slice_from, slice_bound.
  change (-3 <? 0)%Z with true. cbv iota. cbn [length]. rewrite sort_length.
  replace (Nat.min (S (length l)) (Z.to_nat (-3 + Z.of_nat (S (length l))))) with (S (length l - 3)) by lia.
  replace (Nat.min (length l) (Z.to_nat (-3 + Z.of_nat (length l)))) with (length l - 3)%nat by lia. reflexivity.
Qed.
(** If the velocities of the faces are known, and there are three of them, the
    dry faces are not among the three highest. *)
Lemma highest_with_dry p m n cells cells' t : (t < m)%nat -> with_dry p n (stands_still p m) cells cells' ->
  Forall (velocity_known p m) cells -> (3 <= length cells)%nat ->
  num_eq (highest_velocity p cells' t) (highest_velocity p cells t).
Proof.
  intros T W K L. unfold highest_velocity. set (v := fun c => nth t (get_timeseries (gp_skip p) (c_vel c)) NaN).
  assert (S : exists dry, Permutation (map v cells') (map v dry ++ map v cells) /\ Forall (stands_still p m) dry).
  { clear K L. induction W as [|c l l' W (dry & P & F)|d l l' D S W (dry & P & F)].
    - exists []. auto.
    - exists dry. split; [|exact F]. cbn [map]. eapply perm_trans; [apply perm_skip, P|]. apply Permutation_middle.
    - exists (d :: dry). split; [cbn [map app]; apply perm_skip, P|constructor; auto]. }
  destruct S as (dry & P & F).
  apply num_eq_trans with (top3_mean (map v dry ++ map v cells)).
  { apply top3_mean_reordered. exists (map v dry ++ map v cells). split; [exact P|]. apply F2_refl. apply num_eq_refl. }
  assert (V : Forall (fun x => exists q, x = Fin q /\ 0 <= q) (map v cells)).
  { apply Forall_map. revert K. apply Forall_impl. intros c C. exact (C t T). }
  clear P K W. replace (top3_mean (map v dry ++ map v cells)) with (top3_mean (map v cells)); [apply num_eq_refl|].
  induction F as [|d dry D F IH]; [reflexivity|]. cbn [map app]. rewrite IH. symmetry. apply lowest_not_among_three.
  - exact (D t T).
  - apply Forall_app. split; [|exact V]. clear IH. apply Forall_map. revert F. apply Forall_impl. intros c C.
    specialize (C t T). unfold v. destruct (nth t _ NaN) as [q| | |]; try contradiction. exists q. cbn in C. split; [reflexivity|lra].
  - rewrite app_length, !map_length. lia.
Qed.

(** ** The geometry *)

(** C113.  With dry faces added levels, total widths, wet areas and total
    volumes of the geometry are the same, whatever their velocities, bed levels
    and areas; all is the same if the highest velocities are. *)
Theorem C113_dry_faces_partial :
  forall smooth mean p len n P cells cells' i i' c,
    gp_method p <> 0%Z -> with_dry p n P cells cells' ->
    nth_error cells i = Some c -> nth_error cells' i' = Some c -> length (c_depth c) = n ->
    res_rel same_totals (build_geometry smooth mean p len i cells) (build_geometry smooth mean p len i' cells') /\
    ((forall t, (t < length (get_timeseries (gp_skip p) (c_depth c)))%nat ->
        num_eq (highest_velocity p cells' t) (highest_velocity p cells t)) ->
     build_geometry smooth mean p len i' cells' = build_geometry smooth mean p len i cells).
Proof.
  intros smooth mean p len n P cells cells' i i' c M W Ci Ci' N. rewrite !build_geometry_cells by auto. cbv zeta.
  assert (ND : forall f : cell -> list num, nth i (map f cells) [] = f c /\ nth i' (map f cells') [] = f c).
  { intro f. split; apply nth_error_nth; rewrite nth_error_map; [rewrite Ci|rewrite Ci']; reflexivity. }
  rewrite (proj1 (ND (cdepth p))), (proj2 (ND (cdepth p))), (proj1 (ND (clevel p))), (proj2 (ND (clevel p))).
  change (get_timeseries (gp_skip p) (c_depth c)) with (cdepth p c). set (nt := length (cdepth p c)). set (cd := cdepth p c).
  destruct (fill_centre_level cd (clevel p c)) as [cl|e]; [|split; [reflexivity|auto]]. cbn [bind].
  rewrite (known_with_dry p n P cells cells' c W (nth_error_In _ _ Ci) N).
  destruct (forallb _ cells); [|split; [reflexivity|auto]].
  rewrite (finish_same p n P len cells cells') by exact W.
  set (top := fun t => top3_mean (map (fun c => nth t (cvel p c) NaN) cells)).
  set (top' := fun t => top3_mean (map (fun c => nth t (cvel p c) NaN) cells')).
  assert (MA : forall m : cell -> list bool, (forall d t, stays_dry p n d -> nth t (m d) false = false) -> forall t,
     masked_area cells' (map m cells') t = masked_area cells (map m cells) t).
  { intros m H t. rewrite !masked_area_map. apply (nansum_with_dry p n P); auto. intros d D. rewrite (H d t D). reflexivity. }
  assert (MV : forall m : cell -> list bool, (forall d t, stays_dry p n d -> nth t (m d) false = false) -> forall e t,
     masked_volume cells' (map e cells') (map m cells') t = masked_volume cells (map e cells) (map m cells) t).
  { intros m H e t. rewrite !masked_volume_map. apply (nansum_with_dry p n P); auto. intros d D. rewrite (H d t D). reflexivity. }
  assert (DW : forall d t, stays_dry p n d -> nth t (cwet p d) false = false) by (intros d t; apply dry_never_wet).
  assert (DF : forall h d t, stays_dry p n d -> nth t (cflow p nt h d) false = false) by (intros h d t; apply dry_never_flows).
  rewrite (map_ext _ _ (MV _ DW _)), (map_ext _ _ (MA _ DW)), (map_ext _ _ (MV _ (DF top') _)), (map_ext _ _ (MA _ (DF top'))).
  split.
  - pose proof (finish_fine p len cells cells cd cl
      (map (masked_volume cells (map (ceff p (hd NaN cd)) cells) (map (cwet p) cells)) (seq 0 nt)) _
      (map (masked_volume cells (map (ceff p (hd NaN cd)) cells) (map (cflow p nt top) cells)) (seq 0 nt))
      (map (masked_volume cells (map (ceff p (hd NaN cd)) cells) (map (cflow p nt top') cells)) (seq 0 nt))
      (map (masked_area cells (map (cwet p) cells)) (seq 0 nt)) _
      (map (masked_area cells (map (cflow p nt top) cells)) (seq 0 nt))
      (map (masked_area cells (map (cflow p nt top') cells)) (seq 0 nt))
      (F2_refl _ _ num_eq_refl) (F2_refl _ _ num_eq_refl) ltac:(rewrite !map_length; reflexivity)
      ltac:(rewrite !map_length; reflexivity) (fun dz => num_eq_refl _)) as R.
    revert R. destruct (finish_geometry p len cells cd cl _ _ _ (map (masked_area cells (map (cflow p nt top) cells)) _)),
      (finish_geometry p len cells cd cl _ _ _ (map (masked_area cells (map (cflow p nt top') cells)) _)); cbn [res_rel]; auto.
    intros (R & _). exact R.
  - intro H. assert (FE : map (cflow p nt top') cells = map (cflow p nt top) cells).
    { apply map_ext. intro a. unfold cflow. apply map_ext_in. intros t T. apply in_seq in T.
      unfold conveys. f_equal. f_equal. apply nltb_eq; [|apply num_eq_refl]. apply nmul_eq; [|apply num_eq_refl].
      apply H. lia. }
    rewrite FE. reflexivity.
Qed.
Print Assumptions C113_dry_faces_partial.

(** So it is if the dry faces stand still and the others have known velocities. *)
Theorem C113_dry_faces_that_stand_still :
  forall smooth mean p len n cells cells' i i' c,
    let nt := length (get_timeseries (gp_skip p) (c_depth c)) in
    gp_method p <> 0%Z -> with_dry p n (stands_still p nt) cells cells' ->
    nth_error cells i = Some c -> nth_error cells' i' = Some c -> length (c_depth c) = n ->
    Forall (velocity_known p nt) cells -> (3 <= length cells)%nat ->
    build_geometry smooth mean p len i' cells' = build_geometry smooth mean p len i cells.
Proof.
  intros smooth mean p len n cells cells' i i' c nt M W Ci Ci' N K L.
  apply (C113_dry_faces_partial smooth mean p len n _ cells cells' i i' c M W Ci Ci' N).
  intros t T. apply (highest_with_dry p nt n); auto.
Qed.
Print Assumptions C113_dry_faces_that_stand_still.

(** ** The links *)

(** A link without water has no friction value in the used time steps. *)
Definition dry_link (n : nat) (row : list num) : Prop :=
  forall t, (t < n)%nat -> nth t row NaN = NaN \/ num_eq (nth t row NaN) (Fin 0).
(** The links with dry ones between them; the sections of these are among
    [known]. *)
Inductive with_dry_links (n : nat) (known : list string) : list string -> list (list num) -> list string -> list (list num) -> Prop :=
| links_nil : with_dry_links n known [] [] [] []
| links_keep s r ss rs ss' rs' : with_dry_links n known ss rs ss' rs' ->
    with_dry_links n known (s :: ss) (r :: rs) (s :: ss') (r :: rs')
| links_more s r ss rs ss' rs' : In s known -> dry_link n r -> with_dry_links n known ss rs ss' rs' ->
    with_dry_links n known ss rs (s :: ss') (r :: rs').

Lemma sorted_ext l : str_sorted l -> forall m, str_sorted m -> (forall x, In x l <-> In x m) -> l = m.
Proof.
  unfold str_sorted. induction 1 as [|a l Sl IH A]; intros m Sm E.
  - destruct m as [|b m]; [reflexivity|]. destruct (proj2 (E b) (or_introl eq_refl)).
  - destruct Sm as [|b m Sm B]; [destruct (proj1 (E a) (or_introl eq_refl))|].
    rewrite Forall_forall in A, B.
    assert (a = b) as ->.
    { destruct (proj1 (E a) (or_introl eq_refl)) as [X|X]; [auto|]. destruct (proj2 (E b) (or_introl eq_refl)) as [Y|Y]; [auto|].
      exfalso. apply (compare_irrefl a). eapply compare_trans; [apply A, Y|apply B, X]. }
    f_equal. apply IH; [exact Sm|]. intro x. specialize (E x). split; intro X.
    + destruct (proj1 E (or_intror X)) as [->|Y]; [|exact Y]. exfalso. apply (compare_irrefl x), A, X.
    + destruct (proj2 E (or_intror X)) as [->|Y]; [|exact Y]. exfalso. apply (compare_irrefl x), B, X.
Qed.
Lemma links_sections n known ss rs ss' rs' : with_dry_links n known ss rs ss' rs' ->
  forall x, In x ss' -> In x ss \/ In x known.
Proof. induction 1; intros x X; cbn in *; [contradiction| |]; destruct X as [<-|X]; auto; destruct (IHwith_dry_links x X); auto. Qed.
Lemma links_kept n known ss rs ss' rs' : with_dry_links n known ss rs ss' rs' -> forall x, In x ss -> In x ss'.
Proof. induction 1; intros x X; cbn in *; [contradiction| |right; auto]. destruct X; auto. Qed.
Lemma links_lengths n known ss rs ss' rs' : with_dry_links n known ss rs ss' rs' ->
  length ss = length rs /\ length ss' = length rs'.
Proof. induction 1; cbn; lia. Qed.
Lemma dry_rows_no_friction n known ss rs ss' rs' t s : (t < n)%nat -> with_dry_links n known ss rs ss' rs' ->
  nanmean (map zero_to_nan (M_Friction.column t (select (map (String.eqb s) ss') rs'))) =
  nanmean (map zero_to_nan (M_Friction.column t (select (map (String.eqb s) ss) rs))).
Proof.
  intros T W. unfold nanmean. cbv zeta.
  assert (E : filter (fun x => negb (isnan x)) (map zero_to_nan (M_Friction.column t (select (map (String.eqb s) ss') rs'))) =
              filter (fun x => negb (isnan x)) (map zero_to_nan (M_Friction.column t (select (map (String.eqb s) ss) rs)))).
  { induction W as [|a r ss rs ss' rs' W IH|a r ss rs ss' rs' _ D W IH]; [reflexivity| |].
    - cbn [map select]. destruct (String.eqb s a); [|exact IH]. cbn [M_Friction.column map filter]. unfold M_Friction.column in IH. rewrite IH. reflexivity.
    - cbn [map select]. destruct (String.eqb s a); [|exact IH]. cbn [M_Friction.column map filter]. unfold M_Friction.column in IH.
      replace (zero_to_nan (nth t r NaN)) with NaN; [exact IH|]. unfold zero_to_nan.
      destruct (D t T) as [->|Z]; [reflexivity|]. destruct (nth t r NaN) as [q| | |]; try contradiction. cbn in Z |- *.
      replace (Qeq_bool q 0) with true by (symmetry; apply Qeq_bool_iff, Z). reflexivity. }
  rewrite E. reflexivity.
Qed.

(** C113.  With links added that have no friction value, in sections that have
    links already, the roughness tables are the same. *)
Theorem C113_dry_links :
  forall (Lev : Type) skip (z : list Lev) d d',
    nsteps d' = nsteps d ->
    with_dry_links (nsteps d) (edge_section d) (edge_section d) (chezy d) (edge_section d') (chezy d') ->
    build_roughness_tables 0 skip z d' = build_roughness_tables 0 skip z d.
Proof.
  intros Lev skip z d d' N W. unfold build_roughness_tables.
  replace (np_unique (edge_section d')) with (np_unique (edge_section d)).
  2:{ apply sorted_ext; try apply np_unique_sorted. intro x. rewrite !np_unique_In. split; intro X.
      - apply (links_kept _ _ _ _ _ _ W), X.
      - destruct (links_sections _ _ _ _ _ _ W x X); auto. }
  destruct (links_lengths _ _ _ _ _ _ W) as (L & L').
  assert (B : forall s, build_table 0 skip z d' s = build_table 0 skip z d s).
  { intro s. unfold build_table, mask_index, section_is. rewrite !map_length, L, L', !Nat.eqb_refl. cbn [bind Z.eqb].
    rewrite N. f_equal. unfold friction_simple. apply map_ext_in. intros t T. f_equal.
    apply (dry_rows_no_friction (nsteps d) (edge_section d)); [|exact W].
    unfold slice_from in T.
    assert (T' : In t (seq 0 (nsteps d))) by (rewrite <- (firstn_skipn (slice_bound (length (seq 0 (nsteps d))) skip)); apply in_or_app; right; exact T).
    apply in_seq in T'. lia. }
  generalize (np_unique (edge_section d)). intro l. generalize (@nil (string * table Lev)).
  induction l as [|s l IH]; intro tabs; [reflexivity|]. cbn [fold_res]. rewrite B.
  destruct (build_table 0 skip z d s); cbn [bind]; auto.
Qed.
Print Assumptions C113_dry_links.

(** ** The cross-section *)

(** The cross-section without the lists of its faces and links. *)
Definition but_faces (r : res (option css)) : res (option css) :=
  match r with
  | Ok (Some c) => Ok (Some (mk_css (s_name c) (s_z c) (s_tw c) (s_fw c) (s_css_z c) (s_css_tw c) (s_css_fw c) (s_crest c)
                             (s_extra_total c) (s_extra_flow c) (s_tables c) (s_widths c) (s_base c) [] []))
  | r => r
  end.

(** The section of a face is a name, as the polygons give. *)
Definition named (c : cell) : Prop := exists s, c_section c = M_Geometry.LStr s.

Lemma pick_with_dry p n P k cells cells' : with_dry p n P cells cells' -> (forall d, P d -> named d) ->
  forall f : cell -> num,
  mask_index (map (label_is k) (map section_of (map c_section cells'))) (map f cells') =
  mask_index (map (label_is k) (map section_of (map c_section cells))) (map f cells).
Proof.
  intros W NM f. rewrite !map_map, !pick_cells. f_equal. f_equal.
  induction W as [|c l l' W IH|d l l' D Pd W IH]; [reflexivity| |]; cbn [filter].
  - destruct (label_is k _); congruence.
  - destruct (NM d Pd) as (s & ->). exact IH.
Qed.
Lemma any_with_dry p n P k cells cells' : with_dry p n P cells cells' -> (forall d, P d -> named d) ->
  existsb (fun b => b) (map (label_is k) (map section_of (map c_section cells'))) =
  existsb (fun b => b) (map (label_is k) (map section_of (map c_section cells))).
Proof.
  intros W NM. induction W as [|c l l' W IH|d l l' D Pd W IH]; [reflexivity| |]; cbn [map existsb].
  - rewrite IH. reflexivity.
  - destruct (NM d Pd) as (s & ->). exact IH.
Qed.

(** C113.  A control volume with ten faces or more, all with known velocities,
    and with sections from polygons for the faces that are added: the
    cross-section is the same, apart from the list of faces and links. *)
Theorem C113_cross_section_partial :
  forall smooth mean correction clean st name len n m m' nt s s' i i' c,
    let p := st_geometry st in
    let used := length (get_timeseries (gp_skip p) (c_depth c)) in
    gp_method p <> 0%Z -> st_weighing st = 0%Z -> all_columns s m -> all_columns s' m' -> (10 <= m)%nat ->
    with_dry p n (fun d => stands_still p used d /\ named d) (cells_of s) (cells_of s') ->
    nth_error (cells_of s) i = Some c -> nth_error (cells_of s') i' = Some c -> length (c_depth c) = n ->
    Forall (velocity_known p used) (cells_of s) ->
    with_dry_links nt (edge_section (links_of nt s)) (edge_section (links_of nt s)) (s_chezy s)
      (edge_section (links_of nt s')) (s_chezy s') ->
    but_faces (generate_cross_section smooth mean correction clean st name len i' nt s') =
    but_faces (generate_cross_section smooth mean correction clean st name len i nt s).
Proof.
  intros smooth mean correction clean st name len n m m' nt s s' i i' c p used M WM C C' TEN W Ci Ci' N K WL.
  assert (LE : (m <= m')%nat).
  { rewrite <- (cells_length s m C), <- (cells_length s' m' C'). clear -W. induction W; cbn; lia. }
  destruct (columns_of_cells s m C) as (CA & CB & CS). destruct (columns_of_cells s' m' C') as (CA' & CB' & CS').
  unfold generate_cross_section.
  assert (X : length (s_x s) = m) by apply C. assert (X' : length (s_x s') = m') by apply C'. rewrite X, X'.
  destruct (Nat.ltb_spec m 10); [lia|]. destruct (Nat.ltb_spec m' 10); [lia|].
  unfold build_cross_section_geometry. fold p.
  assert (W' : with_dry p n (stands_still p used) (cells_of s) (cells_of s')).
  { clear -W. induction W; constructor; auto. apply H0. }
  rewrite (C113_dry_faces_that_stand_still smooth mean p len n (cells_of s) (cells_of s') i i' c M W' Ci Ci' N K)
    by (rewrite (cells_length s m C); lia).
  destruct (build_geometry smooth mean p len i (cells_of s)) as [g|e]; [|reflexivity]. cbn [bind].
  destruct (check_requirements _ _ _ _) as [full|e]; [|reflexivity]. cbn [bind].
  destruct (reduce_css_points _ full) as [red|e]; [|reflexivity]. cbn [bind].
  destruct (perform_correction _ _ g len) as [[cr tt] ff]. destruct full as [[z tw] fw]. destruct red as [[z2 tw2] fw2].
  rewrite WM, (C113_dry_links _ (gp_skip p) (g_z_roughness g) (links_of nt s) (links_of nt s') eq_refl WL).
  destruct (build_roughness_tables _ _ _ _) as [tabs|e]; [|reflexivity]. cbn [bind].
  rewrite CA, CA', CB, CB', CS, CS'.
  assert (NM : forall d, (stands_still p used d /\ named d) -> named d) by (intros d D; apply D).
  assert (E : nsection_widths len (map c_area (cells_of s')) (map section_of (map c_section (cells_of s'))) fw2 fw =
              nsection_widths len (map c_area (cells_of s)) (map section_of (map c_section (cells_of s))) fw2 fw).
  { unfold nsection_widths. cbv zeta.
    rewrite !(pick_with_dry p n _ _ (cells_of s) (cells_of s') W NM). reflexivity. }
  rewrite E. clear E. destruct (nsection_widths _ _ _ _ _) as [w|e]; [|reflexivity]. cbn [bind].
  assert (F : compute_floodplain_base cr (st_base st) (map c_bed (cells_of s')) (map section_of (map c_section (cells_of s'))) =
              compute_floodplain_base cr (st_base st) (map c_bed (cells_of s)) (map section_of (map c_section (cells_of s)))).
  { unfold compute_floodplain_base. cbv zeta. rewrite (any_with_dry p n _ _ (cells_of s) (cells_of s') W NM).
    rewrite (pick_with_dry p n _ _ (cells_of s) (cells_of s') W NM). reflexivity. }
  rewrite F. clear F. destruct (compute_floodplain_base _ _ _ _) as [b|e]; reflexivity.
Qed.
Print Assumptions C113_cross_section_partial.

(** ** Cases *)

(** A face at a bed level of 9 m that the water does not reach. *)
Definition dry_cell (vel : num) (section : M_Geometry.label) : cell :=
  mkCell (Fin 500) (Fin 9) [Fin 0; Fin 0; Fin 0] [Fin 9; Fin 9; Fin 9] [vel; vel; vel] section.
Lemma dry_cell_dry vel section : stays_dry default_params 3 (dry_cell vel section).
Proof. split; [reflexivity|]. repeat constructor. Qed.
Lemma with_dry_front p n (P : cell -> Prop) d l : stays_dry p n d -> P d -> with_dry p n P l (d :: l).
Proof. intros A B. constructor; auto. clear. induction l; constructor; auto. Qed.

(** A dry face in front of the three faces of C100_case: thirteen rows, 9 m
    wide at the top, all conveying. *)
Theorem C113_case :
  let dry := dry_cell (Fin 0) (M_Geometry.LStr "floodplain1") in
  with_dry default_params 3 (stands_still default_params 3) coarse_mesh (dry :: coarse_mesh) /\
  Forall (velocity_known default_params 3) coarse_mesh /\
  exists g, mesh_run coarse_mesh 0 = Ok g /\ mesh_run (dry :: coarse_mesh) 1 = Ok g /\
    length (k_z (g_cols g)) = 13%nat /\
    num_eq (nth 12 (k_tw (g_cols g)) NaN) (Fin 9) /\ num_eq (nth 12 (k_fw (g_cols g)) NaN) (Fin 9).
Proof.
  cbv zeta. set (dry := dry_cell (Fin 0) (M_Geometry.LStr "floodplain1")).
  assert (W : with_dry default_params 3 (stands_still default_params 3) coarse_mesh (dry :: coarse_mesh)).
  { apply with_dry_front; [apply dry_cell_dry|]. intros t T. do 3 (destruct t as [|t]; [vm_compute; reflexivity|]). lia. }
  assert (K : Forall (velocity_known default_params 3) coarse_mesh).
  { repeat constructor; intros t T; do 3 (destruct t as [|t]; [eexists; split; [reflexivity|vm_compute; discriminate]|]); lia. }
  split; [exact W|]. split; [exact K|].
  pose (f := fun g => (length (k_z (g_cols g)), in_lowest_terms (nth 12 (k_tw (g_cols g)) NaN), in_lowest_terms (nth 12 (k_fw (g_cols g)) NaN))).
  destruct (got_geometry_some f (mesh_run coarse_mesh 0) (13%nat, Fin 9, Fin 9)) as (g & E & G); [vm_compute; reflexivity|].
  unfold f in G. injection G as G1 G2 G3.
  exists g. split; [exact E|]. split.
  - rewrite <- E. unfold mesh_run.
    apply (C113_dry_faces_that_stand_still (fun v => v) (fun _ _ => NaN) default_params (Fin 100) 3 coarse_mesh (dry :: coarse_mesh) 0 1
      (mesh_cell 0 (6 # 10) 300)); try reflexivity; auto. discriminate.
  - split; [exact G1|]. split; [rewrite <- G2|rewrite <- G3]; apply in_lowest_terms_eq.
Qed.
Print Assumptions C113_case.

(** The map file has the no-data value -999 for both components of the velocity
    of a dry face: the magnitude is 1412.8 m/s (see C31), which is among the three
    highest.  The other faces stop conveying: the flow width at the top is 3 m
    instead of 9 m. *)
Definition square_root_of_no_data (x : num) : num := Fin (14127993 # 10000).
Theorem C113_no_data_velocity_refuted :
  Qabs.Qabs ((14127993 # 10000) * (14127993 # 10000) - ((-999) * (-999) + (-999) * (-999))) <= 1 # 4 /\
  let vel := hd NaN (magnitude square_root_of_no_data [M_Geometry.NODATA] [M_Geometry.NODATA]) in
  let dry := dry_cell vel (M_Geometry.LStr "floodplain1") in
  with_dry default_params 3 (fun _ => True) coarse_mesh (dry :: coarse_mesh) /\
  exists g g', mesh_run coarse_mesh 0 = Ok g /\ mesh_run (dry :: coarse_mesh) 1 = Ok g' /\ same_totals g g' /\
    num_eq (nth 12 (k_fw (g_cols g)) NaN) (Fin 9) /\ num_eq (nth 12 (k_fw (g_cols g')) NaN) (Fin 3) /\ ~ same_flow g g'.
Proof.
  split; [vm_compute; discriminate|]. cbv zeta. change (hd NaN (magnitude _ _ _)) with (Fin (14127993 # 10000)).
  set (dry := dry_cell _ _).
  assert (W : with_dry default_params 3 (fun _ => True) coarse_mesh (dry :: coarse_mesh)).
  { apply with_dry_front; [apply dry_cell_dry|exact I]. }
  split; [exact W|].
  pose proof (proj1 (C113_dry_faces_partial (fun v => v) (fun _ _ => NaN) default_params (Fin 100) 3 _ coarse_mesh (dry :: coarse_mesh) 0 1
    (mesh_cell 0 (6 # 10) 300) ltac:(discriminate) W eq_refl eq_refl eq_refl)) as K.
  fold (mesh_run coarse_mesh 0) in K. fold (mesh_run (dry :: coarse_mesh) 1) in K.
  pose (f := fun g => in_lowest_terms (nth 12 (k_fw (g_cols g)) NaN)).
  destruct (got_geometry_some f (mesh_run coarse_mesh 0) (Fin 9)) as (g & E & G); [vm_compute; reflexivity|].
  destruct (got_geometry_some f (mesh_run (dry :: coarse_mesh) 1) (Fin 3)) as (g' & E' & G'); [vm_compute; reflexivity|].
  rewrite E, E' in K. cbn [res_rel] in K. unfold f in G, G'.
  pose proof (in_lowest_terms_eq (nth 12 (k_fw (g_cols g)) NaN)) as N. rewrite G in N.
  pose proof (in_lowest_terms_eq (nth 12 (k_fw (g_cols g')) NaN)) as N'. rewrite G' in N'.
  exists g, g'. split; [exact E|]. split; [exact E'|]. split; [exact K|]. split; [exact N|]. split; [exact N'|].
  intros (F & _). apply (same_nth _ _ 12) in F.
  pose proof (num_eq_trans _ _ _ (num_eq_trans _ _ _ (num_eq_sym _ _ N) F) N') as X. vm_compute in X. discriminate.
Qed.
Print Assumptions C113_no_data_velocity_refuted.

(** The sections of the variance classification are numbers: a dry face counts
    in the width of its section (5 m more for floodplain 2), and its bed level in
    the base level of the floodplain. *)
Theorem C113_sections_refuted :
  let dry k := dry_cell (Fin 0) (M_Geometry.LInt k) in
  let labels l := map (fun c => section_of (c_section c)) l in
  (forall k, with_dry default_params 3 (stands_still default_params 3) coarse_mesh (dry k :: coarse_mesh)) /\
  (exists w w',
     nsection_widths (Fin 100) (map c_area coarse_mesh) (labels coarse_mesh) [Fin 5; Fin 9] [Fin 5; Fin 9] = Ok w /\
     nsection_widths (Fin 100) (map c_area (dry 3%Z :: coarse_mesh)) (labels (dry 3%Z :: coarse_mesh)) [Fin 5; Fin 9] [Fin 5; Fin 9] = Ok w' /\
     num_eq (nw_fp2 w) (Fin 0) /\ num_eq (nw_fp2 w') (Fin 5)) /\
  exists b b',
     compute_floodplain_base (Fin 10) (Fin 0) (map c_bed coarse_mesh) (labels coarse_mesh) = Ok b /\
     compute_floodplain_base (Fin 10) (Fin 0) (map c_bed (dry 2%Z :: coarse_mesh)) (labels (dry 2%Z :: coarse_mesh)) = Ok b' /\
     num_eq b (Fin 2) /\ num_eq b' (Fin (15 # 4)).
Proof.
  cbv zeta. split.
  { intro k. apply with_dry_front; [apply dry_cell_dry|]. intros t T. do 3 (destruct t as [|t]; [vm_compute; reflexivity|]). lia. }
  split; eexists; eexists; (split; [vm_compute; reflexivity|]); (split; [vm_compute; reflexivity|]); split; vm_compute; reflexivity.
Qed.
Print Assumptions C113_sections_refuted.

(** Nine faces are too few; with a dry one they are enough. *)
Theorem C113_few_faces_refuted :
  let dry := dry_cell (Fin 0) (M_Geometry.LInt 2) in
  with_dry default_params 3 (stands_still default_params 3) nine_faces (nine_faces ++ [dry]) /\
  mesh_css nine_faces = Ok None /\ exists c, mesh_css (nine_faces ++ [dry]) = Ok (Some c).
Proof.
  cbv zeta. split.
  { unfold nine_faces. cbn [map app]. repeat apply with_face. apply with_dry_front; [apply dry_cell_dry|].
    intros t T. do 3 (destruct t as [|t]; [vm_compute; reflexivity|]). lia. }
  split; [reflexivity|].
  assert (V : match mesh_css (nine_faces ++ [dry_cell (Fin 0) (M_Geometry.LInt 2)]) with Ok (Some _) => true | _ => false end = true) by (vm_compute; reflexivity).
  destruct (mesh_css (nine_faces ++ _)) as [[c|]|e]; try discriminate. exists c. reflexivity.
Qed.
Print Assumptions C113_few_faces_refuted.

(** A dry link in a section without other links adds a table with friction zero
    at every level. *)
Theorem C113_new_section_refuted :
  let d := {| chezy := [[Fin 40; Fin 41]]; nsteps := 2; edge_section := ["main"%string]; edge_faces := []; area_full := None |} in
  let d' := {| chezy := [[Fin 40; Fin 41]; [Fin 0; Fin 0]]; nsteps := 2; edge_section := ["main"; "floodplain1"]%string;
               edge_faces := []; area_full := None |} in
  dry_link 2 [Fin 0; Fin 0] /\
  exists t t', build_roughness_tables 0 0 [Fin 1; Fin 2] d = Ok t /\ build_roughness_tables 0 0 [Fin 1; Fin 2] d' = Ok t' /\
    assoc "floodplain1"%string t = None /\
    assoc "floodplain1"%string t' = Some (mk_table [Fin 1; Fin 2] [Fin 0; Fin 0]).
Proof.
  cbv zeta. split.
  { intros t T. right. do 2 (destruct t as [|t]; [vm_compute; reflexivity|]). lia. }
  eexists. eexists. split; [vm_compute; reflexivity|]. split; [vm_compute; reflexivity|]. split; reflexivity.
Qed.
Print Assumptions C113_new_section_refuted.
