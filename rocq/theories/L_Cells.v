(** Lemmas about lakes, conveyance and 2D volumes. *)
From Coq Require Import String List ZArith QArith Qabs Bool Lia Lqa Qfield Permutation.
From Verif Require Import PyBase Num Spec L_Num M_Geometry L_Profile.
Import ListNotations.
Local Open Scope Q_scope.

(** ** map_res *)
Lemma map_res_nth {A B} (f : A -> res B) l : forall ys,
  map_res f l = Ok ys ->
  length ys = length l /\
  forall i x, nth_error l i = Some x -> exists y, nth_error ys i = Some y /\ f x = Ok y.
Proof.
  induction l as [|a l IH]; intros ys H; simpl in H.
  - inversion H; subst. split; auto. intros [|i]; discriminate.
  - destruct (f a) as [b|] eqn:Ef; [|discriminate].
    destruct (map_res f l) as [bs|]; [|discriminate]. inversion H; subst.
    destruct (IH bs eq_refl) as [Hl Hn]. split; [simpl; lia|].
    intros [|i] x Hx; simpl in Hx.
    + inversion Hx; subst. exists b. auto.
    + apply Hn in Hx. auto.
Qed.

(** ** Lakes *)
Lemma lake_mask_from_length m prev rest : length (lake_mask_from m prev rest) = length rest.
Proof. revert m prev; induction rest; intros; simpl; auto. Qed.

Lemma lake_mask_time_length lake row : length (lake_mask_time lake row) = length row.
Proof. destruct row; simpl; auto. rewrite lake_mask_from_length. auto. Qed.

Lemma lake_mask_from_spec rest : forall m prev t b,
  nth_error (lake_mask_from m (Fin prev) (map Fin rest)) t = Some b ->
  (b = true <-> m = true /\
     forall s, (s <= t)%nat -> nth s rest 0 - nth s (prev :: rest) 0 <= 1 # 1000).
Proof.
  induction rest as [|d rest IH]; intros m prev t b H; simpl in H; [destruct t; discriminate|].
  destruct t as [|t]; simpl in H.
  - inversion H; subst; clear H. rewrite andb_true_iff. split.
    + intros [H Hm]. split; auto. intros s Hs. assert (s = 0)%nat by lia. subst. simpl. qb. lra.
    + intros [Hm H]. split; auto. specialize (H 0%nat (le_n 0)). simpl in H. qb. lra.
  - apply IH in H. rewrite H, andb_true_iff. split.
    + intros [[Hq Hm] Hall]. split; auto. intros s Hs. destruct s as [|s].
      * simpl. qb. lra.
      * apply Hall. lia.
    + intros [Hm Hall]. split; [split; auto|].
      * specialize (Hall 0%nat). simpl in Hall. qb. apply Qle_trans with (d - prev); [lra|]. apply Hall. lia.
      * intros s Hs. apply (Hall (S s)). lia.
Qed.

Lemma lake_mask_time_spec lake row t b :
  nth_error (lake_mask_time lake (map Fin row)) t = Some b ->
  (b = true <-> lake = true /\
     forall s, (s < t)%nat -> nth (S s) row 0 - nth s row 0 <= 1 # 1000).
Proof.
  destruct row as [|d0 rest]; simpl; [destruct t; discriminate|].
  destruct t as [|t]; simpl; intros H.
  - inversion H; subst. split; [intros; split; auto; intros; lia | tauto].
  - apply lake_mask_from_spec in H. rewrite H. split; intros [Hl Hs]; split; auto; intros s Hlt.
    + apply (Hs s). lia.
    + apply (Hs s). lia.
Qed.

(** ** Sorting *)
Fixpoint qinsert (x : Q) (l : list Q) : list Q :=
  match l with
  | [] => [x]
  | y :: l' => if Qle_bool x y then x :: y :: l' else y :: qinsert x l'
  end.
Definition qsort (l : list Q) : list Q := fold_right qinsert [] l.

Lemma insert_fin x l : insert_num (Fin x) (map Fin l) = map Fin (qinsert x l).
Proof.
  induction l as [|y l IH]; simpl; auto. unfold sort_le; simpl.
  destruct (Qle_bool x y); simpl; auto. f_equal; auto.
Qed.

Lemma sort_fin l : sort_values (map Fin l) = map Fin (qsort l).
Proof.
  induction l as [|x l IH]; simpl; auto.
  change (insert_num (Fin x) (sort_values (map Fin l)) = map Fin (qinsert x (qsort l))).
  rewrite IH. apply insert_fin.
Qed.

Lemma qinsert_perm x l : Permutation (x :: l) (qinsert x l).
Proof.
  induction l as [|y l IH]; simpl; auto.
  destruct (Qle_bool x y); auto.
  eapply perm_trans; [apply perm_swap|]. constructor. auto.
Qed.

Lemma qsort_perm l : Permutation l (qsort l).
Proof.
  induction l as [|x l IH]; simpl; auto.
  eapply perm_trans; [|apply qinsert_perm]. constructor; auto.
Qed.

Lemma chain_qinsert a x l : a <= x -> chain Qle a l -> chain Qle a (qinsert x l).
Proof.
  revert a; induction l as [|y l IH]; intros a Ha Hc; simpl in *; auto.
  destruct Hc as [H1 H2]. destruct (Qle_bool x y) eqn:E; qb; simpl; auto.
  split; auto. apply IH; auto. lra.
Qed.

Lemma qinsert_sorted x l : sorted Qle l -> sorted Qle (qinsert x l).
Proof.
  destruct l as [|y l]; simpl; auto. intros H.
  destruct (Qle_bool x y) eqn:E; qb; simpl; auto. apply chain_qinsert; auto. lra.
Qed.

Lemma qsort_sorted l : sorted Qle (qsort l).
Proof. induction l; simpl; auto. apply qinsert_sorted; auto. Qed.

Lemma qsort_length l : length (qsort l) = length l.
Proof. symmetry. apply Permutation_length, qsort_perm. Qed.

Lemma nanmean_fin l : l <> [] ->
  exists m, nanmean (map Fin l) = Fin m /\ m == Qsum l / inject_Z (Z.of_nat (length l)).
Proof.
  intros H. unfold nanmean. rewrite filter_notnan_fin. destruct l as [|x l]; [congruence|].
  destruct (npsum_fin (x :: l)) as (s & Hs & He).
  change (map Fin (x :: l)) with (Fin x :: map Fin l) in *. cbv iota.
  rewrite Hs. cbn [length]. rewrite map_length.
  assert (Hn : ~ inject_Z (Z.of_nat (S (length l))) == 0).
  { change 0 with (inject_Z 0). rewrite inject_Z_injective. lia. }
  unfold nofnat, ndiv. destruct (Qeq_bool (inject_Z (Z.of_nat (S (length l)))) 0) eqn:E; qb; [contradiction|].
  eexists. split; [reflexivity|]. rewrite He. reflexivity.
Qed.

(** The mean of the highest three (or fewer) velocities. *)
Lemma top3_mean_fin vs : vs <> [] ->
  exists hi lo m,
    top3_mean (map Fin vs) = Fin m /\
    Permutation vs (lo ++ hi) /\ length hi = Nat.min 3 (length vs) /\
    (forall a b, In a lo -> In b hi -> a <= b) /\
    m == Qsum hi / inject_Z (Z.of_nat (length hi)).
Proof.
  intros H. unfold top3_mean. rewrite sort_fin. unfold slice_from, slice_bound.
  rewrite map_length, qsort_length. change (-3 <? 0)%Z with true. cbv iota.
  set (k := Nat.min (length vs) (Z.to_nat (-3 + Z.of_nat (length vs)))).
  rewrite skipn_map.
  assert (Hlen : length (skipn k (qsort vs)) = Nat.min 3 (length vs)).
  { rewrite skipn_length, qsort_length. unfold k. lia. }
  destruct (nanmean_fin (skipn k (qsort vs))) as (m & Hm & He).
  { intros E. rewrite E in Hlen. destruct vs; [congruence|]. simpl in Hlen. lia. }
  exists (skipn k (qsort vs)), (firstn k (qsort vs)), m.
  split; auto. split; [rewrite firstn_skipn; apply qsort_perm|]. split; auto. split; auto.
  intros a b Ha Hb.
  apply In_nth_error in Ha. apply In_nth_error in Hb. destruct Ha as [i Hi], Hb as [j Hj].
  assert (Hik : (i < k)%nat).
  { assert (i < length (firstn k (qsort vs)))%nat by (apply nth_error_Some; congruence).
    rewrite firstn_length in *. lia. }
  pose proof (sorted_nondec _ (qsort_sorted vs)) as Hs. apply (Hs i (k + j)%nat); [lia| |].
  - rewrite <- (firstn_skipn k (qsort vs)). rewrite nth_error_app1; auto.
    apply nth_error_Some. congruence.
  - rewrite <- (firstn_skipn k (qsort vs)).
    assert (Hk : length (firstn k (qsort vs)) = k).
    { rewrite firstn_length, qsort_length. unfold k. lia. }
    rewrite nth_error_app2 by lia. rewrite Hk. replace (k + j - k)%nat with j by lia. auto.
Qed.

Lemma Qmean_le_max l M : l <> [] -> (forall x, In x l -> x <= M) ->
  Qsum l / inject_Z (Z.of_nat (length l)) <= M.
Proof.
  intros Hne H.
  assert (Hs : Qsum l <= M * inject_Z (Z.of_nat (length l))).
  { clear Hne. induction l as [|x l IH]; simpl Qsum.
    - change (inject_Z (Z.of_nat (length (@nil Q)))) with 0. lra.
    - change (length (x :: l)) with (S (length l)). rewrite Nat2Z.inj_succ.
      unfold Z.succ. rewrite inject_Z_plus. change (inject_Z 1) with 1.
      assert (x <= M) by (apply H; simpl; auto).
      assert (Qsum l <= M * inject_Z (Z.of_nat (length l))) by (apply IH; intros; apply H; simpl; auto). lra. }
  assert (Hp : 0 < inject_Z (Z.of_nat (length l))).
  { destruct l; [congruence|]. change 0 with (inject_Z 0). rewrite <- Zlt_Qlt. simpl length. lia. }
  apply Qle_shift_div_r; auto.
Qed.

Lemma Qmean_ge_min l M : l <> [] -> (forall x, In x l -> M <= x) ->
  M <= Qsum l / inject_Z (Z.of_nat (length l)).
Proof.
  intros Hne H.
  assert (Hs : M * inject_Z (Z.of_nat (length l)) <= Qsum l).
  { clear Hne. induction l as [|x l IH]; simpl Qsum.
    - change (inject_Z (Z.of_nat (length (@nil Q)))) with 0. lra.
    - change (length (x :: l)) with (S (length l)). rewrite Nat2Z.inj_succ.
      unfold Z.succ. rewrite inject_Z_plus. change (inject_Z 1) with 1.
      assert (M <= x) by (apply H; simpl; auto).
      assert (M * inject_Z (Z.of_nat (length l)) <= Qsum l) by (apply IH; intros; apply H; simpl; auto). lra. }
  assert (Hp : 0 < inject_Z (Z.of_nat (length l))).
  { destruct l; [congruence|]. change 0 with (inject_Z 0). rewrite <- Zlt_Qlt. simpl length. lia. }
  apply Qle_shift_div_l; auto.
Qed.

(** ** Columns *)
Lemma column_fin t V : (forall r, In r V -> (t < length r)%nat) ->
  column NaN t (map (map Fin) V) = map Fin (map (fun r => nth t r 0) V).
Proof.
  intros H. unfold column. rewrite !map_map. apply map_ext_in. intros r Hr.
  rewrite nth_indep with (d' := Fin 0) by (rewrite map_length; auto). apply map_nth.
Qed.

Lemma nth_map_Fin t row : (t < length row)%nat -> nth t (map Fin row) NaN = Fin (nth t row 0).
Proof.
  intros H. rewrite nth_indep with (d' := Fin 0) by (rewrite map_length; auto). apply map_nth.
Qed.

(** Entry of the conveyance mask. *)
Lemma max_method_entry abs_thr rel_thr nt depth vel i t drow vrow :
  nth_error depth i = Some drow -> nth_error vel i = Some vrow -> (t < nt)%nat ->
  exists row, nth_error (max_velocity_method abs_thr rel_thr nt depth vel) i = Some row /\
    length row = nt /\
    nth t row false = conveys abs_thr rel_thr (top3_mean (column NaN t vel)) (nth t drow NaN) (nth t vrow NaN).
Proof.
  intros Hd Hv Ht. unfold max_velocity_method. rewrite nth_error_map2, Hd, Hv.
  eexists. split; [reflexivity|]. split; [rewrite map_length, seq_length; auto|].
  match goal with |- nth t (map ?f _) false = _ =>
    rewrite nth_indep with (d' := f 0%nat) by (rewrite map_length, seq_length; auto);
    rewrite (map_nth f) end.
  rewrite seq_nth by auto. reflexivity.
Qed.
