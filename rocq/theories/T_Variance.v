(** Theorems for C34: classification of roughness by variance. *)
From Coq Require Import String List Ascii ZArith QArith Qround Bool Lia Lqa.
From Verif Require Import PyBase Num L_Num Text L_List M_Geometry M_Classify T_Neighbour.
Import ListNotations.
Local Open Scope Q_scope.

(** * The extreme values *)

Lemma fold_min_fin l : forall a, exists m,
  fold_left (fun m y => if nltb y m then y else m) (map Fin l) (Fin a) = Fin m /\
  In m (a :: l) /\ forall x, In x (a :: l) -> m <= x.
Proof.
  induction l as [|b l IH]; intro a; cbn [map fold_left].
  - exists a. split; auto. split; [left; auto|]. intros x [->|[]]. lra.
  - cbn [nltb]. destruct (Qltb b a) eqn:E.
    + apply Qltb_true in E. destruct (IH b) as (m & F & I & L). exists m. split; [exact F|].
      split; [destruct I; [right; left|right; right]; auto|].
      intros x [<-|[<-|X]]; [pose proof (L b (or_introl eq_refl)); lra|apply L; left; auto|apply L; right; auto].
    + apply Qltb_false in E. destruct (IH a) as (m & F & I & L). exists m. split; [exact F|].
      split; [destruct I; [left|right; right]; auto|].
      intros x [<-|[<-|X]]; [apply L; left; auto|pose proof (L a (or_introl eq_refl)); lra|apply L; right; auto].
Qed.

Lemma fold_max_fin l : forall a, exists m,
  fold_left (fun m y => if nltb m y then y else m) (map Fin l) (Fin a) = Fin m /\
  In m (a :: l) /\ forall x, In x (a :: l) -> x <= m.
Proof.
  induction l as [|b l IH]; intro a; cbn [map fold_left].
  - exists a. split; auto. split; [left; auto|]. intros x [->|[]]. lra.
  - cbn [nltb]. destruct (Qltb a b) eqn:E.
    + apply Qltb_true in E. destruct (IH b) as (m & F & I & L). exists m. split; [exact F|].
      split; [destruct I; [right; left|right; right]; auto|].
      intros x [<-|[<-|X]]; [pose proof (L b (or_introl eq_refl)); lra|apply L; left; auto|apply L; right; auto].
    + apply Qltb_false in E. destruct (IH a) as (m & F & I & L). exists m. split; [exact F|].
      split; [destruct I; [left|right; right]; auto|].
      intros x [<-|[<-|X]]; [apply L; left; auto|pose proof (L a (or_introl eq_refl)); lra|apply L; right; auto].
Qed.

Lemma py_min_fin l : l <> [] -> exists m, py_min (map Fin l) = Ok (Fin m) /\ In m l /\ forall x, In x l -> m <= x.
Proof.
  destruct l as [|a l]; [congruence|]. intros _. unfold py_min. cbn [map].
  destruct (fold_min_fin l a) as (m & E & H). exists m. rewrite E. auto.
Qed.

Lemma py_max_fin l : l <> [] -> exists m, py_max (map Fin l) = Ok (Fin m) /\ In m l /\ forall x, In x l -> x <= m.
Proof.
  destruct l as [|a l]; [congruence|]. intros _. unfold py_max. cbn [map].
  destruct (fold_max_fin l a) as (m & E & H). exists m. rewrite E. auto.
Qed.

(** * Candidates *)

(** The unit-spaced values from [lo] on that are less than [hi]. *)
Definition candidate (lo hi s : Q) : Prop := exists k : nat, s = lo + inject_Z (Z.of_nat k) /\ s < hi.

Lemma candidate_count lo hi k :
  (k < Z.to_nat (Qceiling (hi - lo)))%nat <-> lo + inject_Z (Z.of_nat k) < hi.
Proof.
  split; intro H.
  - assert (Z : (Z.of_nat k <= Qceiling (hi - lo) - 1)%Z) by lia.
    pose proof (Qceiling_lt (hi - lo)) as L.
    assert (inject_Z (Z.of_nat k) <= inject_Z (Qceiling (hi - lo) - 1)) by (rewrite <- Zle_Qle; lia).
    lra.
  - pose proof (Qle_ceiling (hi - lo)) as L.
    assert (inject_Z (Z.of_nat k) < inject_Z (Qceiling (hi - lo))) by lra.
    rewrite <- Zlt_Qlt in H0. lia.
Qed.

Lemma arange1_fin lo hi : exists cs, arange1 (Fin lo) (Fin hi) = Ok cs /\
  length cs = Z.to_nat (Qceiling (hi - lo)) /\ forall s, In s cs <-> candidate lo hi s.
Proof.
  eexists. split; [reflexivity|]. split; [rewrite map_length, seq_length; auto|].
  intro s. rewrite in_map_iff. split.
  - intros (k & <- & I). apply in_seq in I. exists k. split; auto. apply candidate_count. lia.
  - intros (k & -> & H). exists k. split; auto. apply in_seq. apply candidate_count in H. lia.
Qed.

(** * The cost of a split *)

Definition highs (split : Q) (l : list Q) : list Q := filter (fun x => Qltb split x) l.
Definition lows (split : Q) (l : list Q) : list Q := filter (fun x => Qle_bool x split) l.

Lemma above_fin split l : finite_part (filter (above split) (map Fin l)) = highs split l.
Proof.
  induction l as [|x l IH]; [reflexivity|]. cbn [map filter]. unfold above at 1. cbn [nltb].
  unfold highs. cbn [filter]. destruct (Qltb split x); cbn [finite_part]; rewrite IH; reflexivity.
Qed.

Lemma below_fin split l : finite_part (filter (below split) (map Fin l)) = lows split l.
Proof.
  induction l as [|x l IH]; [reflexivity|]. cbn [map filter]. unfold below at 1. cbn [nleb].
  unfold lows. cbn [filter]. destruct (Qle_bool x split); cbn [finite_part]; rewrite IH; reflexivity.
Qed.

(** The population variance of a non-empty list. *)
Definition mean (l : list Q) : Q := qsum l / inject_Z (Z.of_nat (length l)).
Definition pvariance (l : list Q) : Q := mean (map (fun x => (x - mean l) * (x - mean l)) l).

(** The larger one of the variances of the two groups. *)
Definition cost (l : list Q) (split : Q) : Q :=
  let a := pvariance (highs split l) in let b := pvariance (lows split l) in
  if Qltb a b then b else a.

Lemma variance_pvariance l : l <> [] -> variance l = Some (pvariance l).
Proof.
  destruct l as [|x l]; [congruence|]. intros _. unfold variance, pvariance, mean.
  rewrite map_length. reflexivity.
Qed.

Lemma in_highs s l x : In x (highs s l) <-> In x l /\ s < x.
Proof.
  unfold highs. rewrite filter_In. split; intros [H E]; split; auto.
  - apply Qltb_true; auto.
  - destruct (Qltb s x) eqn:F; auto. apply Qltb_false in F. lra.
Qed.

Lemma in_lows s l x : In x (lows s l) <-> In x l /\ x <= s.
Proof.
  unfold lows. rewrite filter_In, Qle_bool_iff. reflexivity.
Qed.

Lemma split_cost_fin l s lo hi :
  In lo l -> In hi l -> lo <= s -> s < hi -> split_cost (map Fin l) s = Some (cost l s).
Proof.
  intros I J A B. unfold split_cost. rewrite above_fin, below_fin.
  rewrite !variance_pvariance.
  - reflexivity.
  - intro E. assert (K : In lo (lows s l)) by (apply in_lows; auto). rewrite E in K. destruct K.
  - intro E. assert (K : In hi (highs s l)) by (apply in_highs; auto). rewrite E in K. destruct K.
Qed.

Lemma nanargmin_spec f (cs : list Q) g : (forall s, In s cs -> f s = Some (g s)) -> cs <> [] ->
  exists k s, nanargmin (map f cs) = Some (k, g s) /\ nth_error cs k = Some s /\
    forall j t, nth_error cs j = Some t -> g s <= g t /\ ((j < k)%nat -> g s < g t).
Proof.
  induction cs as [|c cs IH]; [congruence|]. intros H _.
  assert (Hc : f c = Some (g c)) by (apply H; left; auto).
  destruct cs as [|c2 cs2].
  - exists 0%nat, c. cbn [map nanargmin]. rewrite Hc. split; [reflexivity|]. split; [reflexivity|].
    intros [|[|j]] t E; try discriminate. injection E as <-. split; [lra|lia].
  - destruct IH as (k & s & E & Es & M); [intros; apply H; right; auto|discriminate|].
    remember (c2 :: cs2) as cs. cbn [map nanargmin]. rewrite Hc, E.
    destruct (Qltb (g s) (g c)) eqn:L.
    + apply Qltb_true in L. exists (S k), s. split; [reflexivity|]. split; [exact Es|].
      intros [|j] t Et; cbn in Et.
      * injection Et as <-. split; [lra|auto].
      * destruct (M j t Et). split; [auto|]. intro. apply H1. lia.
    + apply Qltb_false in L. exists 0%nat, c. split; [reflexivity|]. split; [reflexivity|].
      intros [|j] t Et; cbn in Et.
      * injection Et as <-. split; [lra|lia].
      * destruct (M j t Et). split; [lra|lia].
Qed.

(** * The classification *)

Lemma relabel {A} (one two : A) s : forall (l : list Q) labels, length labels = length l ->
  map2 (fun x lb => if below s x then two else lb) (map Fin l)
    (map2 (fun x lb => if above s x then one else lb) (map Fin l) labels)
  = map (fun x => if Qltb s x then one else two) l.
Proof.
  induction l as [|x l IH]; intros [|lb labels] L; try discriminate; [reflexivity|].
  cbn in L. cbn [map map2]. rewrite IH by lia. unfold above, below. cbn [nltb nleb].
  destruct (Qltb s x) eqn:E; unfold Qltb in E; destruct (Qle_bool x s); try discriminate; reflexivity.
Qed.

(** The values are finite: one candidate split value is chosen, such that no
    candidate has a lower cost and the ones before it have a greater cost; a
    point is labelled 1 exactly if its value is greater than the split value,
    else 2.  With fewer than two candidates all points are labelled 1. *)
Theorem C34_optimal_threshold_split :
  forall A (one two : A) labels values, values <> [] -> length labels = length values ->
    exists lo hi, In lo values /\ In hi values /\ (forall x, In x values -> lo <= x <= hi) /\
      (hi <= lo + 1 /\ classify_by_variance one two labels (map Fin values) = Ok (map (fun _ => one) values) \/
       lo + 1 < hi /\
       exists split, candidate lo hi split /\
         classify_by_variance one two labels (map Fin values)
           = Ok (map (fun x => if Qltb split x then one else two) values) /\
         highs split values <> [] /\ lows split values <> [] /\
         (forall s, candidate lo hi s -> cost values split <= cost values s) /\
         (forall s, candidate lo hi s -> s < split -> cost values split < cost values s)).
Proof.
  intros A one two labels values N L.
  destruct (py_min_fin values N) as (lo & E1 & I1 & M1).
  destruct (py_max_fin values N) as (hi & E2 & I2 & M2).
  exists lo, hi. split; [exact I1|]. split; [exact I2|]. split; [intros; split; auto|].
  unfold classify_by_variance. rewrite E1, E2. cbn [bind].
  destruct (arange1_fin lo hi) as (cs & E3 & Lc & C). rewrite E3. cbn [bind].
  destruct (length cs <? 2)%nat eqn:B.
  - left. apply Nat.ltb_lt in B. split.
    + destruct (Qlt_le_dec (lo + 1) hi) as [H|H]; [|exact H]. exfalso.
      assert (1 < Z.to_nat (Qceiling (hi - lo)))%nat by (apply candidate_count; exact H). lia.
    + f_equal. clear - L. revert labels L. induction values as [|x l IH]; intros [|y labels] L; try discriminate; auto.
      cbn in *. f_equal. apply IH. lia.
  - right. apply Nat.ltb_ge in B.
    split; [change 1 with (inject_Z (Z.of_nat 1)); apply candidate_count; lia|].
    assert (K : forall s, In s cs -> split_cost (map Fin values) s = Some (cost values s)).
    { intros s I. apply C in I. destruct I as (k & -> & H). apply split_cost_fin with lo hi; auto.
      assert (0 <= inject_Z (Z.of_nat k)) by (change 0 with (inject_Z 0); rewrite <- Zle_Qle; lia). lra. }
    destruct (nanargmin_spec (split_cost (map Fin values)) cs (cost values) K) as (k & s & En & Es & M).
    { destruct cs; [cbn in B; lia|discriminate]. }
    exists s. rewrite En. rewrite (nth_error_nth _ _ 0 Es). rewrite relabel by auto.
    assert (Cs : candidate lo hi s) by (apply C; eapply nth_error_In; eauto).
    split; [exact Cs|]. split; [reflexivity|].
    destruct Cs as (k0 & Ek & Hk).
    assert (0 <= inject_Z (Z.of_nat k0)) by (change 0 with (inject_Z 0); rewrite <- Zle_Qle; lia).
    assert (Hs : lo <= s) by (rewrite Ek; lra).
    split; [|split; [|split]].
    + intro Z. assert (In hi (highs s values)) by (apply in_highs; auto). rewrite Z in *. contradiction.
    + intro Z. assert (In lo (lows s values)) by (apply in_lows; split; auto; lra). rewrite Z in *. contradiction.
    + intros t Ht. apply C in Ht. apply In_nth_error in Ht. destruct Ht as [j Ej]. apply (M j t Ej).
    + intros t Ht Lt.
      unfold arange1 in E3. injection E3 as E3.
      assert (P : forall j t, nth_error cs j = Some t -> t = lo + inject_Z (Z.of_nat j)).
      { intros j t' E. subst cs. rewrite nth_error_map in E.
        destruct (nth_error (seq 0 (Z.to_nat (Qceiling (hi - lo)))) j) as [j'|] eqn:Ej; [|discriminate].
        assert (j < Z.to_nat (Qceiling (hi - lo)))%nat by (rewrite <- (seq_length (Z.to_nat (Qceiling (hi - lo))) 0);
          apply nth_error_Some; congruence).
        rewrite nth_error_seq in Ej by auto. injection Ej as <-. injection E as <-. reflexivity. }
      apply C in Ht. apply In_nth_error in Ht. destruct Ht as [j Ej]. apply (M j t Ej).
      rewrite (P _ _ Ej), (P _ _ Es) in Lt.
      assert (Zl : inject_Z (Z.of_nat j) < inject_Z (Z.of_nat k)) by lra.
      rewrite <- Zlt_Qlt in Zl. lia.
Qed.
Print Assumptions C34_optimal_threshold_split.

(** Every point labelled 1 has a greater value than every point labelled 2. *)
Theorem C34_main_channel_above_floodplain :
  forall A (one two : A) labels values out, one <> two ->
    length labels = length values ->
    classify_by_variance one two labels (map Fin values) = Ok out ->
    length out = length values /\ Forall (fun l => l = one \/ l = two) out /\
    forall i j x y, nth_error values i = Some x -> nth_error values j = Some y ->
      nth_error out i = Some one -> nth_error out j = Some two -> y < x.
Proof.
  intros A one two labels values out D L H.
  assert (N : values <> []) by (intro E; rewrite E in H; discriminate).
  destruct (C34_optimal_threshold_split A one two labels values N L)
    as (lo & hi & _ & _ & _ & [(_ & E)|(_ & s & _ & E & _)]); rewrite H in E; injection E as ->;
    rewrite map_length; (split; [reflexivity|]).
  - split; [apply Forall_forall; intros x I; apply in_map_iff in I; destruct I as (_ & <- & _); auto|].
    intros i j x y _ Hy _ E. rewrite nth_error_map, Hy in E. injection E as E. congruence.
  - split.
    + apply Forall_forall. intros x I. apply in_map_iff in I. destruct I as (q & <- & _).
      destruct (Qltb s q); auto.
    + intros i j x y Hx Hy. rewrite !nth_error_map, Hx, Hy. cbn [option_map].
      destruct (Qltb s x) eqn:E1; [|intro E; injection E as E; congruence].
      destruct (Qltb s y) eqn:E2; [intros _ E; injection E as E; congruence|].
      intros _ _. apply Qltb_true in E1. apply Qltb_false in E2. lra.
Qed.
Print Assumptions C34_main_channel_above_floodplain.

(** Missing values.  If the first one is missing the classification stops; a
    later one keeps its label unless the points are not split. *)
Theorem C34_first_value_missing_stops :
  forall A (one two : A) labels values,
    classify_by_variance one two labels (NaN :: values) = Raise ValueError.
Proof.
  intros A one two labels values. unfold classify_by_variance, py_min, py_max.
  assert (E : forall f : num -> num -> bool, (forall y, f NaN y = false) ->
    fold_left (fun m y => if f m y then y else m) values NaN = NaN).
  { intros f F. induction values as [|v values IH]; [reflexivity|]. cbn [fold_left]. rewrite F. apply IH. }
  rewrite (E (fun m y => nltb y m)), (E nltb); try (intros []; reflexivity). reflexivity.
Qed.
Print Assumptions C34_first_value_missing_stops.

Example C34_later_missing_value_keeps_label :
  classify_by_variance (LInt 1) (LInt 2) [LStr "main"; LStr "main"; LStr "main"] [Fin 20; NaN; Fin 50]
  = Ok [LInt 2; LStr "main"; LInt 1].
Proof. vm_compute. reflexivity. Qed.

Example C34_example :
  classify_by_variance 1%Z 2%Z [0; 0; 0; 0; 0]%Z (map Fin [50; 49; 20; 22; 48]) = Ok [1; 1; 2; 2; 1]%Z.
Proof. vm_compute. reflexivity. Qed.
