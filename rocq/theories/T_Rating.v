(** Theorems for C58 (rating-curve bins), C70 (extreme and final values) and C73
    (discharge steps). *)
From Coq Require Import String List Ascii ZArith QArith Qabs Bool Lia Lqa Sorted Permutation.
From Verif Require Import PyBase Num Text Spec L_Num L_Cells M_Compare T_Stats.
Import ListNotations.
Local Open Scope Q_scope.

(** * C58 *)

(** The interval of bin [i]: from the edge before to its own edge, without the
    latter; the first bin has no lower edge. *)
Definition enclosed (bins : list Q) (i : nat) (x : num) : Prop :=
  exists b, nth_error bins i = Some b /\ nltb x (Fin b) = true /\
    forall j a, nth_error bins j = Some a -> (S j = i)%nat -> nleb (Fin a) x = true.

Lemma nleb_trans_fin a b x : a <= b -> nleb (Fin b) x = true -> nleb (Fin a) x = true.
Proof.
  intros L H. destruct x as [q| | |]; cbn in *; auto. apply Qle_bool_iff in H. apply Qle_bool_iff. lra.
Qed.

Lemma nltb_nleb a x : isnan x = false -> nltb x (Fin a) = negb (nleb (Fin a) x).
Proof. destruct x; cbn; auto. Qed.

(** For increasing edges the edges that are not above a value come first. *)
Lemma digitize_cons a bins x : isnan x = false -> StronglySorted Qlt (a :: bins) ->
  digitize (map Fin (a :: bins)) x = if nleb (Fin a) x then S (digitize (map Fin bins) x) else 0%nat.
Proof.
  intros N H. unfold digitize. rewrite N. cbn [map filter]. destruct (nleb (Fin a) x) eqn:E; [reflexivity|].
  apply StronglySorted_inv in H. destruct H as [_ H].
  assert (Z : filter (fun b => nleb b x) (map Fin bins) = []).
  { induction bins as [|b bins IH]; cbn [map filter]; auto. apply Forall_cons_iff in H. destruct H as [H1 H2].
    destruct (nleb (Fin b) x) eqn:F; [|auto]. assert (nleb (Fin a) x = true); [|congruence].
    eapply nleb_trans_fin; [|exact F]. lra. }
  rewrite Z. reflexivity.
Qed.

Theorem C58_bin_of_a_sample :
  forall bins x i, StronglySorted Qlt bins -> (i < length bins)%nat ->
    (digitize (map Fin bins) x = i <-> enclosed bins i x).
Proof.
  intros bins x i H L. destruct (isnan x) eqn:N.
  { unfold digitize. rewrite N, map_length. split; [lia|]. intros (b & _ & F & _). destruct x; discriminate. }
  revert i L. induction bins as [|a bins IH]; intros i L; [cbn in L; lia|].
  rewrite digitize_cons by auto. pose proof H as H'. apply StronglySorted_inv in H'. destruct H' as [H1 H2].
  destruct (nleb (Fin a) x) eqn:E.
  - destruct i as [|i].
    + split; [lia|]. intros (b & Hb & Lt & _). cbn in Hb. injection Hb as <-. rewrite nltb_nleb, E in Lt by auto. discriminate.
    + cbn [length] in L. specialize (IH H1 i ltac:(lia)).
      split.
      * intro G. assert (G' : digitize (map Fin bins) x = i) by lia. apply IH in G'. destruct G' as (b & Hb & Lt & Lo).
        exists b. split; [exact Hb|]. split; [exact Lt|]. intros [|j] c Hc Hj.
        -- cbn in Hc. injection Hc as <-. auto.
        -- cbn in Hc. apply (Lo j c Hc). lia.
      * intros (b & Hb & Lt & Lo). f_equal. apply IH. exists b. split; [exact Hb|]. split; [exact Lt|].
        intros j c Hc Hj. apply (Lo (S j) c); [exact Hc|lia].
  - split.
    + intros <-. exists a. split; [reflexivity|]. split; [rewrite nltb_nleb, E by auto; reflexivity|]. intros; lia.
    + intros (b & Hb & Lt & Lo). destruct i as [|i]; [reflexivity|]. exfalso.
      destruct (nth_error (a :: bins) i) as [c|] eqn:Hc; [|apply nth_error_None in Hc; cbn [length] in *; lia].
      specialize (Lo i c Hc eq_refl). destruct i as [|i].
      * cbn in Hc. injection Hc as <-. congruence.
      * cbn in Hc. apply nth_error_In in Hc. rewrite Forall_forall in H2. specialize (H2 _ Hc).
        assert (nleb (Fin a) x = true); [|congruence]. eapply nleb_trans_fin; [|exact Lo]. lra.
Qed.
Print Assumptions C58_bin_of_a_sample.

(** Each sample in at most one bin; none if it is missing or not below the last
    edge, else exactly one. *)
Theorem C58_at_most_one_bin :
  forall bins x, StronglySorted Qlt bins ->
    (forall i j, enclosed bins i x -> enclosed bins j x -> i = j) /\
    ((exists i, enclosed bins i x) <-> exists b, In b bins /\ nltb x (Fin b) = true).
Proof.
  intros bins x H. assert (R : forall i, enclosed bins i x -> (i < length bins)%nat).
  { intros i (b & Hb & _). apply nth_error_Some. congruence. }
  split.
  - intros i j A B. pose proof (R i A). pose proof (R j B).
    apply (C58_bin_of_a_sample bins x) in A; auto. apply (C58_bin_of_a_sample bins x) in B; auto. congruence.
  - split.
    + intros (i & b & Hb & Lt & _). exists b. split; auto. eapply nth_error_In; eauto.
    + intros (b & I & Lt). exists (digitize (map Fin bins) x).
      assert (N : isnan x = false) by (destruct x; auto; discriminate).
      apply C58_bin_of_a_sample; auto. clear R. induction bins as [|a bins IH]; [destruct I|].
      rewrite digitize_cons by auto. cbn [length]. destruct (nleb (Fin a) x) eqn:E; [|lia].
      apply StronglySorted_inv in H. destruct H as [H1 H2]. destruct I as [<-|I].
      * rewrite nltb_nleb, E in Lt by auto. discriminate.
      * specialize (IH H1 I). lia.
Qed.
Print Assumptions C58_at_most_one_bin.

(** The rating curve of a station: for each bin the mean of the levels of the
    samples that the bin encloses. *)
Lemma map_res_ok {A B} (f : A -> B) l : map_res (fun x => Ok (f x)) l = Ok (map f l).
Proof. induction l as [|x l IH]; cbn; auto. rewrite IH. auto. Qed.

Lemma map_res_ext {A B} (f g : A -> res B) l : (forall x, In x l -> f x = g x) -> map_res f l = map_res g l.
Proof.
  induction l as [|x l IH]; intro H; cbn; auto. rewrite (H x (or_introl eq_refl)), IH; auto.
  intros; apply H; right; auto.
Qed.

Lemma select_filter {A B} (p : B -> bool) : forall (q : list B) (h : list A), length q = length h ->
  select (map p q) h = map fst (filter (fun r => p (snd r)) (combine h q)).
Proof.
  induction q as [|x q IH]; intros [|y h] L; try discriminate; cbn; auto. injection L as L.
  destruct (p x); cbn; rewrite IH; auto.
Qed.

Theorem C58_rating_curve :
  forall (h q : list num) bins, StronglySorted Qlt bins -> length q = length h ->
    exists curve, digitize_station h q (map Fin bins) = Ok curve /\ length curve = length bins /\
      forall i, (i < length bins)%nat -> exists samples,
        nth_error curve i = Some (nanmean (map fst samples)) /\
        samples = filter (fun r => Nat.eqb i (digitize (map Fin bins) (snd r))) (combine h q) /\
        (forall r, In r samples <-> In r (combine h q) /\ enclosed bins i (snd r)).
Proof.
  intros h q bins H L. unfold digitize_station. rewrite map_length.
  set (f := fun i => nanmean (map fst (filter (fun r => Nat.eqb i (digitize (map Fin bins) (snd r))) (combine h q)))).
  exists (map f (seq 0 (length bins))). split; [|split].
  - rewrite <- map_res_ok. apply map_res_ext. intros i _. unfold mask_index. rewrite !map_length, L, Nat.eqb_refl. cbn [bind].
    rewrite map_map. rewrite (select_filter (fun x => Nat.eqb i (digitize (map Fin bins) x))) by auto. reflexivity.
  - rewrite map_length, seq_length. reflexivity.
  - intros i Hi. exists (filter (fun r => Nat.eqb i (digitize (map Fin bins) (snd r))) (combine h q)).
    split; [|split; [reflexivity|]].
    + erewrite map_nth_error; [reflexivity|]. rewrite (nth_error_nth' _ 0%nat) by (rewrite seq_length; auto).
      rewrite seq_nth by auto. reflexivity.
    + intro r. rewrite filter_In, Nat.eqb_eq. rewrite <- (C58_bin_of_a_sample bins (snd r) i H Hi). intuition.
Qed.
Print Assumptions C58_rating_curve.

(** The edges that are used are increasing. *)
Lemma qsteps_fin : qsteps = map Fin (map (fun i => inject_Z (200 * Z.of_nat i)) (seq 0 90)).
Proof. unfold qsteps. rewrite map_map. reflexivity. Qed.

Lemma seq_sorted k n : StronglySorted lt (seq k n).
Proof.
  revert k. induction n as [|n IH]; intro k; cbn [seq]; constructor; auto. apply Forall_forall. intros x I.
  apply in_seq in I. lia.
Qed.

Theorem C58_edges_increase : StronglySorted Qlt (map (fun i => inject_Z (200 * Z.of_nat i)) (seq 0 90)).
Proof.
  generalize (seq_sorted 0 90). generalize (seq 0 90). intro l. induction 1 as [|x l S1 IH F]; cbn [map]; constructor; auto.
  apply Forall_map. eapply Forall_impl; [|exact F]. cbv beta. intros y L. rewrite <- Zlt_Qlt. lia.
Qed.
Print Assumptions C58_edges_increase.

(** Discharges of 17800 and more are used in no bin; negative ones in the bin
    with label 0. *)
Theorem C58_range_of_the_curve :
  forall x, let bins := map (fun i => inject_Z (200 * Z.of_nat i)) (seq 0 90) in
    ((exists i, enclosed bins i (Fin x)) <-> x < 17800) /\ (enclosed bins 0 (Fin x) <-> x < 0).
Proof.
  intros x bins. split.
  - destruct (C58_at_most_one_bin bins (Fin x) C58_edges_increase) as [_ ->]. split.
    + intros (b & I & Lt). cbn in Lt. apply Qltb_true in Lt. unfold bins in I. apply in_map_iff in I.
      destruct I as (i & <- & I). apply in_seq in I.
      assert (inject_Z (200 * Z.of_nat i) <= inject_Z 17800) by (rewrite <- Zle_Qle; lia).
      change (inject_Z 17800) with 17800 in *. lra.
    + intro H. exists 17800. split.
      * unfold bins. apply in_map_iff. exists 89%nat. split; [reflexivity|]. apply in_seq. lia.
      * cbn. apply Qltb_true. auto.
  - split.
    + intros (b & Hb & Lt & _). unfold bins in Hb. change (nth_error _ 0) with (Some (inject_Z 0)) in Hb.
      injection Hb as <-. cbn in Lt. apply Qltb_true in Lt. exact Lt.
    + intro H. exists 0. split; [reflexivity|]. split; [cbn; apply Qltb_true; auto|]. intros; lia.
Qed.
Print Assumptions C58_range_of_the_curve.

(** * C70: extreme and final values *)

Definition qinsert_desc (x : Q) (l : list Q) : list Q :=
  (fix go l := match l with [] => [x] | y :: l' => if Qle_bool y x then x :: l else y :: go l' end) l.
Definition qsort_desc (l : list Q) : list Q := fold_right qinsert_desc [] l.

Lemma insert_desc_fin x l : insert_desc (Fin x) (map Fin l) = map Fin (qinsert_desc x l).
Proof.
  induction l as [|y l IH]; [reflexivity|]. cbn [map insert_desc]. cbn [nleb].
  change (qinsert_desc x (y :: l)) with (if Qle_bool y x then x :: y :: l else y :: qinsert_desc x l).
  destruct (Qle_bool y x); [reflexivity|]. rewrite IH. reflexivity.
Qed.

Lemma sort_desc_fin l : sort_desc (map Fin l) = map Fin (qsort_desc l).
Proof.
  unfold sort_desc, qsort_desc. induction l as [|x l IH]; [reflexivity|]. cbn [map fold_right].
  rewrite IH. apply insert_desc_fin.
Qed.

Lemma qinsert_desc_perm x l : Permutation (qinsert_desc x l) (x :: l).
Proof.
  induction l as [|y l IH]; [reflexivity|].
  change (qinsert_desc x (y :: l)) with (if Qle_bool y x then x :: y :: l else y :: qinsert_desc x l).
  destruct (Qle_bool y x); [reflexivity|]. rewrite IH. apply perm_swap.
Qed.

Lemma qsort_desc_perm l : Permutation (qsort_desc l) l.
Proof. induction l as [|x l IH]; [reflexivity|]. cbn. rewrite qinsert_desc_perm. auto. Qed.

Lemma qinsert_desc_sorted x l : StronglySorted (fun a b => b <= a) l -> StronglySorted (fun a b => b <= a) (qinsert_desc x l).
Proof.
  induction l as [|y l IH]; intro H; [repeat constructor|].
  change (qinsert_desc x (y :: l)) with (if Qle_bool y x then x :: y :: l else y :: qinsert_desc x l).
  apply StronglySorted_inv in H. destruct H as [H1 H2].
  destruct (Qle_bool y x) eqn:E.
  - apply Qle_bool_iff in E. constructor; [constructor; auto|]. constructor; auto.
    eapply Forall_impl; [|exact H2]. cbv beta. intros; lra.
  - constructor; auto. eapply Permutation_Forall; [symmetry; apply qinsert_desc_perm|]. constructor; auto.
    destruct (Qlt_le_dec x y) as [H|H]; [lra|]. apply Qle_bool_iff in H. congruence.
Qed.

Lemma qsort_desc_sorted l : StronglySorted (fun a b => b <= a) (qsort_desc l).
Proof. induction l as [|x l IH]; cbn; [constructor|]. apply qinsert_desc_sorted. auto. Qed.

(** The mean of the first k values of a decreasing list decreases with k. *)
Lemma sorted_firstn_ge l k : StronglySorted (fun a b : Q => b <= a) l ->
  forall x y, In x (firstn k l) -> In y (skipn k l) -> y <= x.
Proof.
  intro H. revert k. induction H as [|a l H IH F]; intros k x y Ix Iy.
  - rewrite firstn_nil in Ix. destruct Ix.
  - destruct k as [|k]; [destruct Ix|]. cbn [firstn skipn] in *. destruct Ix as [<-|Ix]; [|eauto].
    rewrite Forall_forall in F. apply F. rewrite <- (firstn_skipn k l). apply in_or_app. auto.
Qed.

Lemma mean_of_more (a b : list Q) : a <> [] -> (forall x y, In x a -> In y b -> y <= x) ->
  qmean (a ++ b) <= qmean a.
Proof.
  intros N H. destruct b as [|y0 b0] eqn:Eb; [rewrite app_nil_r; lra|]. rewrite <- Eb in *.
  assert (Nb : b <> []) by (rewrite Eb; discriminate). clear Eb.
  assert (L : qmean b <= qmean a).
  { apply qmean_bound_le; auto. intros x Ix. apply qmean_bound_ge; auto. }
  assert (Nab : a ++ b <> []) by (intro E; apply app_eq_nil in E; destruct E; contradiction).
  pose proof (qmean_mul a N) as Ma. pose proof (qmean_mul b Nb) as Mb. pose proof (qmean_mul (a ++ b) Nab) as M.
  rewrite app_length, Nat2Z.inj_add, inject_Z_plus, Qsum_app in M.
  pose proof (len_pos a N) as Pa. pose proof (len_pos b Nb) as Pb.
  set (na := inject_Z (Z.of_nat (length a))) in *. set (nb := inject_Z (Z.of_nat (length b))) in *. clearbody na nb.
  set (ma := qmean a) in *. set (mb := qmean b) in *. set (m := qmean (a ++ b)) in *. clearbody ma mb m.
  apply (Qmult_le_r _ _ (na + nb)); [lra|]. rewrite M, <- Ma, <- Mb. nra.
Qed.

Lemma firstn_prefix {A} (k j : nat) (l : list A) : (k <= j)%nat ->
  firstn j l = firstn k l ++ skipn k (firstn j l).
Proof.
  intro H. rewrite <- (firstn_skipn k (firstn j l)) at 1. rewrite firstn_firstn.
  replace (Nat.min k j) with k by lia. reflexivity.
Qed.

Lemma firstn_nonnil {A} k (l : list A) : (0 < k)%nat -> l <> [] -> firstn k l <> [].
Proof. intros K N. destruct k; [lia|]. destruct l; [contradiction|]. discriminate. Qed.

Lemma firstn_mean_decreases l k j : StronglySorted (fun a b : Q => b <= a) l -> l <> [] -> (0 < k <= j)%nat ->
  qmean (firstn j l) <= qmean (firstn k l).
Proof.
  intros H N K. rewrite (firstn_prefix k j l) by lia. apply mean_of_more.
  - apply firstn_nonnil; auto. lia.
  - intros x y Ix Iy. apply (sorted_firstn_ge l k H x y Ix).
    rewrite <- (firstn_skipn j l). rewrite skipn_app. apply in_or_app. auto.
Qed.

Lemma qmean_perm l m : Permutation l m -> qmean l == qmean m.
Proof.
  intro H. unfold qmean. rewrite (Permutation_length H). assert (E : Qsum l == Qsum m); [|rewrite E; reflexivity].
  induction H; rewrite ?Qsum_cons; lra.
Qed.

(** The statistics max_k of a series: the means of the k largest values. *)
Lemma stat_max_numbers k (s : series) : no_inf (map snd s) -> (0 < k)%nat -> numbers (map snd s) <> [] ->
  exists m, stat_max k s = Fin m /\ m == qmean (firstn k (qsort_desc (numbers (map snd s)))).
Proof.
  intros H K N. unfold stat_max, nlargest. rewrite (present_numbers _ H), sort_desc_fin, firstn_map.
  assert (M : qsort_desc (numbers (map snd s)) <> []).
  { intro E. apply N. apply Permutation_nil. rewrite <- E. apply qsort_desc_perm. }
  destruct (nanmean_fin (firstn k (qsort_desc (numbers (map snd s))))) as (m & Em & Qm); [apply firstn_nonnil; auto|].
  exists m. split; [exact Em|exact Qm].
Qed.

Theorem C70_ordered_maxima :
  forall (s : series) k j, no_inf (map snd s) -> numbers (map snd s) <> [] -> (0 < k <= j)%nat ->
    exists mean mj mk top, bias s = Fin mean /\ stat_max j s = Fin mj /\ stat_max k s = Fin mk /\
      In top (numbers (map snd s)) /\ (forall x, In x (numbers (map snd s)) -> x <= top) /\
      mean <= mj /\ mj <= mk /\ mk <= top.
Proof.
  intros s k j H N K.
  destruct (stat_max_numbers j s H ltac:(lia) N) as (mj & Ej & Qj).
  destruct (stat_max_numbers k s H ltac:(lia) N) as (mk & Ek & Qk).
  destruct (nanmean_numbers _ H) as [[E _]|(_ & mean & Em & Qm)]; [contradiction|].
  set (l := numbers (map snd s)) in *. pose proof (qsort_desc_sorted l) as S1. pose proof (qsort_desc_perm l) as P.
  assert (M : qsort_desc l <> []) by (intro E; apply N; apply Permutation_nil; rewrite <- E; auto).
  destruct (qsort_desc l) as [|top r] eqn:E; [contradiction|]. rewrite <- E in *.
  assert (T1 : forall x, In x l -> x <= top).
  { intros x I. apply (Permutation_in _ (Permutation_sym P)) in I. rewrite E in I, S1.
    apply StronglySorted_inv in S1. destruct S1 as [_ F]. rewrite Forall_forall in F.
    destruct I as [<-|I]; [lra|auto]. }
  exists mean, mj, mk, top. split; [exact Em|]. split; [exact Ej|]. split; [exact Ek|].
  split; [apply (Permutation_in _ P); rewrite E; left; auto|]. split; [exact T1|].
  split; [|split].
  - rewrite Qm, Qj, <- (qmean_perm _ _ P). rewrite <- (firstn_all (qsort_desc l)) at 1.
    destruct (Nat.le_ge_cases j (length (qsort_desc l))) as [G|G].
    + apply firstn_mean_decreases; auto. lia.
    + rewrite (firstn_all2 _ G), firstn_all. lra.
  - rewrite Qj, Qk. apply firstn_mean_decreases; auto.
  - rewrite Qk. apply qmean_bound_ge; [apply firstn_nonnil; auto; lia|]. intros x I. apply T1.
    apply (Permutation_in _ P). rewrite <- (firstn_skipn k (qsort_desc l)). apply in_or_app. auto.
Qed.
Print Assumptions C70_ordered_maxima.

(** The k largest values have at least the sum of any k values of the list. *)
Lemma sum_le_firstn : forall l, StronglySorted (fun a b : Q => b <= a) l ->
  forall sub rest, Permutation l (sub ++ rest) -> Qsum sub <= Qsum (firstn (length sub) l).
Proof.
  induction l as [|a l IH]; intros H sub rest P.
  - apply Permutation_nil in P. apply app_eq_nil in P. destruct P as [-> ->]. cbn. lra.
  - apply StronglySorted_inv in H. destruct H as [H F]. destruct sub as [|x sub]; [cbn; lra|].
    cbn [length firstn]. rewrite !Qsum_cons.
    assert (I : In a (x :: sub) \/ In a rest).
    { apply in_app_or. eapply Permutation_in; [exact P|left; auto]. }
    destruct I as [I|I].
    + apply in_split in I. destruct I as (u & v & E).
      assert (P2 : Permutation (a :: l) (a :: (u ++ v) ++ rest)).
      { rewrite P, E. rewrite <- !app_assoc. cbn. symmetry. apply Permutation_middle. }
      apply Permutation_cons_inv in P2. specialize (IH H (u ++ v) rest P2).
      assert (Len : length sub = length (u ++ v)).
      { apply (f_equal (@length _)) in E. rewrite app_length in *. cbn in E. lia. }
      rewrite Len. assert (Sm : x + Qsum sub == a + Qsum (u ++ v)).
      { rewrite <- Qsum_cons, E, !Qsum_app, Qsum_cons. lra. }
      lra.
    + apply in_split in I. destruct I as (u & v & ->).
      assert (P2 : Permutation (a :: l) (a :: sub ++ (x :: u ++ v))).
      { rewrite P. cbn. rewrite (app_assoc sub u (a :: v)). rewrite <- Permutation_middle.
        rewrite <- Permutation_middle. rewrite <- app_assoc. apply perm_swap. }
      apply Permutation_cons_inv in P2. specialize (IH H sub _ P2).
      assert (Xa : x <= a).
      { rewrite Forall_forall in F. apply F. apply (Permutation_in _ (Permutation_sym P2)). apply in_or_app. right. left. auto. }
      lra.
Qed.

(** The mean of the last k values, if none of them is missing, is at most the
    mean of the k largest. *)
Lemma last_k_suffix {A} k (l : list A) : exists a, l = a ++ last_k k l /\ length (last_k k l) = Nat.min k (length l).
Proof.
  exists (firstn (length l - k) l). unfold last_k. rewrite firstn_skipn. split; auto.
  rewrite skipn_length. lia.
Qed.

Theorem C70_final_values_below_maxima :
  forall (s : series) k, no_inf (map snd s) -> (0 < k)%nat -> s <> [] ->
    Forall (fun x => isnan x = false) (last_k k (map snd s)) ->
    exists ml mk, stat_last k s = Fin ml /\ stat_max k s = Fin mk /\ ml <= mk.
Proof.
  intros s k H K N F. destruct (last_k_suffix k (map snd s)) as (a & E & L). rewrite map_length in L.
  set (t := last_k k (map snd s)) in *.
  assert (Ht : no_inf t) by (unfold no_inf in *; rewrite E in H; apply Forall_app in H; tauto).
  assert (Et : t = map Fin (numbers t)).
  { rewrite <- (present_numbers t Ht). clear - F. unfold present.
    induction F as [|x l Fx F IH]; cbn [filter]; auto. rewrite Fx. cbn [negb]. f_equal. exact IH. }
  assert (En : numbers (map snd s) = numbers a ++ numbers t) by (rewrite E; apply flat_map_app).
  assert (Lt : length (numbers t) = Nat.min k (length s)) by (rewrite <- L; apply (f_equal (@length _)) in Et; rewrite map_length in Et; auto).
  assert (Nt : numbers t <> []).
  { intro Z. rewrite Z in Lt. destruct s; [contradiction|]. cbn [length] in Lt. lia. }
  assert (Nn : numbers (map snd s) <> []) by (rewrite En; intro Z; apply app_eq_nil in Z; tauto).
  destruct (stat_max_numbers k s H K Nn) as (mk & Ek & Qk).
  destruct (nanmean_numbers t Ht) as [[Z _]|(_ & ml & El & Ql)]; [contradiction|].
  exists ml, mk. split; [exact El|]. split; [exact Ek|]. rewrite Ql, Qk.
  set (l := numbers (map snd s)) in *.
  assert (P : Permutation (qsort_desc l) (numbers t ++ numbers a)).
  { rewrite qsort_desc_perm. rewrite En. apply Permutation_app_comm. }
  assert (Lk : firstn k (qsort_desc l) = firstn (length (numbers t)) (qsort_desc l)).
  { rewrite Lt. destruct (Nat.le_ge_cases k (length s)) as [G|G]; [replace (Nat.min k (length s)) with k by lia; auto|].
    replace (Nat.min k (length s)) with (length s) by lia.
    assert (Ll : (length (qsort_desc l) <= length s)%nat).
    { rewrite (Permutation_length (qsort_desc_perm l)). unfold l.
      clear. induction s as [|[t v] s IH]; cbn; auto. destruct v; cbn; unfold numbers in *; lia. }
    rewrite !firstn_all2 by lia. reflexivity. }
  rewrite Lk. apply qmean_le.
  - rewrite firstn_length. pose proof (Permutation_length P) as Q. rewrite app_length in Q. lia.
  - eapply sum_le_firstn; [apply qsort_desc_sorted|exact P].
Qed.
Print Assumptions C70_final_values_below_maxima.

(** The statistics of a station: those of 1D, of 2D and of the difference. *)
Definition three (x : num * num * num) : list num := [fst (fst x); snd (fst x); snd x].

Theorem C70_statistics_of_a_station :
  forall s1 s2 i s, nth_error [s1; s2; difference s1 s2] i = Some s -> no_inf (map snd s) -> numbers (map snd s) <> [] ->
    let st := compute_statistics s1 s2 in
    exists mean m13 m3 top, bias s = Fin mean /\
      nth_error (three (s_max13 st)) i = Some (Fin m13) /\ nth_error (three (s_max3 st)) i = Some (Fin m3) /\
      In top (numbers (map snd s)) /\ (forall x, In x (numbers (map snd s)) -> x <= top) /\
      mean <= m13 /\ m13 <= m3 /\ m3 <= top /\
      nth_error (three (s_last3 st)) i = Some (nanmean (last_k 3 (map snd s))) /\
      nth_error (three (s_last25 st)) i = Some (nanmean (last_k 25 (map snd s))) /\
      (Forall (fun x => isnan x = false) (last_k 3 (map snd s)) ->
       exists l3, nth_error (three (s_last3 st)) i = Some (Fin l3) /\ l3 <= m3).
Proof.
  intros s1 s2 i s E H N st.
  destruct (C70_ordered_maxima s 3 13 H N) as (mean & m13 & m3 & top & Eb & E13 & E3 & I & T1 & L1 & L2 & L3); [lia|].
  assert (Ns : s <> []) by (intros ->; apply N; reflexivity).
  assert (A : nth_error (three (s_max13 st)) i = Some (stat_max 13 s) /\ nth_error (three (s_max3 st)) i = Some (stat_max 3 s) /\
              nth_error (three (s_last3 st)) i = Some (stat_last 3 s) /\ nth_error (three (s_last25 st)) i = Some (stat_last 25 s)).
  { destruct i as [|[|[|i]]]; cbn [nth_error] in E; try (injection E as <-; repeat split; reflexivity).
    destruct i; discriminate. }
  destruct A as (A1 & A2 & A3 & A4).
  exists mean, m13, m3, top. rewrite A1, A2, A3, A4, E13, E3.
  do 5 (split; [auto|]). do 3 (split; [assumption|]). split; [reflexivity|]. split; [reflexivity|].
  intro F. destruct (C70_final_values_below_maxima s 3 H ltac:(lia) Ns F) as (l3 & mk & El & Ek & Lk).
  rewrite El. exists l3. split; auto. congruence.
Qed.
Print Assumptions C70_statistics_of_a_station.

(** With a missing value among the last ones the mean is that of fewer values
    and can be greater. *)
Theorem C70_missing_final_value_refuted :
  let s := [(0%Z, Fin 1); (1%Z, Fin 1); (2%Z, NaN); (3%Z, NaN); (4%Z, Fin 4)] in
  exists ml mk, stat_last 3 s = Fin ml /\ stat_max 3 s = Fin mk /\ mk < ml.
Proof.
  do 2 eexists. split; [vm_compute; reflexivity|]. split; [vm_compute; reflexivity|]. reflexivity.
Qed.
Print Assumptions C70_missing_final_value_refuted.

(** * C73: discharge steps *)

(** The step selection as a loop over the target levels. *)
Lemma steps_loop rows (target : nat -> num) : forall (is : list nat) acc, rows <> [] ->
  exists qs last, fold_res (fun (acc : num * list num) i =>
        q <- idxmin_below (target i) rows ;;
        Ok (if neqb q (fst acc) then acc else (q, snd acc ++ [q]))) is acc = Ok (last, snd acc ++ qs) /\
    (length qs <= length is)%nat /\
    (forall q, In q qs -> exists i, In i is /\ idxmin_below (target i) rows = Ok q) /\
    (* consecutive ones differ *)
    (forall before q q' after, fst acc :: qs = before ++ q :: q' :: after -> neqb q' q = false) /\
    last = List.last qs (fst acc).
Proof.
  induction is as [|i is IH]; intros [cur out] N; cbn [fold_res fst snd].
  - exists [], cur. rewrite app_nil_r. split; [reflexivity|]. split; [auto|]. split; [intros q []|]. split; [|reflexivity].
    intros before q q' after E. destruct before as [|? [|? ?]]; discriminate.
  - destruct rows as [|[k v] rows0] eqn:Er; [contradiction|]. rewrite <- Er in *.
    assert (X : exists q, idxmin_below (target i) rows = Ok q) by (rewrite Er; cbn; eauto).
    destruct X as (q & Eq). rewrite Eq. cbn [bind]. clear Er. destruct (neqb q cur) eqn:En.
    + destruct (IH (cur, out) N) as (qs & l & E & L & I & D & La). cbn [fst snd] in *.
      exists qs, l. split; [exact E|]. split; [cbn [length]; lia|]. split; [|split; [exact D|exact La]].
      intros q0 J. destruct (I q0 J) as (i0 & J1 & J2). exists i0. split; [right; auto|auto].
    + destruct (IH (q, out ++ [q]) N) as (qs & l & E & L & I & D & La). cbn [fst snd] in *.
      exists (q :: qs), l. split; [rewrite E, <- app_assoc; reflexivity|]. split; [cbn [length]; lia|]. split; [|split].
      * intros q0 [<-|J]; [exists i; split; [left; auto|auto]|].
        destruct (I q0 J) as (i0 & J1 & J2). exists i0. split; [right; auto|auto].
      * intros before q1 q2 after B. destruct before as [|b before]; cbn in B.
        -- injection B as -> -> _. exact En.
        -- injection B as <- B. eapply D. exact B.
      * rewrite La. clear. revert q cur. induction qs as [|x qs IH]; intros q cur; [reflexivity|].
        change (last (x :: qs) q = last (x :: qs) cur). rewrite <- !(IH x). reflexivity.
Qed.

Definition lowest_level (station : list (num * num)) : num :=
  nanmin (map snd (filter (fun r => nltb (Fin 0) (fst r)) station)).
Definition target_level (n : nat) (station : list (num * num)) (i : nat) : num :=
  nadd (lowest_level station)
    (nmul (nofnat i) (ndiv (nsub (smax (map snd station)) (lowest_level station)) (nofnat (n + 1)))).
Definition with_level (station : list (num * num)) := filter (fun r : num * num => negb (isnan (snd r))) station.

(** At most n steps, none of them zero at the start or equal to the one before;
    each one is the label that is found for one of the target levels. *)
Theorem C73_discharge_steps :
  forall n station, with_level station <> [] ->
    exists qs, discharge_steps n station = Ok qs /\ (length qs <= n)%nat /\
      (forall q, In q qs -> exists i, (1 <= i <= n)%nat /\
         idxmin_below (target_level n station i) (with_level station) = Ok q) /\
      (forall q after, qs = q :: after -> neqb q (Fin 0) = false) /\
      (forall before q q' after, qs = before ++ q :: q' :: after -> neqb q' q = false).
Proof.
  intros n station N. unfold discharge_steps. fold (lowest_level station) (with_level station).
  destruct (steps_loop (with_level station) (target_level n station) (seq 1 n) (Fin 0, []) N)
    as (qs & l & E & L & I & D & _).
  unfold target_level in E at 1. cbn [fst snd] in *. rewrite E. cbn [bind snd app].
  exists qs. split; [reflexivity|]. rewrite seq_length in L. split; [exact L|]. split; [|split].
  - intros q J. destruct (I q J) as (i & J1 & J2). apply in_seq in J1. exists i. split; [lia|exact J2].
  - intros q after ->. apply (D [] (Fin 0) q after). reflexivity.
  - intros before q q' after ->. apply (D (Fin 0 :: before) q q' after). reflexivity.
Qed.
Print Assumptions C73_discharge_steps.

(** Without a level there is an error. *)
Theorem C73_no_levels :
  forall n station, with_level station = [] -> (0 < n)%nat -> discharge_steps n station = Raise ValueError.
Proof.
  intros n station H N. unfold discharge_steps. fold (with_level station). rewrite H.
  destruct n as [|n]; [lia|]. reflexivity.
Qed.
Print Assumptions C73_no_levels.

(** Finite levels: each target lies between the lowest level and the highest,
    so a step is the discharge of the first row that reaches the target. *)
Lemma fold_npmin qs : forall a, exists m, fold_left npmin (map Fin qs) (Fin a) = Fin m /\ In m (a :: qs) /\
  forall x, In x (a :: qs) -> m <= x.
Proof.
  induction qs as [|q qs IH]; intro a; cbn [map fold_left].
  - exists a. split; [reflexivity|]. split; [left; auto|]. intros x [<-|[]]. lra.
  - rewrite npmin_fin. destruct (IH (Qmin2 a q)) as (m & E & I & B). exists m. split; [exact E|]. split.
    + destruct I as [<-|I]; [|right; right; auto]. unfold Qmin2. destruct (Qltb q a); [right; left; auto|left; auto].
    + assert (H : m <= Qmin2 a q) by (apply B; left; auto).
      pose proof (Qmin2_le_l a q). pose proof (Qmin2_le_r a q).
      intros x [<-|[<-|J]]; [lra|lra|]. apply B. right. auto.
Qed.

Lemma nanmin_numbers l : no_inf l -> numbers l <> [] ->
  exists m, nanmin l = Fin m /\ In m (numbers l) /\ forall x, In x (numbers l) -> m <= x.
Proof.
  intros H N. unfold nanmin. change (filter (fun x => negb (isnan x)) l) with (present l).
  rewrite (present_numbers l H). destruct (numbers l) as [|q qs]; [contradiction|]. cbn [map].
  apply fold_npmin.
Qed.

Lemma numbers_neg l : no_inf l -> numbers (map nneg l) = map Qopp (numbers l) /\ no_inf (map nneg l).
Proof.
  induction 1 as [|x l [H1 H2] H [I1 I2]]; [split; [reflexivity|constructor]|].
  unfold numbers in *. cbn [map flat_map]. rewrite I1, map_app.
  split; [destruct x; cbn; congruence|]. constructor; [|exact I2]. destruct x; cbn; split; congruence.
Qed.

Lemma smax_numbers l : no_inf l -> numbers l <> [] ->
  exists m, smax l = Fin m /\ (exists x, In x (numbers l) /\ x == m) /\ forall x, In x (numbers l) -> x <= m.
Proof.
  intros H N. unfold smax. destruct (numbers_neg l H) as [E H'].
  destruct (nanmin_numbers (map nneg l) H') as (m & Em & I & B).
  { rewrite E. intro Z. apply map_eq_nil in Z. contradiction. }
  rewrite Em. cbn [nneg]. exists (- m). split; [reflexivity|]. rewrite E in *. split.
  - apply in_map_iff in I. destruct I as (x & <- & I). exists x. split; auto. lra.
  - intros x J. specialize (B (- x) (in_map Qopp _ _ J)). lra.
Qed.

Lemma in_numbers l q : In q (numbers l) <-> In (Fin q) l.
Proof.
  unfold numbers. rewrite in_flat_map. split.
  - intros (x & I & J). destruct x; cbn in J; try contradiction. destruct J as [<-|[]]. auto.
  - intro I. exists (Fin q). split; auto. left. auto.
Qed.

Lemma first_not_below_spec t rows k : first_not_below t rows = Some k ->
  exists before v after, rows = before ++ (k, v) :: after /\ nltb v t = false /\
    Forall (fun r => nltb (snd r) t = true) before.
Proof.
  induction rows as [|[k0 v0] rows IH]; cbn; [discriminate|]. destruct (nltb v0 t) eqn:E; intro H.
  - destruct (IH H) as (b & v & a & -> & G & F). exists ((k0, v0) :: b), v, a. auto.
  - injection H as <-. exists [], v0, rows. auto.
Qed.

Lemma first_not_below_exists t rows r : In r rows -> nltb (snd r) t = false -> exists k, first_not_below t rows = Some k.
Proof.
  induction rows as [|[k0 v0] rows IH]; intros I F; [destruct I|]. cbn. destruct (nltb v0 t) eqn:E; [|eauto].
  destruct I as [<-|I]; [cbn in F; congruence|eauto].
Qed.

Theorem C73_step_reaches_its_target :
  forall n station, no_inf (map snd station) ->
    (exists q h, In (Fin q, Fin h) station /\ 0 < q) ->
    exists lo hi, lowest_level station = Fin lo /\ smax (map snd station) = Fin hi /\ lo <= hi /\
    forall i, (1 <= i <= n)%nat -> exists t,
      target_level n station i = Fin t /\ t == lo + inject_Z (Z.of_nat i) * ((hi - lo) / inject_Z (Z.of_nat (n + 1))) /\
      lo <= t <= hi /\
      exists before q v after, with_level station = before ++ (q, v) :: after /\
        idxmin_below (target_level n station i) (with_level station) = Ok q /\
        nltb v (Fin t) = false /\ Forall (fun r => nltb (snd r) (Fin t) = true) before.
Proof.
  intros n station H (q0 & h0 & I0 & P0).
  assert (NI : no_inf (map snd (filter (fun r => nltb (Fin 0) (fst r)) station))).
  { unfold no_inf in *. rewrite Forall_map in *. apply Forall_forall. intros r I. apply filter_In in I.
    rewrite Forall_forall in H. apply H. tauto. }
  assert (N0 : In h0 (numbers (map snd (filter (fun r => nltb (Fin 0) (fst r)) station)))).
  { apply in_numbers. apply in_map_iff. exists (Fin q0, Fin h0). split; auto. apply filter_In. split; auto.
    cbn. apply Qltb_true. auto. }
  assert (N1 : In h0 (numbers (map snd station))) by (apply in_numbers, in_map_iff; exists (Fin q0, Fin h0); auto).
  destruct (nanmin_numbers _ NI) as (lo & El & Il & Bl); [intro Z; rewrite Z in N0; destruct N0|].
  destruct (smax_numbers _ H) as (hi & Eh & (hx & Ih & Qh) & Bh); [intro Z; rewrite Z in N1; destruct N1|].
  exists lo, hi. split; [exact El|]. split; [exact Eh|].
  assert (LH : lo <= hi) by (specialize (Bl h0 N0); specialize (Bh h0 N1); lra).
  split; [exact LH|]. intros i Hi.
  assert (Pn : 0 < inject_Z (Z.of_nat (n + 1))) by (change 0 with (inject_Z 0); rewrite <- Zlt_Qlt; lia).
  assert (Pi : 0 < inject_Z (Z.of_nat i)) by (change 0 with (inject_Z 0); rewrite <- Zlt_Qlt; lia).
  assert (Lin : inject_Z (Z.of_nat i) <= inject_Z (Z.of_nat (n + 1))) by (rewrite <- Zle_Qle; lia).
  unfold target_level. fold (lowest_level station) in El. rewrite El, Eh. unfold nofnat. cbn [nsub nneg nadd ndiv].
  destruct (Qeq_bool (inject_Z (Z.of_nat (n + 1))) 0) eqn:Z; [apply Qeq_bool_iff in Z; lra|]. cbn [nmul nadd].
  set (nn := inject_Z (Z.of_nat (n + 1))) in *. set (ii := inject_Z (Z.of_nat i)) in *. clearbody nn ii.
  exists (lo + ii * ((hi + - lo) / nn)). split; [reflexivity|]. split; [reflexivity|].
  assert (S0 : 0 <= (hi + - lo) / nn) by (apply Qle_shift_div_l; lra).
  assert (S1 : nn * ((hi + - lo) / nn) == hi - lo) by (field; lra).
  set (st := (hi + - lo) / nn) in *. clearbody st.
  assert (B1 : 0 <= ii * st) by nra. assert (B2 : ii * st <= nn * st) by nra.
  split; [split; lra|].
  set (t := lo + ii * st) in *. assert (Ht : t <= hi) by (unfold t; lra). clearbody t.
  apply in_numbers in Ih. apply in_map_iff in Ih. destruct Ih as ([kx vx] & Ev & Ix). cbn [snd] in Ev. subst vx.
  assert (Iw : In (kx, Fin hx) (with_level station)) by (apply filter_In; auto).
  destruct (first_not_below_exists (Fin t) _ _ Iw) as (k & Ek).
  { cbn. apply Qltb_false. lra. }
  destruct (first_not_below_spec _ _ _ Ek) as (b & v & a & Er & Fv & Fb).
  exists b, k, v, a. split; [exact Er|]. split; [|split; [exact Fv|exact Fb]].
  unfold idxmin_below. rewrite Ek. destruct (with_level station) as [|[k1 v1] rows]; [destruct Iw|reflexivity].
Qed.
Print Assumptions C73_step_reaches_its_target.

Example steps_of_a_station :
  discharge_steps 4 [(Fin 0, NaN); (Fin 200, Fin 1); (Fin 400, Fin 2); (Fin 600, Fin 6); (Fin 800, NaN)]
    = Ok [Fin 400; Fin 600].
Proof. vm_compute. reflexivity. Qed.
