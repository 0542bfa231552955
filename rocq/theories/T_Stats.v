(** Theorems for C57 (error statistics), C58 (rating-curve bins), C70 (extreme
    and final values) and C73 (discharge steps). *)
From Coq Require Import String List Ascii ZArith QArith Qabs Bool Lia Lqa Sorted Permutation.
From Verif Require Import PyBase Num Text Spec L_Num L_Cells M_Compare.
Import ListNotations.
Local Open Scope Q_scope.

(** * Means *)

Definition number_list (x : num) : list Q := match x with Fin q => [q] | _ => [] end.
Definition numbers (l : list num) : list Q := flat_map number_list l.
Definition no_inf (l : list num) : Prop := Forall (fun x => x <> PInf /\ x <> NInf) l.
Definition qmean (l : list Q) : Q := Qsum l / inject_Z (Z.of_nat (length l)).

Lemma present_numbers l : no_inf l -> present l = map Fin (numbers l).
Proof.
  induction 1 as [|x l [H1 H2] H IH]; [reflexivity|]. unfold present in *. cbn [filter numbers flat_map map].
  destruct x as [q| | |]; cbn [isnan negb number_list app map]; try congruence; auto.
  f_equal. exact IH.
Qed.

Lemma numbers_fin l : numbers (map Fin l) = l.
Proof. induction l as [|q l IH]; cbn; [auto|]. unfold numbers in IH. rewrite IH. auto. Qed.

Lemma nanmean_present l : nanmean l = nanmean (present l).
Proof.
  unfold nanmean, present. assert (E : forall l, filter (fun x => negb (isnan x)) (filter (fun x => negb (isnan x)) l)
    = filter (fun x => negb (isnan x)) l).
  { clear. induction l as [|x l IH]; cbn; auto. destruct (negb (isnan x)) eqn:E; cbn; rewrite ?E, IH; auto. }
  rewrite E. reflexivity.
Qed.

Lemma nanmean_numbers l : no_inf l ->
  (numbers l = [] /\ nanmean l = NaN) \/
  (numbers l <> [] /\ exists m, nanmean l = Fin m /\ m == qmean (numbers l)).
Proof.
  intro H. rewrite nanmean_present, (present_numbers l H). destruct (numbers l) as [|q qs] eqn:E.
  - left. auto.
  - right. split; [discriminate|]. destruct (nanmean_fin (q :: qs)) as (m & Hm & Em); [discriminate|]. eauto.
Qed.

Lemma len_pos {A} (l : list A) : l <> [] -> 0 < inject_Z (Z.of_nat (length l)).
Proof.
  intro H. destruct l; [contradiction|]. change 0 with (inject_Z 0). rewrite <- Zlt_Qlt. cbn [length]. lia.
Qed.

Lemma qmean_mul l : l <> [] -> qmean l * inject_Z (Z.of_nat (length l)) == Qsum l.
Proof. intro H. unfold qmean. pose proof (len_pos l H). field. lra. Qed.

Lemma qmean_le l m : length l = length m -> Qsum l <= Qsum m -> qmean l <= qmean m.
Proof.
  intros L H. unfold qmean. rewrite L. destruct m as [|q m].
  - destruct l; [|discriminate]. lra.
  - pose proof (len_pos (q :: m) ltac:(discriminate)). apply Qmult_le_compat_r; [auto|].
    apply Qlt_le_weak, Qinv_lt_0_compat. auto.
Qed.

Lemma qmean_bound_le l c : l <> [] -> (forall x, In x l -> c <= x) -> c <= qmean l.
Proof.
  intros H B. pose proof (len_pos l H) as P. pose proof (qmean_mul l H) as M.
  assert (G : c * inject_Z (Z.of_nat (length l)) <= Qsum l).
  { clear M P H. induction l as [|x l IH]; [change (c * 0 <= 0); lra|]. cbn [length Qsum fold_right].
    rewrite Nat2Z.inj_succ. unfold Z.succ. rewrite inject_Z_plus. change (inject_Z 1) with 1.
    assert (c <= x) by (apply B; left; auto). assert (I := IH (fun y J => B y (or_intror J))).
    fold (Qsum l). lra. }
  apply (Qmult_le_r _ _ (inject_Z (Z.of_nat (length l)))); auto. lra.
Qed.

Lemma qmean_bound_ge l c : l <> [] -> (forall x, In x l -> x <= c) -> qmean l <= c.
Proof.
  intros H B. pose proof (len_pos l H) as P. pose proof (qmean_mul l H) as M.
  assert (G : Qsum l <= c * inject_Z (Z.of_nat (length l))).
  { clear M P H. induction l as [|x l IH]; [change (0 <= c * 0); lra|]. cbn [length Qsum fold_right].
    rewrite Nat2Z.inj_succ. unfold Z.succ. rewrite inject_Z_plus. change (inject_Z 1) with 1.
    assert (x <= c) by (apply B; left; auto). assert (I := IH (fun y J => B y (or_intror J))).
    fold (Qsum l). lra. }
  apply (Qmult_le_r _ _ (inject_Z (Z.of_nat (length l)))); auto. lra.
Qed.

(** * Differences *)

Lemma insert_time_in t l x : In x (insert_time t l) <-> x = t \/ In x l.
Proof.
  induction l as [|y l IH]; cbn [insert_time]; [cbn; intuition|].
  destruct (t <? y)%Z; [cbn; intuition|]. destruct (Z.eqb_spec t y) as [->|N]; [cbn; intuition|].
  cbn [In]. rewrite IH. intuition.
Qed.

Lemma union_index_in a b t : In t (union_index a b) <-> In t a \/ In t b.
Proof.
  unfold union_index. destruct (list_eq_dec Z.eq_dec a b) as [->|N]; [tauto|].
  rewrite <- in_app_iff. generalize (a ++ b). intro l. induction l as [|x l IH]; [reflexivity|].
  cbn [fold_right]. rewrite insert_time_in, IH. cbn [In]. intuition.
Qed.

Lemma at_time_in s t q : at_time s t = Fin q -> In (t, Fin q) s.
Proof.
  induction s as [|[t' v] s IH]; cbn [at_time]; intro H; [discriminate|].
  destruct (Z.eqb_spec t' t) as [->|N]; [left; congruence|right; auto].
Qed.

Lemma at_time_unique s t v : NoDup (map fst s) -> In (t, v) s -> at_time s t = v.
Proof.
  induction s as [|[t' v'] s IH]; intros N I; [destruct I|]. cbn [map fst] in N. apply NoDup_cons_iff in N.
  destruct N as [N1 N2]. cbn [at_time]. destruct I as [I|I].
  - injection I as -> ->. rewrite Z.eqb_refl. reflexivity.
  - destruct (Z.eqb_spec t' t) as [->|M]; [|auto]. exfalso. apply N1. change t with (fst (t, v)). apply in_map. auto.
Qed.

Lemma at_time_no_inf s t : no_inf (map snd s) -> at_time s t <> PInf /\ at_time s t <> NInf.
Proof.
  unfold no_inf. intro H. induction s as [|[t' v] s IH]; cbn [at_time]; [split; discriminate|].
  cbn [map snd] in H. apply Forall_cons_iff in H. destruct H as [H1 H2]. destruct (t' =? t)%Z; auto.
Qed.

Lemma difference_no_inf s1 s2 : no_inf (map snd s1) -> no_inf (map snd s2) -> no_inf (map snd (difference s1 s2)).
Proof.
  intros H1 H2. unfold no_inf, difference. rewrite map_map. cbn [snd]. apply Forall_map. apply Forall_forall.
  intros t _. pose proof (at_time_no_inf s1 t H1) as [A1 A2]. pose proof (at_time_no_inf s2 t H2) as [B1 B2].
  destruct (at_time s1 t), (at_time s2 t); cbn; split; congruence.
Qed.

(** The errors of a station: the differences of the times that have a value in
    both models. *)
Definition errors (s1 s2 : series) : list Q := numbers (map snd (difference s1 s2)).

Lemma errors_in s1 s2 e :
  In e (errors s1 s2) <-> exists t x y, at_time s1 t = Fin x /\ at_time s2 t = Fin y /\ e = x + - y.
Proof.
  unfold errors, numbers. rewrite in_flat_map. split.
  - intros (v & I & J). apply in_map_iff in I. destruct I as ([t w] & E & I). cbn [snd] in E. subst w.
    unfold difference in I. apply in_map_iff in I. destruct I as (t' & E & _). injection E as -> E.
    destruct (at_time s1 t) as [x| | |] eqn:E1, (at_time s2 t) as [y| | |] eqn:E2; cbn in E; subst v; cbn in J;
      try contradiction. destruct J as [<-|[]]. exists t, x, y. auto.
  - intros (t & x & y & E1 & E2 & ->). exists (Fin (x + - y)). split; [|left; auto].
    apply in_map_iff. exists (t, Fin (x + - y)). split; auto. unfold difference. apply in_map_iff.
    exists t. rewrite E1, E2. split; [reflexivity|]. apply union_index_in. left.
    apply at_time_in in E1. change t with (fst (t, Fin x)). apply in_map. auto.
Qed.

(** * C57 *)

Definition positive_part (x : Q) : Q := if Qle_bool 0 x then x else 0.
Definition negative_part (x : Q) : Q := if Qle_bool 0 x then 0 else - x.

Lemma parts l :
  Qsum l == Qsum (map positive_part l) - Qsum (map negative_part l) /\
  Qsum (map Qabs l) == Qsum (map positive_part l) + Qsum (map negative_part l) /\
  0 <= Qsum (map positive_part l) /\ 0 <= Qsum (map negative_part l) /\
  (Qsum (map positive_part l) == 0 <-> Forall (fun x => x <= 0) l) /\
  (Qsum (map negative_part l) == 0 <-> Forall (fun x => 0 <= x) l).
Proof.
  induction l as [|x l (I1 & I2 & I3 & I4 & I5 & I6)]; [cbn; repeat split; auto; lra|].
  cbn [map Qsum fold_right]. fold (Qsum l) (Qsum (map Qabs l)) (Qsum (map positive_part l)) (Qsum (map negative_part l)).
  rewrite !Forall_cons_iff, <- I5, <- I6. unfold positive_part at 1 3 5 7, negative_part at 1 3 5 7.
  destruct (Qle_bool 0 x) eqn:E.
  - apply Qle_bool_iff in E. rewrite (Qabs_pos x) by auto. repeat split; try lra; intuition lra.
  - assert (x < 0) by (destruct (Qlt_le_dec x 0) as [H|H]; auto; apply Qle_bool_iff in H; congruence).
    rewrite (Qabs_neg x) by lra. repeat split; try lra; intuition lra.
Qed.

Lemma Qabs_sum l : Qabs (Qsum l) <= Qsum (map Qabs l) /\
  (Qabs (Qsum l) == Qsum (map Qabs l) <-> Forall (fun x => 0 <= x) l \/ Forall (fun x => x <= 0) l).
Proof.
  destruct (parts l) as (P1 & P2 & P3 & P4 & P5 & P6). rewrite <- P5, <- P6.
  set (p := Qsum (map positive_part l)) in *. set (n := Qsum (map negative_part l)) in *. clearbody p n.
  rewrite P1, P2. destruct (Qlt_le_dec p n) as [H|H].
  - rewrite Qabs_neg by lra. split; [lra|]. split; [intro; right; lra|]. intros [G|G]; lra.
  - rewrite Qabs_pos by lra. split; [lra|]. split; [intro; left; lra|]. intros [G|G]; lra.
Qed.

Lemma Qsum_abs_zero l : Qsum (map Qabs l) == 0 <-> Forall (fun x => x == 0) l.
Proof.
  destruct (parts l) as (P1 & P2 & P3 & P4 & P5 & P6). rewrite P2. split.
  - intro H. assert (A : Qsum (map positive_part l) == 0) by lra. assert (B : Qsum (map negative_part l) == 0) by lra.
    apply P5 in A. apply P6 in B. rewrite Forall_forall in *. intros x I. specialize (A x I). specialize (B x I).
    cbv beta in *. lra.
  - intro H. assert (A : Qsum (map positive_part l) == 0) by (apply P5; eapply Forall_impl; [|exact H]; cbv beta; intros; lra).
    assert (B : Qsum (map negative_part l) == 0) by (apply P6; eapply Forall_impl; [|exact H]; cbv beta; intros; lra).
    lra.
Qed.

Lemma mae_numbers d : map (fun r : Z * num => nabs (snd r)) d = map nabs (map snd d).
Proof. rewrite map_map. reflexivity. Qed.

Lemma numbers_abs l : no_inf l -> numbers (map nabs l) = map Qabs (numbers l) /\ no_inf (map nabs l).
Proof.
  induction 1 as [|x l [H1 H2] H [I1 I2]]; [split; [reflexivity|constructor]|].
  unfold numbers in *. cbn [map flat_map]. rewrite I1. rewrite map_app.
  split; [destruct x; cbn; congruence|]. constructor; [|exact I2]. destruct x; cbn; split; congruence.
Qed.

(** The statistics of a station without infinite values that has at least one
    time with a value in both models. *)
Theorem C57_bias_and_mean_absolute_error :
  forall s1 s2, no_inf (map snd s1) -> no_inf (map snd s2) -> errors s1 s2 <> [] ->
    exists b m, s_bias (compute_statistics s1 s2) = Fin b /\ s_mae (compute_statistics s1 s2) = Fin m /\
      b == qmean (errors s1 s2) /\ m == qmean (map Qabs (errors s1 s2)) /\
      Qabs b <= m /\
      (Qabs b == m <-> Forall (fun e => 0 <= e) (errors s1 s2) \/ Forall (fun e => e <= 0) (errors s1 s2)) /\
      (m == 0 <-> Forall (fun e => e == 0) (errors s1 s2)).
Proof.
  intros s1 s2 H1 H2 N. cbn [compute_statistics s_bias s_mae]. unfold bias, mae. rewrite mae_numbers.
  pose proof (difference_no_inf s1 s2 H1 H2) as H. unfold errors in *.
  set (l := map snd (difference s1 s2)) in *. clearbody l.
  destruct (numbers_abs l H) as [A1 A2].
  destruct (nanmean_numbers l H) as [[E _]|(_ & b & Eb & Qb)]; [contradiction|].
  destruct (nanmean_numbers _ A2) as [[E _]|(_ & m & Em & Qm)].
  { rewrite A1 in E. apply map_eq_nil in E. contradiction. }
  rewrite A1 in Qm. exists b, m. split; [exact Eb|]. split; [exact Em|]. split; [exact Qb|]. split; [exact Qm|].
  set (es := numbers l) in *. clearbody es. pose proof (len_pos es N) as P.
  pose proof (qmean_mul es N) as M1.
  assert (N' : map Qabs es <> []) by (intro E; apply map_eq_nil in E; contradiction).
  pose proof (qmean_mul (map Qabs es) N') as M2. rewrite map_length in M2.
  set (k := inject_Z (Z.of_nat (length es))) in *. clearbody k.
  destruct (Qabs_sum es) as [S1 S2].
  assert (B : Qabs b * k == Qabs (Qsum es)).
  { rewrite <- M1, <- Qb. rewrite Qabs_Qmult. rewrite (Qabs_pos k) by lra. reflexivity. }
  assert (C : m * k == Qsum (map Qabs es)) by (rewrite Qm; auto).
  split; [|split].
  - apply (Qmult_le_r _ _ k); auto. lra.
  - rewrite <- S2. split; intro G.
    + rewrite <- B, <- C, G. reflexivity.
    + apply (Qmult_inj_r _ _ k); [lra|]. lra.
  - rewrite <- Qsum_abs_zero, <- C. split; intro G; [rewrite G; lra|].
    apply (Qmult_inj_r _ _ k); lra.
Qed.
Print Assumptions C57_bias_and_mean_absolute_error.

(** In terms of the two series: the mean absolute error is zero exactly if the
    values agree at every common time. *)
Theorem C57_zero_error_iff_agreement_partial :
  forall s1 s2, no_inf (map snd s1) -> no_inf (map snd s2) ->
    NoDup (map fst s1) -> NoDup (map fst s2) ->
    (exists t x y, In (t, Fin x) s1 /\ In (t, Fin y) s2) ->
    exists m, s_mae (compute_statistics s1 s2) = Fin m /\ 0 <= m /\
      (m == 0 <-> forall t x y, In (t, Fin x) s1 -> In (t, Fin y) s2 -> x == y).
Proof.
  intros s1 s2 H1 H2 N1 N2 (t0 & x0 & y0 & I1 & I2).
  assert (N : errors s1 s2 <> []).
  { assert (I : In (x0 + - y0) (errors s1 s2)).
    { apply errors_in. exists t0, x0, y0. split; [apply at_time_unique; auto|]. split; [apply at_time_unique; auto|]. auto. }
    intro E. rewrite E in I. destruct I. }
  destruct (C57_bias_and_mean_absolute_error s1 s2 H1 H2 N) as (b & m & Eb & Em & Qb & Qm & L & _ & Z0).
  exists m. split; auto. split; [pose proof (Qabs_nonneg b); lra|]. rewrite Z0, Forall_forall. split.
  - intros F t x y J1 J2. assert (I : In (x + - y) (errors s1 s2)).
    { apply errors_in. exists t, x, y. split; [apply at_time_unique; auto|]. split; [apply at_time_unique; auto|]. auto. }
    specialize (F _ I). cbv beta in F. lra.
  - intros F e I. apply errors_in in I. destruct I as (t & x & y & E1 & E2 & ->).
    apply at_time_in in E1, E2. specialize (F t x y E1 E2). lra.
Qed.
Print Assumptions C57_zero_error_iff_agreement_partial.

(** Without a common time the error is not zero but missing. *)
Theorem C57_no_common_time_refuted :
  forall s1 s2, no_inf (map snd s1) -> no_inf (map snd s2) ->
    (forall t x y, In (t, Fin x) s1 -> In (t, Fin y) s2 -> False) ->
    s_mae (compute_statistics s1 s2) = NaN /\ s_bias (compute_statistics s1 s2) = NaN.
Proof.
  intros s1 s2 H1 H2 N. assert (E : errors s1 s2 = []).
  { destruct (errors s1 s2) as [|e l] eqn:E; auto. exfalso.
    assert (I : In e (errors s1 s2)) by (rewrite E; left; auto). apply errors_in in I.
    destruct I as (t & x & y & A & B & _). apply at_time_in in A, B. eauto. }
  cbn [compute_statistics s_bias s_mae]. unfold bias, mae. rewrite mae_numbers.
  pose proof (difference_no_inf s1 s2 H1 H2) as H. unfold errors in *.
  set (l := map snd (difference s1 s2)) in *. clearbody l. destruct (numbers_abs l H) as [A1 A2]. split.
  - destruct (nanmean_numbers _ A2) as [[_ F]|(F & _)]; auto. rewrite A1, E in F. contradiction.
  - destruct (nanmean_numbers _ H) as [[_ F]|(F & _)]; auto. contradiction.
Qed.
Print Assumptions C57_no_common_time_refuted.

(** The spread of the errors. *)
Lemma npsum_ext_sq l m : exists s,
  npsum (map (fun x => nmul (nsub x (Fin m)) (nsub x (Fin m))) (map Fin l)) = Fin s /\
  s == Qsum (map (fun x => (x - m) * (x - m)) l).
Proof.
  rewrite map_map. cbn [nsub nneg nadd nmul].
  change (fun x : Q => Fin ((x + - m) * (x + - m))) with (fun x : Q => Fin ((fun x => (x - m) * (x - m)) x)).
  rewrite <- (map_map (fun x => (x - m) * (x - m)) Fin). apply npsum_fin.
Qed.

Lemma square_nonneg (x : Q) : 0 <= x * x.
Proof. destruct (Qlt_le_dec x 0); nra. Qed.

Lemma Qsum_cons x l : Qsum (x :: l) = x + Qsum l.
Proof. reflexivity. Qed.

Lemma sum_sq_nonneg l m : 0 <= Qsum (map (fun x => (x - m) * (x - m)) l).
Proof.
  induction l as [|x l IH]; [cbn; lra|]. cbn [map]. rewrite Qsum_cons.
  pose proof (square_nonneg (x - m)). lra.
Qed.

Lemma sum_sq_zero l m : Qsum (map (fun x => (x - m) * (x - m)) l) == 0 <-> Forall (fun x => x == m) l.
Proof.
  induction l as [|x l IH]; [split; [constructor|cbn; lra]|]. cbn [map]. rewrite Qsum_cons.
  pose proof (sum_sq_nonneg l m) as P. pose proof (square_nonneg (x - m)) as S1. rewrite Forall_cons_iff, <- IH.
  set (s := Qsum (map (fun x => (x - m) * (x - m)) l)) in *. clearbody s. split.
  - intro H. assert (A : (x - m) * (x - m) == 0) by lra. split; [|lra].
    apply Qmult_integral in A. destruct A; lra.
  - intros [A B]. rewrite A, B. ring.
Qed.

Theorem C57_spread_of_the_errors :
  forall s1 s2, no_inf (map snd s1) -> no_inf (map snd s2) ->
    (length (errors s1 s2) < 2)%nat /\ s_std2 (compute_statistics s1 s2) = NaN \/
    (2 <= length (errors s1 s2))%nat /\ exists b v,
      s_bias (compute_statistics s1 s2) = Fin b /\ s_std2 (compute_statistics s1 s2) = Fin v /\ 0 <= v /\
      v * inject_Z (Z.of_nat (length (errors s1 s2) - 1)) == Qsum (map (fun e => (e - b) * (e - b)) (errors s1 s2)) /\
      (v == 0 <-> Forall (fun e => e == b) (errors s1 s2)).
Proof.
  intros s1 s2 H1 H2. cbn [compute_statistics s_bias s_std2]. unfold bias, std2.
  pose proof (difference_no_inf s1 s2 H1 H2) as H. unfold errors.
  set (l := map snd (difference s1 s2)) in *. clearbody l.
  rewrite (nanmean_present l), (present_numbers l H). set (es := numbers l). clearbody es.
  destruct es as [|e1 [|e2 es]]; [left; split; [cbn; lia|reflexivity]..|]. right. split; [cbn; lia|].
  destruct (nanmean_fin (e1 :: e2 :: es)) as (b & Eb & _); [discriminate|].
  set (L := e1 :: e2 :: es) in *.
  assert (K : exists a c r, L = a :: c :: r) by (unfold L; eauto). assert (N : (2 <= length L)%nat) by (unfold L; cbn; lia).
  clearbody L. destruct (npsum_ext_sq L b) as (s & Es & Qs). rewrite Eb.
  assert (Z : match map Fin L with [] | [_] => NaN
    | _ => ndiv (npsum (map (fun x => nmul (nsub x (Fin b)) (nsub x (Fin b))) (map Fin L))) (nofnat (length (map Fin L) - 1)) end
    = ndiv (Fin s) (nofnat (length L - 1))).
  { rewrite Es, map_length. destruct K as (a & c & r & ->). reflexivity. }
  rewrite Z. clear Z.
  assert (P : 0 < inject_Z (Z.of_nat (length L - 1))).
  { change 0 with (inject_Z 0). rewrite <- Zlt_Qlt. lia. }
  unfold nofnat, ndiv. destruct (Qeq_bool (inject_Z (Z.of_nat (length L - 1))) 0) eqn:E.
  { apply Qeq_bool_iff in E. lra. }
  exists b, (s / inject_Z (Z.of_nat (length L - 1))). split; [reflexivity|]. split; [reflexivity|].
  set (k := inject_Z (Z.of_nat (length L - 1))) in *. clearbody k.
  assert (V : s / k * k == s) by (field; lra).
  assert (G : 0 <= s).
  { rewrite Qs. apply sum_sq_nonneg. }
  split; [|split].
  - apply (Qmult_le_r _ _ k); auto. lra.
  - rewrite V. exact Qs.
  - rewrite <- sum_sq_zero, <- Qs. split; intro F; [rewrite <- V, F; ring|rewrite F; field; lra].
Qed.
Print Assumptions C57_spread_of_the_errors.

Example statistics_of_a_station :
  let s1 := [(0%Z, Fin 1); (10%Z, Fin 2); (20%Z, NaN); (30%Z, Fin 4)] in
  let s2 := [(10%Z, Fin 1); (20%Z, Fin 3); (30%Z, Fin 6)] in
  errors s1 s2 = [2 + - (1); 4 + - (6)] /\
  exists b m, s_bias (compute_statistics s1 s2) = Fin b /\ s_mae (compute_statistics s1 s2) = Fin m /\
    b == - (1 # 2) /\ m == 3 # 2.
Proof.
  split; [reflexivity|]. do 2 eexists. split; [vm_compute; reflexivity|]. split; [vm_compute; reflexivity|].
  split; reflexivity.
Qed.
