(** Theorems for C11, C12, C13: poly-line simplification of profiles. *)
From Coq Require Import String List ZArith QArith Qround Qabs Qminmax Bool Lia Lqa Permutation.
From Verif Require Import PyBase Num Spec Spec_Simplify L_Num L_List L_Require M_Geometry T_Require M_Simplify L_Simplify.
Import ListNotations.
Local Open Scope Q_scope.

(** ** C12 *)

Lemma triangle_rows_nth (pts : list qpoint) : forall k,
  (k + 2 < length pts)%nat ->
  exists q, nth_error (triangle_rows (map fpt pts)) k = Some (Fin q) /\
            q == qtri (pt pts k) (pt pts (S k)) (pt pts (S (S k))).
Proof.
  unfold pt. induction pts as [|a [|b [|c l]] IH]; intros k Hk; simpl in Hk; try lia.
  destruct k as [|k].
  - destruct (triangle_area_row_fin a b c) as (q & E & Hq). exists q. split; auto.
    cbn [map triangle_rows nth_error]. rewrite E. auto.
  - destruct (IH k) as (q & E & Hq); [simpl; lia|]. exists q. split; auto.
Qed.

Lemma triangle_rows_length (pts : list point) : length (triangle_rows pts) = (length pts - 2)%nat.
Proof. induction pts as [|a [|b [|c l]] IH]; auto. cbn [triangle_rows length] in *. rewrite IH. lia. Qed.

Lemma initial_inv (pts : list qpoint) real :
  (2 <= length pts)%nat -> triangle_areas_from_array (map fpt pts) = Ok real ->
  inv pts real real (seq 0 (length pts)) 0.
Proof.
  intros Hn E. set (n := length pts) in *.
  assert (Er : real = PInf :: triangle_rows (map fpt pts) ++ [PInf]).
  { destruct pts as [|a [|b l]]; subst n; simpl in Hn; try lia. cbn [map triangle_areas_from_array] in E |- *. congruence. }
  assert (Hl : length (triangle_rows (map fpt pts)) = (n - 2)%nat)
    by (rewrite triangle_rows_length, map_length; auto).
  assert (Hat : forall p, (p < n)%nat -> at_ (seq 0 n) p = p)
    by (intros p Hp; unfold at_; rewrite seq_nth by auto; auto).
  assert (Hlen : length real = n) by (rewrite Er; simpl; rewrite app_length, Hl; simpl; lia).
  assert (Hlast : nth_error real (n - 1) = Some PInf).
  { rewrite Er. replace (n - 1)%nat with (S (n - 2)) by lia. cbn [nth_error].
    rewrite nth_error_app2 by lia. rewrite Hl, Nat.sub_diag. auto. }
  constructor; auto.
  - rewrite seq_length. lia.
  - apply seq_NoDup.
  - intros k Hk. apply in_seq in Hk. fold n. lia.
  - rewrite nth_error_seq by lia. auto.
  - rewrite seq_length, nth_error_seq by lia. f_equal.
  - intros p [Hp0 Hp1]. rewrite seq_length in Hp1.
    destruct (triangle_rows_nth pts (p - 1)) as (q & Hq & Hq2); [fold n; lia|].
    exists q.
    assert (Hr : nth_error real p = Some (Fin q)).
    { rewrite Er. destruct p; [lia|]. cbn [nth_error]. rewrite nth_error_app1 by lia.
      replace (S p - 1)%nat with p in Hq by lia. auto. }
    rewrite Hat by lia. split; auto. split; auto.
    unfold tri3. rewrite !Hat by lia.
    replace (S (p - 1)) with p in Hq2 by lia. replace (p + 1)%nat with (S p) by lia.
    rewrite Hq2. unfold Qmax2. destruct (Qltb 0 _) eqn:E0; qb; [reflexivity|].
    pose proof (qtri_nonneg (pt pts (p - 1)) (pt pts p) (pt pts (S p))). lra.
  - rewrite Er. auto.
  - rewrite seq_length. intros p Hp. fold n in Hp. replace p with (n - 1)%nat by lia. auto.
  - rewrite Er. auto.
Qed.

Lemma build_thresholds_spec (pts : list qpoint) :
  pts <> [] ->
  exists th trace,
    build_thresholds (map fpt pts) = Ok th /\ length th = length pts /\
    elimination (area pts) (seq 0 (length pts)) 0 trace /\
    nth_error th 0 = Some PInf /\ nth_error th (length pts - 1) = Some PInf /\
    (forall v s, In (v, s) trace -> nth_error th v = Some (Fin s)).
Proof.
  intros Hne. destruct pts as [|a [|b l]]; [congruence| |].
  - exists [PInf], []. split; [reflexivity|]. split; auto. split; [constructor; simpl; lia|].
    split; auto. split; auto. intros v s [].
  - set (pts := a :: b :: l) in *. assert (Hn : (2 <= length pts)%nat) by (simpl; lia).
    unfold build_thresholds. rewrite map_length.
    destruct (triangle_areas_from_array (map fpt pts)) as [real|e] eqn:E.
    2:{ discriminate E. }
    assert (I := initial_inv pts real Hn E). cbn [bind].
    destruct (Nat.eq_dec (length pts) 2) as [H2|H2].
    + destruct (vw_next_done pts real real _ _ I) as [i' E2]; [rewrite seq_length; auto|].
      rewrite E2. cbn [bind]. exists real, []. split.
      { rewrite H2. reflexivity. }
      split; [apply (inv_real _ _ _ _ _ I)|]. split; [constructor; rewrite seq_length; lia|].
      split; [apply (inv_r0 _ _ _ _ _ I)|]. split; [apply (inv_rn _ _ _ _ _ I)|]. intros v s [].
    + destruct (vw_next_interior pts real real _ _ None I) as (v & s & E2 & Hi & Hs & Hr & Hmin).
      { rewrite seq_length. lia. } { discriminate. }
      rewrite E2. cbn [bind].
      destruct (vw_loop_spec pts (length pts) real real (seq 0 (length pts)) 0 v s I Hi Hs Hmin Hr)
        as (th & trace & F1 & F2 & F3 & F4 & F5 & F6 & F7 & F8); [rewrite seq_length; lia|].
      exists th, ((at_ (seq 0 (length pts)) v, s) :: trace).
      split; [exact F1|]. split; auto.
      split; [eapply elim_step_at; eauto|]. split; auto. split; auto.
      intros k s' [Hin|Hin]; auto. inversion Hin; subst; auto.
Qed.

(** Every interior vertex occurs in the trace of an elimination, once. *)
Lemma elimination_covers f i t tr : elimination f i t tr ->
  forall k x, (0 < k)%nat -> (k + 1 < length i)%nat -> nth_error i k = Some x -> In x (map fst tr).
Proof.
  induction 1 as [rem last H|l a v b r last s rest H H0 H1 IH]; intros k x Hk0 Hk1 Hx.
  - lia.
  - assert (Hr : remove_nth (S (length l)) (l ++ a :: v :: b :: r) = l ++ a :: b :: r).
    { clear. induction l; simpl; auto. f_equal. auto. }
    assert (Hlen : length (l ++ a :: v :: b :: r) = S (length (l ++ a :: b :: r)))
      by (rewrite !app_length; simpl; lia).
    rewrite Hlen in Hk1. cbn [map fst In].
    destruct (lt_eq_lt_dec k (S (length l))) as [[Hlt|He]|Hgt].
    + right. apply (IH k x); auto.
      * rewrite app_length in *. simpl in *. lia.
      * rewrite <- Hr. rewrite nth_error_remove_lt by auto. auto.
    + left. subst k. rewrite nth_error_app2 in Hx by lia.
      replace (S (length l) - length l)%nat with 1%nat in Hx by lia. simpl in Hx. congruence.
    + right. apply (IH (k - 1)%nat x); try lia.
      rewrite <- Hr. rewrite nth_error_remove_ge by lia. replace (S (k - 1)) with k by lia. auto.
Qed.

Lemma elimination_NoDup f i t tr : elimination f i t tr -> NoDup i ->
  NoDup (map fst tr) /\ forall x, In x (map fst tr) -> In x i.
Proof.
  induction 1 as [rem last H|l a v b r last s rest H H0 H1 IH]; intros HD.
  - simpl. split; [constructor|]. intros x [].
  - assert (Heq : l ++ a :: v :: b :: r = (l ++ [a]) ++ v :: b :: r) by (rewrite <- app_assoc; auto).
    assert (Heq2 : l ++ a :: b :: r = (l ++ [a]) ++ b :: r) by (rewrite <- app_assoc; auto).
    rewrite Heq in *. rewrite Heq2 in *.
    pose proof (NoDup_remove_1 _ _ _ HD) as D1. pose proof (NoDup_remove_2 _ _ _ HD) as D2.
    destruct (IH D1) as [I1 I2]. cbn [map fst]. split.
    + constructor; auto.
    + intros x [<-|Hx].
      * apply in_app_iff. right; left; auto.
      * apply I2 in Hx. apply in_app_iff in Hx. apply in_app_iff.
        destruct Hx; [left|right; right]; auto.
Qed.

(** Significances do not decrease along an elimination. *)
Lemma elimination_mono f i t tr : elimination f i t tr ->
  sorted Qle (map snd tr) /\ Forall (fun s => t <= s) (map snd tr).
Proof.
  induction 1 as [rem last H|l a v b r last s rest H H0 H1 [IH1 IH2]].
  - simpl. auto.
  - assert (last <= s) by (rewrite H; apply Q.le_max_l).
    cbn [map snd]. split.
    + destruct (map snd rest); simpl in *; auto. inversion IH2; subst. split; auto.
    + constructor; auto. eapply Forall_impl; [|exact IH2]. simpl. intros; lra.
Qed.

(** C12.  The thresholds computed for a poly-line are the significances of a
    Visvalingam-Whyatt elimination of its interior vertices; the end points
    get the value infinity and are never removed. *)
Theorem C12_thresholds_are_elimination_areas :
  forall pts : list qpoint, pts <> [] ->
  exists th trace,
    build_thresholds (map fpt pts) = Ok th /\
    length th = length pts /\
    elimination (fun a b c => qtri (nth a pts (0, 0)) (nth b pts (0, 0)) (nth c pts (0, 0)))
      (seq 0 (length pts)) 0 trace /\
    (forall v s, In (v, s) trace -> nth_error th v = Some (Fin s)) /\
    NoDup (map fst trace) /\
    (forall v, In v (map fst trace) <-> (0 < v /\ v + 1 < length pts)%nat) /\
    nth_error th 0 = Some PInf /\ nth_error th (length pts - 1) = Some PInf.
Proof.
  intros pts Hne. destruct (build_thresholds_spec pts Hne) as (th & trace & E & L & El & H0 & Hn & Hin).
  exists th, trace. split; auto. split; auto. split; [exact El|]. split; auto.
  destruct (elimination_NoDup _ _ _ _ El) as [D1 D2]; [apply seq_NoDup|]. split; auto.
  split; [|split; auto].
  intros v. split.
  - intros Hv. pose proof (D2 _ Hv) as Hs. apply in_seq in Hs.
    apply in_map_iff in Hv. destruct Hv as ((v', s) & <- & Hv). cbn [fst] in *. apply Hin in Hv.
    split.
    + destruct v'; [congruence|lia].
    + destruct (Nat.eq_dec v' (length pts - 1)); [subst; congruence|lia].
  - intros [Hv0 Hv1]. eapply elimination_covers; eauto.
    + rewrite seq_length. auto.
    + rewrite nth_error_seq by lia. auto.
Qed.
Print Assumptions C12_thresholds_are_elimination_areas.

(** A line with five points: vertex 2 has the smallest area and goes first. *)
Example C12_case :
  exists a b c, build_thresholds (map fpt [(0, 0); (1, 4); (2, 5); (3, 5); (4, 10)])
    = Ok [PInf; Fin a; Fin b; Fin c; PInf] /\ b == (1 # 2) /\ a == (7 # 2) /\ c == 5.
Proof. vm_compute. eexists _, _, _. split; [reflexivity|]. repeat split. Qed.

(** ** Sorted thresholds *)

Lemma insert_desc_perm x l : Permutation (x :: l) (insert_desc x l).
Proof.
  induction l as [|y l IH]; simpl; auto. destruct (nltb x y); auto.
  eapply perm_trans; [apply perm_swap|]. constructor. auto.
Qed.
Lemma sort_desc_perm l : Permutation l (sort_desc l).
Proof.
  induction l as [|x l IH]; simpl; auto.
  eapply perm_trans; [apply perm_skip, IH|]. apply insert_desc_perm.
Qed.

Fixpoint desc (l : list num) : Prop :=
  match l with [] => True | x :: l' => Forall (fun y => nle y x) l' /\ desc l' end.

Lemma insert_desc_desc x l : nonan (x :: l) -> desc l -> desc (insert_desc x l).
Proof.
  induction l as [|y l IH]; intros Hn Hd.
  - simpl. auto.
  - inversion Hn as [|? ? Hx Hl]; subst. inversion Hl as [|? ? Hy Hl']; subst.
    simpl. destruct (nltb x y) eqn:E.
    + simpl in Hd. destruct Hd as [Hd1 Hd2]. split.
      * assert (P := insert_desc_perm x l).
        apply (Permutation_Forall P). constructor; auto. apply nlt_nle; auto.
      * apply IH; auto. constructor; auto.
    + simpl. split; [|exact Hd]. simpl in Hd. destruct Hd as [Hd1 Hd2].
      constructor; [unfold nle; auto|].
      rewrite Forall_forall in *. intros w Hw.
      apply nle_trans with y; auto.
Qed.

Lemma nonan_perm l m : Permutation l m -> nonan l -> nonan m.
Proof. intros P. apply (Permutation_Forall P). Qed.

Lemma sort_desc_desc l : nonan l -> desc (sort_desc l).
Proof.
  induction l as [|x l IH]; intros H; simpl; auto. inversion H; subst.
  apply insert_desc_desc; auto. constructor; auto.
  eapply nonan_perm; [apply sort_desc_perm|]; auto.
Qed.

Definition count (f : num -> bool) (l : list num) : nat := length (filter f l).

Lemma count_perm f l m : Permutation l m -> count f l = count f m.
Proof.
  unfold count. induction 1; simpl; auto.
  - destruct (f x); simpl; auto.
  - destruct (f x), (f y); simpl; auto.
  - congruence.
Qed.

Lemma filter_none {A} (f : A -> bool) l : Forall (fun x => f x = false) l -> filter f l = [].
Proof. induction 1; simpl; auto. rewrite H. auto. Qed.

(** At most k values are larger than the k-th in descending order. *)
Lemma desc_count l : forall k t, desc l -> nth_error l k = Some t ->
  (count (fun x => nltb t x) l <= k)%nat.
Proof.
  unfold count. induction l as [|x l IH]; intros [|k] t Hd Hk; simpl in *; try discriminate.
  - inversion Hk; subst. destruct Hd as [Hd _].
    assert (nltb t t = false) as -> by (apply nle_refl).
    rewrite filter_none; auto.
  - specialize (IH k t (proj2 Hd) Hk). destruct (nltb t x); simpl; lia.
Qed.

Lemma desc_count_inf l : forall k, desc l -> nonan l -> nth_error l k = Some PInf ->
  (k < count (fun x => neqb x PInf) l)%nat.
Proof.
  unfold count. induction l as [|x l IH]; intros [|k] Hd Hn Hk; simpl in *; try discriminate.
  - inversion Hk; subst. simpl. lia.
  - inversion Hn; subst. specialize (IH k (proj2 Hd) H2 Hk).
    destruct Hd as [Hd _]. rewrite Forall_forall in Hd.
    apply nth_error_In, Hd in Hk. unfold nle in Hk. destruct x; simpl in *; try discriminate.
    simpl. lia.
Qed.

Lemma desc_nth l : forall j k a b, desc l -> nonan l -> (j <= k)%nat ->
  nth_error l j = Some a -> nth_error l k = Some b -> nle b a.
Proof.
  induction l as [|x l IH]; intros [|j] [|k] a b Hd Hn Hjk Ha Hb; simpl in *; try discriminate; try lia.
  - inversion Ha; inversion Hb; subst. apply nle_refl.
  - inversion Ha; subst. destruct Hd as [Hd _]. rewrite Forall_forall in Hd. apply Hd.
    eapply nth_error_In; eauto.
  - inversion Hn; subst. apply (IH j k); auto; try lia. apply Hd.
Qed.

(** ** C11 *)

(** What is known about the thresholds of a profile. *)
Lemma thresholds_shape (pts : list qpoint) :
  (2 <= length pts)%nat ->
  exists th, build_thresholds (map fpt pts) = Ok th /\ length th = length pts /\
    nonan th /\ nth_error th 0 = Some PInf /\ nth_error th (length pts - 1) = Some PInf /\
    (count (fun x => neqb x PInf) th <= 2)%nat /\
    (forall v, (0 < v)%nat -> (v + 1 < length pts)%nat -> exists q, nth_error th v = Some (Fin q)).
Proof.
  intros Hn. destruct (C12_thresholds_are_elimination_areas pts) as
    (th & tr & E & L & _ & Hin & _ & Hcov & H0 & Hl). { intros ->; simpl in Hn; lia. }
  exists th. split; auto. split; auto.
  assert (Hint : forall v, (0 < v)%nat -> (v + 1 < length pts)%nat -> exists q, nth_error th v = Some (Fin q)).
  { intros v Hv0 Hv1. assert (In v (map fst tr)) as Hv by (apply Hcov; auto).
    apply in_map_iff in Hv. destruct Hv as ((v', s) & <- & Hv). simpl. eauto. }
  assert (Hth : exists mid, th = PInf :: mid ++ [PInf] /\ Forall is_fin mid).
  { destruct th as [|x th]; [discriminate|]. inversion H0; subst.
    destruct (@exists_last _ th) as (mid & y & ->).
    { intros ->. simpl in L. lia. }
    simpl in L. rewrite app_length in L. simpl in L.
    exists mid. split.
    - replace (length pts - 1)%nat with (S (length mid)) in Hl by lia. simpl in Hl.
      rewrite nth_error_app2, Nat.sub_diag in Hl by lia. simpl in Hl. congruence.
    - apply Forall_forall. intros w Hw. apply In_nth_error in Hw. destruct Hw as [k Hk].
      assert (k < length mid)%nat by (apply nth_error_Some; congruence).
      destruct (Hint (S k)) as [q Hq]; try lia. simpl in Hq. rewrite nth_error_app1 in Hq by auto.
      exists q. congruence. }
  destruct Hth as (mid & -> & Hmid).
  split.
  { constructor; auto. apply Forall_app. split; [|repeat constructor].
    eapply Forall_impl; [|exact Hmid]. intros ? [q ->]. auto. }
  split; auto. split; auto. split; [|auto].
  unfold count. simpl. rewrite filter_app, app_length. simpl. rewrite filter_none; simpl; auto.
  eapply Forall_impl; [|exact Hmid]. intros ? [q ->]. auto.
Qed.

Lemma zip_points_fin (z tw : list Q) : length tw = length z ->
  zip_points (map Fin z) (map Fin tw) = Ok (map fpt (combine z tw)).
Proof.
  revert tw; induction z; intros [|w tw] H; simpl in *; try discriminate; auto.
  rewrite IHz by lia. auto.
Qed.

Lemma select_map_count {A} (f : num -> bool) (th : list num) (l : list A) :
  length th = length l -> length (select (map f th) l) = count f th.
Proof.
  unfold count. revert l; induction th; intros [|x l] H; simpl in *; try discriminate; auto.
  destruct (f a); simpl; rewrite IHth; auto.
Qed.

Lemma select_hd {A} mask (l : list A) : nth_error mask 0 = Some true -> hd_error (select mask l) = hd_error l.
Proof. destruct mask as [|[] m], l; simpl; intros; try discriminate; auto. Qed.

Lemma select_last {A} (d : A) : forall mask l, length mask = length l -> l <> [] ->
  nth_error mask (length l - 1) = Some true -> select mask l <> [] /\ last (select mask l) d = last l d.
Proof.
  induction mask as [|b mask IH]; intros [|x l] Hl Hne H; simpl in Hl; try discriminate; try congruence.
  destruct l as [|y l].
  - destruct mask; [|discriminate]. simpl in H. inversion H; subst. split; [simpl; discriminate|]. reflexivity.
  - destruct (IH (y :: l)) as [H1 H2]; [lia|congruence| |].
    { replace (length (x :: y :: l) - 1)%nat with (S (length (y :: l) - 1)) in H by (simpl; lia). exact H. }
    destruct b; cbn [select].
    + split; [discriminate|]. destruct (select mask (y :: l)) eqn:E; [congruence|].
      change (last (x :: y :: l) d) with (last (y :: l) d). rewrite <- H2. reflexivity.
    + split; auto.
Qed.

Lemma nth_error_select_mask_len {A} mask (l : list A) : length mask = length l ->
  mask_index mask l = Ok (select mask l).
Proof. intros H. unfold mask_index. rewrite H, Nat.eqb_refl. auto. Qed.

(** Full description of the reduction for at least two points. *)
Lemma reduce_points_mask (n : Z) (z tw fw : list Q) :
  length tw = length z -> length fw = length z -> (2 <= n < Z.of_nat (length z))%Z ->
  exists th t, build_thresholds (map fpt (combine z tw)) = Ok th /\ length th = length z /\
    nth_error (sort_desc th) (Z.to_nat n) = Some t /\
    let mask := map (fun x => nltb t x) th in
    reduce_points n (map Fin z) (map Fin tw) (map Fin fw) =
      Ok (map Fin (select mask z), map Fin (select mask tw), map Fin (select mask fw)) /\
    (count (fun x => nltb t x) th <= Z.to_nat n)%nat /\
    nth_error mask 0 = Some true /\ nth_error mask (length z - 1) = Some true.
Proof.
  intros Ht Hf Hn.
  assert (Hc : @length qpoint (combine z tw) = length z) by (unfold qpoint; rewrite combine_length; lia).
  destruct (thresholds_shape (combine z tw)) as (th & E & L & Hnn & H0 & Hl & Hcnt & _); [lia|].
  rewrite Hc in L, Hl.
  assert (Hls : length (sort_desc th) = length z)
    by (rewrite <- (Permutation_length (sort_desc_perm th)); auto).
  destruct (nth_error (sort_desc th) (Z.to_nat n)) as [t|] eqn:Et.
  2:{ apply nth_error_None in Et. lia. }
  assert (Hds : desc (sort_desc th)) by (apply sort_desc_desc; auto).
  assert (Hns : nonan (sort_desc th)) by (eapply nonan_perm; [apply sort_desc_perm|auto]).
  assert (Hfin : nltb t PInf = true).
  { assert (isnan t = false). { apply nth_error_In in Et. unfold nonan in Hns. rewrite Forall_forall in Hns. auto. }
    destruct t; simpl in *; try congruence; auto.
    pose proof (desc_count_inf _ _ Hds Hns Et) as Hc2.
    rewrite <- (count_perm _ _ _ (sort_desc_perm th)) in Hc2. lia. }
  exists th, t. split; auto. split; auto. split; auto. cbv zeta.
  assert (Hml : length (map (fun x => nltb t x) th) = length z) by (rewrite map_length; auto).
  split; [|split; [|split]].
  - unfold reduce_points. rewrite zip_points_fin by auto. cbn [bind].
    rewrite map_length, Ht. destruct (Z.ltb_spec n (Z.of_nat (length z))); [|lia].
    unfold from_number_index. rewrite E. cbn [bind].
    replace n with (Z.of_nat (Z.to_nat n)) by lia.
    rewrite (py_index_nat _ _ _ Et). cbn [bind].
    rewrite !nth_error_select_mask_len by (rewrite !map_length in *; lia). cbn [bind].
    rewrite <- !map_select. reflexivity.
  - rewrite (count_perm _ _ _ (sort_desc_perm th)). apply desc_count; auto.
  - rewrite nth_error_map, H0. simpl. rewrite Hfin. auto.
  - rewrite nth_error_map, Hl. simpl. rewrite Hfin. auto.
Qed.

(** C11.  Reduction to [n >= 2] points: the same rows of all three columns are
    kept, at most [n] of them, including first and last. *)
Theorem C11_reduction_keeps_sub_profile :
  forall (n : Z) (z tw fw : list Q),
    (2 <= n)%Z -> length tw = length z -> length fw = length z ->
    exists z' tw' fw',
      reduce_points n (map Fin z) (map Fin tw) (map Fin fw) = Ok (map Fin z', map Fin tw', map Fin fw') /\
      length tw' = length z' /\ length fw' = length z' /\
      subsequence (combine z' (combine tw' fw')) (combine z (combine tw fw)) /\
      (Z.of_nat (length z) <= n -> z' = z /\ tw' = tw /\ fw' = fw)%Z /\
      (n < Z.of_nat (length z) ->
         2 <= Z.of_nat (length z') <= n /\
         hd_error z' = hd_error z /\ hd_error tw' = hd_error tw /\ hd_error fw' = hd_error fw /\
         last z' 0%Q = last z 0%Q /\ last tw' 0%Q = last tw 0%Q /\ last fw' 0%Q = last fw 0%Q)%Z.
Proof.
  intros n z tw fw Hn Ht Hf. destruct (Z.lt_ge_cases n (Z.of_nat (length z))) as [Hlt|Hge].
  - destruct (reduce_points_mask n z tw fw) as (th & t & E & L & Et & R & Hc & H0 & Hl); auto.
    set (mask := map (fun x => nltb t x) th) in *.
    assert (Hml : length mask = length z) by (unfold mask; rewrite map_length; auto).
    exists (select mask z), (select mask tw), (select mask fw). split; auto.
    assert (Lz : length (select mask z) = count (fun x => nltb t x) th) by (apply select_map_count; lia).
    assert (Lt : length (select mask tw) = count (fun x => nltb t x) th) by (apply select_map_count; lia).
    assert (Lf : length (select mask fw) = count (fun x => nltb t x) th) by (apply select_map_count; lia).
    split; [lia|]. split; [lia|]. split; [|split].
    + assert (Ec : combine (select mask z) (combine (select mask tw) (select mask fw))
              = select mask (combine z (combine tw fw))).
      { clear - Ht Hf Hml. clearbody mask. revert mask tw fw Ht Hf Hml. induction z; intros [|b mask] [|w tw] [|f fw]; simpl; intros; try discriminate; auto.
        destruct b; simpl; rewrite IHz by lia; auto. }
      rewrite Ec. apply select_subsequence.
    + lia.
    + intros _.
      assert (Hzne : z <> []) by (intros ->; simpl in Hlt; lia).
      assert (Htne : tw <> []) by (intros ->; simpl in Ht; destruct z; simpl in *; [congruence|lia]).
      assert (Hfne : fw <> []) by (intros ->; simpl in Hf; destruct z; simpl in *; [congruence|lia]).
      split.
      * split; [|lia].
        assert (H2 : (2 <= length (select mask z))%nat); [|lia].
        destruct (select_last 0 mask z Hml Hzne Hl) as [Hn1 Hn2].
        pose proof (select_hd mask z H0) as Hh.
        destruct mask as [|b mask]; [discriminate|]. simpl in H0. inversion H0; subst b.
        destruct z as [|x [|y z]]; simpl in Hlt; try lia.
        assert (select mask (y :: z) <> []).
        { apply (select_last 0 mask (y :: z)); [simpl in *; lia | congruence |].
          replace (length (x :: y :: z) - 1)%nat with (S (length (y :: z) - 1)) in Hl by (simpl; lia). exact Hl. }
        cbn [select length]. destruct (select mask (y :: z)); [congruence|]. simpl. lia.
      * rewrite !(select_hd mask) by auto. split; auto. split; auto. split; auto.
        split; [apply select_last; auto|].
        split; apply select_last; auto; try lia; rewrite ?Ht, ?Hf; auto.
  - exists z, tw, fw. split.
    + unfold reduce_points. rewrite zip_points_fin by auto. cbn [bind].
      rewrite map_length, Ht. destruct (Z.ltb_spec n (Z.of_nat (length z))); [lia|]. cbn [bind].
      rewrite !nth_error_select_mask_len by (rewrite repeat_length, map_length; lia). cbn [bind].
      rewrite !select_all_true by (rewrite map_length; lia). auto.
    + split; auto. split; auto. split; [apply subsequence_refl|]. split; auto. lia.
Qed.
Print Assumptions C11_reduction_keeps_sub_profile.

Example C11_case :
  exists z' tw' fw', reduce_points 3 (map Fin [0; 1; 2; 3]) (map Fin [1; 2; 5; 9]) (map Fin [1; 1; 4; 4])
   = Ok (map Fin z', map Fin tw', map Fin fw') /\ z' = [0; 1; 3] /\ fw' = [1; 1; 4].
Proof. eexists [0; 1; 3], [1; 2; 9], [1; 1; 4]. split; [vm_compute; reflexivity|]. auto. Qed.

Lemma subsequence_map {A B} (f : A -> B) l m : subsequence l m -> subsequence (map f l) (map f m).
Proof. induction 1; simpl; constructor; auto. Qed.

Lemma combine_fst {A B} (l : list A) : forall m : list B, length m = length l -> map fst (combine l m) = l.
Proof. induction l; intros [|b m] H; simpl in *; try discriminate; auto. f_equal. apply IHl; lia. Qed.
Lemma combine_snd {A B} (l : list A) : forall m : list B, length m = length l -> map snd (combine l m) = m.
Proof. induction l; intros [|b m] H; simpl in *; try discriminate; auto. f_equal. apply IHl; lia. Qed.

(** C11 after C01.  What is exported: the requirement check followed by the
    reduction gives a valid 1D table of at most [n] rows. *)
Theorem C11_checked_and_reduced_table_is_valid :
  forall (n : Z) (minwidth : Q) (z tw fw : list Q),
    (2 <= n)%Z -> length tw = length z -> length fw = length z ->
    (exists w, In w tw /\ ~ w == 0) ->
    exists z1 tw1 fw1 z' tw' fw',
      check_requirements (Fin minwidth) (map Fin z) (map Fin tw) (map Fin fw)
        = Ok (map Fin z1, map Fin tw1, map Fin fw1) /\
      reduce_points n (map Fin z1) (map Fin tw1) (map Fin fw1) = Ok (map Fin z', map Fin tw', map Fin fw') /\
      (Z.of_nat (length z') <= n)%Z /\
      strictly_increasing z' /\ strictly_increasing tw' /\ strictly_increasing fw' /\
      Forall (fun w => minwidth <= w) tw' /\ Forall (fun w => minwidth <= w) fw' /\
      rowwise Qle fw' tw' /\ length tw' = length z' /\ length fw' = length z'.
Proof.
  intros n m z tw fw Hn Ht Hf Hw.
  assert (C01 := C01_requirements_establish_valid_table m z tw fw Ht Hf Hw).
  destruct C01 as (z1 & tw1 & fw1 & E & S1 & S2 & S3 & M1 & M2 & R & L1 & L2 & L3).
  destruct (C11_reduction_keeps_sub_profile n z1 tw1 fw1 Hn) as (z' & tw' & fw' & E' & K1 & K2 & Sub & Same & Red); try lia.
  exists z1, tw1, fw1, z', tw', fw'. split; auto. split; auto.
  assert (Lc : length (combine tw' fw') = length z') by (rewrite combine_length; lia).
  assert (Lc1 : length (combine tw1 fw1) = length z1) by (rewrite combine_length; lia).
  assert (Sz : subsequence z' z1).
  { apply (subsequence_map fst) in Sub. rewrite !combine_fst in Sub by lia. auto. }
  assert (Sr : subsequence (combine tw' fw') (combine tw1 fw1)).
  { apply (subsequence_map snd) in Sub. rewrite !combine_snd in Sub by lia. auto. }
  assert (St : subsequence tw' tw1).
  { apply (subsequence_map fst) in Sr. rewrite !combine_fst in Sr by lia. auto. }
  assert (Sf : subsequence fw' fw1).
  { apply (subsequence_map snd) in Sr. rewrite !combine_snd in Sr by lia. auto. }
  split.
  { destruct (Z.lt_ge_cases n (Z.of_nat (length z1))) as [H|H].
    - apply Red in H. lia.
    - destruct (Same H) as (-> & _). lia. }
  split; [eapply subsequence_strict; eauto|].
  split; [eapply subsequence_strict; eauto|].
  split; [eapply subsequence_strict; eauto|].
  rewrite Forall_forall in M1, M2.
  split; [apply Forall_forall; intros; apply M1; eapply subsequence_In; eauto|].
  split; [apply Forall_forall; intros; apply M2; eapply subsequence_In; eauto|].
  split; [|split; lia].
  assert (Hall : forall t f, In (t, f) (combine tw1 fw1) -> f <= t).
  { clear - R. unfold rowwise in R. induction R; simpl; [intros ? ? []|].
    intros t f [H1|H1]; [inversion H1; subst; auto|]. auto. }
  assert (Hall' : forall t f, In (t, f) (combine tw' fw') -> f <= t).
  { intros. apply Hall. eapply subsequence_In; eauto. }
  clear - Hall' K1 K2. unfold rowwise.
  assert (L : length fw' = length tw') by lia. clear K1 K2.
  revert fw' Hall' L. induction tw'; intros [|f fw'] H L; simpl in *; try discriminate; constructor; auto.
Qed.
Print Assumptions C11_checked_and_reduced_table_is_valid.

(** C11, edge.  A maximum of 0 or 1 points removes every row of a longer
    profile, also the end points (the export then fails on the empty profile). *)
Theorem C11_fewer_than_two_points_empties_profile :
  forall (n : Z) (z tw fw : list Q),
    (0 <= n < 2)%Z -> (n < Z.of_nat (length z))%Z -> (2 <= length z)%nat ->
    length tw = length z -> length fw = length z ->
    reduce_points n (map Fin z) (map Fin tw) (map Fin fw) = Ok ([], [], []).
Proof.
  intros n z tw fw Hn Hlt H2 Ht Hf.
  assert (Hc : @length qpoint (combine z tw) = length z) by (unfold qpoint; rewrite combine_length; lia).
  destruct (thresholds_shape (combine z tw)) as (th & E & L & Hnn & H0 & Hl & Hcnt & _); [lia|].
  rewrite Hc in L, Hl.
  assert (Hds : desc (sort_desc th)) by (apply sort_desc_desc; auto).
  assert (Hns : nonan (sort_desc th)) by (eapply nonan_perm; [apply sort_desc_perm|auto]).
  assert (Hls : length (sort_desc th) = length z)
    by (rewrite <- (Permutation_length (sort_desc_perm th)); auto).
  assert (Et : nth_error (sort_desc th) (Z.to_nat n) = Some PInf).
  { assert (C2 : (2 <= count (fun x => neqb x PInf) (sort_desc th))%nat).
    { rewrite <- (count_perm _ _ _ (sort_desc_perm th)). unfold count.
      destruct th as [|x th]; [discriminate|]. simpl in H0. inversion H0; subst x.
      replace (length z - 1)%nat with (S (length z - 2)) in Hl by lia. simpl in Hl.
      simpl. apply nth_error_In in Hl.
      assert (In PInf (filter (fun x => neqb x PInf) th)) as Hi by (apply filter_In; split; auto).
      destruct (filter _ th); [contradiction|]. simpl. lia. }
    clear - C2 Hds Hns Hn. destruct (sort_desc th) as [|a [|b l]].
    - unfold count in C2. simpl in C2. lia.
    - unfold count in C2. simpl in C2. destruct (neqb a PInf); simpl in C2; lia.
    - assert (a = PInf /\ b = PInf) as [-> ->].
      { unfold count in C2. cbn [filter] in C2.
        destruct (neqb a PInf) eqn:Ea; destruct (neqb b PInf) eqn:Eb.
        - destruct a, b; simpl in *; try discriminate; auto.
        - assert (filter (fun x => neqb x PInf) l = []) as E.
          { apply filter_none. destruct Hds as [_ [Hb _]]. eapply Forall_impl; [|exact Hb].
            intros x Hx. unfold nle in Hx. destruct b, x; simpl in *; try congruence; auto. 
            inversion Hns; subst. inversion H2; subst. discriminate. }
          rewrite E in C2. simpl in C2. lia.
        - destruct Hds as [Ha _]. inversion Ha; subst. unfold nle in H1.
          inversion Hns; subst. destruct a, b; simpl in *; try congruence.
        - assert (filter (fun x => neqb x PInf) l = []) as E.
          { apply filter_none. destruct Hds as [_ [Hb _]]. eapply Forall_impl; [|exact Hb].
            intros x Hx. unfold nle in Hx. destruct b, x; simpl in *; try congruence; auto. 
            inversion Hns; subst. inversion H2; subst. discriminate. }
          rewrite E in C2. simpl in C2. lia. }
      assert (Z.to_nat n = 0%nat \/ Z.to_nat n = 1%nat) as [-> | ->] by lia; auto. }
  unfold reduce_points. rewrite zip_points_fin by auto. cbn [bind].
  rewrite map_length, Ht. destruct (Z.ltb_spec n (Z.of_nat (length z))); [|lia].
  unfold from_number_index. rewrite E. cbn [bind].
  replace n with (Z.of_nat (Z.to_nat n)) by lia.
  rewrite (py_index_nat _ _ _ Et). cbn [bind].
  assert (Hs : forall A (l : list A), select (map (fun x => nltb PInf x) th) l = []).
  { intros A. clear. induction th as [|x th' IHth]; intros [|y l]; cbn [map select]; auto;
    (assert (nltb PInf x = false) as -> by (destruct x; auto)); auto. }
  rewrite !nth_error_select_mask_len by (rewrite !map_length in *; lia). cbn [bind].
  rewrite !Hs. auto.
Qed.
Print Assumptions C11_fewer_than_two_points_empties_profile.

Example C11_empty_case :
  reduce_points 1 (map Fin [0; 1; 2]) (map Fin [1; 2; 5]) (map Fin [1; 1; 4]) = Ok ([], [], []).
Proof. vm_compute. reflexivity. Qed.

(** ** C13 *)

(** C13.  Fewer points: a subset of the rows.  The kept rows are those with
    significance above one threshold. *)
Theorem C13_reductions_are_nested :
  forall (n m : Z) (z tw : list Q),
    (2 <= n <= m)%Z -> (m < Z.of_nat (length z))%Z -> length tw = length z ->
    exists th tn tm,
      build_thresholds (map fpt (combine z tw)) = Ok th /\ length th = length z /\
      (forall fw : list Q, length fw = length z ->
         reduce_points n (map Fin z) (map Fin tw) (map Fin fw) =
           Ok (map Fin (select (map (fun x => nltb tn x) th) z),
               map Fin (select (map (fun x => nltb tn x) th) tw),
               map Fin (select (map (fun x => nltb tn x) th) fw)) /\
         reduce_points m (map Fin z) (map Fin tw) (map Fin fw) =
           Ok (map Fin (select (map (fun x => nltb tm x) th) z),
               map Fin (select (map (fun x => nltb tm x) th) tw),
               map Fin (select (map (fun x => nltb tm x) th) fw))) /\
      (forall x, In x th -> nltb tn x = true -> nltb tm x = true).
Proof.
  intros n m z tw Hnm Hm Ht.
  destruct (reduce_points_mask n z tw z) as (th & tn & E & L & En & _); auto; [lia|].
  destruct (reduce_points_mask m z tw z) as (th' & tm & E' & L' & Em & _); auto; [lia|].
  assert (th' = th) by congruence. subst th'.
  exists th, tn, tm. split; auto. split; auto. split.
  - intros fw Hf. split.
    + destruct (reduce_points_mask n z tw fw) as (th2 & tn2 & E2 & _ & En2 & R & _); auto; [lia|].
      assert (th2 = th) by congruence. subst. assert (tn2 = tn) by congruence. subst. exact R.
    + destruct (reduce_points_mask m z tw fw) as (th2 & tn2 & E2 & _ & En2 & R & _); auto; [lia|].
      assert (th2 = th) by congruence. subst. assert (tn2 = tm) by congruence. subst. exact R.
  - intros x Hx Hlt.
    assert (Hc : @length qpoint (combine z tw) = length z) by (unfold qpoint; rewrite combine_length; lia).
    destruct (thresholds_shape (combine z tw)) as (th2 & E2 & _ & Hnn & _); [lia|].
    assert (th2 = th) by congruence. subst th2.
    assert (Hds : desc (sort_desc th)) by (apply sort_desc_desc; auto).
    assert (Hns : nonan (sort_desc th)) by (eapply nonan_perm; [apply sort_desc_perm|auto]).
    assert (Hle : nle tm tn) by (eapply (desc_nth (sort_desc th) (Z.to_nat n) (Z.to_nat m)); eauto; lia).
    unfold nonan in *. rewrite Forall_forall in Hnn, Hns.
    assert (isnan x = false) by auto.
    assert (isnan tn = false) by (apply Hns; eapply nth_error_In; eauto).
    assert (isnan tm = false) by (apply Hns; eapply nth_error_In; eauto).
    clear - Hle Hlt H H0 H1. unfold nle in Hle. destruct x, tn, tm; simpl in *; try congruence.
    qb. lra.
Qed.
Print Assumptions C13_reductions_are_nested.

(** C13.  The rows dropped by a reduction are exactly those eliminated first:
    the elimination order of C12 splits in dropped and kept interior rows. *)
Theorem C13_kept_rows_are_eliminated_last :
  forall (n : Z) (z tw fw : list Q),
    (2 <= n < Z.of_nat (length z))%Z -> length tw = length z -> length fw = length z ->
    exists mask dropped kept,
      reduce_points n (map Fin z) (map Fin tw) (map Fin fw) =
        Ok (map Fin (select mask z), map Fin (select mask tw), map Fin (select mask fw)) /\
      length mask = length z /\
      elimination (fun a b c => qtri (nth a (combine z tw) (0, 0)) (nth b (combine z tw) (0, 0))
                                     (nth c (combine z tw) (0, 0)))
        (seq 0 (length z)) 0 (dropped ++ kept) /\
      (forall v, In v (map fst dropped) -> nth_error mask v = Some false) /\
      (forall v, In v (map fst kept) -> nth_error mask v = Some true) /\
      nth_error mask 0 = Some true /\ nth_error mask (length z - 1) = Some true.
Proof.
  intros n z tw fw Hn Ht Hf.
  destruct (reduce_points_mask n z tw fw) as (th & t & E & L & Et & R & _ & M0 & M1); auto.
  assert (Hc : @length qpoint (combine z tw) = length z) by (unfold qpoint; rewrite combine_length; lia).
  destruct (C12_thresholds_are_elimination_areas (combine z tw)) as
    (th2 & tr & E2 & _ & El & Hin & _ & _ & _). { intros E0; rewrite E0 in Hc; simpl in Hc; lia. }
  assert (th2 = th) by congruence. subst th2. rewrite Hc in El.
  set (mask := map (fun x => nltb t x) th) in *.
  assert (Hsplit : forall l : list (nat * Q), sorted Qle (map snd l) ->
     exists d k, l = d ++ k /\ Forall (fun p => nltb t (Fin (snd p)) = false) d /\
                 Forall (fun p => nltb t (Fin (snd p)) = true) k).
  { induction l as [|[v s] l IH]; intros Hs.
    - exists [], []. auto.
    - destruct (nltb t (Fin s)) eqn:Es.
      + exists [], ((v, s) :: l). split; auto. split; auto. constructor; auto.
        assert (Hall : Forall (fun q => s <= q) (map snd l)).
        { clear - Hs. simpl in Hs. revert s Hs. induction l as [|[v' s'] l IH]; intros s Hs; simpl in *; constructor.
          - apply Hs.
          - destruct Hs as [H1 H2]. eapply Forall_impl; [|apply (IH s' H2)]. simpl. intros; lra. }
        apply Forall_forall. intros [v' s'] Hp. simpl. rewrite Forall_forall in Hall.
        assert (s <= s') by (apply Hall; apply in_map_iff; exists (v', s'); auto).
        destruct t; simpl in *; try discriminate; auto. qb. lra.
      + destruct IH as (d & k & -> & D & K).
        { simpl in Hs. destruct (map snd l); simpl in *; tauto. }
        exists ((v, s) :: d), k. split; auto. }
  destruct (Hsplit tr) as (d & k & -> & D & K); [apply (elimination_mono _ _ _ _ El)|].
  exists mask, d, k. split; auto. split; [unfold mask; rewrite map_length; auto|].
  split; [exact El|]. split; [|split; [|split; auto]].
  - intros v Hv. apply in_map_iff in Hv. destruct Hv as ((v', s) & <- & Hv). simpl.
    unfold mask. rewrite nth_error_map, (Hin v' s) by (apply in_app_iff; auto). simpl.
    rewrite Forall_forall in D. f_equal. apply (D _ Hv).
  - intros v Hv. apply in_map_iff in Hv. destruct Hv as ((v', s) & <- & Hv). simpl.
    unfold mask. rewrite nth_error_map, (Hin v' s) by (apply in_app_iff; auto). simpl.
    rewrite Forall_forall in K. f_equal. apply (K _ Hv).
Qed.
Print Assumptions C13_kept_rows_are_eliminated_last.

Example C13_case :
  (exists a b c, reduce_points 3 (map Fin [0; 1; 2; 3]) (map Fin [1; 2; 5; 9]) (map Fin [1; 1; 4; 4]) = Ok (a, b, c) /\ length a = 3%nat) /\
  (exists a b c, reduce_points 2 (map Fin [0; 1; 2; 3]) (map Fin [1; 2; 5; 9]) (map Fin [1; 1; 4; 4]) = Ok (a, b, c) /\ length a = 2%nat).
Proof. split; vm_compute; eexists _, _, _; split; reflexivity. Qed.

(** C11.  Without ties exactly [n] rows are kept. *)
Lemma desc_count_exact l : forall k t, desc l -> nonan l -> nth_error l k = Some (Fin t) ->
  (count (fun x => neqb x (Fin t)) l <= 1)%nat -> count (fun x => nltb (Fin t) x) l = k.
Proof.
  unfold count. induction l as [|x l IH]; intros [|k] t Hd Hn Hk H1; cbn [nth_error] in Hk; try discriminate.
  - inversion Hk; subst. destruct Hd as [Hd _]. cbn [filter].
    assert (nltb (Fin t) (Fin t) = false) as -> by (apply nle_refl).
    rewrite filter_none; auto.
  - inversion Hn; subst. destruct Hd as [Hd1 Hd2].
    assert (Hx : nle (Fin t) x) by (rewrite Forall_forall in Hd1; apply Hd1; eapply nth_error_In; eauto).
    assert (Hin : In (Fin t) (filter (fun x => neqb x (Fin t)) l)).
    { apply filter_In. split; [eapply nth_error_In; eauto|]. simpl. apply Qeq_bool_iff. reflexivity. }
    cbn [filter] in H1 |- *. destruct (neqb x (Fin t)) eqn:E.
    + cbn [length] in H1. destruct (filter (fun x => neqb x (Fin t)) l); [contradiction|]. simpl in H1. lia.
    + assert (nltb (Fin t) x = true) as ->.
      { unfold nle in Hx. destruct x; simpl in *; try congruence; auto. qb.
        apply Qle_lteq in Hx. destruct Hx as [Hx|Hx]; auto. exfalso. apply E. lra. }
      cbn [length]. f_equal. apply IH; auto.
Qed.

Theorem C11_without_ties_exactly_n_rows :
  forall (n : Z) (z tw fw : list Q) th,
    (2 <= n < Z.of_nat (length z))%Z -> length tw = length z -> length fw = length z ->
    build_thresholds (map fpt (combine z tw)) = Ok th ->
    (forall v w q r, v <> w -> nth_error th v = Some (Fin q) -> nth_error th w = Some (Fin r) -> ~ q == r) ->
    exists z' tw' fw',
      reduce_points n (map Fin z) (map Fin tw) (map Fin fw) = Ok (map Fin z', map Fin tw', map Fin fw') /\
      Z.of_nat (length z') = n.
Proof.
  intros n z tw fw th Hn Ht Hf Eth Hd.
  destruct (reduce_points_mask n z tw fw) as (th2 & t & E & L & Et & R & _ & M0 & _); auto.
  assert (th2 = th) by congruence. subst th2.
  eexists _, _, _. split; [exact R|].
  rewrite select_map_count by auto.
  destruct (thresholds_shape (combine z tw)) as (th2 & E2 & _ & Hnn & _ & _ & _ & _).
  { unfold qpoint. rewrite combine_length. lia. }
  assert (th2 = th) by congruence. subst th2.
  assert (Hds : desc (sort_desc th)) by (apply sort_desc_desc; auto).
  assert (Hns : nonan (sort_desc th)) by (eapply nonan_perm; [apply sort_desc_perm|auto]).
  assert (Hfin : exists q, t = Fin q).
  { rewrite nth_error_map in M0. destruct (nth_error th 0) as [x|]; [|discriminate]. simpl in M0.
    assert (isnan t = false). { apply nth_error_In in Et. unfold nonan in Hns. rewrite Forall_forall in Hns. auto. }
    destruct t; simpl in *; try congruence; eauto.
    - destruct x; simpl in M0; discriminate.
    - apply nth_error_In in Et.
      apply (Permutation_in _ (Permutation_sym (sort_desc_perm th))) in Et.
      exfalso. clear - Et E L Ht Hn.
      destruct (thresholds_shape (combine z tw)) as (th2 & E2 & L2 & _ & H0 & Hl & _ & Hf).
      { unfold qpoint. rewrite combine_length. lia. }
      assert (th2 = th) by congruence. subst th2.
      apply In_nth_error in Et. destruct Et as [v Hv].
      assert (v < length th)%nat by (apply nth_error_Some; congruence).
      destruct (Nat.eq_dec v 0) as [->|]; [congruence|].
      destruct (Nat.eq_dec v (length (combine z tw) - 1)) as [->|]; [unfold qpoint in *; congruence|].
      destruct (Hf v) as [q Hq]; [lia | unfold qpoint in *; lia | congruence]. }
  destruct Hfin as [q ->].
  assert (Hc1 : (count (fun x => neqb x (Fin q)) th <= 1)%nat).
  { clear - Hd. unfold count. induction th as [|x th IH]; simpl; auto.
    assert (IH' : (length (filter (fun x => neqb x (Fin q)) th) <= 1)%nat).
    { apply IH. intros v w a b Hvw Hv Hw. apply (Hd (S v) (S w)); auto. }
    destruct (neqb x (Fin q)) eqn:E; auto. simpl.
    destruct (filter (fun x => neqb x (Fin q)) th) as [|y l] eqn:Ef; auto. exfalso.
    assert (Hy : In y (filter (fun x => neqb x (Fin q)) th)) by (rewrite Ef; left; auto).
    apply filter_In in Hy. destruct Hy as [Hy Ey]. apply In_nth_error in Hy. destruct Hy as [w Hw].
    destruct x, y; simpl in *; try discriminate. qb.
    apply (Hd O (S w) q0 q1); auto. lra. }
  rewrite (count_perm _ _ _ (sort_desc_perm th)) in Hc1.
  rewrite (count_perm _ _ _ (sort_desc_perm th)).
  rewrite (desc_count_exact _ _ _ Hds Hns Et Hc1). lia.
Qed.
Print Assumptions C11_without_ties_exactly_n_rows.

(** C11, edge.  With ties fewer rows remain than allowed: on a straight line
    only the end points. *)
Example C11_ties_case :
  exists a b c, reduce_points 4 (map Fin [0; 1; 2; 3; 4]) (map Fin [0; 1; 2; 3; 4]) (map Fin [0; 1; 2; 3; 4])
    = Ok (a, b, c) /\ length a = 2%nat.
Proof. vm_compute. eexists _, _, _. split; reflexivity. Qed.

(** C13.  The public queries of the simplifier. *)
Theorem C13_queries_by_number_threshold_and_ratio :
  forall pts : list qpoint, (2 <= length pts)%nat ->
  exists th, build_thresholds (map fpt pts) = Ok th /\ length th = length pts /\
    (forall t, from_threshold (map fpt pts) t = Ok (map fpt (select (map (fun x => nleb t x) th) pts))) /\
    (forall n, (Z.of_nat (length pts) <= n)%Z -> from_number (map fpt pts) n = Ok (map fpt pts)) /\
    (forall n, (2 <= n < Z.of_nat (length pts))%Z ->
       exists sel, from_number (map fpt pts) n = Ok (map fpt sel) /\ subsequence sel pts /\
                   (Z.of_nat (length sel) <= n)%Z /\
                   hd_error sel = hd_error pts /\ last sel (0, 0) = last pts (0, 0)) /\
    (forall r : Q, from_ratio (map fpt pts) r = Raise ValueError <-> (r <= 0 \/ 1 < r)) /\
    (forall r : Q, 0 < r <= 1 ->
       from_ratio (map fpt pts) r = from_number (map fpt pts) (Qfloor (r * inject_Z (Z.of_nat (length pts)))%Q)).
Proof.
  intros pts Hn. destruct (thresholds_shape pts Hn) as (th & E & L & Hnn & H0 & Hl & Hcnt & _).
  exists th. split; auto. split; auto.
  assert (Hls : length (sort_desc th) = length pts)
    by (rewrite <- (Permutation_length (sort_desc_perm th)); auto).
  assert (Hnum : forall n, (0 <= n)%Z -> exists s, from_number (map fpt pts) n = Ok s).
  { intros n Hp. unfold from_number. rewrite E. cbn [bind].
    destruct (nth_error (sort_desc th) (Z.to_nat n)) as [t|] eqn:Et.
    - replace n with (Z.of_nat (Z.to_nat n)) by lia. rewrite (py_index_nat _ _ _ Et).
      rewrite nth_error_select_mask_len by (rewrite !map_length; auto). eauto.
    - replace n with (Z.of_nat (Z.to_nat n)) by lia. rewrite (py_index_nat_out _ _ Et). eauto. }
  assert (Hcond : forall r, Qle_bool r 0 || Qltb 1 r = true <-> (r <= 0 \/ 1 < r)).
  { intros r. rewrite orb_true_iff, Qle_bool_true, Qltb_true. tauto. }
  split; [|split; [|split; [|split]]].
  - intros t. unfold from_threshold. rewrite E. cbn [bind].
    rewrite nth_error_select_mask_len by (rewrite !map_length; auto). rewrite map_select. auto.
  - intros n Hle. unfold from_number. rewrite E. cbn [bind].
    replace n with (Z.of_nat (Z.to_nat n)) by lia. rewrite py_index_nat_out; auto.
    apply nth_error_None. lia.
  - intros n Hr.
    destruct (nth_error (sort_desc th) (Z.to_nat n)) as [t|] eqn:Et.
    2:{ apply nth_error_None in Et. lia. }
    assert (Hds : desc (sort_desc th)) by (apply sort_desc_desc; auto).
    assert (Hns : nonan (sort_desc th)) by (eapply nonan_perm; [apply sort_desc_perm|auto]).
    assert (Hfin : nltb t PInf = true).
    { assert (isnan t = false). { apply nth_error_In in Et. unfold nonan in Hns. rewrite Forall_forall in Hns. auto. }
      destruct t; simpl in *; try congruence; auto.
      pose proof (desc_count_inf _ _ Hds Hns Et) as Hc2.
      rewrite <- (count_perm _ _ _ (sort_desc_perm th)) in Hc2. lia. }
    exists (select (map (fun x => nltb t x) th) pts). split; [|split; [|split; [|split]]].
    + unfold from_number. rewrite E. cbn [bind].
      replace n with (Z.of_nat (Z.to_nat n)) by lia. rewrite (py_index_nat _ _ _ Et).
      rewrite nth_error_select_mask_len by (rewrite !map_length; auto). rewrite map_select. auto.
    + apply select_subsequence.
    + rewrite select_map_count by auto. rewrite (count_perm _ _ _ (sort_desc_perm th)).
      pose proof (desc_count _ _ _ Hds Et). lia.
    + apply select_hd. rewrite nth_error_map, H0. simpl. rewrite Hfin. auto.
    + apply select_last.
      * rewrite map_length. auto.
      * intros ->. simpl in Hn. lia.
      * rewrite nth_error_map, Hl. simpl. rewrite Hfin. auto.
  - intros r. rewrite <- Hcond. unfold from_ratio. destruct (Qle_bool r 0 || Qltb 1 r) eqn:Er.
    + tauto.
    + rewrite map_length. split; [|discriminate]. intros Hx. exfalso.
      destruct (Hnum (Qfloor (r * inject_Z (Z.of_nat (length pts))))) as [s Hs]; [|congruence].
      assert (0 < r) by (apply orb_false_iff in Er; destruct Er as [Er _]; qb; auto).
      assert (0 <= r * inject_Z (Z.of_nat (length pts))).
      { apply Qmult_le_0_compat; [lra|]. unfold Qle. simpl. lia. }
      change 0%Z with (Qfloor 0%Q). apply Qfloor_resp_le. auto.
  - intros r [Hr0 Hr1]. unfold from_ratio.
    assert (Qle_bool r 0 || Qltb 1 r = false) as ->.
    { destruct (Qle_bool r 0 || Qltb 1 r) eqn:Er; auto. apply Hcond in Er. destruct Er; lra. }
    rewrite map_length. auto.
Qed.
Print Assumptions C13_queries_by_number_threshold_and_ratio.

Example C13_query_case :
  exists s, from_number (map fpt [(0, 0); (1, 4); (2, 5); (3, 5); (4, 10)]) 3 = Ok s /\ length s = 3%nat.
Proof. vm_compute. eexists. split; reflexivity. Qed.

(** C11.  A failure of the simplifier keeps all points: the empty profile, on
    which the simplifier fails, is returned as it is, whatever the limit. *)
Theorem C11_empty_profile_is_kept :
  forall n : Z, reduce_points n [] [] [] = Ok ([], [], []).
Proof.
  intros n. unfold reduce_points. cbn [zip_points bind length].
  destruct (n <? Z.of_nat 0)%Z; reflexivity.
Qed.
Print Assumptions C11_empty_profile_is_kept.
