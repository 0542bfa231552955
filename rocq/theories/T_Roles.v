(** C126: the reference level, the clock and the roles in a comparison. *)
From Coq Require Import String List Ascii ZArith QArith Qabs Bool Lia Lqa Sorted.
From Verif Require Import PyBase Num Text Spec L_Num L_Same M_Compare T_Stats.
Import ListNotations.
Local Open Scope Q_scope.

(** ** Specification *)

(** Both missing, or the second is [e] times the first plus [c]. *)
Definition affine (e c : Q) (x y : num) : Prop := (x = NaN /\ y = NaN) \/ exists a b, x = Fin a /\ y = Fin b /\ b == e * a + c.
Definition raised (c : Q) : num -> num -> Prop := affine 1 c.
Definition opposite : num -> num -> Prop := affine (-1) 0.
(** A series with [c] added to the levels and [d] to the times. *)
Definition moved (c : Q) (d : Z) (s : series) : series := map (fun r => ((fst r + d)%Z, nadd (snd r) (Fin c))) s.
(** The statistics of 1D, of 2D and of the differences. *)
Definition raised3 (c : Q) (x y : num * num * num) : Prop :=
  raised c (fst (fst x)) (fst (fst y)) /\ raised c (snd (fst x)) (snd (fst y)) /\ raised 0 (snd x) (snd y).

(** ** Means *)

Section Affine.
  Variables e c : Q.
  Lemma fold_affine l l' : Forall2 (fun x y => exists a b, x = Fin a /\ y = Fin b /\ b == e * a + c) l l' -> forall p q d, q == e * p + d ->
    exists p' q', fold_left nadd l (Fin p) = Fin p' /\ fold_left nadd l' (Fin q) = Fin q' /\ q' == e * p' + (d + inject_Z (Z.of_nat (length l)) * c).
  Proof.
    intro F. induction F as [|x y l l' (a & b & -> & -> & E) F IH]; intros p q d H.
    - exists p, q. split; [reflexivity|]. split; [reflexivity|]. cbn [length]. change (inject_Z (Z.of_nat 0)) with 0. rewrite H. ring.
    - cbn [fold_left nadd]. destruct (IH (p + a) (q + b) (d + c)) as (p' & q' & A & B & G); [rewrite H, E; ring|].
      exists p', q'. split; [exact A|]. split; [exact B|]. rewrite G. cbn [length]. rewrite Nat2Z.inj_succ. unfold Z.succ. rewrite inject_Z_plus. ring.
  Qed.
  Lemma present_affine l l' : Forall2 (affine e c) l l' -> Forall2 (fun x y => exists a b, x = Fin a /\ y = Fin b /\ b == e * a + c) (present l) (present l').
  Proof.
    intro F. unfold present. induction F as [|x y l l' [[-> ->]|(a & b & -> & -> & E)] F IH]; [constructor|exact IH|]. cbn [filter isnan negb]. constructor; [exists a, b; auto|exact IH].
  Qed.
  Lemma weaken l l' : Forall2 (fun x y => exists a b, x = Fin a /\ y = Fin b /\ b == e * a + c) l l' -> Forall2 (affine e c) l l'.
  Proof. intro F. induction F; constructor; auto. right. assumption. Qed.
  Lemma mean_affine l l' : Forall2 (affine e c) l l' -> affine e c (nanmean l) (nanmean l').
  Proof.
    intro F. apply present_affine in F. unfold nanmean, present in *. set (m := filter _ l) in *. set (m' := filter _ l') in *. clearbody m m'.
    pose proof (F2_length _ _ _ F) as L. assert (Z0 : 0 == e * 0 + 0) by ring. destruct (fold_affine m m' F 0 0 0 Z0) as (p & q & A & B & G).
    destruct F as [|x y m m' X F]; [left; auto|]. unfold npsum. rewrite A, B, <- L. unfold nofnat. cbn [ndiv].
    destruct (Qeq_bool _ 0) eqn:N; [exfalso; apply Qeq_bool_iff in N; unfold Qeq in N; cbn in N; lia|]. apply Qeq_bool_neq in N.
    right. eexists. eexists. split; [reflexivity|]. split; [reflexivity|]. rewrite G. field. exact N.
  Qed.
  Lemma skip_affine n : forall l l', Forall2 (affine e c) l l' -> Forall2 (affine e c) (skipn n l) (skipn n l').
  Proof. induction n as [|n IH]; intros l l' F; [exact F|]. destruct F; [constructor|]. cbn [skipn]. apply IH. assumption. Qed.
  Lemma first_affine n : forall l l', Forall2 (affine e c) l l' -> Forall2 (affine e c) (firstn n l) (firstn n l').
  Proof. induction n as [|n IH]; intros l l' F; [constructor|]. destruct F; [constructor|]. cbn [firstn]. constructor; auto. Qed.
  Lemma last_affine k s s' : Forall2 (affine e c) (map snd s) (map snd s') -> affine e c (stat_last k s) (stat_last k s').
  Proof. intro F. unfold stat_last, last_k. apply mean_affine. rewrite (F2_length _ _ _ F). apply skip_affine, F. Qed.
  (** The squared standard deviation. *)
  Lemma std_affine d d' : e * e == 1 -> Forall2 (affine e c) (map snd d) (map snd d') -> raised 0 (std2 d) (std2 d').
  Proof.
    intros EE F. unfold std2. cbv zeta. apply present_affine in F. set (l := present (map snd d)) in *. set (l' := present (map snd d')) in *. clearbody l l'.
    pose proof (mean_affine _ _ (weaken _ _ F)) as M. pose proof (F2_length _ _ _ F) as L.
    destruct F as [|x y l l' X F]; [left; auto|]. destruct F as [|x' y' l l' X' F]; [left; auto|].
    assert (F2 : Forall2 (fun x y => exists a b, x = Fin a /\ y = Fin b /\ b == e * a + c) (x :: x' :: l) (y :: y' :: l')) by (repeat (constructor; [assumption|]); assumption).
    set (k := x :: x' :: l) in *. set (k' := y :: y' :: l') in *. assert (K : (2 <= length k)%nat) by (cbn; lia). clearbody k k'. clear X X' F.
    assert (H : forall m m', affine e c m m' -> (m = NaN /\ m' = NaN) \/
      Forall2 (fun x y => exists a b, x = Fin a /\ y = Fin b /\ b == 1 * a + 0) (map (fun x => nmul (nsub x m) (nsub x m)) k) (map (fun x => nmul (nsub x m') (nsub x m')) k')).
    { intros m m' [[-> ->]|(p & q & -> & -> & E)]; [left; auto|right]. clear L K M. induction F2 as [|u v k k' (a & b & -> & -> & AB) F2 IH]; cbn [map]; constructor; [|exact IH].
      unfold nsub. cbn [nneg nadd nmul]. eexists. eexists. split; [reflexivity|]. split; [reflexivity|]. rewrite AB, E.
      transitivity (e * e * ((a + - p) * (a + - p))); [ring|]. rewrite EE. ring. }
    destruct (H _ _ M) as [[A B]|G].
    - exfalso. unfold nanmean in A. destruct F2 as [|u v k k' (a & b & -> & -> & AB) F2]; [cbn in K; lia|]. clear H M L.
      pose proof (present_affine _ _ (weaken _ _ F2)) as P. unfold present in P. cbn [filter isnan negb] in A.
      assert (Z0 : 0 + b == e * (0 + a) + c) by (rewrite AB; ring). destruct (fold_affine _ _ P (0 + a) (0 + b) c Z0) as (p & q & A1 & _ & _).
      unfold npsum in A. cbn [fold_left nadd] in A. rewrite A1 in A. unfold nofnat in A. cbn [ndiv] in A.
      destruct (Qeq_bool _ 0) eqn:N; [apply Qeq_bool_iff in N; unfold Qeq in N; cbn in N; lia|discriminate].
    - assert (Z0 : 0 == 1 * 0 + 0) by ring. pose proof (F2_length _ _ _ G) as LG.
      assert (GS : exists p q, npsum (map (fun x => nmul (nsub x (nanmean k)) (nsub x (nanmean k))) k) = Fin p /\
        npsum (map (fun x => nmul (nsub x (nanmean k')) (nsub x (nanmean k'))) k') = Fin q /\ q == p).
      { clear - G. unfold npsum. set (u := map _ k) in *. set (v := map _ k') in *. clearbody u v.
        assert (W : forall a b, b == a -> exists p q, fold_left nadd u (Fin a) = Fin p /\ fold_left nadd v (Fin b) = Fin q /\ q == p).
        { induction G as [|x y u v (a & b & -> & -> & E) G IH]; intros p q H; cbn [fold_left]; [exists p, q; auto|]. cbn [nadd]. apply IH. rewrite H, E. ring. }
        apply W. reflexivity. }
      destruct GS as (p & q & A & B & E). rewrite A, B, <- L. unfold nofnat. cbn [ndiv].
      destruct (Qeq_bool _ 0) eqn:N; [exfalso; apply Qeq_bool_iff in N; unfold Qeq in N; cbn in N; lia|].
      right. eexists. eexists. split; [reflexivity|]. split; [reflexivity|]. rewrite E. ring.
  Qed.
End Affine.

(** ** Maxima and absolute values *)

Lemma insert_raised c x y l l' : (exists a b, x = Fin a /\ y = Fin b /\ b == 1 * a + c) ->
  Forall2 (fun x y => exists a b, x = Fin a /\ y = Fin b /\ b == 1 * a + c) l l' ->
  Forall2 (fun x y => exists a b, x = Fin a /\ y = Fin b /\ b == 1 * a + c) (insert_desc x l) (insert_desc y l').
Proof.
  intros X F. induction F as [|u v l l' U F IH]; cbn [insert_desc]; [constructor; [exact X|constructor]|].
  assert (E : nleb v y = nleb u x).
  { destruct X as (a & b & -> & -> & E), U as (a' & b' & -> & -> & E'). cbn [nleb].
    destruct (Qle_bool b' b) eqn:E1, (Qle_bool a' a) eqn:E2; try reflexivity; exfalso; qb; lra. }
  rewrite E. destruct (nleb u x); constructor; auto.
Qed.
Lemma max_raised c k s s' : Forall2 (raised c) (map snd s) (map snd s') -> raised c (stat_max k s) (stat_max k s').
Proof.
  intro F. unfold stat_max, nlargest. apply mean_affine, first_affine, weaken. apply present_affine in F. unfold sort_desc.
  induction F; [constructor|]. cbn [fold_right]. apply insert_raised; assumption.
Qed.
Lemma abs_affine e d d' : e * e == 1 -> Forall2 (affine e 0) (map snd d) (map snd d') -> raised 0 (mae d) (mae d').
Proof.
  intros EE F. unfold mae. rewrite !mae_numbers. apply mean_affine. induction F as [|x y l l' X F IH]; cbn [map]; constructor; [|exact IH].
  destruct X as [[-> ->]|(a & b & -> & -> & E)]; [left; auto|]. right. eexists. eexists. split; [reflexivity|]. split; [reflexivity|].
  assert (O : e == 1 \/ e == -1).
  { assert (P : (e - 1) * (e + 1) == 0) by (transitivity (e * e - 1); [ring|rewrite EE; reflexivity]). apply Qmult_integral in P. destruct P; [left|right]; lra. }
  rewrite E. destruct O as [O|O]; rewrite O.
  - setoid_replace (1 * a + 0) with a by ring. ring.
  - setoid_replace (-1 * a + 0) with (- a) by ring. rewrite Qabs_opp. ring.
Qed.

(** ** Times *)

Definition later (d : Z) (l : list Z) : list Z := map (fun t => (t + d)%Z) l.
Lemma insert_later d t l : insert_time (t + d) (later d l) = later d (insert_time t l).
Proof.
  induction l as [|x l IH]; [reflexivity|]. cbn [later map insert_time] in *. fold (later d l) in *.
  replace (t + d <? x + d)%Z with (t <? x)%Z by (destruct (Z.ltb_spec t x), (Z.ltb_spec (t + d) (x + d)); lia || reflexivity).
  replace (t + d =? x + d)%Z with (t =? x)%Z by (destruct (Z.eqb_spec t x), (Z.eqb_spec (t + d) (x + d)); lia || reflexivity).
  destruct (t <? x)%Z; [reflexivity|]. destruct (t =? x)%Z; [reflexivity|]. cbn [map]. rewrite IH. reflexivity.
Qed.
Lemma later_inj d a b : later d a = later d b -> a = b.
Proof. revert b. induction a as [|x a IH]; intros [|y b] H; try discriminate; [reflexivity|]. injection H as X H. f_equal; [lia|apply IH, H]. Qed.
Lemma union_later d a b : union_index (later d a) (later d b) = later d (union_index a b).
Proof.
  unfold union_index. destruct (list_eq_dec Z.eq_dec a b) as [->|N]; destruct (list_eq_dec Z.eq_dec _ _) as [E|M]; try reflexivity; try congruence.
  - exfalso. apply N, (later_inj d), E.
  - unfold later at 1 2. rewrite <- map_app. generalize (a ++ b). intro l. induction l as [|x l IH]; [reflexivity|]. cbn [map fold_right]. rewrite IH. apply insert_later.
Qed.
Lemma times_moved c d s : map fst (moved c d s) = later d (map fst s).
Proof. unfold moved, later. rewrite !map_map. reflexivity. Qed.
Lemma at_moved c d s t : at_time (moved c d s) (t + d) = nadd (at_time s t) (Fin c).
Proof.
  induction s as [|[u v] s IH]; [reflexivity|]. cbn [moved map at_time fst snd] in *.
  replace (u + d =? t + d)%Z with (u =? t)%Z by (destruct (Z.eqb_spec u t), (Z.eqb_spec (u + d) (t + d)); lia || reflexivity).
  destruct (u =? t)%Z; [reflexivity|exact IH].
Qed.
Lemma values_moved c d s : no_inf (map snd s) -> Forall2 (raised c) (map snd s) (map snd (moved c d s)).
Proof.
  intro N. unfold moved. rewrite map_map. cbn [snd]. induction s as [|[u v] s IH]; [constructor|]. cbn [map snd] in *. inversion N as [|? ? [V1 V2] N']; subst. constructor; [|apply IH, N'].
  destruct v as [q| | |]; [|left; auto|congruence..]. right. exists q, (q + c). repeat split. ring.
Qed.
Lemma difference_moved c d s1 s2 : no_inf (map snd s1) -> no_inf (map snd s2) ->
  Forall2 (raised 0) (map snd (difference s1 s2)) (map snd (difference (moved c d s1) (moved c d s2))).
Proof.
  intros N1 N2. unfold difference. rewrite !times_moved, union_later, !map_map. cbn [snd]. unfold later. rewrite map_map.
  generalize (union_index (map fst s1) (map fst s2)). intro l. induction l as [|t l IH]; [constructor|]. cbn [map]. constructor; [|exact IH].
  rewrite !at_moved. destruct (at_time_no_inf s1 t N1) as [A1 A2]. destruct (at_time_no_inf s2 t N2) as [B1 B2].
  destruct (at_time s1 t) as [a| | |]; [|left; split; [reflexivity|reflexivity]|congruence..].
  destruct (at_time s2 t) as [b| | |]; [|left; split; [reflexivity|reflexivity]|congruence..].
  right. unfold nsub. cbn [nneg nadd]. eexists. eexists. split; [reflexivity|]. split; [reflexivity|]. ring.
Qed.

(** ** Exchange *)

Lemma insert_sorted t l : StronglySorted Z.lt l -> StronglySorted Z.lt (insert_time t l).
Proof.
  intro S. induction S as [|x l S IH F]; cbn [insert_time]; [constructor; constructor|].
  destruct (Z.ltb_spec t x).
  - constructor; [constructor; assumption|]. constructor; [assumption|]. apply Forall_forall. intros y Y. rewrite Forall_forall in F. specialize (F y Y). lia.
  - destruct (Z.eqb_spec t x); [constructor; assumption|]. constructor; [exact IH|]. apply Forall_forall. intros y Y. apply insert_time_in in Y.
    rewrite Forall_forall in F. destruct Y as [->|Y]; [lia|apply F, Y].
Qed.
Lemma sorted_set a : forall b, StronglySorted Z.lt a -> StronglySorted Z.lt b -> (forall x, In x a <-> In x b) -> a = b.
Proof.
  induction a as [|x a IH]; intros [|y b] A B H; [reflexivity|exfalso; apply (proj2 (H y)); left; reflexivity|exfalso; apply (proj1 (H x)); left; reflexivity|].
  inversion A as [|? ? A' FA]; subst. inversion B as [|? ? B' FB]; subst. rewrite Forall_forall in FA, FB.
  assert (E : x = y).
  { destruct (proj1 (H x) (or_introl eq_refl)) as [E|E]; [congruence|]. destruct (proj2 (H y) (or_introl eq_refl)) as [G|G]; [congruence|].
    specialize (FA y G). specialize (FB x E). lia. }
  subst y. f_equal. apply IH; [assumption..|]. intro z. specialize (H z). cbn [In] in H.
  split; intro I; [destruct (proj1 H (or_intror I)) as [<-|G]|destruct (proj2 H (or_intror I)) as [<-|G]]; auto; exfalso; [specialize (FA x I)|specialize (FB x I)]; lia.
Qed.
Lemma union_exchange a b : union_index b a = union_index a b.
Proof.
  pose proof (union_index_in a b) as I1. pose proof (union_index_in b a) as I2. unfold union_index in *.
  destruct (list_eq_dec Z.eq_dec b a) as [->|N]; destruct (list_eq_dec Z.eq_dec _ _) as [E|M]; try congruence.
  assert (S : forall l, StronglySorted Z.lt (fold_right insert_time [] l)) by (intro l; induction l; [constructor|cbn [fold_right]; apply insert_sorted; assumption]).
  apply sorted_set; [apply S..|]. intro x. rewrite I1, I2. tauto.
Qed.
Lemma difference_exchange s1 s2 : no_inf (map snd s1) -> no_inf (map snd s2) ->
  Forall2 opposite (map snd (difference s1 s2)) (map snd (difference s2 s1)).
Proof.
  intros N1 N2. unfold difference. rewrite (union_exchange (map fst s1) (map fst s2)), !map_map. cbn [snd].
  generalize (union_index (map fst s1) (map fst s2)). intro l. induction l as [|t l IH]; [constructor|]. cbn [map]. constructor; [|exact IH].
  destruct (at_time_no_inf s1 t N1) as [A1 A2]. destruct (at_time_no_inf s2 t N2) as [B1 B2].
  destruct (at_time s1 t) as [a| | |]; [|left; split; [reflexivity|destruct (at_time s2 t); reflexivity]|congruence..].
  destruct (at_time s2 t) as [b| | |]; [|left; split; reflexivity|congruence..].
  right. unfold nsub. cbn [nneg nadd]. eexists. eexists. split; [reflexivity|]. split; [reflexivity|]. ring.
Qed.

(** ** C126 *)

(** Another reference level and another clock: the statistics of the errors stay,
    those of the levels are raised. *)
Theorem C126_reference_level_and_clock :
  forall s1 s2 c d, no_inf (map snd s1) -> no_inf (map snd s2) ->
    let a := compute_statistics s1 s2 in let b := compute_statistics (moved c d s1) (moved c d s2) in
    raised 0 (s_bias a) (s_bias b) /\ raised 0 (s_std2 a) (s_std2 b) /\ raised 0 (s_mae a) (s_mae b) /\
    raised3 c (s_last3 a) (s_last3 b) /\ raised3 c (s_last25 a) (s_last25 b) /\ raised3 c (s_max3 a) (s_max3 b) /\ raised3 c (s_max13 a) (s_max13 b).
Proof.
  intros s1 s2 c d N1 N2. cbv zeta. unfold compute_statistics. cbv zeta. cbn [s_bias s_std2 s_mae s_last3 s_last25 s_max3 s_max13].
  pose proof (values_moved c d s1 N1) as V1. pose proof (values_moved c d s2 N2) as V2. pose proof (difference_moved c d s1 s2 N1 N2) as D.
  set (u := difference s1 s2) in *. set (v := difference (moved c d s1) (moved c d s2)) in *. clearbody u v.
  split; [unfold bias; apply mean_affine, D|]. split; [apply (std_affine 1 0); [reflexivity|exact D]|]. split; [apply (abs_affine 1); [reflexivity|exact D]|].
  unfold raised3. cbn [fst snd]. repeat split; first [apply last_affine; assumption|apply max_raised; assumption].
Qed.
Print Assumptions C126_reference_level_and_clock.

(** 2D minus 1D instead of 1D minus 2D. *)
Theorem C126_exchange :
  forall s1 s2, no_inf (map snd s1) -> no_inf (map snd s2) ->
    let a := compute_statistics s1 s2 in let b := compute_statistics s2 s1 in
    opposite (s_bias a) (s_bias b) /\ raised 0 (s_std2 a) (s_std2 b) /\ raised 0 (s_mae a) (s_mae b) /\
    opposite (snd (s_last3 a)) (snd (s_last3 b)) /\ opposite (snd (s_last25 a)) (snd (s_last25 b)).
Proof.
  intros s1 s2 N1 N2. cbv zeta. unfold compute_statistics. cbv zeta. cbn [s_bias s_std2 s_mae s_last3 s_last25 snd].
  pose proof (difference_exchange s1 s2 N1 N2) as D. set (u := difference s1 s2) in *. set (v := difference s2 s1) in *. clearbody u v.
  split; [unfold bias; apply mean_affine, D|]. split; [apply (std_affine (-1) 0); [reflexivity|exact D]|]. split; [apply (abs_affine (-1)); [reflexivity|exact D]|].
  split; apply last_affine; exact D.
Qed.
Print Assumptions C126_exchange.

(** The window moves with the clock: the same rows, or the same exception. *)
Definition later_window (d : Z) (w : window) : window :=
  mk_window (option_map (fun t => (t + d)%Z) (w_start w)) (option_map (fun t => (t + d)%Z) (w_stop w)).
Lemma index_later d l k : py_index (later d l) k = res_map (fun t => (t + d)%Z) (py_index l k).
Proof.
  unfold py_index, later. rewrite map_length. cbv zeta. destruct (Z.ltb _ 0); [reflexivity|]. rewrite nth_error_map. destruct (nth_error _ _); reflexivity.
Qed.
Lemma le_later d a b : (a + d <=? b + d)%Z = (a <=? b)%Z.
Proof. destruct (Z.leb_spec a b), (Z.leb_spec (a + d) (b + d)); lia || reflexivity. Qed.
Lemma within_moved c d a b s : within (a + d) (b + d) (moved c d s) = moved c d (within a b s).
Proof.
  unfold within, moved. induction s as [|r s IH]; [reflexivity|]. cbn [map filter fst]. rewrite !le_later. destruct (_ && _); cbn [map]; rewrite IH; reflexivity.
Qed.
Theorem C126_window :
  forall c d w (s : series), apply_startstop_time (later_window d w) (moved c d s) =
    (later_window d (fst (apply_startstop_time w s)), res_map (moved c d) (snd (apply_startstop_time w s))).
Proof.
  intros c d w s. unfold apply_startstop_time. cbv zeta. rewrite times_moved, !index_later.
  assert (K : forall a b,
    (mk_window (Some (a + d)%Z) (Some (b + d)%Z),
      if (b + d <=? a + d)%Z then Raise ValueError
      else last <- res_map (fun t => (t + d)%Z) (py_index (map fst s) (-1)) ;;
        if (last <=? a + d)%Z then Raise ValueError
        else first <- res_map (fun t => (t + d)%Z) (py_index (map fst s) 0) ;;
          if (b + d <=? first)%Z then Raise ValueError else Ok (within (a + d) (b + d) (moved c d s))) =
    (mk_window (Some (a + d)%Z) (Some (b + d)%Z), res_map (moved c d)
      (if (b <=? a)%Z then Raise ValueError
       else last <- py_index (map fst s) (-1) ;;
         if (last <=? a)%Z then Raise ValueError
         else first <- py_index (map fst s) 0 ;;
           if (b <=? first)%Z then Raise ValueError else Ok (within a b s)))).
  { intros a b. f_equal. rewrite le_later, within_moved. destruct (b <=? a)%Z; [reflexivity|].
    destruct (py_index (map fst s) (-1)) as [x|]; [|reflexivity]. cbn [res_map bind]. rewrite le_later. destruct (x <=? a)%Z; [reflexivity|].
    destruct (py_index (map fst s) 0) as [y|]; [|reflexivity]. cbn [res_map bind]. rewrite le_later. destruct (b <=? y)%Z; reflexivity. }
  destruct w as [[a|] [b|]]; cbn [later_window option_map w_start w_stop].
  - apply K.
  - destruct (py_index (map fst s) (-1)) as [x|]; [|reflexivity]. cbn [res_map w_start w_stop fst snd] in *. apply K.
  - destruct (py_index (map fst s) 0) as [x|]; [|reflexivity]. cbn [res_map w_start w_stop fst snd] in *. apply K.
  - destruct (py_index (map fst s) (-1)) as [x|]; [|reflexivity]. cbn [res_map w_start w_stop] in *.
    destruct (py_index (map fst s) 0) as [y|]; [|reflexivity]. cbn [res_map w_start w_stop fst snd] in *. apply K.
Qed.
Print Assumptions C126_window.

(** Three common times, one of them without a 2D level. *)
Definition levels_1d : series := [(0%Z, Fin 1); (60%Z, Fin 3); (120%Z, Fin 7)].
Definition levels_2d : series := [(0%Z, Fin 2); (60%Z, Fin 1); (120%Z, NaN)].
Definition is (x : num) (q : Q) : bool := neqb x (Fin q).
Theorem C126_case :
  is (s_bias (compute_statistics levels_1d levels_2d)) (1 # 2) = true /\
  is (s_bias (compute_statistics (moved 10 3600 levels_1d) (moved 10 3600 levels_2d))) (1 # 2) = true /\
  is (s_bias (compute_statistics (moved 10 0 levels_1d) levels_2d)) (21 # 2) = true /\
  is (s_bias (compute_statistics levels_2d levels_1d)) (- 1 # 2) = true /\
  is (s_mae (compute_statistics levels_2d levels_1d)) (3 # 2) = true /\
  is (fst (fst (s_max3 (compute_statistics (moved 10 3600 levels_1d) (moved 10 3600 levels_2d))))) (41 # 3) = true /\
  is (snd (s_max3 (compute_statistics (moved 10 3600 levels_1d) (moved 10 3600 levels_2d)))) (1 # 2) = true.
Proof. repeat split; vm_compute; reflexivity. Qed.
Print Assumptions C126_case.
