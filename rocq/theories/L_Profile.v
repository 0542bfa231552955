(** Lemmas about the profile above and below the initial water level and the
    1D volumes. *)
From Coq Require Import String List ZArith QArith Qabs Bool Lia Lqa Qfield.
From Verif Require Import PyBase Num Spec L_Num M_Geometry L_Require.
Import ListNotations.
Local Open Scope Q_scope.

(** ** Flow width envelope *)
Fixpoint qenv (l : list Q) : list Q :=
  match l with
  | [] => []
  | x :: l' => match qenv l' with [] => [x] | y :: r => Qmin2 x y :: y :: r end
  end.

Lemma envelope_fin l : flow_width_envelope (map Fin l) = map Fin (qenv l).
Proof.
  induction l as [|x l IH]; simpl; auto. rewrite IH.
  destruct (qenv l); simpl; auto. rewrite npmin_fin. auto.
Qed.

Lemma qenv_nil l : qenv l = [] <-> l = [].
Proof.
  destruct l; simpl; split; auto; try discriminate.
  destruct (qenv l); discriminate.
Qed.

Lemma qenv_length l : length (qenv l) = length l.
Proof.
  induction l as [|x l IH]; simpl; auto.
  destruct (qenv l) eqn:E; simpl in *; lia.
Qed.

Lemma qenv_sorted l : sorted Qle (qenv l).
Proof.
  induction l as [|x l IH]; simpl; auto.
  destruct (qenv l) as [|y r]; simpl; auto. split; auto. apply Qmin2_le_r.
Qed.

Lemma qenv_le l : Forall2 Qle (qenv l) l.
Proof.
  induction l as [|x l IH]; [constructor|]. simpl.
  destruct (qenv l) as [|y r] eqn:E.
  - constructor; [lra|]. apply (proj1 (qenv_nil _)) in E. subst. constructor.
  - constructor; auto. apply Qmin2_le_l.
Qed.

Lemma qenv_last l d : last (qenv l) d = last l d.
Proof.
  induction l as [|x l IH]; simpl; auto.
  destruct (qenv l) as [|y r] eqn:E.
  - apply (proj1 (qenv_nil _)) in E. subst. auto.
  - destruct l; [discriminate|]. rewrite <- IH. auto.
Qed.

Lemma qenv_greatest l : forall s,
  sorted Qle s -> Forall2 Qle s l -> Forall2 Qle s (qenv l).
Proof.
  induction l as [|x l IH]; intros s Hs Hle; inversion Hle as [|a b s' l' Hab Hrest]; subst; simpl.
  - constructor.
  - assert (Hs' : sorted Qle s') by (destruct s'; simpl in *; tauto).
    specialize (IH _ Hs' Hrest).
    destruct (qenv l) as [|y r] eqn:E.
    + inversion IH; subst. constructor; auto.
    + constructor; auto. inversion IH as [|c d s'' r' Hcd Hr]; subst.
      simpl in Hs. apply Qmin2_glb; auto. destruct Hs. lra.
Qed.

Lemma map_ndiv_fin len l : ~ len == 0 ->
  map (fun a => ndiv a (Fin len)) (map Fin l) = map Fin (map (fun a => a / len) l).
Proof.
  intros H. rewrite !map_map. apply map_ext. intros a. simpl.
  destruct (Qeq_bool len 0) eqn:E; qb; [contradiction|auto].
Qed.

(** ** Extension below z0: closed form of the loop *)
Section Below.
Variables (ex : bool) (len c0 fa0 : num) (cells : list (cell * num * bool)).

Definition below_flow (dz : num) : num :=
  if negb ex then wet_area_below cells dz else npmin (wet_area_below cells dz) fa0.

Lemma below_fold dzs : forall k,
  fold_left (below_z0_step ex len c0 fa0 cells) dzs k =
  mkCols (rev (map (fun dz => nsub c0 dz) dzs) ++ k_z k)
         (rev (map (fun dz => ndiv (wet_area_below cells dz) len) dzs) ++ k_tw k)
         (rev (map (fun dz => ndiv (below_flow dz) len) dzs) ++ k_fw k)
         (rev (map (wet_area_below cells) dzs) ++ k_wet k)
         (rev (map below_flow dzs) ++ k_flow k)
         (rev (map (fun _ => NaN) dzs) ++ k_fvol k)
         (rev (map (fun _ => NaN) dzs) ++ k_tvol k).
Proof.
  induction dzs as [|dz dzs IH]; intros k; simpl.
  - destruct k; auto.
  - rewrite IH. unfold below_z0_step, below_flow; simpl.
    rewrite <- !app_assoc. reflexivity.
Qed.
End Below.

(** ** Sums over subsets *)
Lemma Qsum_map_le {A} (f g : A -> Q) l :
  (forall x, In x l -> f x <= g x) -> Qsum (map f l) <= Qsum (map g l).
Proof.
  induction l as [|x l IH]; simpl; intros H; [lra|].
  assert (f x <= g x) by (apply H; auto).
  assert (Qsum (map f l) <= Qsum (map g l)) by (apply IH; intros; apply H; auto). lra.
Qed.

Lemma Qsum_if_le {A} (f : A -> Q) (p q : A -> bool) l :
  (forall x, In x l -> 0 <= f x) ->
  (forall x, In x l -> p x = true -> q x = true) ->
  Qsum_if f p l <= Qsum_if f q l.
Proof.
  unfold Qsum_if. induction l as [|x l IH]; simpl; intros H0 H; [lra|].
  assert (IH' : Qsum (map f (filter p l)) <= Qsum (map f (filter q l))).
  { apply IH; intros; [apply H0|apply H]; auto. }
  assert (Hx : 0 <= f x) by (apply H0; auto).
  destruct (p x) eqn:Ep.
  - rewrite (H x (or_introl eq_refl) Ep). simpl. lra.
  - destruct (q x); simpl; lra.
Qed.

Lemma Qsum_if_nonneg {A} (f : A -> Q) (p : A -> bool) l :
  (forall x, In x l -> 0 <= f x) -> 0 <= Qsum_if f p l.
Proof.
  unfold Qsum_if. induction l as [|x l IH]; simpl; intros H; [lra|].
  assert (0 <= Qsum (map f (filter p l))) by (apply IH; intros; apply H; auto).
  assert (0 <= f x) by (apply H; auto).
  destruct (p x); simpl; lra.
Qed.

(** A cell at t0 as the specification sees it: area, initial depth, and
    whether it takes part (wet and not an inactive lake). *)
Definition cell0_is (x : cell * num * bool) (s : Q * Q * bool) : Prop :=
  let '(c, lvl, active) := x in
  let '(a, d, act) := s in
  c_area c = Fin a /\ active = act /\
  ((exists l b, lvl = Fin l /\ c_bed c = Fin b /\ d == l - b) \/
   ((lvl = NaN \/ c_bed c = NaN) /\ d == 0)).

Lemma depth_at_t0_is c lvl act a d act' :
  cell0_is (c, lvl, act) (a, d, act') ->
  exists d', depth_at_t0 c lvl = Fin d' /\ d' == d.
Proof.
  intros (_ & _ & H). unfold depth_at_t0. destruct H as [(l & b & -> & -> & Hd) | [Hn Hd]].
  - simpl. exists (l + - b). split; auto. rewrite Hd. ring.
  - exists 0. split; [|rewrite Hd; reflexivity]. destruct Hn as [-> | ->]; simpl; auto.
    destruct lvl; auto.
Qed.

Lemma wet_area_below_spec cells specs :
  Forall2 cell0_is cells specs ->
  forall dz, exists s,
    wet_area_below cells (Fin dz) = Fin s /\
    s == Qsum_if (fun x => fst (fst x))
           (fun x => Qltb (dz - (1 # 1000)) (snd (fst x)) && snd x) specs.
Proof.
  intros H dz. unfold wet_area_below.
  assert (Hm : map (fun x => c_area (fst (fst x)))
           (filter (fun x => nltb (Fin (-1 # 1000))
                                  (nsub (depth_at_t0 (fst (fst x)) (snd (fst x))) (Fin dz))
                             && snd x) cells)
         = map Fin (map (fun x => fst (fst x))
             (filter (fun x => Qltb (dz - (1 # 1000)) (snd (fst x)) && snd x) specs))).
  { induction H as [|x s cs ss Hx _ IH]; auto.
    destruct x as [[c lvl] act]; destruct s as [[a d] act'].
    destruct (depth_at_t0_is _ _ _ _ _ _ Hx) as [d' [Hd' Hdeq]].
    destruct Hx as (Ha & <- & _). cbn [map filter fst snd].
    rewrite Hd'. change (nltb (Fin (-1 # 1000)) (nsub (Fin d') (Fin dz))) with (Qltb (-1 # 1000) (d' + - dz)).
    assert (Hb : Qltb (-1 # 1000) (d' + - dz) = Qltb (dz - (1 # 1000)) d).
    { destruct (Qltb (-1 # 1000) (d' + - dz)) eqn:E1, (Qltb (dz - (1 # 1000)) d) eqn:E2; auto; qb; lra. }
    rewrite Hb. destruct (Qltb (dz - (1 # 1000)) d && act); cbn [map fst snd]; rewrite IH; auto.
    rewrite Ha. auto. }
  rewrite Hm. apply nansum_fin.
Qed.

(** ** Trapezoidal integration *)
Fixpoint qtrapz_from (acc : Q) (y x : list Q) : list Q :=
  match y, x with
  | y0 :: ((y1 :: _) as y'), x0 :: ((x1 :: _) as x') =>
      let acc' := acc + ((x1 + - x0) * (y1 + y0)) / 2 in
      acc' :: qtrapz_from acc' y' x'
  | _, _ => []
  end.

Lemma cumtrapz_fin y : forall x acc,
  cumtrapz_from (Fin acc) (map Fin y) (map Fin x) = map Fin (qtrapz_from acc y x).
Proof.
  induction y as [|y0 y IH]; intros x acc; simpl; auto.
  destruct y as [|y1 y].
  - simpl. auto.
  - destruct x as [|x0 [|x1 x]]; simpl; auto.
    f_equal. apply (IH (x1 :: x)).
Qed.

Definition qvolume (len : Q) (w z : list Q) : list Q :=
  0 :: map (fun v => v * len) (qtrapz_from 0 w z).

Lemma css_volume_fin len w z :
  css_volume (Fin len) (map Fin w) (map Fin z) = map Fin (qvolume len w z).
Proof.
  unfold css_volume, qvolume, cumulative_trapezoid. rewrite cumtrapz_fin. simpl. f_equal.
  rewrite !map_map. auto.
Qed.

Lemma qtrapz_length y : forall x acc,
  length y = length x -> length (qtrapz_from acc y x) = pred (length y).
Proof.
  induction y as [|y0 y IH]; intros x acc H; simpl; auto.
  destruct y as [|y1 y]; auto. destruct x as [|x0 [|x1 x]]; try discriminate.
  change (S (length (qtrapz_from (acc + ((x1 + - x0) * (y1 + y0)) / 2) (y1 :: y) (x1 :: x)))
          = S (length y)).
  f_equal. apply (IH (x1 :: x)). simpl in *. lia.
Qed.

(** Area of the first [n] trapezoids, the specification of the integral. *)
Fixpoint trapezoids (n : nat) (y x : list Q) : Q :=
  match n, y, x with
  | S n', y0 :: ((y1 :: _) as y'), x0 :: ((x1 :: _) as x') =>
      (x1 - x0) * (y0 + y1) * (1 # 2) + trapezoids n' y' x'
  | _, _, _ => 0
  end.

Lemma qtrapz_nth y : forall x acc i v,
  nth_error (qtrapz_from acc y x) i = Some v -> v == acc + trapezoids (S i) y x.
Proof.
  induction y as [|y0 y IH]; intros x acc i v H; simpl in H; [destruct i; discriminate|].
  destruct y as [|y1 y]; [destruct i; discriminate|].
  destruct x as [|x0 [|x1 x]]; try (destruct i; discriminate).
  destruct i as [|i]; simpl in H.
  - inversion H; subst. simpl. field.
  - apply (IH (x1 :: x)) in H. rewrite H.
    change (trapezoids (S (S i)) (y0 :: y1 :: y) (x0 :: x1 :: x))
      with ((x1 - x0) * (y0 + y1) * (1 # 2) + trapezoids (S i) (y1 :: y) (x1 :: x)).
    field.
Qed.

Lemma trapezoids_step y : forall n x,
  sorted Qle x -> Forall (fun w => 0 <= w) y -> trapezoids n y x <= trapezoids (S n) y x.
Proof.
  induction y as [|y0 y IH]; intros n x Hx Hy.
  - destruct n; simpl; lra.
  - destruct y as [|y1 y]; [destruct n; simpl; lra|].
    destruct x as [|x0 [|x1 x]]; try (destruct n; simpl; lra).
    inversion Hy as [|? ? Hy0 Hy']; subst. inversion Hy' as [|? ? Hy1 _]; subst.
    destruct Hx as [H01 Hx].
    assert (0 <= (x1 - x0) * (y0 + y1)) by (apply Qmult_le_0_compat; lra).
    destruct n as [|n].
    + change (trapezoids 0 (y0 :: y1 :: y) (x0 :: x1 :: x)) with 0.
      change (trapezoids 1 (y0 :: y1 :: y) (x0 :: x1 :: x))
        with ((x1 - x0) * (y0 + y1) * (1 # 2) + 0). lra.
    + change (trapezoids (S n) (y0 :: y1 :: y) (x0 :: x1 :: x))
        with ((x1 - x0) * (y0 + y1) * (1 # 2) + trapezoids n (y1 :: y) (x1 :: x)).
      change (trapezoids (S (S n)) (y0 :: y1 :: y) (x0 :: x1 :: x))
        with ((x1 - x0) * (y0 + y1) * (1 # 2) + trapezoids (S n) (y1 :: y) (x1 :: x)).
      assert (trapezoids n (y1 :: y) (x1 :: x) <= trapezoids (S n) (y1 :: y) (x1 :: x)).
      { apply IH; auto. } lra.
Qed.

Lemma trapezoids_mono y x n m :
  (n <= m)%nat -> sorted Qle x -> Forall (fun w => 0 <= w) y ->
  trapezoids n y x <= trapezoids m y x.
Proof.
  intros H Hx Hy. induction H as [|m H IH]; [lra|].
  pose proof (trapezoids_step y m x Hx Hy). lra.
Qed.

Lemma trapezoids_le y y' : forall n x,
  sorted Qle x -> Forall2 Qle y y' -> trapezoids n y x <= trapezoids n y' x.
Proof.
  intros n x Hx H; revert n x Hx.
  induction H as [|a b y y' Hab H IH]; intros n x Hx; [destruct n; simpl; lra|].
  destruct H as [|a1 b1 y y' Hab1 H]; [destruct n; simpl; lra|].
  destruct x as [|x0 [|x1 x]]; try (destruct n; simpl; lra).
  destruct n as [|n]; [simpl; lra|]. destruct Hx as [H01 Hx].
  change (trapezoids (S n) (a :: a1 :: y) (x0 :: x1 :: x))
    with ((x1 - x0) * (a + a1) * (1 # 2) + trapezoids n (a1 :: y) (x1 :: x)).
  change (trapezoids (S n) (b :: b1 :: y') (x0 :: x1 :: x))
    with ((x1 - x0) * (b + b1) * (1 # 2) + trapezoids n (b1 :: y') (x1 :: x)).
  assert (trapezoids n (a1 :: y) (x1 :: x) <= trapezoids n (b1 :: y') (x1 :: x)) by (apply IH; auto).
  assert ((x1 - x0) * (a + a1) <= (x1 - x0) * (b + b1)).
  { rewrite !(Qmult_comm (x1 - x0)). apply Qmult_le_compat_r; lra. }
  lra.
Qed.

Lemma qvolume_nth len w z i v :
  nth_error (qvolume len w z) i = Some v -> v == len * trapezoids i w z.
Proof.
  unfold qvolume. destruct i as [|i]; simpl nth_error; intros H.
  - inversion H; subst. simpl. ring.
  - rewrite nth_error_map in H. destruct (nth_error (qtrapz_from 0 w z) i) eqn:E; [|discriminate].
    inversion H; subst. apply qtrapz_nth in E. rewrite E. ring.
Qed.
