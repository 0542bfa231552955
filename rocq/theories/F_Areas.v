(** Areas, volumes and widths of the time steps in binary64 arithmetic (Flocq),
    theorems for C04, C08 and C62 with rounding.

    Same code as [masked_sum], [masked_volume] and [compute_css_above_z0] in
    M_Geometry.v, cross_section.py 340-372 and 1154-1161: np.nansum takes what is
    masked out as zero and adds up in an order that depends on the shape of the
    matrix only, so it is the same for the wet and for the flow cells; it is any
    order here.  All operations round to nearest. *)
From Coq Require Import ZArith Reals List Bool Lia Lra Psatz Permutation.
From Flocq Require Import Core.Core IEEE754.BinarySingleNaN.
From Verif Require Import PyBase F_Require F_Volumes F_Arange F_Stats.
Import ListNotations.
Local Open Scope R_scope.

(** cross_section.py 341-342: the area of the cells of a mask. *)
Definition masked (m : bool) (x : f64) : f64 := if m then x else fzero.
Definition farea (p : plan) (mask : list bool) (area : list f64) : f64 :=
  fsum p (map (fun c => masked (fst c) (snd c)) (combine mask area)).
(** cross_section.py 358-366: their volume. *)
Definition fvol (p : plan) (mask : list bool) (area depth : list f64) : f64 :=
  fsum p (map (fun c => masked (fst c) (fmul (fst (snd c)) (snd (snd c)))) (combine mask (combine area depth))).

(** cross_section.py 1154-1155: the raw widths. *)
Definition fwidth (len a : f64) : f64 := fdiv a len.
(** cross_section.py 1157-1161: np.min of a width and the one above it. *)
Definition fmin (x y : f64) : f64 := if Bltb y x then y else x.
Fixpoint fenv (l : list f64) : list f64 :=
  match l with
  | [] => []
  | x :: l' =>
      match fenv l' with
      | [] => [x]
      | y :: r => fmin x y :: y :: r
      end
  end.

(** Every partial sum of larger values is larger. *)
Lemma fsum_mono p l l' : Forall2 (fun x y => fin x /\ fin y /\ 0 <= B2R x <= B2R y) l l' -> fin (fsum p l') ->
  fin (fsum p l) /\ 0 <= B2R (fsum p l) <= B2R (fsum p l').
Proof.
  intro H. induction p as [i|p IHp q IHq]; cbn [fsum]; intro F.
  - revert i F. induction H as [|x y l l' (Fx & Fy & B) H IH]; intros i F.
    + rewrite !nth_overflow by (cbn; lia). split; [reflexivity|cbn; lra].
    + destruct i; cbn [nth] in *; [split; [exact Fx|exact B]|]. apply IH. exact F.
  - destruct (fadd_finite _ _ F) as [Fp Fq]. destruct (IHp Fp) as [Gp Lp]. destruct (IHq Fq) as [Gq Lq].
    apply (rounds_mono fadd Rplus _ _ _ _ fadd_rounds Gp Gq Fp Fq); [lra|exact F].
Qed.

(** C62 and C08 in binary64: more cells never make the area or the volume
    smaller, neither is negative. *)
Theorem C62_areas_in_binary64 :
  forall (p : plan) (flow wet : list bool) (area : list f64),
    Forall2 (fun f w : bool => f = true -> w = true) flow wet ->
    Forall (fun a => fin a /\ 0 <= B2R a) area ->
    fin (farea p wet area) ->
    fin (farea p flow area) /\ 0 <= B2R (farea p flow area) <= B2R (farea p wet area).
Proof.
  intros p flow wet area S A. apply fsum_mono. revert area A.
  induction S as [|f w flow wet Hfw S IH]; intros area A; cbn [combine map]; [constructor|].
  destruct A as [|a area [Fa Pa] A]; cbn [combine map]; constructor; [|apply IH; exact A].
  cbn [fst snd]. destruct f; [rewrite (Hfw eq_refl); cbn [masked]; repeat split; auto; lra|].
  cbn [masked]. split; [reflexivity|]. destruct w; cbn [masked]; split; auto; try reflexivity; cbn [B2R fzero]; lra.
Qed.
Print Assumptions C62_areas_in_binary64.

Theorem C08_volumes_in_binary64 :
  forall (p : plan) (some more : list bool) (area depth : list f64),
    Forall2 (fun f w : bool => f = true -> w = true) some more ->
    Forall2 (fun a d => fin (fmul a d) /\ 0 <= B2R a /\ 0 <= B2R d) area depth ->
    fin (fvol p more area depth) ->
    fin (fvol p some area depth) /\ 0 <= B2R (fvol p some area depth) <= B2R (fvol p more area depth).
Proof.
  intros p some more area depth S A. apply fsum_mono. revert area depth A.
  induction S as [|f w flow wet Hfw S IH]; intros area depth A; cbn [combine map]; [constructor|].
  destruct A as [|a d area depth (Fa & Pa & Pd) A]; cbn [combine map]; constructor; [|apply IH; exact A].
  cbn [fst snd].
  assert (P : 0 <= B2R (fmul a d)).
  { destruct (fmul_finite _ _ Fa) as [F1 F2]. apply (rounds_pos fmul Rmult); auto using fmul_rounds. apply Rmult_le_pos; auto. }
  destruct f; [rewrite (Hfw eq_refl); cbn [masked]; repeat split; auto; lra|].
  cbn [masked]. split; [reflexivity|]. destruct w; cbn [masked]; split; auto; try reflexivity; cbn [B2R fzero]; lra.
Qed.
Print Assumptions C08_volumes_in_binary64.

(** * Widths *)

Lemma fmin_value x y : fin x -> fin y -> fin (fmin x y) /\ B2R (fmin x y) = Rmin (B2R x) (B2R y).
Proof.
  intros Fx Fy. unfold fmin. rewrite Bltb_correct by assumption. case Rlt_bool_spec; intro H.
  - split; [exact Fy|]. rewrite Rmin_right; lra.
  - split; [exact Fx|]. rewrite Rmin_left; lra.
Qed.

Inductive nondec : list f64 -> Prop :=
| nondec_nil : nondec []
| nondec_one x : nondec [x]
| nondec_cons x y l : B2R x <= B2R y -> nondec (y :: l) -> nondec (x :: y :: l).
Definition below : list f64 -> list f64 -> Prop := Forall2 (fun x y => B2R x <= B2R y).

Lemma below_trans a : forall b c, below a b -> below b c -> below a c.
Proof.
  induction a as [|x a IH]; intros b c H1 H2; inversion H1; subst; inversion H2; subst; constructor; [lra|].
  eapply IH; eauto.
Qed.

Lemma fenv_ok l : Forall fin l -> Forall fin (fenv l) /\ nondec (fenv l) /\ below (fenv l) l /\
  (forall s, Forall fin s -> nondec s -> below s l -> below s (fenv l)).
Proof.
  induction l as [|x l IH]; intro F; cbn [fenv].
  - repeat split; try constructor. intros s _ _ H. exact H.
  - inversion F as [|? ? Fx Fl]; subst. destruct (IH Fl) as (F1 & N1 & B1 & G1). destruct (fenv l) as [|y r] eqn:E.
    + inversion B1; subst. split; [repeat constructor; auto|]. split; [apply nondec_one|].
      split; [constructor; [lra|constructor]|]. intros s _ _ H. exact H.
    + inversion F1 as [|? ? Fy Fr]; subst. destruct (fmin_value x y Fx Fy) as [Fm Em].
      pose proof (Rmin_l (B2R x) (B2R y)). pose proof (Rmin_r (B2R x) (B2R y)).
      split; [constructor; auto|]. split; [constructor; [lra|exact N1]|]. split; [constructor; [lra|exact B1]|].
      intros s Fs Ns Bs. inversion Bs as [|a ? s' ? Ha Bs']; subst.
      inversion Fs as [|? ? _ Fs']; subst.
      assert (Ns' : nondec s') by (inversion Ns; subst; auto; constructor).
      specialize (G1 s' Fs' Ns' Bs'). constructor; [|exact G1].
      inversion G1 as [|b ? s'' ? Hb _]; subst. inversion Ns; subst. rewrite Em. apply Rmin_glb; lra.
Qed.

Lemma fwidth_mono len x y : fin len -> 0 < B2R len -> fin x -> fin y -> 0 <= B2R x <= B2R y -> fin (fwidth len y) ->
  fin (fwidth len x) /\ 0 <= B2R (fwidth len x) <= B2R (fwidth len y).
Proof.
  intros Fl Pl Fx Fy B F. unfold fwidth in *.
  apply (rounds_mono (fun x _ => fdiv x len) (fun x _ => x / B2R len) x x y y); auto.
  - apply fdiv_rounds. lra.
  - assert (0 < / B2R len) by (apply Rinv_0_lt_compat; lra). unfold Rdiv. split.
    + apply Rmult_le_pos; lra.
    + apply Rmult_le_compat_r; lra.
Qed.

(** C04 in binary64: the flow widths never decrease, are nowhere larger than the
    raw flow width, and are the largest such widths; where the flow area is at
    most the wet area they are at most the total width. *)
Theorem C04_flow_width_in_binary64 :
  forall (len : f64) (flow wet : list f64),
    fin len -> 0 < B2R len ->
    Forall2 (fun f w => fin f /\ fin w /\ 0 <= B2R f <= B2R w /\ fin (fwidth len w)) flow wet ->
    let fw := fenv (map (fwidth len) flow) in
    let tw := map (fwidth len) wet in
    Forall fin fw /\ nondec fw /\ below fw (map (fwidth len) flow) /\ below fw tw /\
    (forall s, Forall fin s -> nondec s -> below s (map (fwidth len) flow) -> below s fw).
Proof.
  intros len flow wet Fl Pl H fw tw.
  assert (R : Forall fin (map (fwidth len) flow) /\ below (map (fwidth len) flow) tw).
  { unfold tw. induction H as [|f w flow wet (Ff & Fw & B & F) H IH]; cbn [map]; [split; constructor|].
    destruct IH as [I1 I2]. destruct (fwidth_mono len f w Fl Pl Ff Fw B F) as [F1 B1].
    split; constructor; auto. lra. }
  destruct R as [R1 R2]. destruct (fenv_ok _ R1) as (F1 & N1 & B1 & G1).
  split; [exact F1|]. split; [exact N1|]. split; [exact B1|]. split; [|exact G1].
  exact (below_trans _ _ _ B1 R2).
Qed.
Print Assumptions C04_flow_width_in_binary64.

(** Non-vacuous: three time steps, with flow areas 2, 3, 1 of wet areas 2, 4, 5 and
    the length 1. *)
Theorem C04_binary64_case :
  map B2SF (fenv (map (fwidth (of_nat 1)) [of_nat 2; of_nat 3; of_nat 1])) =
  map B2SF [of_nat 1; of_nat 1; of_nat 1].
Proof. vm_compute. reflexivity. Qed.
Print Assumptions C04_binary64_case.
