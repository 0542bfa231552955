(** The 1D volumes of a cross-section in binary64 arithmetic (Flocq), theorem for
    C07 with rounding.

    Same code as [css_volume] in M_Geometry.v, cross_section.py 401-408 with
    scipy's cumulative_trapezoid, with IEEE 754 operations that round to nearest
    in place of exact arithmetic. *)
From Coq Require Import ZArith Reals List Bool Lia Lra.
From Flocq Require Import Core.Core IEEE754.BinarySingleNaN.
From Verif Require Import PyBase F_Require.
Import ListNotations.
Local Open Scope R_scope.

Definition fsub (x y : f64) : f64 := Bminus mode_NE x y.
Definition fmul (x y : f64) : f64 := Bmult mode_NE x y.
Definition fdiv (x y : f64) : f64 := Bdiv mode_NE x y.
(** The float 2.0, that is 2 ^ 52 * 2 ^ -51. *)
Definition ftwo : f64 := @B754_finite 53 1024 false 4503599627370496 (-51) eq_refl.

Fixpoint fcumtrapz (acc : f64) (y x : list f64) : list f64 :=
  match y, x with
  | y0 :: ((y1 :: _) as y'), x0 :: ((x1 :: _) as x') =>
      let acc' := fadd acc (fdiv (fmul (fsub x1 x0) (fadd y1 y0)) ftwo) in
      acc' :: fcumtrapz acc' y' x'
  | _, _ => []
  end.
Definition fvolume (len : f64) (width z : list f64) : list f64 :=
  fzero :: map (fun v => fmul v len) (fcumtrapz fzero width z).

(** * Operations *)

Notation rnd := (round radix2 fexp64 ZnearestE).
Definition big64 : R := bpow radix2 1024.

(** An operation that rounds the exact result, and overflows to infinity. *)
Definition rounds (op : f64 -> f64 -> f64) (f : R -> R -> R) : Prop :=
  forall x y, fin x -> fin y ->
    (Rabs (rnd (f (B2R x) (B2R y))) < big64 -> fin (op x y) /\ B2R (op x y) = rnd (f (B2R x) (B2R y))) /\
    (fin (op x y) -> Rabs (rnd (f (B2R x) (B2R y))) < big64).

Lemma overflow_infinite s (x : f64) : B2SF x = binary_overflow 53 1024 mode_NE s -> is_finite x = true -> False.
Proof.
  intros E H. rewrite <- is_finite_SF_B2SF, E in H. unfold binary_overflow in H. cbn in H. destruct s; discriminate.
Qed.

Lemma fadd_rounds : rounds fadd Rplus.
Proof.
  intros x y Fx Fy. pose proof (Bplus_correct 53 1024 _ _ mode_NE x y Fx Fy) as C. cbn [round_mode] in C.
  fold (fadd x y) in C. fold big64 in C. revert C. case Rlt_bool_spec; intros L C.
  - destruct C as (C1 & C2 & _). split; [intros _; split; [exact C2|exact C1]|intros _; exact L].
  - destruct C as [C _]. split; [intro H; lra|]. intro H. exfalso. exact (overflow_infinite _ _ C H).
Qed.
Lemma fsub_rounds : rounds fsub Rminus.
Proof.
  intros x y Fx Fy. pose proof (Bminus_correct 53 1024 _ _ mode_NE x y Fx Fy) as C. cbn [round_mode] in C.
  fold (fsub x y) in C. fold big64 in C. revert C. case Rlt_bool_spec; intros L C.
  - destruct C as (C1 & C2 & _). split; [intros _; split; [exact C2|exact C1]|intros _; exact L].
  - destruct C as [C _]. split; [intro H; lra|]. intro H. exfalso. exact (overflow_infinite _ _ C H).
Qed.
Lemma fmul_rounds : rounds fmul Rmult.
Proof.
  intros x y Fx Fy. pose proof (Bmult_correct 53 1024 _ _ mode_NE x y) as C. cbn [round_mode] in C.
  fold (fmul x y) in C. fold big64 in C. revert C. case Rlt_bool_spec; intros L C.
  - destruct C as (C1 & C2 & _). unfold fin in *. rewrite Fx, Fy in C2. split; [intros _; split; [exact C2|exact C1]|intros _; exact L].
  - split; [intro H; lra|]. intro H. exfalso. exact (overflow_infinite _ _ C H).
Qed.
Lemma two_value : B2R ftwo = 2.
Proof.
  cbn [B2R ftwo]. unfold F2R. cbn [Fnum Fexp]. change (cond_Zopp false 4503599627370496) with (2 ^ 52)%Z.
  rewrite (IZR_Zpower radix2) by lia. rewrite <- bpow_plus. reflexivity.
Qed.
Lemma half_rounds : rounds (fun x _ => fdiv x ftwo) (fun x _ => x / 2).
Proof.
  intros x y Fx _. pose proof (Bdiv_correct 53 1024 _ _ mode_NE x ftwo) as C. rewrite two_value in C.
  specialize (C ltac:(lra)). cbn [round_mode] in C.
  fold (fdiv x ftwo) in C. fold big64 in C. revert C. case Rlt_bool_spec; intros L C.
  - destruct C as (C1 & C2 & _). unfold fin in *. rewrite Fx in C2. split; [intros _; split; [exact C2|exact C1]|intros _; exact L].
  - split; [intro H; lra|]. intro H. exfalso. exact (overflow_infinite _ _ C H).
Qed.

(** A finite result has finite arguments. *)
Lemma fadd_finite x y : fin (fadd x y) -> fin x /\ fin y.
Proof. unfold fin, fadd. destruct x as [s|[]| |], y as [t|[]| |]; cbn; try discriminate; auto. Qed.
Lemma fsub_finite x y : fin (fsub x y) -> fin x /\ fin y.
Proof. unfold fin, fsub. destruct x as [s|[]| |], y as [t|[]| |]; cbn; try discriminate; auto. Qed.
Lemma fmul_finite x y : fin (fmul x y) -> fin x /\ fin y.
Proof. unfold fin, fmul. destruct x as [s|[]| |], y as [t|[]| |]; cbn; try discriminate; auto. Qed.
Lemma half_finite x : fin (fdiv x ftwo) -> fin x.
Proof. unfold fin, fdiv. destruct x as [s|[]| |]; cbn; try discriminate; auto. Qed.

Lemma rnd_mono a b : a <= b -> rnd a <= rnd b.
Proof. apply round_le; typeclasses eauto. Qed.
Lemma rnd_0 : rnd 0 = 0.
Proof. apply round_0. typeclasses eauto. Qed.
Lemma rnd_id x : fin x -> rnd (B2R x) = B2R x.
Proof. intros _. apply round_generic; [typeclasses eauto|]. apply generic_format_B2R. Qed.

(** Rounding keeps the order of non-negative results. *)
Lemma rounds_mono op f x y x' y' : rounds op f -> fin x -> fin y -> fin x' -> fin y' ->
  0 <= f (B2R x) (B2R y) <= f (B2R x') (B2R y') -> fin (op x' y') ->
  fin (op x y) /\ 0 <= B2R (op x y) <= B2R (op x' y').
Proof.
  intros R Fx Fy Fx' Fy' [L0 L1] F'. destruct (R x' y' Fx' Fy') as [R1 R2]. specialize (R2 F').
  destruct (R1 R2) as [_ E']. apply rnd_mono in L0, L1. rewrite rnd_0 in L0.
  assert (S : Rabs (rnd (f (B2R x) (B2R y))) < big64).
  { rewrite Rabs_pos_eq in * by lra. lra. }
  destruct (R x y Fx Fy) as [R3 _]. destruct (R3 S) as [G E]. split; [exact G|]. rewrite E, E'. lra.
Qed.
Lemma rounds_pos op f x y : rounds op f -> fin x -> fin y -> fin (op x y) -> 0 <= f (B2R x) (B2R y) -> 0 <= B2R (op x y).
Proof. intros R Fx Fy F H. apply (rounds_mono op f x y x y); auto. lra. Qed.

(** * Columns *)

(** The increments for a flow width and a total width. *)
Definition increment (z0 z1 w0 w1 : f64) : f64 := fdiv (fmul (fsub z1 z0) (fadd w1 w0)) ftwo.

Lemma increment_le z0 z1 f0 f1 t0 t1 : fin f0 -> fin f1 -> fin t0 -> fin t1 ->
  fle z0 z1 -> 0 <= B2R f0 <= B2R t0 -> 0 <= B2R f1 <= B2R t1 -> fin (increment z0 z1 t0 t1) ->
  fin (increment z0 z1 f0 f1) /\ 0 <= B2R (increment z0 z1 f0 f1) <= B2R (increment z0 z1 t0 t1).
Proof.
  intros F1 F2 F3 F4 Hz H0 H1 F. unfold increment in *. unfold fle in Hz.
  pose proof (half_finite _ F) as Fm. pose proof (fmul_finite _ _ Fm) as [Fd Fs]. pose proof (fsub_finite _ _ Fd) as [Fz1 Fz0].
  assert (D : 0 <= B2R (fsub z1 z0)) by (apply (rounds_pos _ _ _ _ fsub_rounds); auto; lra).
  destruct (rounds_mono fadd Rplus f1 f0 t1 t0 fadd_rounds) as [S1 S2]; auto; [lra|].
  destruct (rounds_mono fmul Rmult (fsub z1 z0) (fadd f1 f0) (fsub z1 z0) (fadd t1 t0) fmul_rounds) as [M1 M2]; auto.
  { split; [apply Rmult_le_pos; lra|apply Rmult_le_compat_l; lra]. }
  apply (rounds_mono (fun x _ => fdiv x ftwo) (fun x _ => x / 2) _ fzero _ fzero half_rounds); auto; try reflexivity. lra.
Qed.

Inductive column : list f64 -> list f64 -> list f64 -> Prop :=
| col_nil : column [] [] []
| col_one z f t : fin f -> fin t -> 0 <= B2R f <= B2R t -> column [z] [f] [t]
| col_more z0 z1 zs f fs t ts : fle z0 z1 -> fin f -> fin t -> 0 <= B2R f <= B2R t ->
    column (z1 :: zs) fs ts -> column (z0 :: z1 :: zs) (f :: fs) (t :: ts).

Fixpoint rising (p : f64) (l : list f64) : Prop :=
  match l with [] => True | x :: l' => fle p x /\ rising x l' end.

Lemma rising_map len l : forall p, fin len -> 0 <= B2R len -> fin p -> 0 <= B2R p -> rising p l ->
  fin (fmul p len) -> Forall fin (map (fun v => fmul v len) l) -> Forall fin l ->
  rising (fmul p len) (map (fun v => fmul v len) l).
Proof.
  induction l as [|x l IH]; intros p Fl Pl Fp Pp R Fm F Fx; cbn [map rising] in *; auto.
  destruct R as [R1 R2]. inversion F as [|? ? F1 F2]; inversion Fx as [|? ? F3 F4]; subst. unfold fle in *.
  split; [|apply IH; auto; lra].
  apply (rounds_mono fmul Rmult p len x len fmul_rounds); auto.
  split; [apply Rmult_le_pos; lra|apply Rmult_le_compat_r; lra].
Qed.

Lemma cumtrapz_ok z f t : column z f t -> forall a b, fin a -> fin b -> 0 <= B2R a <= B2R b ->
  Forall fin (fcumtrapz b t z) ->
  Forall fin (fcumtrapz a f z) /\ rising a (fcumtrapz a f z) /\ rising b (fcumtrapz b t z) /\
  Forall2 (fun x y => 0 <= B2R x <= B2R y) (fcumtrapz a f z) (fcumtrapz b t z).
Proof.
  induction 1 as [|z f t Ff Ft Hw|z0 z1 zs f fs t ts Hz Ff Ft Hw C IH]; intros a b Fa Fb Hab F;
    try (cbn; split; [|split; [|split]]; solve [constructor|exact I]).
  assert (W : exists f1 fs' t1 ts', fs = f1 :: fs' /\ ts = t1 :: ts' /\ fin f1 /\ fin t1 /\ 0 <= B2R f1 <= B2R t1)
    by (inversion C; subst; do 4 eexists; repeat (split; [reflexivity|]); auto).
  destruct W as (f1 & fs' & t1 & ts' & -> & -> & Ff1 & Ft1 & Hw1).
  cbn [fcumtrapz] in *. fold (increment z0 z1 t t1) in *. fold (increment z0 z1 f f1) in *.
  inversion F as [|? ? F1 F2]; subst. pose proof (fadd_finite _ _ F1) as [_ Fi].
  destruct (increment_le z0 z1 f f1 t t1) as [G1 G2]; auto.
  destruct (rounds_mono fadd Rplus a (increment z0 z1 f f1) b (increment z0 z1 t t1) fadd_rounds) as [A1 A2]; auto; [lra|].
  destruct (IH (fadd a (increment z0 z1 f f1)) (fadd b (increment z0 z1 t t1))) as (B1 & B2 & B3 & B4); auto.
  assert (Up : forall p i, fin p -> fin i -> 0 <= B2R i -> fin (fadd p i) -> fle p (fadd p i)).
  { intros p i Fp Fi' Pi Fpi. unfold fle. destruct (fadd_rounds p i Fp Fi') as [R1 R2]. destruct (R1 (R2 Fpi)) as [_ ->].
    rewrite <- (rnd_id p Fp) at 1. apply rnd_mono. lra. }
  split; [constructor; auto|]. split; [split; [apply Up; auto; lra|exact B2]|]. split; [split; [apply Up; auto; lra|exact B3]|].
  constructor; auto.
Qed.

Lemma Forall_of_map len l : Forall fin (map (fun v => fmul v len) l) -> Forall fin l.
Proof. rewrite Forall_map. apply Forall_impl. intros x H. apply (fmul_finite x len H). Qed.

Lemma rising_nth l : forall p i j a b, (i <= j)%nat -> rising p l -> nth_error (p :: l) i = Some a -> nth_error (p :: l) j = Some b -> fle a b.
Proof.
  unfold fle. induction l as [|x l IH]; intros p [|i] [|j] a b Hij R Ea Eb; try lia; cbn in Ea, Eb.
  - injection Ea as <-. injection Eb as <-. lra.
  - destruct j; discriminate.
  - destruct i; discriminate.
  - injection Ea as <-. injection Eb as <-. lra.
  - injection Ea as <-. destruct R as [R1 R2]. pose proof (IH x 0%nat j x b ltac:(lia) R2 eq_refl Eb). unfold fle in *. lra.
  - destruct R as [R1 R2]. apply (IH x i j a b); auto. lia.
Qed.

(** C07.  With rounding, the volumes still start at zero, never decrease and the
    flow volume is never above the total volume, if no total volume overflows. *)
Theorem C07_volumes_in_binary64 :
  forall (len : f64) (z fw tw : list f64),
    fin len -> 0 <= B2R len -> column z fw tw -> Forall fin (fvolume len tw z) ->
    Forall fin (fvolume len fw z) /\
    hd_error (fvolume len fw z) = Some fzero /\ hd_error (fvolume len tw z) = Some fzero /\
    (forall i j a b, (i <= j)%nat -> nth_error (fvolume len fw z) i = Some a -> nth_error (fvolume len fw z) j = Some b -> fle a b) /\
    (forall i j a b, (i <= j)%nat -> nth_error (fvolume len tw z) i = Some a -> nth_error (fvolume len tw z) j = Some b -> fle a b) /\
    Forall2 fle (fvolume len fw z) (fvolume len tw z).
Proof.
  intros len z fw tw Fl Pl C F. unfold fvolume in *. inversion F as [|? ? _ F']; subst.
  assert (Z : 0 <= B2R fzero <= B2R fzero) by (cbn; lra).
  destruct (cumtrapz_ok z fw tw C fzero fzero eq_refl eq_refl Z (Forall_of_map _ _ F')) as (A1 & A2 & A3 & A4).
  assert (M : Forall fin (map (fun v => fmul v len) (fcumtrapz fzero fw z)) /\
              Forall2 fle (map (fun v => fmul v len) (fcumtrapz fzero fw z)) (map (fun v => fmul v len) (fcumtrapz fzero tw z))).
  { pose proof (Forall_of_map _ _ F') as F3. revert A1 A4 F' F3. generalize (fcumtrapz fzero tw z) as l'. clear A2 A3.
    induction (fcumtrapz fzero fw z) as [|x l IH]; intros l' A1 A4 F' F3; inversion A4 as [|? y ? l2 H1 H2]; subst; cbn [map]; [split; constructor|].
    inversion A1 as [|? ? A5 A6]; inversion F' as [|? ? F4 F5]; inversion F3 as [|? ? F6 F7]; subst.
    destruct (IH l2 A6 H2 F5 F7) as [I1 I2].
    destruct (rounds_mono fmul Rmult x len y len fmul_rounds) as [B1 B2]; auto.
    { split; [apply Rmult_le_pos; lra|apply Rmult_le_compat_r; lra]. }
    split; constructor; auto. unfold fle. lra. }
  destruct M as [M1 M2].
  assert (Z0 : forall l, rising fzero l -> Forall fin (map (fun v => fmul v len) l) ->
    rising fzero (map (fun v => fmul v len) l)).
  { intros [|x l] R Fm; cbn [map rising] in *; auto. destruct R as [R1 R2]. inversion Fm as [|? ? F1 F2]; subst.
    pose proof (fmul_finite _ _ F1) as [Fx _]. unfold fle in *. cbn [B2R fzero] in *.
    split; [apply (rounds_pos fmul Rmult x len fmul_rounds); auto; apply Rmult_le_pos; lra|].
    apply rising_map; auto. apply (Forall_of_map len). exact F2. }
  split; [constructor; [reflexivity|exact M1]|]. split; [reflexivity|]. split; [reflexivity|].
  split; [intros i j a b Hij; apply rising_nth; auto|]. split; [intros i j a b Hij; apply rising_nth; auto|].
  constructor; [unfold fle; lra|exact M2].
Qed.
Print Assumptions C07_volumes_in_binary64.

(** Levels 0, 0.001 and 2 and a length of 2. *)
Theorem C07_case_binary64 :
  column [fzero; milli; ftwo] [milli; milli; ftwo] [milli; ftwo; ftwo] /\
  Forall fin (fvolume ftwo [milli; ftwo; ftwo] [fzero; milli; ftwo]).
Proof.
  assert (M : 0 < B2R milli <= 1).
  { pose proof milli_bounds as [A B]. pose proof (bpow_gt_0 radix2 (-10)).
    assert (bpow radix2 (-9) <= bpow radix2 0) by (apply bpow_le; lia). change (bpow radix2 0) with 1 in *. lra. }
  pose proof two_value as W. split.
  - apply col_more; try reflexivity; [unfold fle; cbn [B2R fzero]; lra|lra|].
    apply col_more; try reflexivity; [unfold fle; lra|lra|]. apply col_one; try reflexivity. lra.
  - unfold fin. repeat (apply Forall_cons; [vm_compute; reflexivity|]). apply Forall_nil.
Qed.
