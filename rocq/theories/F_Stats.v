(** The bias and the mean absolute error of a station in binary64 arithmetic
    (Flocq), theorem for C57 with rounding.

    Same means as [bias] and [mae] in M_Compare.v, utils.py 1919-1921: pandas
    fills missing values with zero, adds up and divides by the number of values.
    The order of additions is not fixed here, but it depends on the number of
    values only, so it is the same for the errors and for their absolute values.
    All operations round to nearest. *)
From Coq Require Import ZArith Reals List Bool Lia Lra Psatz Permutation.
From Flocq Require Import Core.Core Relative IEEE754.BinarySingleNaN.
From Verif Require Import PyBase F_Require F_Volumes F_Arange F_Mean.
Import ListNotations.
Local Open Scope R_scope.

(** An order of additions: which values are added first. *)
Inductive plan : Type := One (i : nat) | Two (p q : plan).
Fixpoint fsum (p : plan) (l : list f64) : f64 :=
  match p with
  | One i => nth i l fzero
  | Two p q => fadd (fsum p l) (fsum q l)
  end.
Fixpoint leaves (p : plan) : list nat :=
  match p with One i => [i] | Two p q => leaves p ++ leaves q end.

Definition fabs (x : f64) : f64 := Babs x.
Definition fbias (p : plan) (n : nat) (l : list f64) : f64 := fmean n (fsum p l).
Definition fmae (p : plan) (n : nat) (l : list f64) : f64 := fmean n (fsum p (map fabs l)).

Lemma fabs_value x : B2R (fabs x) = Rabs (B2R x).
Proof. apply B2R_Babs. Qed.
Lemma fabs_finite x : fin (fabs x) <-> fin x.
Proof. unfold fin, fabs. rewrite is_finite_Babs. reflexivity. Qed.
Lemma nth_fabs i l : nth i (map fabs l) fzero = fabs (nth i l fzero).
Proof. change fzero with (fabs fzero) at 1. apply map_nth. Qed.
Lemma rnd_abs x : Rabs (rnd x) = rnd (Rabs x).
Proof. symmetry. apply round_NE_abs. typeclasses eauto. Qed.

(** The sum of the absolute values bounds the sum. *)
Lemma fsum_abs p l : fin (fsum p (map fabs l)) ->
  fin (fsum p l) /\ Rabs (B2R (fsum p l)) <= B2R (fsum p (map fabs l)).
Proof.
  induction p as [i|p IHp q IHq]; cbn [fsum]; intro F.
  - rewrite nth_fabs in *. rewrite fabs_value. apply (proj1 (fabs_finite _)) in F. split; [exact F|lra].
  - destruct (fadd_finite _ _ F) as [Fp Fq]. destruct (IHp Fp) as [Gp Lp]. destruct (IHq Fq) as [Gq Lq].
    destruct (fadd_rounds _ _ Fp Fq) as [R1 R2]. specialize (R2 F). destruct (R1 R2) as [_ E].
    set (a := B2R (fsum p l)) in *. set (b := B2R (fsum q l)) in *.
    set (a' := B2R (fsum p (map fabs l))) in *. set (b' := B2R (fsum q (map fabs l))) in *.
    assert (T : Rabs (a + b) <= a' + b') by (pose proof (Rabs_triang a b); lra).
    assert (M : Rabs (rnd (a + b)) <= rnd (a' + b')) by (rewrite rnd_abs; apply rnd_mono; exact T).
    destruct (fadd_rounds _ _ Gp Gq) as [R3 _].
    assert (B : Rabs (rnd (a + b)) < big64).
    { pose proof (Rle_abs (rnd (a' + b'))). lra. }
    destruct (R3 B) as [G Eg]. split; [exact G|]. rewrite Eg, E. exact M.
Qed.

Lemma sign_abs (s x : R) : s = 1 \/ s = -1 -> 0 <= s * x -> x = s * Rabs x.
Proof. intros [-> | ->] H; [rewrite Rabs_pos_eq|rewrite Rabs_left1]; lra. Qed.

(** The sum of values of one sign. *)
Lemma fsum_sign p l (s : R) : s = 1 \/ s = -1 -> (forall x, In x l -> 0 <= s * B2R x) ->
  fin (fsum p (map fabs l)) -> B2R (fsum p l) = s * B2R (fsum p (map fabs l)).
Proof.
  intros Hs Hl. induction p as [i|p IHp q IHq]; cbn [fsum]; intro F.
  - rewrite nth_fabs, fabs_value.
    assert (0 <= s * B2R (nth i l fzero)).
    { destruct (nth_in_or_default i l fzero) as [I| ->]; [apply Hl; exact I|]. cbn. lra. }
    apply sign_abs; assumption.
  - destruct (fadd_finite _ _ F) as [Fp Fq]. specialize (IHp Fp). specialize (IHq Fq).
    destruct (fsum_abs p l Fp) as [Gp _]. destruct (fsum_abs q l Fq) as [Gq _].
    destruct (fsum_abs (Two p q) l F) as [G _]. cbn [fsum] in G.
    destruct (fadd_rounds _ _ Fp Fq) as [R1 R2]. destruct (R1 (R2 F)) as [_ E].
    destruct (fadd_rounds _ _ Gp Gq) as [R3 R4]. destruct (R3 (R4 G)) as [_ Eg].
    rewrite Eg, E, IHp, IHq. destruct Hs as [-> | ->].
    + rewrite !Rmult_1_l. reflexivity.
    + replace (-1 * B2R (fsum p (map fabs l)) + -1 * B2R (fsum q (map fabs l)))
        with (- (B2R (fsum p (map fabs l)) + B2R (fsum q (map fabs l)))) by ring.
      rewrite round_NE_opp. ring.
Qed.

(** Every absolute value is at most their sum. *)
Lemma fsum_leaf p l : fin (fsum p (map fabs l)) ->
  0 <= B2R (fsum p (map fabs l)) /\ forall i, In i (leaves p) -> Rabs (B2R (nth i l fzero)) <= B2R (fsum p (map fabs l)).
Proof.
  induction p as [i|p IHp q IHq]; cbn [fsum leaves]; intro F.
  - rewrite nth_fabs, fabs_value. split; [apply Rabs_pos|]. intros j [->|[]]. lra.
  - destruct (fadd_finite _ _ F) as [Fp Fq]. destruct (IHp Fp) as [Pp Lp]. destruct (IHq Fq) as [Pq Lq].
    destruct (fadd_rounds _ _ Fp Fq) as [R1 R2]. destruct (R1 (R2 F)) as [_ E]. rewrite E.
    pose proof (rnd_id _ Fp) as Ip. pose proof (rnd_id _ Fq) as Iq.
    set (a := B2R (fsum p (map fabs l))) in *. set (b := B2R (fsum q (map fabs l))) in *.
    assert (a <= rnd (a + b)) by (rewrite <- Ip at 1; apply rnd_mono; lra).
    assert (b <= rnd (a + b)) by (rewrite <- Iq at 1; apply rnd_mono; lra).
    split; [lra|]. intros i I. apply in_app_or in I. destruct I as [I|I]; [specialize (Lp i I)|specialize (Lq i I)]; lra.
Qed.
Lemma fsum_zero p l : fin (fsum p (map fabs l)) -> Forall (fun x => B2R x = 0) l -> B2R (fsum p (map fabs l)) = 0.
Proof.
  intros F H. induction p as [i|p IHp q IHq]; cbn [fsum] in *.
  - rewrite nth_fabs, fabs_value. destruct (nth_in_or_default i l fzero) as [I| ->]; [|cbn; apply Rabs_R0].
    rewrite Forall_forall in H. rewrite (H _ I). apply Rabs_R0.
  - destruct (fadd_finite _ _ F) as [Fp Fq]. destruct (fadd_rounds _ _ Fp Fq) as [R1 R2]. destruct (R1 (R2 F)) as [_ E].
    rewrite E, (IHp Fp), (IHq Fq), Rplus_0_l. apply rnd_0.
Qed.

(** C57 in binary64.  The absolute bias never exceeds the mean absolute error;
    they are equal when all errors have one sign; and the mean absolute error is
    zero exactly when all errors are, unless an error is too small to be divided. *)
Theorem C57_bias_and_error_in_binary64 :
  forall (p : plan) (l : list f64) (n : nat),
    (0 < n)%nat -> (Z.of_nat n <= 65536)%Z -> fin (fmae p n l) ->
    fin (fbias p n l) /\
    Rabs (B2R (fbias p n l)) <= B2R (fmae p n l) /\
    (Forall (fun x => 0 <= B2R x) l -> B2R (fbias p n l) = B2R (fmae p n l)) /\
    (Forall (fun x => B2R x <= 0) l -> B2R (fbias p n l) = - B2R (fmae p n l)) /\
    (Permutation (leaves p) (seq 0 (length l)) ->
     Forall (fun x => B2R x = 0 \/ bpow radix2 (-1000) <= Rabs (B2R x)) l ->
     (B2R (fmae p n l) = 0 <-> Forall (fun x => B2R x = 0) l)).
Proof.
  intros p l n N1 N F. unfold fbias, fmae in *. destruct (of_nat_value n N) as [Fn En].
  assert (Ipos : 1 <= INR n) by (apply (le_INR 1); lia).
  assert (Nz : B2R (of_nat n) <> 0) by (rewrite En; lra).
  assert (Fs : fin (fsum p (map fabs l))).
  { unfold fin, fmean, fdiv in *. destruct (fsum p (map fabs l)); auto; destruct (of_nat n); cbn in F; discriminate. }
  destruct (fsum_abs p l Fs) as [Gs Ls].
  pose proof (fdiv_rounds (of_nat n) Nz _ _ Fs Fs) as [R1 R2]. pose proof (fdiv_rounds (of_nat n) Nz _ _ Gs Gs) as [R3 R4].
  cbv beta in *. rewrite En in *. unfold fmean in *. destruct (R1 (R2 F)) as [_ E].
  set (s := B2R (fsum p l)) in *. set (a := B2R (fsum p (map fabs l))) in *.
  assert (M : Rabs (rnd (s / INR n)) <= rnd (a / INR n)).
  { rewrite rnd_abs. apply rnd_mono. unfold Rdiv. rewrite Rabs_mult, (Rabs_pos_eq (/ INR n)).
    - apply Rmult_le_compat_r; [|exact Ls]. apply Rlt_le, Rinv_0_lt_compat. lra.
    - apply Rlt_le, Rinv_0_lt_compat. lra. }
  assert (B : Rabs (rnd (s / INR n)) < big64).
  { pose proof (Rle_abs (rnd (a / INR n))). specialize (R2 F). lra. }
  destruct (R3 B) as [G Eg]. split; [exact G|]. rewrite Eg, E. split; [exact M|]. split; [|split].
  - intro H. f_equal. f_equal. unfold s, a.
    rewrite (fsum_sign p l 1); [ring|left; reflexivity| |exact Fs].
    intros x I. rewrite Forall_forall in H. specialize (H x I). lra.
  - intro H. assert (Es : s = -1 * a).
    { unfold s, a. apply (fsum_sign p l (-1)); [right; reflexivity| |exact Fs].
      intros x I. rewrite Forall_forall in H. specialize (H x I). lra. }
    rewrite Es. replace (-1 * a / INR n) with (- (a / INR n)) by (field; lra). apply round_NE_opp.
  - intros P H. destruct (fsum_leaf p l Fs) as [A0 AL]. fold a in A0, AL. split.
    + intro Z0. rewrite Forall_forall in *. intros x I. destruct (H x I) as [Hx|Hx]; [exact Hx|]. exfalso.
      destruct (In_nth l x fzero I) as (i & Li & Ei).
      assert (Ii : In i (leaves p)).
      { eapply Permutation_in; [apply Permutation_sym; exact P|]. apply in_seq. lia. }
      specialize (AL i Ii). rewrite Ei in AL.
      assert (Q : bpow radix2 (-1016) <= a / INR n).
      { apply Rmult_le_reg_r with (INR n); [lra|]. replace (a / INR n * INR n) with a by (field; lra).
        apply Rle_trans with (bpow radix2 (-1000)); [|lra].
        replace (bpow radix2 (-1000)) with (bpow radix2 (-1016) * bpow radix2 16) by (rewrite <- bpow_plus; reflexivity).
        apply Rmult_le_compat_l; [apply bpow_ge_0|]. rewrite INR_IZR_INZ. change (bpow radix2 16) with (IZR 65536). apply IZR_le. exact N. }
      apply rnd_mono in Q. rewrite round_generic in Q; [|typeclasses eauto|apply generic_format_bpow; unfold fexp64, FLT_exp; cbn; lia].
      pose proof (bpow_gt_0 radix2 (-1016)). lra.
    + intro Hz. unfold a. rewrite (fsum_zero p l Fs Hz). unfold Rdiv. rewrite Rmult_0_l. apply rnd_0.
Qed.
Print Assumptions C57_bias_and_error_in_binary64.

(** C70, refuted with rounding: of a station with the water level 51.2 at all
    times the mean of the three largest levels is above the largest level. *)
Theorem C70_max3_in_binary64_refuted :
  let h : f64 := @B754_finite 53 1024 false 7205759403792794 (-47) eq_refl in
  Bltb h (fmean 3 (fsum (Two (Two (One 0) (One 1)) (One 2)) [h; h; h])) = true.
Proof. vm_compute. reflexivity. Qed.
Print Assumptions C70_max3_in_binary64_refuted.

(** Non-vacuous: errors of 1 and -2 give the bias -1/2 and the error 3/2. *)
Theorem C57_binary64_case :
  let one := of_nat 1 in let two := Bopp (of_nat 2) in
  let p := Two (One 0) (One 1) in
  Beqb (fbias p 2 [one; two]) (fdiv (Bopp one) ftwo) = true /\
  Beqb (fmae p 2 [one; two]) (fdiv (of_nat 3) ftwo) = true.
Proof. split; vm_compute; reflexivity. Qed.
Print Assumptions C57_binary64_case.
