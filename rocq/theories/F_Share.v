(** The share of the extra volume in binary64 arithmetic (Flocq), theorems for C15
    with rounding.

    Same code as [extra_share] in M_Correction.v, cross_section.py 1363-1379, with
    IEEE 754 operations that round to nearest.  The power function of numpy is any
    function [pw] with the properties that are stated where it is used. *)
From Coq Require Import ZArith Reals List Bool Lia Lra Psatz.
From Flocq Require Import Core.Core IEEE754.BinarySingleNaN.
From Verif Require Import PyBase F_Require F_Volumes F_Arange.
Import ListNotations.
Local Open Scope R_scope.

(** np.log(0.00001) is -11.512925464970229. *)
Definition flndelta : f64 := @B754_finite 53 1024 true 6481200854248027 (-49) eq_refl.
Definition fone : f64 := of_nat 1.
Definition fhalf : f64 := fdiv fone ftwo.
Definition fexponent (tau crest h : f64) : f64 :=
  fmul (fdiv flndelta tau) (fsub h (fadd crest (fmul fhalf tau))).
Definition fshare (pw : f64 -> f64) (tau crest h : f64) : f64 :=
  fdiv fone (fadd fone (pw (fexponent tau crest h))).

Lemma one_value : fin fone /\ B2R fone = 1.
Proof. destruct (of_nat_value 1 ltac:(lia)) as [F E]. split; [exact F|]. unfold fone. rewrite E. reflexivity. Qed.
Lemma lndelta_neg : B2R flndelta < 0.
Proof. cbn [B2R flndelta]. unfold F2R. cbn [Fnum Fexp cond_Zopp]. pose proof (bpow_gt_0 radix2 (-49)). rewrite opp_IZR. nra. Qed.

Lemma fdiv_finite x y : fin (fdiv x y) -> fin x.
Proof. unfold fin, fdiv. destruct x as [s|[]| |], y as [t|[]| |]; cbn; try discriminate; auto. Qed.

(** A higher level has a lower exponent. *)
Lemma exponent_anti tau crest h h' : fin tau -> 0 < B2R tau -> B2R h <= B2R h' ->
  fin (fexponent tau crest h) -> fin (fexponent tau crest h') ->
  B2R (fexponent tau crest h') <= B2R (fexponent tau crest h).
Proof.
  intros Ft Pt L F F'. unfold fexponent in *.
  destruct (fmul_finite _ _ F) as [Fs Fd]. destruct (fmul_finite _ _ F') as [_ Fd'].
  destruct (fsub_finite _ _ Fd) as [Fh Fm]. destruct (fsub_finite _ _ Fd') as [Fh' _].
  set (s := fdiv flndelta tau) in *. set (m := fadd crest (fmul fhalf tau)) in *.
  assert (S : B2R s <= 0).
  { unfold s in *. pose proof (fdiv_rounds tau ltac:(lra) flndelta flndelta ltac:(reflexivity) ltac:(reflexivity)) as [R1 R2].
    cbv beta in *. destruct (R1 (R2 Fs)) as [_ E]. rewrite E. rewrite <- rnd_0. apply rnd_mono.
    pose proof lndelta_neg. assert (0 < / B2R tau) by (apply Rinv_0_lt_compat; lra). unfold Rdiv. nra. }
  assert (D : B2R (fsub h m) <= B2R (fsub h' m)).
  { destruct (fsub_rounds h m Fh Fm) as [R1 R2]. destruct (R1 (R2 Fd)) as [_ E].
    destruct (fsub_rounds h' m Fh' Fm) as [R3 R4]. destruct (R3 (R4 Fd')) as [_ E']. rewrite E, E'. apply rnd_mono. lra. }
  destruct (fmul_rounds s (fsub h m) Fs Fd) as [R1 R2]. destruct (R1 (R2 F)) as [_ E].
  destruct (fmul_rounds s (fsub h' m) Fs Fd') as [R3 R4]. destruct (R3 (R4 F')) as [_ E']. rewrite E, E'. apply rnd_mono. nra.
Qed.

(** C15 in binary64: the share lies between 0 and 1 and never decreases with the
    level, for every power function that is non-negative and monotone. *)
Theorem C15_share_in_binary64 :
  forall (pw : f64 -> f64) (tau crest h h' : f64),
    (forall x, fin (pw x) -> 0 <= B2R (pw x)) ->
    (forall x y, fin x -> fin y -> B2R x <= B2R y -> fin (pw y) -> fin (pw x) /\ B2R (pw x) <= B2R (pw y)) ->
    fin tau -> 0 < B2R tau -> B2R h <= B2R h' ->
    fin (fexponent tau crest h) -> fin (fexponent tau crest h') ->
    fin (fadd fone (pw (fexponent tau crest h))) ->
    fin (fshare pw tau crest h) /\ fin (fshare pw tau crest h') /\
    0 <= B2R (fshare pw tau crest h) <= B2R (fshare pw tau crest h') /\ B2R (fshare pw tau crest h') <= 1.
Proof.
  intros pw tau crest h h' Pos Mono Ft Pt L F F' Fa.
  pose proof (exponent_anti tau crest h h' Ft Pt L F F') as A.
  unfold fshare. set (x := fexponent tau crest h) in *. set (x' := fexponent tau crest h') in *.
  destruct (fadd_finite _ _ Fa) as [F1 Fp]. destruct (Mono x' x F' F A Fp) as [Fp' Lp].
  pose proof (Pos x Fp) as P. pose proof (Pos x' Fp') as P'. destruct one_value as [_ E1].
  destruct (rounds_mono fadd Rplus fone (pw x') fone (pw x) fadd_rounds F1 Fp' F1 Fp) as [Fa' La]; [lra|exact Fa|].
  set (a := fadd fone (pw x)) in *. set (a' := fadd fone (pw x')) in *.
  assert (L1 : 1 <= B2R a').
  { unfold a' in *. destruct (fadd_rounds fone (pw x') F1 Fp') as [R1 R2]. destruct (R1 (R2 Fa')) as [_ E]. rewrite E, E1.
    rewrite <- E1 at 1. rewrite <- (rnd_id fone F1). apply rnd_mono. lra. }
  assert (D : forall b, fin b -> 1 <= B2R b -> fin (fdiv fone b) /\ B2R (fdiv fone b) = rnd (1 / B2R b) /\ 0 <= rnd (1 / B2R b) <= 1).
  { intros b Fb Lb. pose proof (fdiv_rounds b ltac:(lra) fone fone F1 F1) as [R1 _]. cbv beta in R1. rewrite E1 in R1.
    assert (I0 : 0 < / B2R b) by (apply Rinv_0_lt_compat; lra).
    assert (I1 : / B2R b <= 1) by (rewrite <- Rinv_1; apply Rinv_le_contravar; lra).
    assert (B0 : 0 <= rnd (1 / B2R b)) by (rewrite <- rnd_0; apply rnd_mono; lra).
    assert (B1 : rnd (1 / B2R b) <= 1).
    { rewrite <- E1 at 2. rewrite <- (rnd_id fone F1), E1. apply rnd_mono. lra. }
    assert (S : Rabs (rnd (1 / B2R b)) < big64).
    { rewrite Rabs_pos_eq by exact B0. apply Rle_lt_trans with 1; [exact B1|]. change 1 with (bpow radix2 0). apply bpow_lt. lia. }
    destruct (R1 S) as [G E]. auto. }
  destruct (D a Fa ltac:(lra)) as (G & E & B). destruct (D a' Fa' L1) as (G' & E' & B').
  split; [exact G|]. split; [exact G'|]. rewrite E, E'. split; [|apply B'].
  split; [apply B|]. apply rnd_mono. unfold Rdiv. rewrite !Rmult_1_l. apply Rinv_le_contravar; lra.
Qed.
Print Assumptions C15_share_in_binary64.

(** Far below the crest, where the power overflows, the share is 0. *)
Theorem C15_overflow_in_binary64 :
  forall (pw : f64 -> f64) (tau crest h : f64),
    pw (fexponent tau crest h) = B754_infinity false -> fshare pw tau crest h = fzero.
Proof. intros pw tau crest h E. unfold fshare. rewrite E. reflexivity. Qed.
Print Assumptions C15_overflow_in_binary64.

(** A power of at most 2^-53 is lost when it is added to 1. *)
Lemma one_plus_tiny e : fin e -> 0 <= B2R e <= bpow radix2 (-53) -> fin (fadd fone e) /\ B2R (fadd fone e) = 1.
Proof.
  intros Fe B. destruct one_value as [F1 E1].
  set (u := @B754_finite 53 1024 false 4503599627370496 (-105) eq_refl : f64).
  assert (Eu : B2R u = bpow radix2 (-53)).
  { cbn [B2R u]. unfold F2R. cbn [Fnum Fexp]. change (cond_Zopp false 4503599627370496) with (2 ^ 52)%Z.
    rewrite (IZR_Zpower radix2) by lia. rewrite <- bpow_plus. reflexivity. }
  assert (Su : fadd fone u = fone) by (apply B2SF_inj; vm_compute; reflexivity).
  assert (Fu : fin u) by reflexivity.
  destruct (fadd_rounds fone u F1 Fu) as [R1 R2].
  assert (Fs : fin (fadd fone u)) by (rewrite Su; exact F1). destruct (R1 (R2 Fs)) as [_ E]. rewrite Su, E1, Eu in E.
  destruct (fadd_rounds fone e F1 Fe) as [R3 _]. rewrite E1 in R3.
  assert (V : rnd (1 + B2R e) = 1).
  { apply Rle_antisym.
    - rewrite E at 2. apply rnd_mono. lra.
    - rewrite <- E1 at 1. rewrite <- (rnd_id fone F1), E1. apply rnd_mono. lra. }
  rewrite V in R3. apply R3. rewrite Rabs_R1. change 1 with (bpow radix2 0). apply bpow_lt. lia.
Qed.

(** C15, refuted with rounding: at a transition height of 0.5 and a crest of 3 the
    share at the levels 5 and 6 is the same and is 1, for every power function that
    is right about e^-37 < 2^-53. *)
Theorem C15_strict_share_in_binary64_refuted :
  forall pw : f64 -> f64,
    (forall x, fin x -> B2R x <= -37 -> fin (pw x) /\ 0 <= B2R (pw x) <= bpow radix2 (-53)) ->
    B2R (fshare pw fhalf (of_nat 3) (of_nat 5)) = 1 /\ B2R (fshare pw fhalf (of_nat 3) (of_nat 6)) = 1.
Proof.
  intros pw H. destruct one_value as [F1 E1].
  set (m37 := Bopp (of_nat 37) : f64).
  assert (E37 : fin m37 /\ B2R m37 = -37).
  { destruct (of_nat_value 37 ltac:(lia)) as [A B]. unfold m37. split; [unfold fin; rewrite is_finite_Bopp; exact A|].
    rewrite B2R_Bopp, B. rewrite INR_IZR_INZ. cbn. lra. }
  destruct E37 as [F37 E37].
  assert (K : forall h, is_finite (fexponent fhalf (of_nat 3) h) = true -> Bltb (fexponent fhalf (of_nat 3) h) m37 = true ->
              B2R (fshare pw fhalf (of_nat 3) h) = 1).
  { intros h Fh Lh. rewrite Bltb_correct in Lh by assumption. revert Lh. case Rlt_bool_spec; [|discriminate]. intros L _.
    rewrite E37 in L. destruct (H _ Fh ltac:(lra)) as [Fp Bp]. unfold fshare.
    destruct (one_plus_tiny _ Fp Bp) as [Fa Ea]. pose proof (fdiv_rounds (fadd fone (pw (fexponent fhalf (of_nat 3) h))) ltac:(lra) fone fone F1 F1) as [R1 _].
    cbv beta in R1. rewrite E1, Ea in R1. replace (1 / 1) with 1 in R1 by field.
    assert (V : rnd 1 = 1) by (rewrite <- E1; apply rnd_id; exact F1).
    rewrite V in R1. apply R1. rewrite Rabs_R1. change 1 with (bpow radix2 0). apply bpow_lt. lia. }
  split; apply K; vm_compute; reflexivity.
Qed.
Print Assumptions C15_strict_share_in_binary64_refuted.
