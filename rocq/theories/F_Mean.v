(** The mean of Chezy values in binary64 arithmetic (Flocq), theorems for C19
    with rounding.

    Same mean as [nanmean] in M_Friction.v, cross_section.py 943-949, that is
    pandas' mean: the sum of the values divided by their number.  numpy adds up in
    an order that depends on the number of values and on their place in memory;
    here the order is any order.  All operations round to nearest. *)
From Coq Require Import ZArith Reals List Bool Lia Lra Psatz Permutation.
From Flocq Require Import Core.Core Relative IEEE754.BinarySingleNaN.
From Verif Require Import PyBase F_Require F_Volumes F_Arange.
Import ListNotations.
Local Open Scope R_scope.

(** [sums l s]: [s] is the sum of the values of [l] in some order. *)
Inductive sums : list f64 -> f64 -> Prop :=
| sums_one x : sums [x] x
| sums_two l r a b : sums l a -> sums r b -> sums (l ++ r) (fadd a b)
| sums_perm l m a : Permutation l m -> sums l a -> sums m a.
Definition fmean (n : nat) (s : f64) : f64 := fdiv s (of_nat n).

(** Half a unit in the last place of 1. *)
Definition v : R := bpow radix2 (-53).
Lemma v_bounds : 0 < v <= / 1024.
Proof. split; [apply bpow_gt_0|]. change (/ 1024) with (bpow radix2 (-10)). apply bpow_le. lia. Qed.

Lemma relative x : bpow radix2 (-1022) <= x -> x * (1 - v) <= rnd x <= x * (1 + v).
Proof.
  intros H. assert (0 < x) by (pose proof (bpow_gt_0 radix2 (-1022)); lra).
  pose proof (relative_error_N_FLT radix2 (-1074) 53 eq_refl (fun x => negb (Z.even x)) x) as E.
  change (-1074 + 53 - 1)%Z with (-1022)%Z in E. rewrite (Rabs_right x) in E by lra. specialize (E H).
  change (FLT_exp (-1074) 53) with fexp64 in E. rewrite bpow_plus in E.
  change (bpow radix2 1) with 2 in E. change (bpow radix2 (- (53))) with v in E. apply Rabs_le_inv in E. lra.
Qed.

(** * Sums *)

Definition within (lo hi : R) (x : f64) : Prop := fin x /\ lo <= B2R x <= hi.

(** After [n - 1] additions. *)
Definition low (lo : R) (n : nat) : R := INR n * lo * (1 - v) ^ (n - 1).
Definition high (hi : R) (n : nat) : R := INR n * hi * (1 + v) ^ (n - 1).

Lemma pow_le_1 n : 0 < (1 - v) ^ n <= 1.
Proof.
  pose proof v_bounds. split; [apply pow_lt; lra|].
  pose proof (pow_incr (1 - v) 1 n ltac:(lra)) as P. rewrite pow1 in P. exact P.
Qed.
Lemma pow_ge_1 n : 1 <= (1 + v) ^ n.
Proof. pose proof v_bounds. apply pow_R1_Rle. lra. Qed.
Lemma pow_low_anti j k : (j <= k)%nat -> (1 - v) ^ k <= (1 - v) ^ j.
Proof.
  intros H. replace k with (j + (k - j))%nat by lia. rewrite pow_add.
  pose proof (pow_le_1 j). pose proof (pow_le_1 (k - j)). nra.
Qed.
Lemma pow_high_mono j k : (j <= k)%nat -> (1 + v) ^ j <= (1 + v) ^ k.
Proof. intros H. pose proof v_bounds. apply Rle_pow; [lra|exact H]. Qed.

(** (1 - v) ^ n is near 1. *)
Lemma bernoulli n : 1 - INR n * v <= (1 - v) ^ n.
Proof.
  pose proof v_bounds. induction n as [|n IH]; [cbn; lra|]. rewrite S_INR. cbn [pow]. pose proof (pow_le_1 n). pose proof (pos_INR n). nra.
Qed.
Lemma bernoulli_up n : INR n * v <= / 2 -> (1 + v) ^ n <= 1 + 2 * INR n * v.
Proof.
  intros H. pose proof v_bounds. pose proof (bernoulli n) as L. pose proof (pos_INR n).
  assert (P : (1 + v) ^ n * (1 - v) ^ n <= 1).
  { rewrite <- Rpow_mult_distr. 
    pose proof (pow_incr ((1 + v) * (1 - v)) 1 n ltac:(nra)) as P. rewrite pow1 in P. exact P. }
  pose proof (pow_ge_1 n) as G. set (x := INR n * v) in *. set (p := (1 + v) ^ n) in *. set (q := (1 - v) ^ n) in *.
  replace (2 * INR n * v) with (2 * x) by (unfold x; ring).
  assert (0 <= x) by (unfold x; apply Rmult_le_pos; lra).
  assert (p * (1 - x) <= 1) by nra. nra.
Qed.

Lemma small_power n : (Z.of_nat n <= 65536)%Z -> INR n * v <= / 2.
Proof.
  intros H. unfold v. apply Rle_trans with (IZR 65536 * bpow radix2 (-53)).
  - apply Rmult_le_compat_r; [apply bpow_ge_0|]. rewrite INR_IZR_INZ. apply IZR_le. exact H.
  - change (IZR 65536) with (bpow radix2 16). rewrite <- bpow_plus. change (/ 2) with (bpow radix2 (-1)). apply bpow_le. lia.
Qed.

Lemma sums_within l s : sums l s -> forall lo hi, bpow radix2 (-900) <= lo -> lo <= hi -> hi <= bpow radix2 800 ->
  (Z.of_nat (length l) <= 65536)%Z -> Forall (within lo hi) l ->
  fin s /\ (1 <= length l)%nat /\ low lo (length l) <= B2R s <= high hi (length l).
Proof.
  pose proof v_bounds as V. induction 1 as [x|l r a b Hl IHl Hr IHr|l m a P Hl IH]; intros lo hi L Phi H N F.
  - inversion F as [|? ? [Fx Bx] _]; subst. split; [exact Fx|]. split; [cbn; lia|]. unfold low, high. cbn. lra.
  - apply Forall_app in F. destruct F as [F1 F2]. rewrite app_length in *.
    destruct (IHl lo hi L Phi H) as (Fa & Na & La & Ha); auto; [lia|]. destruct (IHr lo hi L Phi H) as (Fb & Nb & Lb & Hb); auto; [lia|].
    clear IHl IHr Hl Hr. set (i := length l) in *. set (j := length r) in *. clearbody i j.
    assert (Pl : 0 < lo) by (pose proof (bpow_gt_0 radix2 (-900)); lra).
    assert (Ii : 1 <= INR i) by (apply (le_INR 1); lia). assert (Ij : 1 <= INR j) by (apply (le_INR 1); lia).
    assert (D1 : (1 - v) ^ (i + j - 2) <= (1 - v) ^ (i - 1)) by (apply pow_low_anti; lia).
    assert (D2 : (1 - v) ^ (i + j - 2) <= (1 - v) ^ (j - 1)) by (apply pow_low_anti; lia).
    assert (D3 : (1 + v) ^ (i - 1) <= (1 + v) ^ (i + j - 2)) by (apply pow_high_mono; lia).
    assert (D4 : (1 + v) ^ (j - 1) <= (1 + v) ^ (i + j - 2)) by (apply pow_high_mono; lia).
    set (p := (1 - v) ^ (i + j - 2)) in *. set (q := (1 + v) ^ (i + j - 2)) in *.
    assert (Low : (INR i + INR j) * lo * p <= B2R a + B2R b).
    { unfold low in *. assert (INR i * lo * p <= INR i * lo * (1 - v) ^ (i - 1)) by (apply Rmult_le_compat_l; nra).
      assert (INR j * lo * p <= INR j * lo * (1 - v) ^ (j - 1)) by (apply Rmult_le_compat_l; nra). lra. }
    assert (High : B2R a + B2R b <= (INR i + INR j) * hi * q).
    { unfold high in *. assert (INR i * hi * (1 + v) ^ (i - 1) <= INR i * hi * q) by (apply Rmult_le_compat_l; nra).
      assert (INR j * hi * (1 + v) ^ (j - 1) <= INR j * hi * q) by (apply Rmult_le_compat_l; nra). lra. }
    assert (Lp : / 2 <= p).
    { unfold p. pose proof (bernoulli (i + j - 2)). pose proof (small_power (i + j - 2) ltac:(lia)). lra. }
    assert (Hq : q <= 2).
    { unfold q. pose proof (small_power (i + j - 2) ltac:(lia)) as B. pose proof (bernoulli_up _ B). lra. }
    assert (Normal : bpow radix2 (-1022) <= B2R a + B2R b).
    { apply Rle_trans with lo; [|assert (1 <= (INR i + INR j) * p) by nra; assert (lo * 1 <= lo * ((INR i + INR j) * p)) by (apply Rmult_le_compat_l; lra); lra].
      eapply Rle_trans; [|exact L]. apply bpow_le. lia. }
    assert (Big : Rabs (B2R a + B2R b) <= bpow radix2 800 * bpow radix2 18).
    { rewrite Rabs_right by (pose proof (bpow_gt_0 radix2 (-1022)); lra).
      eapply Rle_trans; [exact High|].
      assert (IJ : INR i + INR j <= 65536).
      { rewrite <- plus_INR, INR_IZR_INZ. apply IZR_le. lia. }
      change (bpow radix2 18) with 262144.
      apply Rle_trans with (65536 * bpow radix2 800 * 2); [|pose proof (bpow_gt_0 radix2 800); lra].
      apply Rmult_le_compat; try lra; [|unfold q; pose proof (pow_ge_1 (i + j - 2)); lra|].
      - apply Rmult_le_pos; lra.
      - apply Rmult_le_compat; lra. }
    rewrite <- bpow_plus in Big.
    destruct (fadd_rounds a b Fa Fb) as [R1 _]. destruct (R1 (rnd_small (800 + 18) _ ltac:(lia) Big)) as [Fs Es].
    split; [exact Fs|]. split; [lia|]. rewrite Es. pose proof (relative _ Normal) as [R3 R4].
    unfold low, high. rewrite plus_INR. replace (i + j - 1)%nat with (S (i + j - 2)) by lia. cbn [pow]. fold p q.
    split.
    + apply Rle_trans with ((B2R a + B2R b) * (1 - v)); [|exact R3].
      replace ((INR i + INR j) * lo * ((1 - v) * p)) with ((INR i + INR j) * lo * p * (1 - v)) by ring.
      apply Rmult_le_compat_r; lra.
    + apply Rle_trans with ((B2R a + B2R b) * (1 + v)); [exact R4|].
      replace ((INR i + INR j) * hi * ((1 + v) * q)) with ((INR i + INR j) * hi * q * (1 + v)) by ring.
      apply Rmult_le_compat_r; lra.
  - rewrite <- (Permutation_length P) in *. apply IH; auto. eapply Permutation_Forall; [apply Permutation_sym; exact P|exact F].
Qed.

(** C19 in binary64.  The mean of [n] positive values between [lo] and [hi] is
    at least lo * (1 - n 2^-53) and at most hi * (1 + n 2^-52), for every order in
    which they are added up. *)
Theorem C19_mean_in_binary64 :
  forall (l : list f64) (s : f64) (lo hi : R),
    sums l s -> (Z.of_nat (length l) <= 65536)%Z ->
    bpow radix2 (-900) <= lo -> lo <= hi -> hi <= bpow radix2 800 ->
    Forall (fun x => fin x /\ lo <= B2R x <= hi) l ->
    fin (fmean (length l) s) /\
    lo * (1 - INR (length l) * bpow radix2 (-53)) <= B2R (fmean (length l) s)
      <= hi * (1 + INR (length l) * bpow radix2 (-52)).
Proof.
  intros l s lo hi S N L LH H F. pose proof v_bounds as V.
  destruct (sums_within l s S lo hi L LH H N F) as (Fs & N1 & B1 & B2).
  destruct (of_nat_value (length l) N) as [Fn En].
  set (n := length l) in *. clearbody n.
  assert (In : 1 <= INR n) by (apply (le_INR 1); lia).
  assert (Pl : 0 < lo) by (pose proof (bpow_gt_0 radix2 (-900)); lra).
  assert (Nz : B2R (of_nat n) <> 0) by (rewrite En; lra).
  pose proof (fdiv_rounds (of_nat n) Nz s s Fs Fs) as [R1 _]. cbv beta in R1. rewrite En in R1.
  unfold low, high in *.
  assert (Q1 : lo * (1 - v) ^ (n - 1) <= B2R s / INR n).
  { apply Rmult_le_reg_r with (INR n); [lra|]. replace (B2R s / INR n * INR n) with (B2R s) by (field; lra). lra. }
  assert (Q2 : B2R s / INR n <= hi * (1 + v) ^ (n - 1)).
  { apply Rmult_le_reg_r with (INR n); [lra|]. replace (B2R s / INR n * INR n) with (B2R s) by (field; lra). lra. }
  assert (P1 : / 2 <= (1 - v) ^ (n - 1)).
  { pose proof (bernoulli (n - 1)). pose proof (small_power (n - 1) ltac:(lia)). lra. }
  assert (P2 : (1 + v) ^ (n - 1) <= 2).
  { pose proof (small_power (n - 1) ltac:(lia)) as B. pose proof (bernoulli_up _ B). lra. }
  pose proof (pow_ge_1 (n - 1)) as P3.
  assert (Normal : bpow radix2 (-1022) <= B2R s / INR n).
  { apply Rle_trans with (bpow radix2 (-900) * / 2).
    - change (/ 2) with (bpow radix2 (-1)). rewrite <- bpow_plus. apply bpow_le. lia.
    - apply Rle_trans with (lo * / 2); [lra|]. nra. }
  assert (Big : Rabs (B2R s / INR n) <= bpow radix2 801).
  { rewrite Rabs_right by (pose proof (bpow_gt_0 radix2 (-1022)); lra). change 801%Z with (800 + 1)%Z. rewrite bpow_plus.
    change (bpow radix2 1) with 2. pose proof (bpow_gt_0 radix2 800). nra. }
  destruct (R1 (rnd_small 801 _ ltac:(lia) Big)) as [Fq Eq]. split; [exact Fq|]. unfold fmean. rewrite Eq.
  pose proof (relative _ Normal) as [R3 R4]. fold v. change (-52)%Z with (1 + -53)%Z. rewrite bpow_plus. change (bpow radix2 1) with 2. fold v.
  pose proof (bernoulli n) as U1. pose proof (bernoulli_up n (small_power n N)) as U2.
  assert (E1 : (1 - v) ^ n = (1 - v) ^ (n - 1) * (1 - v)) by (replace n with (Datatypes.S (n - 1)) at 1 by lia; cbn [pow]; ring).
  assert (E2 : (1 + v) ^ n = (1 + v) ^ (n - 1) * (1 + v)) by (replace n with (Datatypes.S (n - 1)) at 1 by lia; cbn [pow]; ring).
  split.
  - apply Rle_trans with (lo * (1 - v) ^ n); [apply Rmult_le_compat_l; lra|]. rewrite E1.
    apply Rle_trans with (B2R s / INR n * (1 - v)); [|exact R3]. rewrite <- Rmult_assoc. apply Rmult_le_compat_r; lra.
  - apply Rle_trans with (hi * (1 + v) ^ n); [|apply Rmult_le_compat_l; [lra|]; lra]. rewrite E2.
    apply Rle_trans with (B2R s / INR n * (1 + v)); [exact R4|]. rewrite <- Rmult_assoc. apply Rmult_le_compat_r; lra.
Qed.
Print Assumptions C19_mean_in_binary64.

(** C19, refuted with rounding: the mean of three Chezy values of 51.2 is
    51.20000000000001, which is larger than each of them. *)
Theorem C19_range_in_binary64_refuted :
  let c : f64 := @B754_finite 53 1024 false 7205759403792794 (-47) eq_refl in
  exists s, sums [c; c; c] s /\ Bltb c (fmean 3 s) = true.
Proof.
  intros c. exists (fadd (fadd c c) c). split; [|vm_compute; reflexivity].
  apply (sums_two [c; c] [c]); [apply (sums_two [c] [c])|]; apply sums_one.
Qed.
Print Assumptions C19_range_in_binary64_refuted.
