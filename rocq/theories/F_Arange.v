(** The common levels of the friction tables in binary64 arithmetic (Flocq),
    theorems for C20 and C89 with rounding.

    Same code as [arange] in M_Friction.v, cross_section.py 110, that is
    numpy.arange(lo, hi, 0.1): the number of values is the ceiling of
    (hi - lo) / 0.1; the first two values are lo and lo + 0.1, and value i is
    lo + i * delta with delta the difference of the first two.  All operations
    round to nearest. *)
From Coq Require Import ZArith Reals List Bool Lia Lra.
From Flocq Require Import Core.Core IEEE754.BinarySingleNaN.
From Verif Require Import PyBase F_Require F_Volumes.
Import ListNotations.
Local Open Scope R_scope.

(** The float literal 0.1. *)
Definition tenth : f64 := @B754_finite 53 1024 false 7205759403792794 (-56) eq_refl.
(** An integer as a float. *)
Definition of_nat (i : nat) : f64 := binary_normalize 53 1024 _ _ mode_NE (Z.of_nat i) 0 false.

Definition levels_count (lo hi : f64) : nat := Z.to_nat (Zceil (B2R (fdiv (fsub hi lo) tenth))).
Definition farange (lo hi : f64) : list f64 :=
  let second := fadd lo tenth in
  let delta := fsub second lo in
  map (fun i => match i with
                | 0%nat => lo
                | 1%nat => second
                | _ => fadd lo (fmul (of_nat i) delta)
                end) (seq 0 (levels_count lo hi)).

(** * Rounding errors *)

Lemma err k x : (-900 <= k <= 900)%Z -> Rabs x <= bpow radix2 k -> Rabs (rnd x - x) <= bpow radix2 (k - 53).
Proof.
  intros Hk Hx.
  eapply Rle_trans; [apply error_le_half_ulp; typeclasses eauto|].
  assert (U : ulp radix2 fexp64 x <= bpow radix2 (k - 52)).
  { replace (bpow radix2 (k - 52)) with (ulp radix2 fexp64 (bpow radix2 k)).
    - apply ulp_le; [typeclasses eauto|typeclasses eauto|]. rewrite (Rabs_right (bpow radix2 k)) by (apply Rle_ge, bpow_ge_0). exact Hx.
    - rewrite ulp_bpow. f_equal. unfold SpecFloat.fexp, SpecFloat.emin. lia. }
  replace (bpow radix2 (k - 52)) with (2 * bpow radix2 (k - 53)) in U.
  2:{ replace (k - 52)%Z with (1 + (k - 53))%Z by lia. rewrite bpow_plus. reflexivity. }
  lra.
Qed.

Lemma rnd_small k x : (-900 <= k <= 900)%Z -> Rabs x <= bpow radix2 k -> Rabs (rnd x) < big64.
Proof.
  intros Hk Hx. apply Rle_lt_trans with (bpow radix2 k); [|apply bpow_lt; lia].
  apply abs_round_le_generic; [typeclasses eauto|typeclasses eauto| |exact Hx].
  apply generic_format_bpow. unfold SpecFloat.fexp, SpecFloat.emin. lia.
Qed.

(** One operation: its result and how far it is off. *)
Lemma op_err op f k x y : rounds op f -> fin x -> fin y -> (-900 <= k <= 900)%Z -> Rabs (f (B2R x) (B2R y)) <= bpow radix2 k ->
  fin (op x y) /\ Rabs (B2R (op x y) - f (B2R x) (B2R y)) <= bpow radix2 (k - 53).
Proof.
  intros R Fx Fy Hk H. destruct (R x y Fx Fy) as [R1 _]. destruct (R1 (rnd_small k _ Hk H)) as [F ->].
  split; [exact F|]. apply err; assumption.
Qed.

Lemma fdiv_rounds y : B2R y <> 0 -> rounds (fun x _ => fdiv x y) (fun x _ => x / B2R y).
Proof.
  intros N x x' Fx _. pose proof (Bdiv_correct 53 1024 _ _ mode_NE x y N) as C. cbn [round_mode] in C.
  fold (fdiv x y) in C. fold big64 in C. revert C. case Rlt_bool_spec; intros L C.
  - destruct C as (C1 & C2 & _). unfold fin in *. rewrite Fx in C2. split; [intros _; split; [exact C2|exact C1]|intros _; exact L].
  - split; [intro H; lra|]. intro H. exfalso. exact (overflow_infinite _ _ C H).
Qed.

Lemma tenth_value : B2R tenth = IZR 7205759403792794 * / IZR (2 ^ 56).
Proof.
  cbn [B2R tenth]. unfold F2R. cbn [Fnum Fexp]. change (cond_Zopp false 7205759403792794) with 7205759403792794%Z.
  f_equal.
Qed.
Lemma tenth_bounds : 1 / 10 <= B2R tenth <= 1 / 10 + / IZR (2 ^ 56).
Proof. rewrite tenth_value. change (2 ^ 56)%Z with 72057594037927936%Z. lra. Qed.

Lemma of_nat_value i : (Z.of_nat i <= 65536)%Z -> fin (of_nat i) /\ B2R (of_nat i) = INR i.
Proof.
  intro H. pose proof (binary_normalize_correct 53 1024 _ _ mode_NE (Z.of_nat i) 0 false) as C. cbv zeta in C.
  cbn [round_mode] in C. fold (of_nat i) in C. fold big64 in C.
  assert (E : F2R (Float radix2 (Z.of_nat i) 0) = INR i).
  { unfold F2R. cbn [Fnum Fexp bpow]. rewrite Rmult_1_r. symmetry. apply INR_IZR_INZ. }
  rewrite E in C.
  assert (B : Rabs (INR i) <= bpow radix2 16).
  { rewrite Rabs_pos_eq by apply pos_INR. rewrite INR_IZR_INZ. change (bpow radix2 16) with (IZR 65536). apply IZR_le. lia. }
  rewrite Rlt_bool_true in C by (apply (rnd_small 16); [lia|exact B]).
  destruct C as (C1 & C2 & _). split; [exact C2|]. rewrite C1. apply round_generic; [typeclasses eauto|].
  rewrite <- E. apply generic_format_F2R' with (f := Float radix2 (Z.of_nat i) 0); [reflexivity|].
  intro N. rewrite E. unfold cexp, SpecFloat.fexp, SpecFloat.emin. cbn [Fexp].
  assert (M : (mag radix2 (INR i) <= 17)%Z).
  { apply mag_le_bpow.
    - intro Z. apply N. rewrite E in *. exact Z.
    - eapply Rle_lt_trans; [exact B|]. apply bpow_lt. lia. }
  lia.
Qed.

(** * The levels *)

(** A level of at most 1024. *)
Definition level (x : f64) : Prop := fin x /\ Rabs (B2R x) <= 1024.

Ltac consts :=
  repeat match goal with
  | H : context [bpow radix2 ?k] |- _ =>
      match eval compute in (Z.leb 0 k) with
      | true => let v := eval compute in (2 ^ k)%Z in change (bpow radix2 k) with (IZR v) in H
      | false => let v := eval compute in (2 ^ (- k))%Z in change (bpow radix2 k) with (/ IZR v) in H
      end
  | |- context [bpow radix2 ?k] =>
      match eval compute in (Z.leb 0 k) with
      | true => let v := eval compute in (2 ^ k)%Z in change (bpow radix2 k) with (IZR v)
      | false => let v := eval compute in (2 ^ (- k))%Z in change (bpow radix2 k) with (/ IZR v)
      end
  end.
Ltac abs_le := match goal with |- Rabs _ <= _ => apply Rabs_le end.

Lemma second_value lo : level lo ->
  fin (fadd lo tenth) /\ Rabs (B2R (fadd lo tenth) - (B2R lo + 1 / 10)) <= / IZR (2 ^ 41).
Proof.
  intros [Fl Bl]. pose proof tenth_bounds as T. change (2 ^ 56)%Z with 72057594037927936%Z in T.
  apply Rabs_le_inv in Bl.
  destruct (op_err fadd Rplus 11 lo tenth fadd_rounds Fl eq_refl ltac:(lia)) as [F E].
  { abs_le. consts. lra. }
  split; [exact F|]. apply Rabs_le_inv in E. abs_le. change (11 - 53)%Z with (-42)%Z in E. consts.
  change (2 ^ 41)%Z with 2199023255552%Z. lra.
Qed.

Lemma delta_value lo : level lo -> let delta := fsub (fadd lo tenth) lo in
  fin delta /\ Rabs (B2R delta - 1 / 10) <= / IZR (2 ^ 40).
Proof.
  intro H. destruct (second_value lo H) as [Fs Es]. destruct H as [Fl Bl]. cbv zeta.
  apply Rabs_le_inv in Es. change (2 ^ 41)%Z with 2199023255552%Z in Es.
  destruct (op_err fsub Rminus 0 (fadd lo tenth) lo fsub_rounds Fs Fl ltac:(lia)) as [F E].
  { abs_le. consts. lra. }
  split; [exact F|]. apply Rabs_le_inv in E. abs_le. change (0 - 53)%Z with (-53)%Z in E. consts.
  change (2 ^ 40)%Z with 1099511627776%Z. lra.
Qed.

Lemma level_value lo i : level lo -> (Z.of_nat i <= 32768)%Z ->
  let x := fadd lo (fmul (of_nat i) (fsub (fadd lo tenth) lo)) in
  fin x /\ Rabs (B2R x - (B2R lo + INR i * (1 / 10))) <= / IZR (2 ^ 23).
Proof.
  intros H Hi. cbv zeta. destruct (delta_value lo H) as [Fd Ed]. destruct (of_nat_value i ltac:(lia)) as [Fi Ei].
  destruct H as [Fl Bl]. set (d := fsub (fadd lo tenth) lo) in *. apply Rabs_le_inv in Ed.
  change (2 ^ 40)%Z with 1099511627776%Z in Ed.
  assert (I0 : 0 <= INR i) by apply pos_INR.
  assert (I1 : INR i <= 32768) by (rewrite INR_IZR_INZ; apply IZR_le; lia).
  assert (P : INR i * (1 / 10) - 32768 * / 1099511627776 <= INR i * B2R d <= INR i * (1 / 10) + 32768 * / 1099511627776).
  { split.
    - apply Rle_trans with (INR i * (1 / 10 - / 1099511627776)); [|apply Rmult_le_compat_l; lra].
      assert (INR i * / 1099511627776 <= 32768 * / 1099511627776) by (apply Rmult_le_compat_r; lra). lra.
    - apply Rle_trans with (INR i * (1 / 10 + / 1099511627776)); [apply Rmult_le_compat_l; lra|].
      assert (INR i * / 1099511627776 <= 32768 * / 1099511627776) by (apply Rmult_le_compat_r; lra). lra. }
  destruct (op_err fmul Rmult 12 (of_nat i) d fmul_rounds Fi Fd ltac:(lia)) as [Fm Em].
  { rewrite Ei. abs_le. consts. lra. }
  rewrite Ei in Em. apply Rabs_le_inv in Em. change (12 - 53)%Z with (-41)%Z in Em. apply Rabs_le_inv in Bl.
  set (m := fmul (of_nat i) d) in *. consts.
  destruct (op_err fadd Rplus 13 lo m fadd_rounds Fl Fm ltac:(lia)) as [Fa Ea].
  { abs_le. consts. lra. }
  split; [exact Fa|]. apply Rabs_le_inv in Ea. abs_le. change (13 - 53)%Z with (-40)%Z in Ea. consts.
  change (2 ^ 23)%Z with 8388608%Z. lra.
Qed.

Lemma quotient_value lo hi : level lo -> level hi -> B2R lo <= B2R hi ->
  Rabs (B2R (fdiv (fsub hi lo) tenth) - (B2R hi - B2R lo) * 10) <= / IZR (2 ^ 35).
Proof.
  intros [Fl Bl] [Fh Bh] L. apply Rabs_le_inv in Bl, Bh. pose proof tenth_bounds as T. change (2 ^ 56)%Z with 72057594037927936%Z in T.
  destruct (op_err fsub Rminus 11 hi lo fsub_rounds Fh Fl ltac:(lia)) as [Fs Es].
  { abs_le. consts. lra. }
  apply Rabs_le_inv in Es. change (11 - 53)%Z with (-42)%Z in Es. set (s := fsub hi lo) in *.
  assert (S0 : 0 <= B2R s) by (apply (rounds_pos fsub Rminus); auto; [apply fsub_rounds|lra]).
  assert (N : B2R tenth <> 0) by lra. consts.
  assert (I : 10 - / IZR (2 ^ 49) <= / B2R tenth <= 10).
  { change (2 ^ 49)%Z with 562949953421312%Z. split.
    - apply Rmult_le_reg_r with (B2R tenth); [lra|]. rewrite Rinv_l by lra.
      apply Rle_trans with ((10 - / 562949953421312) * (1 / 10 + / 72057594037927936)); [apply Rmult_le_compat_l; lra|lra].
    - apply Rmult_le_reg_r with (B2R tenth); [lra|]. rewrite Rinv_l by lra. lra. }
  change (2 ^ 49)%Z with 562949953421312%Z in I.
  assert (Q : B2R s * 10 - 2049 * / 562949953421312 <= B2R s / B2R tenth <= B2R s * 10).
  { unfold Rdiv. split; [|apply Rmult_le_compat_l; lra].
    apply Rle_trans with (B2R s * (10 - / 562949953421312)); [|apply Rmult_le_compat_l; lra].
    assert (B2R s * / 562949953421312 <= 2049 * / 562949953421312) by (apply Rmult_le_compat_r; lra). lra. }
  destruct (op_err (fun x _ => fdiv x tenth) (fun x _ => x / B2R tenth) 15 s s (fdiv_rounds tenth N) Fs Fs ltac:(lia)) as [_ Eq].
  { abs_le. consts. lra. }
  apply Rabs_le_inv in Eq. abs_le. change (15 - 53)%Z with (-38)%Z in Eq. consts. change (2 ^ 35)%Z with 34359738368%Z. lra.
Qed.

(** The levels are 0.1 apart from the lowest level on, up to less than a
    millionth, so that they increase strictly; the last one is less than 0.1
    below and at most a millionth above the highest level. *)
Theorem C20_levels_in_binary64 : forall lo hi, level lo -> level hi -> B2R lo <= B2R hi ->
  let n := length (farange lo hi) in
  (forall i x, nth_error (farange lo hi) i = Some x -> fin x /\ Rabs (B2R x - (B2R lo + INR i * (1 / 10))) <= / 1000000) /\
  (forall i j x y, (i < j)%nat -> nth_error (farange lo hi) i = Some x -> nth_error (farange lo hi) j = Some y -> flt x y) /\
  (0 < n -> exists x, nth_error (farange lo hi) 0 = Some x /\ x = lo)%nat /\
  B2R hi - / 1000000 <= B2R lo + INR n * (1 / 10) < B2R hi + 1 / 10 + / 1000000.
Proof.
  intros lo hi Hl Hh L. cbv zeta.
  pose proof (quotient_value lo hi Hl Hh L) as Q. apply Rabs_le_inv in Q. change (2 ^ 35)%Z with 34359738368%Z in Q.
  set (q := B2R (fdiv (fsub hi lo) tenth)) in *.
  assert (LenE : length (farange lo hi) = levels_count lo hi) by (unfold farange; rewrite map_length, seq_length; reflexivity).
  destruct Hl as [Fl Bl], Hh as [Fh Bh]. pose proof Bl as Bl'. pose proof Bh as Bh'. apply Rabs_le_inv in Bl', Bh'.
  assert (C0 : (0 <= Zceil q)%Z).
  { apply le_IZR. pose proof (Zceil_ub q). destruct (Rle_or_lt 0 (IZR (Zceil q))) as [|N]; [assumption|].
    apply lt_IZR in N. assert (Zceil q <= -1)%Z by lia. apply IZR_le in H0. change (IZR (-1)) with (-1) in H0. lra. }
  assert (CN : INR (levels_count lo hi) = IZR (Zceil q)) by (unfold levels_count; fold q; rewrite INR_IZR_INZ, Z2Nat.id by exact C0; reflexivity).
  pose proof (Zceil_ub q) as U. pose proof (Zceil_lb q) as D.
  assert (Cnt : (Z.of_nat (levels_count lo hi) <= 20482)%Z).
  { apply le_IZR. rewrite <- INR_IZR_INZ, CN.
    assert (IZR (Zceil q) < IZR 20482) by lra. apply lt_IZR in H. apply IZR_le. lia. }
  assert (V : forall i x, nth_error (farange lo hi) i = Some x -> (Z.of_nat i < 20482)%Z /\
    fin x /\ Rabs (B2R x - (B2R lo + INR i * (1 / 10))) <= / 8388608).
  { intros i x E.
    assert (Hi : (i < levels_count lo hi)%nat) by (rewrite <- LenE; apply nth_error_Some; congruence).
    split; [lia|]. unfold farange in E. rewrite nth_error_map in E.
    destruct (nth_error (seq 0 (levels_count lo hi)) i) as [k|] eqn:Ek; [|discriminate]. cbn [option_map] in E.
    assert (k = i).
    { pose proof (nth_error_nth _ _ 0%nat Ek) as X. rewrite seq_nth in X by exact Hi. lia. } subst k.
    destruct i as [|[|i]]; injection E as <-.
    - split; [exact Fl|]. cbn [INR]. abs_le. lra.
    - destruct (second_value lo (conj Fl Bl)) as [Fs Es]. split; [exact Fs|]. apply Rabs_le_inv in Es.
      change (2 ^ 41)%Z with 2199023255552%Z in Es. cbn [INR]. abs_le. lra.
    - pose proof (level_value lo (S (S i)) (conj Fl Bl) ltac:(lia)) as [Fx Ex]. split; [exact Fx|].
      change (2 ^ 23)%Z with 8388608%Z in Ex. exact Ex. }
  split; [|split; [|split]].
  - intros i x E. destruct (V i x E) as (_ & Fx & Ex). split; [exact Fx|]. lra.
  - intros i j x y Hij Ex Ey. destruct (V i x Ex) as (_ & _ & Vx). destruct (V j y Ey) as (_ & _ & Vy).
    apply Rabs_le_inv in Vx, Vy. assert (Hs : INR i + 1 <= INR j) by (rewrite <- S_INR; apply le_INR; lia).
    unfold flt. lra.
  - intro Hn. unfold farange in *. rewrite map_length, seq_length in Hn. rewrite nth_error_map.
    destruct (levels_count lo hi); [lia|]. exists lo. split; reflexivity.
  - rewrite LenE, CN. split; lra.
Qed.
Print Assumptions C20_levels_in_binary64.

(** The highest level of the section may still be passed, and by rounding
    only: with levels from 1.0 to 1.3 the column has four levels, the last of
    which, 1.3000000000000003, lies above 1.3. *)
Definition one64 : f64 := @B754_finite 53 1024 false 4503599627370496 (-52) eq_refl.
Definition one_point_three : f64 := @B754_finite 53 1024 false 5854679515581645 (-52) eq_refl.
Definition three64 : f64 := of_nat 3.
Definition four64 : f64 := of_nat 4.

Lemma one_to_one_point_three : levels_count one64 one_point_three = 4%nat.
Proof.
  set (q := fdiv (fsub one_point_three one64) tenth).
  assert (Fq : is_finite q = true) by (vm_compute; reflexivity).
  assert (L : Bltb three64 q = true) by (vm_compute; reflexivity).
  assert (U : Bltb q four64 = true) by (vm_compute; reflexivity).
  destruct (of_nat_value 3 ltac:(lia)) as [F3 E3]. destruct (of_nat_value 4 ltac:(lia)) as [F4 E4].
  rewrite Bltb_correct in L by assumption. rewrite Bltb_correct in U by assumption.
  revert L U. unfold three64, four64. rewrite E3, E4. do 2 (case Rlt_bool_spec; intro; [|discriminate]). intros _ _.
  unfold levels_count. fold q. rewrite (Zceil_imp 4); [reflexivity|]. cbn [INR Z.sub Z.add Z.opp Z.pos_sub Pos.pred_double] in *. lra.
Qed.

Theorem C89_highest_level_in_binary64_refuted :
  exists lo hi x, level lo /\ level hi /\ flt lo hi /\ In x (farange lo hi) /\ flt hi x.
Proof.
  exists one64, one_point_three, (fadd one64 (fmul (of_nat 3) (fsub (fadd one64 tenth) one64))).
  assert (V1 : B2R one64 = 1).
  { cbn [B2R one64]. unfold F2R. cbn [Fnum Fexp]. change (cond_Zopp false 4503599627370496) with 4503599627370496%Z.
    change (bpow radix2 (-52)) with (/ IZR 4503599627370496). field. }
  assert (V2 : B2R one_point_three = IZR 5854679515581645 * / IZR 4503599627370496).
  { cbn [B2R one_point_three]. unfold F2R. cbn [Fnum Fexp]. change (cond_Zopp false 5854679515581645) with 5854679515581645%Z. reflexivity. }
  unfold level, flt. rewrite V1, V2. repeat split.
  - apply Rabs_le. lra.
  - apply Rabs_le. lra.
  - lra.
  - unfold farange. rewrite one_to_one_point_three. cbn [seq map In]. do 3 right. left. reflexivity.
  - set (x := fadd one64 _). assert (L : Bltb one_point_three x = true) by (vm_compute; reflexivity).
    assert (Fx : is_finite x = true) by (vm_compute; reflexivity).
    rewrite Bltb_correct in L by (assumption || reflexivity). revert L. case Rlt_bool_spec; intro; [|discriminate]. intros _. lra.
Qed.
Print Assumptions C89_highest_level_in_binary64_refuted.
