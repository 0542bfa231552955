(** Lakes in binary64 arithmetic (Flocq), theorems for C09 with rounding.

    Same code as [is_lake], [lake_mask_time] and [wet_not_lake] in M_Geometry.v,
    cross_section.py 1083-1123, with IEEE 754 operations that round to nearest. *)
From Coq Require Import String ZArith Reals List Bool Lia Lra Psatz.
From Flocq Require Import Core.Core IEEE754.BinarySingleNaN.
From Verif Require Import PyBase Text F_Require F_Volumes F_Arange F_Stats.
Import ListNotations.
Local Open Scope R_scope.

(** The literal 0.01 *)
Definition centi : f64 := @B754_finite 53 1024 false 5764607523034235 (-59) eq_refl.
(** cross_section.py 1083-1094 *)
Definition flake (dL d0 : f64) : bool := Bltb fzero dL && Bleb (fabs (fsub dL d0)) centi.
(** cross_section.py 1099-1111 *)
Fixpoint fresting_from (m : bool) (prev : f64) (rest : list f64) : list bool :=
  match rest with
  | [] => []
  | d :: rest' => let m' := Bleb (fsub d prev) milli && m in m' :: fresting_from m' d rest'
  end.
Definition fresting (lake : bool) (row : list f64) : list bool :=
  match row with [] => [] | d0 :: rest => lake :: fresting_from lake d0 rest end.
(** cross_section.py 1120-1123 *)
Definition fcounts (lake : bool) (row : list f64) : list bool :=
  map (fun dm => Bltb fzero (fst dm) && negb (snd dm)) (combine row (fresting lake row)).

Lemma centi_value : 1 / 100 <= B2R centi <= 1 / 100 + / IZR (2 ^ 60).
Proof.
  cbn [B2R centi]. unfold F2R. cbn [Fnum Fexp]. change (cond_Zopp false 5764607523034235) with 5764607523034235%Z. consts.
  change (2 ^ 60)%Z with 1152921504606846976%Z. lra.
Qed.
Lemma milli_value : 1 / 1000 <= B2R milli <= 1 / 1000 + / IZR (2 ^ 60).
Proof.
  cbn [B2R milli]. unfold F2R. cbn [Fnum Fexp]. change (cond_Zopp false 4611686018427388) with 4611686018427388%Z. consts.
  change (2 ^ 60)%Z with 1152921504606846976%Z. lra.
Qed.

(** A difference of two depths compared with a threshold. *)
Lemma diff_value x y : level x -> level y -> fin (fsub x y) /\ B2R (fsub x y) = rnd (B2R x - B2R y).
Proof.
  intros [Fx Bx] [Fy By]. apply Rabs_le_inv in Bx, By. destruct (fsub_rounds x y Fx Fy) as [R _]. apply R.
  apply (rnd_small 11); [lia|]. abs_le. consts. lra.
Qed.
Lemma rnd_below a t : 0 <= t <= 1 / 65 -> a <= t - / IZR (2 ^ 58) -> rnd a <= t.
Proof.
  change (2 ^ 58)%Z with 288230376151711744%Z. intros T A.
  apply Rle_trans with (rnd (Rmax a 0)); [apply rnd_mono, Rmax_l|].
  assert (M : 0 <= Rmax a 0 <= t) by (split; [apply Rmax_r|apply Rmax_lub; lra]).
  destruct (Rle_dec a 0) as [L|L]; [rewrite Rmax_right by lra; rewrite rnd_0; lra|]. rewrite Rmax_left by lra.
  assert (E : Rabs (rnd a - a) <= bpow radix2 (-6 - 53)) by (apply err; [lia|]; abs_le; consts; lra).
  apply Rabs_le_inv in E. change (-6 - 53)%Z with (-59)%Z in E. consts. lra.
Qed.
Lemma rnd_above a t : 0 <= t <= 1 / 65 -> t + / IZR (2 ^ 58) <= a -> t + / IZR (2 ^ 59) <= rnd a.
Proof.
  change (2 ^ 58)%Z with 288230376151711744%Z. change (2 ^ 59)%Z with 576460752303423488%Z. intros T A.
  apply Rle_trans with (rnd (t + / 288230376151711744)); [|apply rnd_mono; exact A].
  assert (E : Rabs (rnd (t + / 288230376151711744) - (t + / 288230376151711744)) <= bpow radix2 (-5 - 53 - 1)).
  { apply err with (k := (-6)%Z); [lia|]. abs_le. consts. lra. }
  apply Rabs_le_inv in E. change (-5 - 53 - 1)%Z with (-59)%Z in E. consts. lra.
Qed.

(** C09 in binary64, detection: the thresholds are met up to 2 ^ -58 metre. *)
Theorem C09_detection_in_binary64 :
  forall dL d0 : f64, level dL -> level d0 ->
    (0 < B2R dL -> Rabs (B2R dL - B2R d0) <= 1 / 100 - / IZR (2 ^ 58) -> flake dL d0 = true) /\
    (1 / 100 + 2 * / IZR (2 ^ 58) <= Rabs (B2R dL - B2R d0) -> flake dL d0 = false) /\
    (B2R dL <= 0 -> flake dL d0 = false) /\
    (* also near the threshold the decision is one of the distance alone *)
    (forall dL' d0', level dL' -> level d0' -> 0 < B2R dL' -> 0 < B2R dL ->
       Rabs (B2R dL' - B2R d0') <= Rabs (B2R dL - B2R d0) -> flake dL d0 = true -> flake dL' d0' = true).
Proof.
  assert (V : forall x y, level x -> level y -> fin (fabs (fsub x y)) /\ B2R (fabs (fsub x y)) = rnd (Rabs (B2R x - B2R y))).
  { intros x y Lx Ly. destruct (diff_value x y Lx Ly) as [F E]. split; [apply fabs_finite; exact F|].
    rewrite fabs_value, E. apply rnd_abs. }
  assert (D : forall x y, level x -> level y -> (flake x y = true <-> 0 < B2R x /\ rnd (Rabs (B2R x - B2R y)) <= B2R centi)).
  { intros x y Lx Ly. destruct (V x y Lx Ly) as [F E]. unfold flake. rewrite Bltb_correct by (reflexivity || apply Lx).
    rewrite Bleb_correct by (reflexivity || exact F). rewrite E, andb_true_iff. change (B2R fzero) with 0.
    split; intros [A B].
    - split; [revert A; case Rlt_bool_spec; congruence || auto|revert B; case Rle_bool_spec; congruence || auto].
    - split; [apply Rlt_bool_true; exact A|apply Rle_bool_true; exact B]. }
  pose proof centi_value as C. change (2 ^ 60)%Z with 1152921504606846976%Z in C.
  intros dL d0 HL H0. split; [|split; [|split]].
  - intros P H. apply D; auto. split; [exact P|]. apply Rle_trans with (1 / 100); [|lra]. apply rnd_below; [lra|exact H].
  - intro H. destruct (flake dL d0) eqn:E; [|reflexivity]. exfalso. apply D in E; auto. destruct E as [_ E].
    assert (B : B2R centi + / IZR (2 ^ 59) <= rnd (Rabs (B2R dL - B2R d0))).
    { apply rnd_above; [lra|]. change (2 ^ 58)%Z with 288230376151711744%Z in *. lra. }
    change (2 ^ 59)%Z with 576460752303423488%Z in B. lra.
  - intro H. destruct (flake dL d0) eqn:E; [|reflexivity]. exfalso. apply D in E; auto. lra.
  - intros dL' d0' HL' H0' P' P H E. apply D in E; auto. apply D; auto. split; [exact P'|].
    apply Rle_trans with (rnd (Rabs (B2R dL - B2R d0))); [apply rnd_mono; exact H|apply E].
Qed.
Print Assumptions C09_detection_in_binary64.

(** * Activation *)

Lemma resting_from_spec rest : forall m prev t b,
  nth_error (fresting_from m prev rest) t = Some b ->
  (b = true <-> m = true /\
     forall s x y, (s <= t)%nat -> nth_error rest s = Some y -> nth_error (prev :: rest) s = Some x -> Bleb (fsub y x) milli = true).
Proof.
  induction rest as [|d rest IH]; intros m prev t b H; cbn [fresting_from] in H; [destruct t; discriminate|].
  cbv zeta in H. destruct t as [|t]; cbn [nth_error] in H.
  - injection H as <-. rewrite andb_true_iff. split.
    + intros [A B]. split; [exact B|]. intros s x y L Y X. assert (s = 0)%nat as -> by lia. cbn in X, Y. congruence.
    + intros [A B]. split; [apply (B 0%nat prev d); [lia|reflexivity|reflexivity]|exact A].
  - rewrite (IH _ _ _ _ H), andb_true_iff. split.
    + intros [[A B] C]. split; [exact B|]. intros [|s] x y L Y X.
      * cbn in X, Y. congruence.
      * apply (C s); [lia|exact Y|exact X].
    + intros [A B]. split; [split; [apply (B 0%nat prev d); [lia|reflexivity|reflexivity]|exact A]|].
      intros s x y L Y X. apply (B (S s)); [lia|exact Y|exact X].
Qed.
Lemma resting_spec lake row t b :
  nth_error (fresting lake row) t = Some b ->
  (b = true <-> lake = true /\
     forall s x y, (s < t)%nat -> nth_error row (S s) = Some y -> nth_error row s = Some x -> Bleb (fsub y x) milli = true).
Proof.
  destruct row as [|d0 rest]; cbn [fresting]; [destruct t; discriminate|]. destruct t as [|t]; cbn [nth_error]; intro H.
  - injection H as <-. split; [intro; split; [assumption|intros; lia]|tauto].
  - rewrite (resting_from_spec _ _ _ _ _ H). split; intros [A B]; split; auto; intros s x y L Y X; apply (B s x y); auto; lia.
Qed.
Lemma resting_length lake row : length (fresting lake row) = length row.
Proof.
  destruct row as [|d rest]; [reflexivity|]. cbn [fresting length]. f_equal. revert lake d.
  induction rest as [|x rest IH]; intros m d; [reflexivity|]. cbn [fresting_from length]. cbv zeta. cbn [length]. f_equal. apply IH.
Qed.

Lemma counts_spec lake row t d : nth_error row t = Some d -> fin d ->
  (nth t (fcounts lake row) false = true <->
   0 < B2R d /\ ~ (lake = true /\
     forall s x y, (s < t)%nat -> nth_error row (S s) = Some y -> nth_error row s = Some x -> Bleb (fsub y x) milli = true)).
Proof.
  intros E F. assert (T : (t < length row)%nat) by (apply nth_error_Some; congruence).
  destruct (nth_error (fresting lake row) t) as [b|] eqn:B.
  2:{ apply nth_error_None in B. rewrite resting_length in B. lia. }
  assert (C : nth_error (combine row (fresting lake row)) t = Some (d, b)).
  { clear - E B. revert row E B. generalize (fresting lake) as g. intros g row. generalize (g row) as l. clear g.
    intro l. revert t l. induction row as [|x row IH]; intros [|t] [|y l] E B; try discriminate; cbn in *.
    - congruence.
    - apply IH; assumption. }
  unfold fcounts. rewrite (nth_error_nth _ t false (map_nth_error _ _ _ C)). cbn [fst snd].
  rewrite <- (resting_spec _ _ _ _ B), andb_true_iff, Bltb_correct by (reflexivity || exact F). change (B2R fzero) with 0.
  rewrite negb_true_iff. split; intros [P Q].
  - split; [revert P; case Rlt_bool_spec; congruence || auto|congruence].
  - split; [apply Rlt_bool_true; exact P|]. destruct b; [exfalso; apply Q; reflexivity|reflexivity].
Qed.

(** C09 in binary64, activation: a cell that is no lake counts where it is wet; a
    lake does not count as long as no rise is more than 1 mm minus 2 ^ -58 metre,
    and counts where it is wet after a rise of 1 mm plus 2 ^ -57 metre; once it
    counts only drying leaves it out again. *)
Theorem C09_activation_in_binary64 :
  forall (lake : bool) (row : list f64), Forall level row ->
    let counts t := nth t (fcounts lake row) false in
    (lake = false -> forall t d, nth_error row t = Some d -> (counts t = true <-> 0 < B2R d)) /\
    (forall t d, nth_error row t = Some d -> lake = true ->
       (forall s x y, (s < t)%nat -> nth_error row (S s) = Some y -> nth_error row s = Some x ->
          B2R y - B2R x <= 1 / 1000 - / IZR (2 ^ 58)) -> counts t = false) /\
    (forall t d s x y, nth_error row t = Some d -> 0 < B2R d -> (s < t)%nat -> nth_error row (S s) = Some y -> nth_error row s = Some x ->
       1 / 1000 + 2 * / IZR (2 ^ 58) <= B2R y - B2R x -> counts t = true) /\
    (forall t t' d', (t <= t')%nat -> nth_error row t' = Some d' -> counts t = true -> 0 < B2R d' -> counts t' = true).
Proof.
  intros lake row H. cbv zeta. pose proof milli_value as M. change (2 ^ 60)%Z with 1152921504606846976%Z in M.
  assert (Lv : forall t d, nth_error row t = Some d -> level d).
  { intros t d E. rewrite Forall_forall in H. apply H. eapply nth_error_In. exact E. }
  assert (V : forall x y, level x -> level y -> (Bleb (fsub y x) milli = true <-> rnd (B2R y - B2R x) <= B2R milli)).
  { intros x y Lx Ly. destruct (diff_value y x Ly Lx) as [F E]. rewrite Bleb_correct by (reflexivity || exact F). rewrite E.
    split; intro A; [revert A; case Rle_bool_spec; congruence || auto|apply Rle_bool_true; exact A]. }
  split; [|split; [|split]].
  - intros -> t d E. rewrite (counts_spec false row t d E (proj1 (Lv _ _ E))). split; [tauto|]. intro P. split; [exact P|]. intros [Q _]. discriminate.
  - intros t d E -> R. destruct (nth t (fcounts true row) false) eqn:C; [|reflexivity]. exfalso.
    rewrite (counts_spec true row t d E (proj1 (Lv _ _ E))) in C. destruct C as [_ C]. apply C. split; [reflexivity|].
    intros s x y L Y X. apply V; [eapply Lv; eassumption|eapply Lv; eassumption|]. specialize (R s x y L Y X).
    apply Rle_trans with (1 / 1000); [|lra]. apply rnd_below; [lra|exact R].
  - intros t d s x y E P L Y X R. apply (counts_spec lake row t d E (proj1 (Lv _ _ E))). split; [exact P|]. intros [_ C].
    specialize (C s x y L Y X). apply V in C; [|eapply Lv; eassumption|eapply Lv; eassumption].
    assert (B : B2R milli + / IZR (2 ^ 59) <= rnd (B2R y - B2R x)).
    { apply rnd_above; [lra|]. change (2 ^ 58)%Z with 288230376151711744%Z in *. lra. }
    change (2 ^ 59)%Z with 576460752303423488%Z in B. lra.
  - intros t t' d' T E' C P. apply (counts_spec lake row t' d' E' (proj1 (Lv _ _ E'))). split; [exact P|]. intros [Q R].
    destruct (nth_error row t) as [d|] eqn:E.
    2:{ apply nth_error_None in E. assert (t' < length row)%nat by (apply nth_error_Some; congruence). lia. }
    rewrite (counts_spec lake row t d E (proj1 (Lv _ _ E))) in C. destruct C as [_ C]. apply C. split; [exact Q|].
    intros s x y L. apply R. lia.
Qed.
Print Assumptions C09_activation_in_binary64.

(** Non-vacuous: depths 2, 2, 2.0005, 3, 3 (in metres): a lake until the rise to 3. *)
Theorem C09_binary64_case :
  let two_and_a_bit := fadd (of_nat 2) (fdiv milli ftwo) in
  let row := [of_nat 2; of_nat 2; two_and_a_bit; of_nat 3; of_nat 0; of_nat 3] in
  flake two_and_a_bit (of_nat 2) = true /\ flake (of_nat 3) (of_nat 2) = false /\
  fcounts true row = [false; false; false; true; false; true].
Proof. vm_compute. repeat split. Qed.
Print Assumptions C09_binary64_case.
