(** The binary64 number nearest to a rational number (Flocq), and that it has the
    properties that C86 assumes of the reader of decimal numbers. *)
From Coq Require Import ZArith QArith Qabs Qreals Qpower Reals Bool Lia Lra.
From Flocq Require Import Core.Core.
From Verif Require Import PyBase Num L_Export T_Chain.
Local Open Scope R_scope.

(** Exponents of binary64: 53 bits, the least positive number is 2 ^ -1074. *)
Notation fexp := (FLT_exp (-1074) 53).
#[local] Instance prec53 : Prec_gt_0 53 := eq_refl.

(** Round to nearest, ties to even; beyond the range an infinity. *)
Definition nearest (q : Q) : R := round radix2 fexp ZnearestE (Q2R q).
Definition mantissa (q : Q) : Z := ZnearestE (scaled_mantissa radix2 fexp (Q2R q)).
Definition nearestQ (q : Q) : Q := (inject_Z (mantissa q) * Qpower 2 (cexp radix2 fexp (Q2R q)))%Q.
Definition rnd64 (q : Q) : num :=
  if Rlt_bool (Rabs (nearest q)) (bpow radix2 1024) then Fin (nearestQ q)
  else if Rlt_bool (Q2R q) 0 then NInf else PInf.

Lemma Q2R_inject z : Q2R (inject_Z z) = IZR z.
Proof. unfold Q2R. cbn. field. Qed.

Lemma Q2R_pow2 e : Q2R (Qpower 2 e) = bpow radix2 e.
Proof.
  assert (P : forall p, Q2R (Qpower_positive 2 p) = bpow radix2 (Zpos p)).
  { intro p. pose proof (Zpower_Qpower 2 (Zpos p) ltac:(lia)) as H. cbn [Qpower] in H.
    change (inject_Z 2) with 2%Q in H. rewrite <- (Qeq_eqR _ _ H), Q2R_inject.
    rewrite (IZR_Zpower radix2) by lia. reflexivity. }
  destruct e as [|p|p]; [cbn; unfold Q2R; cbn; lra|apply P|].
  cbn [Qpower]. rewrite Q2R_inv.
  - rewrite P. change (Zneg p) with (- Zpos p)%Z. rewrite bpow_opp. reflexivity.
  - intro E. apply Qeq_eqR in E. rewrite P in E. pose proof (bpow_gt_0 radix2 (Zpos p)).
    change 0%Q with (inject_Z 0) in E. rewrite Q2R_inject in E. lra.
Qed.

Lemma nearestQ_value q : Q2R (nearestQ q) = nearest q.
Proof.
  unfold nearestQ, nearest, round, F2R. cbn [Fnum Fexp]. rewrite Q2R_mult, Q2R_inject, Q2R_pow2. reflexivity.
Qed.

Lemma bound_33 q : (Qabs q <= 8000000000)%Q -> Rabs (Q2R q) <= bpow radix2 33.
Proof.
  intro H. apply Qabs_Qle_condition in H. destruct H as [H1 H2]. apply Qle_Rle in H1, H2.
  change (- (8000000000))%Q with (inject_Z (-8000000000)) in H1. change 8000000000%Q with (inject_Z 8000000000) in H2.
  rewrite Q2R_inject in H1, H2.
  assert (8000000000 <= bpow radix2 33) by (change (bpow radix2 33) with (IZR 8589934592); apply IZR_le; lia).
  apply Rabs_le. split; lra.
Qed.

Lemma nearest_error q : (Qabs q <= 8000000000)%Q -> Rabs (nearest q - Q2R q) <= bpow radix2 (-20).
Proof.
  intro H. apply bound_33 in H. unfold nearest.
  eapply Rle_trans; [apply error_le_half_ulp; typeclasses eauto|].
  assert (U : ulp radix2 fexp (Q2R q) <= bpow radix2 (-19)).
  { replace (bpow radix2 (-19)) with (ulp radix2 fexp (bpow radix2 33)) by (rewrite ulp_bpow; reflexivity).
    apply ulp_le; [typeclasses eauto|typeclasses eauto|].
    rewrite (Rabs_right (bpow radix2 33)) by (apply Rle_ge, bpow_ge_0). exact H. }
  change (-19)%Z with (1 + -20)%Z in U. rewrite bpow_plus in U. change (bpow radix2 1) with 2 in U. lra.
Qed.

Theorem C86_binary64_is_precise : precise rnd64.
Proof.
  split.
  - intros a b v w L E F. unfold rnd64 in E, F.
    destruct (Rlt_bool (Rabs (nearest a)) _); [|destruct (Rlt_bool (Q2R a) 0); discriminate].
    destruct (Rlt_bool (Rabs (nearest b)) _); [|destruct (Rlt_bool (Q2R b) 0); discriminate].
    injection E as <-. injection F as <-. apply Rle_Qle. rewrite !nearestQ_value. unfold nearest.
    apply round_le; [typeclasses eauto|typeclasses eauto|]. apply Qle_Rle. exact L.
  - intros q H. pose proof (nearest_error q H) as E. pose proof (bound_33 q H) as B.
    assert (S : Rabs (nearest q) < bpow radix2 1024).
    { replace (nearest q) with ((nearest q - Q2R q) + Q2R q) by ring.
      eapply Rle_lt_trans; [apply Rabs_triang|].
      apply Rle_lt_trans with (bpow radix2 33 + bpow radix2 33).
      - assert (bpow radix2 (-20) <= bpow radix2 33) by (apply bpow_le; lia). lra.
      - replace (bpow radix2 33 + bpow radix2 33) with (bpow radix2 34)
          by (change 34%Z with (1 + 33)%Z; rewrite bpow_plus; change (bpow radix2 1) with 2; ring).
        apply bpow_lt. lia. }
    exists (nearestQ q). split.
    + unfold rnd64. rewrite Rlt_bool_true by exact S. reflexivity.
    + apply Qabs_Qle_condition. apply Rabs_le_inv in E. destruct E as [E1 E2].
      assert (K : bpow radix2 (-20) <= Q2R (1 # 1000000)).
      { unfold Q2R. cbn [Qnum Qden]. change (bpow radix2 (-20)) with (/ IZR 1048576).
        rewrite Rmult_1_l. apply Rinv_le; [apply IZR_lt; lia|apply IZR_le; lia]. }
      split; apply Rle_Qle; rewrite Q2R_minus, nearestQ_value; [rewrite Q2R_opp|]; lra.
Qed.
Print Assumptions C86_binary64_is_precise.

(** Equal numbers are read alike. *)
Lemma rnd64_proper a b : (a == b)%Q -> same (rnd64 a) (rnd64 b).
Proof.
  intro E. apply Qeq_eqR in E. unfold rnd64, nearestQ, mantissa, nearest. rewrite E. apply same_refl.
Qed.
