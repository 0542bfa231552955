(** The requirement check of a cross-section in binary64 arithmetic (Flocq),
    theorems for C01 and C02 with rounding.

    Same code as [check_requirements] in M_Geometry.v, cross_section.py 418-431,
    743-759, 910-914 and 1437-1444, with IEEE 754 numbers, comparisons and
    rounding to nearest in place of exact arithmetic. *)
From Coq Require Import ZArith Reals List Bool Lia Lra Psatz.
From Flocq Require Import Core.Core IEEE754.BinarySingleNaN.
From Verif Require Import PyBase M_Geometry L_Require.
Import ListNotations.
Local Open Scope R_scope.

Definition f64 := binary_float 53 1024.
#[global] Instance prec_pos : Prec_gt_0 53 := eq_refl.
#[global] Instance prec_max : Prec_lt_emax 53 1024 := eq_refl.

(** The float literal 0.001, that is 4611686018427388 * 2 ^ -62. *)
Definition milli : f64 := @B754_finite 53 1024 false 4611686018427388 (-62) eq_refl.
Definition fzero : f64 := B754_zero false.
Definition fadd (x y : f64) : f64 := Bplus mode_NE x y.

Fixpoint fsweep (prev : f64) (l : list f64) : list f64 :=
  match l with
  | [] => []
  | x :: l' =>
      let x' := if Bleb x prev then fadd prev milli else x in
      x' :: fsweep x' l'
  end.
Definition fincreasing (l : list f64) : list f64 :=
  match l with [] => [] | x :: l' => x :: fsweep x l' end.
Definition fclamp (m : f64) (l : list f64) : list f64 := map (fun x => if Bltb x m then m else x) l.
Definition fcap (tw fw : list f64) : list f64 := map2 (fun f t => if Bltb t f then t else f) fw tw.

Definition frequirements (m : f64) (z tw fw : list f64) : res (list f64 * list f64 * list f64) :=
  match find_index (fun w => negb (Beqb w fzero)) tw with
  | None => Raise IndexError
  | Some _ =>
      let tw2 := fincreasing (fclamp m tw) in
      let fw2 := fincreasing (fclamp m fw) in
      Ok (fincreasing z, tw2, fcap tw2 fw2)
  end.

(** * One step *)

Notation fexp64 := (SpecFloat.fexp 53 1024).

Lemma milli_bounds : bpow radix2 (-10) < B2R milli <= bpow radix2 (-9).
Proof.
  cbn [B2R milli]. unfold F2R. cbn [Fnum Fexp].
  change (cond_Zopp false 4611686018427388) with 4611686018427388%Z.
  replace (bpow radix2 (-10)) with (IZR (2 ^ 52) * bpow radix2 (-62)).
  2: { rewrite (IZR_Zpower radix2) by lia. rewrite <- bpow_plus. reflexivity. }
  replace (bpow radix2 (-9)) with (IZR (2 ^ 53) * bpow radix2 (-62)).
  2: { rewrite (IZR_Zpower radix2) by lia. rewrite <- bpow_plus. reflexivity. }
  pose proof (bpow_gt_0 radix2 (-62)).
  split; [apply Rmult_lt_compat_r; [auto|apply IZR_lt; lia]|apply Rmult_le_compat_r; [lra|apply IZR_le; lia]].
Qed.

(** Up to 2 ^ 43 (8.8e12) adding 0.001 makes a number larger. *)
Lemma add_milli x : is_finite x = true -> Rabs (B2R x) <= bpow radix2 43 - bpow radix2 (-9) ->
  is_finite (fadd x milli) = true /\
  B2R x < B2R (fadd x milli) <= B2R x + bpow radix2 (-8).
Proof.
  intros Fx Bx. pose proof milli_bounds as [M1 M2].
  set (s := B2R x + B2R milli).
  assert (Hs : Rabs s <= bpow radix2 43).
  { unfold s. pose proof (bpow_gt_0 radix2 (-10)). pose proof (Rabs_triang (B2R x) (B2R milli)) as T.
    rewrite (Rabs_right (B2R milli)) in T by lra. lra. }
  assert (U : ulp radix2 fexp64 s <= bpow radix2 (-9)).
  { replace (bpow radix2 (-9)) with (ulp radix2 fexp64 (bpow radix2 43)) by (rewrite ulp_bpow; reflexivity).
    apply ulp_le; [typeclasses eauto|typeclasses eauto|]. rewrite (Rabs_right (bpow radix2 43)) by (pose proof (bpow_ge_0 radix2 43); lra). exact Hs. }
  set (r := round radix2 fexp64 ZnearestE s).
  assert (E : Rabs (r - s) <= / 2 * ulp radix2 fexp64 s) by (apply error_le_half_ulp; typeclasses eauto).
  assert (P10 : bpow radix2 (-9) = 2 * bpow radix2 (-10)) by (change (-9)%Z with (1 + -10)%Z; rewrite bpow_plus; reflexivity).
  assert (P8 : bpow radix2 (-8) = 2 * bpow radix2 (-9)) by (change (-8)%Z with (1 + -9)%Z; rewrite bpow_plus; reflexivity).
  assert (RB : B2R x < r <= B2R x + bpow radix2 (-8)).
  { unfold s in E at 1. apply Rabs_le_inv in E. unfold s in E at 2. 
    fold s in E. pose proof (bpow_gt_0 radix2 (-10)). unfold s in *. lra. }
  pose proof (Bplus_correct 53 1024 _ _ mode_NE x milli Fx eq_refl) as C.
  cbn [round_mode] in C. change (SpecFloat.fexp 53 1024) with fexp64 in C. fold s in C. fold r in C.
  rewrite Rlt_bool_true in C.
  - destruct C as (C1 & C2 & _). unfold fadd. rewrite C1. auto.
  - assert (bpow radix2 43 + 1 < bpow radix2 1024).
    { assert (H1 : bpow radix2 44 <= bpow radix2 1024) by (apply bpow_le; lia).
      assert (H2 : bpow radix2 44 = 2 * bpow radix2 43) by (change 44%Z with (1 + 43)%Z; rewrite bpow_plus; reflexivity).
      assert (H3 : bpow radix2 1 <= bpow radix2 43) by (apply bpow_le; lia). change (bpow radix2 1) with 2 in H3. lra. }
    assert (bpow radix2 (-8) <= 1) by (change 1 with (bpow radix2 0); apply bpow_le; lia).
    apply Rabs_le_inv in Bx. pose proof (bpow_gt_0 radix2 (-9)).
    apply Rabs_lt. lra.
Qed.

(** * A column *)

(** A finite number of at most 2 ^ 42 plus [k] repairs. *)
Definition small (k : Z) (x : f64) : Prop :=
  is_finite x = true /\ Rabs (B2R x) <= bpow radix2 42 + IZR k * bpow radix2 (-8).
Definition fin (x : f64) : Prop := is_finite x = true.
Definition flt (a b : f64) : Prop := B2R a < B2R b.
Definition fle (a b : f64) : Prop := B2R a <= B2R b.

Fixpoint fchain (p : f64) (l : list f64) : Prop :=
  match l with [] => True | x :: l' => flt p x /\ fchain x l' end.
Definition fsorted (l : list f64) : Prop := match l with [] => True | x :: l' => fchain x l' end.

Lemma small_room k x : (0 <= k <= 2 ^ 49)%Z -> small k x ->
  Rabs (B2R x) <= bpow radix2 43 - bpow radix2 (-9).
Proof.
  intros Hk [_ B].
  assert (E43 : bpow radix2 43 = 2 * bpow radix2 42) by (change 43%Z with (1 + 42)%Z; rewrite bpow_plus; reflexivity).
  assert (E42 : bpow radix2 42 = 2 * bpow radix2 41) by (change 42%Z with (1 + 41)%Z; rewrite bpow_plus; reflexivity).
  assert (K : IZR k * bpow radix2 (-8) <= bpow radix2 41).
  { replace (bpow radix2 41) with (IZR (2 ^ 49) * bpow radix2 (-8)).
    - apply Rmult_le_compat_r; [apply bpow_ge_0|apply IZR_le; lia].
    - rewrite (IZR_Zpower radix2) by lia. rewrite <- bpow_plus. reflexivity. }
  assert (bpow radix2 (-9) <= bpow radix2 41) by (apply bpow_le; lia). lra.
Qed.

Lemma fsweep_ok l : forall p k, (0 <= k)%Z -> small k p -> Forall (small 0) l ->
  (k + Z.of_nat (length l) <= 2 ^ 49)%Z ->
  Forall fin (fsweep p l) /\ fchain p (fsweep p l) /\ Forall2 fle l (fsweep p l) /\
  (forall i x, nth_error (fsweep p l) i = Some x -> small (k + Z.of_nat i + 1) x).
Proof.
  induction l as [|x l IH]; intros p k Hk Hp Hl Hn.
  - cbn. split; [constructor|]. split; [exact I|]. split; [constructor|]. intros [|i] x E; discriminate E.
  - inversion Hl as [|? ? Hx Hl']; subst. cbn [length] in Hn. rewrite Nat2Z.inj_succ in Hn.
    cbn [fsweep]. set (x' := if Bleb x p then fadd p milli else x).
    assert (P8 : 0 < bpow radix2 (-8)) by apply bpow_gt_0.
    assert (S : small (k + 1) x' /\ flt p x' /\ fle x x').
    { unfold x'. destruct Hp as [Fp Bp], Hx as [Fx Bx]. rewrite Bleb_correct by auto.
      rewrite Rmult_0_l, Rplus_0_r in Bx.
      case Rle_bool_spec; intro H.
      - destruct (add_milli p Fp) as [F [L U]]; [apply (small_room k); [lia|split; auto]|].
        split; [|split; [exact L|unfold fle; lra]]. split; [exact F|].
        rewrite plus_IZR, Rmult_plus_distr_r, Rmult_1_l.
        apply Rabs_le_inv in Bp. apply Rabs_le. lra.
      - split; [|split; [exact H|apply Rle_refl]]. split; [exact Fx|].
        assert (0 <= IZR (k + 1) * bpow radix2 (-8)) by (apply Rmult_le_pos; [apply IZR_le; lia|lra]). lra. }
    destruct S as (S1 & S2 & S3).
    destruct (IH x' (k + 1)%Z) as (A & B & C & D); [lia|auto|auto|lia|].
    split; [constructor; [apply S1|exact A]|]. split; [split; auto|]. split; [constructor; auto|].
    intros [|i] y E; cbn in E.
    + injection E as <-. rewrite Z.add_0_r. exact S1.
    + specialize (D i y E). rewrite Nat2Z.inj_succ. replace (k + Z.succ (Z.of_nat i) + 1)%Z with (k + 1 + Z.of_nat i + 1)%Z by lia. exact D.
Qed.

Lemma fincreasing_ok l : Forall (small 0) l -> (Z.of_nat (length l) <= 2 ^ 49)%Z ->
  Forall fin (fincreasing l) /\ fsorted (fincreasing l) /\ Forall2 fle l (fincreasing l).
Proof.
  destruct l as [|x l]; intros H L; [repeat split; constructor|].
  inversion H as [|? ? Hx Hl]; subst. cbn [length] in L. rewrite Nat2Z.inj_succ in L.
  destruct (fsweep_ok l x 0) as (A & B & C & _); auto; try lia.
  cbn [fincreasing fsorted]. repeat split; auto; constructor; auto; [apply Hx|apply Rle_refl].
Qed.

Lemma fclamp_ok m l : small 0 m -> Forall (small 0) l ->
  Forall (small 0) (fclamp m l) /\ Forall (fle m) (fclamp m l) /\ length (fclamp m l) = length l.
Proof.
  intros Hm H. split; [|split; [|apply map_length]].
  - apply Forall_map. eapply Forall_impl; [|exact H]. intros x Hx. destruct (Bltb x m); auto.
  - apply Forall_map. eapply Forall_impl; [|exact H]. intros x Hx. unfold fle.
    rewrite Bltb_correct by (apply Hx || apply Hm). case Rlt_bool_spec; intro; lra.
Qed.

Lemma fchain_nth l : forall p i x, fchain p l -> nth_error l i = Some x -> flt p x.
Proof.
  induction l as [|y l IH]; intros p [|i] x H E; try discriminate; destruct H as [A B]; cbn in E.
  - injection E as <-. exact A.
  - specialize (IH y i x B E). unfold flt in *. lra.
Qed.
Lemma fsorted_nth l : fsorted l -> forall i j a b, (i < j)%nat ->
  nth_error l i = Some a -> nth_error l j = Some b -> flt a b.
Proof.
  induction l as [|x l IH]; intros S [|i] [|j] a b H Ea Eb; try discriminate; try lia; cbn in *.
  - injection Ea as <-. eapply fchain_nth; eauto.
  - apply (IH) with (i := i) (j := j); auto; [destruct l; [exact I|apply S]|lia].
Qed.

Lemma fcap_sorted tw : forall fw, Forall fin tw -> Forall fin fw -> fsorted tw -> fsorted fw -> fsorted (fcap tw fw).
Proof.
  unfold fcap. destruct tw as [|t tw]; intros [|f fw] Ft Ff; cbn [map2 fsorted]; auto.
  revert t f fw Ft Ff. induction tw as [|t' tw IH]; intros t f [|f' fw] Ft Ff; cbn [map2 fchain]; auto.
  inversion Ft as [|? ? F1 Ft']; inversion Ff as [|? ? F2 Ff']; subst.
  inversion Ft' as [|? ? F3 _]; inversion Ff' as [|? ? F4 _]; subst. unfold fin in *.
  intros [H1 H2] [H3 H4]. split; [|apply (IH t' f'); auto].
  unfold flt in *. rewrite !Bltb_correct by auto. do 2 (case Rlt_bool_spec; intro); lra.
Qed.
Lemma fcap_spec m tw : forall fw, length tw = length fw -> Forall fin tw -> Forall fin fw ->
  Forall (fle m) tw -> Forall (fle m) fw ->
  Forall fin (fcap tw fw) /\ Forall2 fle (fcap tw fw) tw /\ Forall (fle m) (fcap tw fw) /\ length (fcap tw fw) = length tw.
Proof.
  unfold fcap. induction tw as [|t tw IH]; intros [|f fw] L Ft Ff Mt Mf; try discriminate; [cbn; auto|].
  inversion Ft; inversion Ff; inversion Mt; inversion Mf; subst.
  destruct (IH fw) as (A & B & C & D); auto. cbn [map2 length]. rewrite D.
  unfold fin, fle in *. rewrite Bltb_correct by auto.
  case Rlt_bool_spec; intro; repeat split; auto; constructor; auto; lra.
Qed.

Lemma Forall2_len {A B} (R : A -> B -> Prop) l m : Forall2 R l m -> length l = length m.
Proof. induction 1; cbn; auto. Qed.
Lemma ge_trans m l r : Forall2 fle l r -> Forall (fle m) l -> Forall (fle m) r.
Proof. induction 1; intro F; constructor; inversion F; subst; auto. unfold fle in *. lra. Qed.

Definition fincreasing_strictly (l : list f64) : Prop :=
  forall i j a b, (i < j)%nat -> nth_error l i = Some a -> nth_error l j = Some b -> Bltb a b = true.

Lemma strictly l : Forall fin l -> fsorted l -> fincreasing_strictly l.
Proof.
  intros F S i j a b H Ea Eb. rewrite Forall_forall in F.
  rewrite Bltb_correct by (apply F; eapply nth_error_In; eauto).
  apply Rlt_bool_true. exact (fsorted_nth l S i j a b H Ea Eb).
Qed.

(** C01 in binary64: for numbers up to 2 ^ 42 and any number of rows that fits
    in memory the result is a valid table, rounding included. *)
Theorem C01_requirements_hold_in_binary64 :
  forall (m : f64) (z tw fw : list f64),
    small 0 m -> Forall (small 0) z -> Forall (small 0) tw -> Forall (small 0) fw ->
    length tw = length z -> length fw = length z -> (Z.of_nat (length z) <= 2 ^ 49)%Z ->
    (exists w, In w tw /\ B2R w <> 0) ->
    exists z' tw' fw',
      frequirements m z tw fw = Ok (z', tw', fw') /\
      fincreasing_strictly z' /\ fincreasing_strictly tw' /\ fincreasing_strictly fw' /\
      Forall fin z' /\ Forall fin tw' /\ Forall fin fw' /\
      Forall (fun w => Bleb m w = true) tw' /\ Forall (fun w => Bleb m w = true) fw' /\
      Forall2 (fun f t => Bleb f t = true) fw' tw' /\
      length z' = length z /\ length tw' = length z /\ length fw' = length z.
Proof.
  intros m z tw fw Hm Hz Ht Hf Lt Lf Hn (w & Iw & Nw).
  destruct (fclamp_ok m tw Hm Ht) as (T1 & T2 & T3). destruct (fclamp_ok m fw Hm Hf) as (F1 & F2 & F3).
  destruct (fincreasing_ok z Hz) as (Z1 & Z2 & Z3); [lia|].
  destruct (fincreasing_ok (fclamp m tw) T1) as (U1 & U2 & U3); [lia|].
  destruct (fincreasing_ok (fclamp m fw) F1) as (V1 & V2 & V3); [lia|].
  pose proof (ge_trans _ _ _ U3 T2) as U4. pose proof (ge_trans _ _ _ V3 F2) as V4.
  pose proof (Forall2_len _ _ _ Z3) as LZ. pose proof (Forall2_len _ _ _ U3) as LU. pose proof (Forall2_len _ _ _ V3) as LV.
  destruct (fcap_spec m (fincreasing (fclamp m tw)) (fincreasing (fclamp m fw))) as (C1 & C2 & C3 & C4); auto; [congruence|].
  exists (fincreasing z), (fincreasing (fclamp m tw)), (fcap (fincreasing (fclamp m tw)) (fincreasing (fclamp m fw))).
  split.
  - unfold frequirements. destruct (find_index (fun w => negb (Beqb w fzero)) tw) eqn:E; [reflexivity|]. exfalso.
    apply find_index_None in E. rewrite Forall_forall in E, Ht. specialize (E w Iw).
    destruct (Ht w Iw) as [Fw _]. apply negb_false_iff in E. apply Nw.
    destruct w as [s|s| |s mm e b]; try discriminate Fw; [reflexivity|].
    exfalso. unfold Beqb, SpecFloat.SFeqb in E. cbn in E. destruct s; discriminate.
  - split; [apply strictly; auto|]. split; [apply strictly; auto|].
    split; [apply strictly; auto; apply fcap_sorted; auto|].
    split; [auto|]. split; [auto|]. split; [auto|].
    assert (LE : forall l, Forall fin l -> Forall (fle m) l -> Forall (fun w => Bleb m w = true) l).
    { intros l A B. rewrite Forall_forall in *. intros x I. rewrite Bleb_correct by (apply Hm || apply A; auto).
      apply Rle_bool_true. apply B, I. }
    split; [apply LE; auto|]. split; [apply LE; auto|]. split; [|repeat split; congruence].
    revert C1 U1 C2. generalize (fcap (fincreasing (fclamp m tw)) (fincreasing (fclamp m fw))).
    generalize (fincreasing (fclamp m tw)). clear. intros t f A B H.
    induction H as [|x y l l' H _ IH]; constructor; inversion A; inversion B; subst; auto.
    rewrite Bleb_correct by auto. apply Rle_bool_true. exact H.
Qed.
Print Assumptions C01_requirements_hold_in_binary64.

Lemma fsweep_bound l : forall p k, (0 <= k)%Z -> small k p -> Forall (small 0) l ->
  (k + Z.of_nat (length l) <= 2 ^ 49)%Z ->
  forall i r, nth_error (fsweep p l) i = Some r ->
    B2R r <= B2R p + INR (S i) * bpow radix2 (-8) \/
    exists j x, (j <= i)%nat /\ nth_error l j = Some x /\ B2R r <= B2R x + INR (i - j) * bpow radix2 (-8).
Proof.
  induction l as [|x l IH]; intros p k Hk Hp Hl Hn i r E; [destruct i; discriminate|].
  destruct (fsweep_ok (x :: l) p k Hk Hp Hl Hn) as (_ & _ & _ & Q).
  inversion Hl as [|? ? Hx Hl']; subst. cbn [length] in Hn. rewrite Nat2Z.inj_succ in Hn.
  cbn [fsweep] in *. set (x' := if Bleb x p then fadd p milli else x) in *.
  assert (S1 : small (k + 1) x').
  { specialize (Q O x' eq_refl). rewrite Z.add_0_r in Q. exact Q. }
  assert (S2 : B2R x' <= B2R p + bpow radix2 (-8) \/ x' = x).
  { unfold x'. destruct (Bleb x p); [left|right; reflexivity].
    destruct (add_milli p) as [_ [_ U]]; [apply Hp|apply (small_room k); [lia|exact Hp]|exact U]. }
  assert (P8 : 0 < bpow radix2 (-8)) by apply bpow_gt_0.
  destruct i as [|i]; cbn [nth_error] in E.
  - injection E as <-. destruct S2 as [S2| ->].
    + left. change (INR 1) with 1. lra.
    + right. exists O, x. split; [lia|]. split; [reflexivity|]. cbn. lra.
  - destruct (IH x' (k + 1)%Z) with (i := i) (r := r) as [B|(j & y & Hj & Ej & B)]; auto; try lia.
    + rewrite !S_INR in *. destruct S2 as [S2|S2]; [left; lra|right].
      exists O, x. split; [lia|]. split; [reflexivity|]. rewrite Nat.sub_0_r, S_INR, <- S2. exact B.
    + right. exists (S j), y. split; [lia|]. split; [exact Ej|exact B].
Qed.

(** C02 in binary64: the repaired column increases strictly, the repair only
    raises values, and row [i] exceeds some earlier (or the same) original
    value [x] of row [j] by at most [i - j] times 2 ^ -8. *)
Theorem C02_repair_in_binary64 :
  forall l : list f64, Forall (small 0) l -> (Z.of_nat (length l) <= 2 ^ 49)%Z ->
    fincreasing_strictly (fincreasing l) /\ Forall2 fle l (fincreasing l) /\
    (forall i r, nth_error (fincreasing l) i = Some r ->
       exists j x, (j <= i)%nat /\ nth_error l j = Some x /\ B2R r <= B2R x + INR (i - j) * bpow radix2 (-8)).
Proof.
  intros l H L. destruct (fincreasing_ok l H L) as (A & B & C). split; [apply strictly; auto|].
  split; [exact C|]. destruct l as [|p l]; intros [|i] r E; try discriminate; cbn [fincreasing nth_error] in E.
  - injection E as <-. exists O, p. split; [lia|]. split; [reflexivity|]. cbn. lra.
  - inversion H as [|? ? Hp Hl]; subst. cbn [length] in L. rewrite Nat2Z.inj_succ in L.
    destruct (fsweep_bound l p 0) with (i := i) (r := r) as [D|(j & y & Hj & Ej & D)]; auto; try lia.
    + exists O, p. split; [lia|]. split; [reflexivity|]. rewrite Nat.sub_0_r. exact D.
    + exists (S j), y. split; [lia|]. split; [exact Ej|exact D].
Qed.
Print Assumptions C02_repair_in_binary64.

(** The bound is needed: from 2 ^ 45 on adding 0.001 has no effect. *)
Example C02_large_numbers_case :
  let x : f64 := @B754_finite 53 1024 false (2 ^ 52)%positive (-7) eq_refl in
  map B2SF (fincreasing [x; x]) = map B2SF [x; x].
Proof. vm_compute. reflexivity. Qed.
Example C01_binary64_case :
  match frequirements milli [fzero; fzero] [fzero; milli] [milli; milli] with
  | Ok (z, tw, fw) => map B2SF z = map B2SF [fzero; milli] /\ length tw = 2%nat /\ fincreasing_strictly z
  | Raise _ => False
  end.
Proof.
  cbn. split; [reflexivity|]. split; [reflexivity|].
  intros [|[|[|i]]] [|[|[|j]]] a b H Ea Eb; try lia; try discriminate; cbn in *.
  injection Ea as <-. injection Eb as <-. reflexivity.
Qed.
