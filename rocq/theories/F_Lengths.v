(** The lengths of the cross-sections of a branch in binary64 arithmetic (Flocq),
    theorems for C51, C52 and C53 with rounding.

    Same code as [half_distances], [keep_lengths] and [remove_point] in
    M_Network.v, utils.py 210, 357-365 and 296-322, with IEEE 754 operations that
    round to nearest.  Python's sum adds up from left to right: the values are
    numpy floats, for which it does not correct the rounding. *)
From Coq Require Import String ZArith Reals List Bool Lia Lra Psatz.
From Flocq Require Import Core.Core Plus_error Relative IEEE754.BinarySingleNaN.
From Verif Require Import PyBase Text L_Network M_Network F_Require F_Volumes F_Arange F_Mean.
Import ListNotations.
Local Open Scope R_scope.

(** utils.py 210: np.append(np.diff(off) / 2, [0]) + np.append([0], np.diff(off) / 2) *)
Fixpoint fdiff (l : list f64) : list f64 :=
  match l with
  | a :: ((b :: _) as l') => fsub b a :: fdiff l'
  | _ => []
  end.
Fixpoint fadd_all (l m : list f64) : list f64 :=
  match l, m with
  | x :: l', y :: m' => fadd x y :: fadd_all l' m'
  | _, _ => []
  end.
Definition flengths (off : list f64) : list f64 :=
  let h := map (fun d => fdiv d ftwo) (fdiff off) in
  fadd_all (h ++ [fzero]) (fzero :: h).

(** sum(l) *)
Definition ftotal_of (l : list f64) : f64 := fold_left fadd l fzero.

(** utils.py 357-365: the lengths after a rule. *)
Definition fkeep_lengths (rule : text) (l : list f64) : option (list f64) :=
  if teqb rule (T "onlyedges") then Some [fdiv (ftotal_of l) ftwo; fdiv (ftotal_of l) ftwo]
  else if teqb rule (T "ignoreedges") then
    Some (ftotal_of (slice_to 2 l) :: py_slice 2 (-2) l ++ [ftotal_of (slice_from (-2) l)])
  else if teqb rule (T "ignorelast") then Some (slice_to (-2) l ++ [ftotal_of (slice_from (-2) l)])
  else if teqb rule (T "ignorefirst") then Some (ftotal_of (slice_to 2 l) :: slice_from 2 l)
  else if teqb rule (T "onlyfirst") then Some [ftotal_of l]
  else if teqb rule (T "onlylast") then Some [ftotal_of l]
  else if teqb rule (T "norule") then Some l
  else None.

(** utils.py 296-322: the lengths after the removal of point [k]. *)
Definition fremove_length (l : list f64) (k : nat) : option (list f64) :=
  if Nat.eqb k 0 then fkeep_lengths (T "ignorefirst") l
  else if Nat.eqb (S k) (length l) then fkeep_lengths (T "ignorelast") l
  else
    match firstn (k - 1) l, skipn (k - 1) l with
    | before, a :: x :: c :: after =>
        Some (before ++ fadd a (fdiv x ftwo) :: fadd c (fdiv x ftwo) :: after)
    | _, _ => None
    end.

(** The exact sum. *)
Definition Rsum (l : list f64) : R := fold_right (fun x s => B2R x + s) 0 l.
Lemma Rsum_cons x l : Rsum (x :: l) = B2R x + Rsum l.
Proof. reflexivity. Qed.
Lemma Rsum_app l m : Rsum (l ++ m) = Rsum l + Rsum m.
Proof.
  induction l as [|x l IH]; cbn [app]; [change (Rsum []) with 0; ring|]. rewrite !Rsum_cons, IH. ring.
Qed.

(** * After [k] roundings *)

Definition near (k : nat) (a b : R) : Prop := b * (1 - v) ^ k <= a <= b * (1 + v) ^ k.

Lemma near_refl a : near 0 a a.
Proof. unfold near. cbn. lra. Qed.
Lemma near_add k a b c d : near k a b -> near k c d -> near k (a + c) (b + d).
Proof. unfold near. intros. lra. Qed.
Lemma near_le j k a b : (j <= k)%nat -> 0 <= b -> near j a b -> near k a b.
Proof.
  unfold near. intros H B N. pose proof (pow_low_anti j k H). pose proof (pow_high_mono j k H). nra.
Qed.
Lemma near_trans j k a b c : near j a b -> near k b c -> near (j + k) a c.
Proof.
  unfold near. intros [L1 U1] [L2 U2]. rewrite !pow_add. pose proof (pow_le_1 j). pose proof (pow_ge_1 j).
  split; [apply Rle_trans with (b * (1 - v) ^ j)|apply Rle_trans with (b * (1 + v) ^ j)]; nra.
Qed.
Lemma near_err k a b : (Z.of_nat k <= 65536)%Z -> 0 <= b -> near k a b -> Rabs (a - b) <= INR k * bpow radix2 (-52) * b.
Proof.
  intros K B [L U]. pose proof (bernoulli k). pose proof (bernoulli_up k (small_power k K)). pose proof v_bounds.
  assert (E : bpow radix2 (-52) = 2 * v) by (unfold v; change (-52)%Z with (1 + -53)%Z; rewrite bpow_plus; reflexivity).
  rewrite E. pose proof (pos_INR k). assert (0 <= INR k * v) by (apply Rmult_le_pos; lra).
  apply Rabs_le. split; nra.
Qed.
Lemma near_bound k a b : (Z.of_nat k <= 65536)%Z -> 0 <= b -> near k a b -> 0 <= a <= 2 * b.
Proof.
  intros K B [L U]. pose proof (pow_le_1 k). pose proof (bernoulli_up k (small_power k K)). pose proof (small_power k K).
  split; [apply Rle_trans with (b * (1 - v) ^ k); [apply Rmult_le_pos; lra|lra]|nra].
Qed.

(** * Operations *)

Definition limit : R := bpow radix2 900.
Definition tiny : R := bpow radix2 (-1000).

Lemma rnd_of_sum x y : generic_format radix2 fexp64 x -> generic_format radix2 fexp64 y -> 0 <= x + y ->
  near 1 (rnd (x + y)) (x + y).
Proof.
  intros Fx Fy P.
  destruct (FLT_plus_error_N_ex radix2 (-1074) 53 (fun x => negb (Z.even x)) x y Fx Fy) as (e & B & E).
  change (FLT_exp (-1074) 53) with fexp64 in E. fold ZnearestE in E. rewrite E.
  assert (B' : Rabs e <= v).
  { eapply Rle_trans; [exact B|]. eapply Rle_trans; [apply (u_rod1pu_ro_le_u_ro radix2 53)|]. unfold u_ro, v.
    pose proof (bpow_plus radix2 1 (-53)) as E1. change (bpow radix2 1) with 2 in E1. change (1 + -53)%Z with (- (53) + 1)%Z in E1.
    rewrite E1. apply Req_le. field. }
  apply Rabs_le_inv in B'. unfold near. rewrite !pow_1. split; apply Rmult_le_compat_l; lra.
Qed.

Lemma fadd_near x y : fin x -> fin y -> 0 <= B2R x -> 0 <= B2R y -> B2R x + B2R y <= limit ->
  fin (fadd x y) /\ near 1 (B2R (fadd x y)) (B2R x + B2R y) /\ B2R x <= B2R (fadd x y) /\ B2R y <= B2R (fadd x y).
Proof.
  intros Fx Fy Px Py L. destruct (fadd_rounds x y Fx Fy) as [R _].
  destruct R as [F E]; [apply (rnd_small 900); [lia|]; rewrite Rabs_pos_eq by lra; exact L|].
  split; [exact F|]. rewrite E. split.
  - apply rnd_of_sum; [apply generic_format_B2R|apply generic_format_B2R|lra].
  - split; [rewrite <- (rnd_id x Fx) at 1|rewrite <- (rnd_id y Fy) at 1]; apply rnd_mono; lra.
Qed.

Lemma fsub_near x y : fin x -> fin y -> 0 <= B2R x - B2R y <= limit ->
  fin (fsub x y) /\ near 1 (B2R (fsub x y)) (B2R x - B2R y) /\ 0 <= B2R (fsub x y).
Proof.
  intros Fx Fy [P L]. destruct (fsub_rounds x y Fx Fy) as [R _].
  destruct R as [F E]; [apply (rnd_small 900); [lia|]; rewrite Rabs_pos_eq by lra; exact L|].
  split; [exact F|]. rewrite E. split.
  - apply (rnd_of_sum (B2R x) (- B2R y)); [apply generic_format_B2R|apply generic_format_opp, generic_format_B2R|lra].
  - rewrite <- rnd_0. apply rnd_mono. lra.
Qed.

Lemma half_ok x : fin x -> 0 <= B2R x <= limit ->
  fin (fdiv x ftwo) /\ 0 <= B2R (fdiv x ftwo) /\ (tiny <= 2 * B2R x -> near 1 (B2R (fdiv x ftwo)) (B2R x / 2)) /\
  B2R (fdiv x ftwo) <= B2R x.
Proof.
  intros Fx [P L]. destruct (half_rounds x x Fx Fx) as [R _]. cbv beta in R.
  destruct R as [F E]; [apply (rnd_small 900); [lia|]; rewrite Rabs_pos_eq by lra; fold limit; lra|].
  split; [exact F|]. rewrite E. split; [rewrite <- rnd_0; apply rnd_mono; lra|]. split.
  - intro H. unfold near. rewrite !pow_1. apply relative. unfold tiny in H.
    assert (bpow radix2 (-1022) <= bpow radix2 (-1002)) by (apply bpow_le; lia).
    replace (bpow radix2 (-1000)) with (4 * bpow radix2 (-1002)) in H by (change (-1000)%Z with (2 + -1002)%Z; rewrite bpow_plus; reflexivity).
    lra.
  - rewrite <- (rnd_id x Fx) at 2. apply rnd_mono. lra.
Qed.

(** * C53 *)

(** Half the distance to the neighbours on both sides. *)
Definition half_to_both (off : list f64) (i : nat) : R :=
  (if Nat.eqb (S i) (length off) then 0 else (B2R (nth (S i) off fzero) - B2R (nth i off fzero)) / 2) +
  (match i with O => 0 | S j => (B2R (nth i off fzero) - B2R (nth j off fzero)) / 2 end).

Lemma fdiff_length l : length (fdiff l) = (length l - 1)%nat.
Proof.
  induction l as [|a [|b l] IH]; auto. change (fdiff (a :: b :: l)) with (fsub b a :: fdiff (b :: l)).
  cbn [length] in *. rewrite IH. lia.
Qed.
Lemma fdiff_nth l : forall i, (S i < length l)%nat -> nth i (fdiff l) fzero = fsub (nth (S i) l fzero) (nth i l fzero).
Proof.
  induction l as [|a [|b l] IH]; intros i H; [cbn in H; lia|cbn in H; lia|].
  change (fdiff (a :: b :: l)) with (fsub b a :: fdiff (b :: l)). destruct i as [|i]; [reflexivity|].
  cbn [nth]. rewrite IH by (cbn [length] in *; lia). reflexivity.
Qed.
Lemma fadd_all_nth l : forall m i, (i < length l)%nat -> (i < length m)%nat ->
  nth i (fadd_all l m) fzero = fadd (nth i l fzero) (nth i m fzero).
Proof. induction l; intros [|y m] [|i] H1 H2; cbn in *; try lia; auto. apply IHl; lia. Qed.
Lemma fadd_all_length l : forall m, length l = length m -> length (fadd_all l m) = length l.
Proof. induction l; intros [|y m] H; cbn in *; try lia; auto. Qed.

Definition half (d : f64) : f64 := fdiv d ftwo.
Lemma half_zero : half fzero = fzero.
Proof. reflexivity. Qed.

Lemma flengths_length off : off <> [] -> length (flengths off) = length off.
Proof.
  intro N. unfold flengths. rewrite fadd_all_length; rewrite app_length; cbn [length]; rewrite map_length, fdiff_length; [|lia].
  destruct off; [congruence|cbn; lia].
Qed.
Lemma flengths_nth off i : (i < length off)%nat ->
  nth i (flengths off) fzero =
  fadd (if Nat.eqb (S i) (length off) then fzero else half (fsub (nth (S i) off fzero) (nth i off fzero)))
       (match i with O => fzero | S j => half (fsub (nth i off fzero) (nth j off fzero)) end).
Proof.
  intro H. unfold flengths. fold half. set (h := map half (fdiff off)).
  assert (L : length h = (length off - 1)%nat) by (unfold h; rewrite map_length, fdiff_length; reflexivity).
  assert (Nh : forall j, (S j < length off)%nat -> nth j h fzero = half (fsub (nth (S j) off fzero) (nth j off fzero))).
  { intros j Hj. unfold h. rewrite <- half_zero, map_nth, fdiff_nth by exact Hj. reflexivity. }
  rewrite fadd_all_nth by (rewrite ?app_length; cbn [length]; lia). f_equal.
  - destruct (Nat.eqb_spec (S i) (length off)) as [E|E].
    + rewrite app_nth2 by lia. replace (i - length h)%nat with O by lia. reflexivity.
    + rewrite app_nth1 by lia. apply Nh. lia.
  - destruct i as [|j]; [reflexivity|]. cbn [nth]. apply Nh. exact H.
Qed.

Lemma telescope off : off <> [] ->
  fold_right (fun i s => half_to_both off i + s) 0 (seq 0 (length off)) = B2R (last off fzero) - B2R (nth 0 off fzero).
Proof.
  intro N.
  assert (G : forall n, (n < length off)%nat ->
    fold_right (fun i s => half_to_both off i + s) 0 (seq 0 n) =
    (B2R (nth n off fzero) - B2R (nth 0 off fzero)) / 2 +
    (match n with O => 0 | S j => (B2R (nth j off fzero) - B2R (nth 0 off fzero)) / 2 end)).
  { induction n as [|n IH]; intro H; [cbn; lra|].
    rewrite seq_S, fold_right_app. cbn [Nat.add fold_right].
    assert (A : forall l z, fold_right (fun i s => half_to_both off i + s) z l = fold_right (fun i s => half_to_both off i + s) 0 l + z).
    { induction l as [|x l IHl]; intro z; cbn [fold_right]; [lra|]. rewrite (IHl z). lra. }
    rewrite A, IH by lia. unfold half_to_both. destruct (Nat.eqb_spec (S n) (length off)); [lia|].
    destruct n as [|m]; lra. }
  destruct (exists_last N) as (l & x & ->). rewrite app_length. cbn [length]. rewrite Nat.add_1_r, seq_S, fold_right_app.
  cbn [Nat.add fold_right]. rewrite last_last.
  assert (A : forall ll z, fold_right (fun i s => half_to_both (l ++ [x]) i + s) z ll = fold_right (fun i s => half_to_both (l ++ [x]) i + s) 0 ll + z).
  { induction ll as [|y ll IHl]; intro z; cbn [fold_right]; [lra|]. rewrite (IHl z). lra. }
  rewrite A, G by (rewrite app_length; cbn; lia). unfold half_to_both. rewrite app_length. cbn [length].
  rewrite Nat.add_1_r, Nat.eqb_refl.
  assert (X : nth (length l) (l ++ [x]) fzero = x) by (rewrite app_nth2, Nat.sub_diag by lia; reflexivity).
  rewrite X. clear - X. destruct l as [|y l']; [cbn [length app nth]; lra|]. cbn [length] in *. lra.
Qed.

(** An offset: at most 2 ^ 800 metre. *)
Definition offset (x : f64) : Prop := fin x /\ 0 <= B2R x <= bpow radix2 800.

Lemma limits : 4 * bpow radix2 800 <= limit.
Proof.
  unfold limit. replace (4 * bpow radix2 800) with (bpow radix2 802); [apply bpow_le; lia|].
  change 802%Z with (2 + 800)%Z. rewrite bpow_plus. reflexivity.
Qed.

Lemma Rsum_nth l : Rsum l = fold_right (fun i s => B2R (nth i l fzero) + s) 0 (seq 0 (length l)).
Proof.
  assert (G : forall l k m, length m = k -> Rsum l = fold_right (fun i s => B2R (nth i (m ++ l) fzero) + s) 0 (seq k (length l))).
  { clear l. induction l as [|x l IH]; intros k m E; [reflexivity|]. cbn [length seq fold_right]. rewrite Rsum_cons.
    rewrite app_nth2, E, Nat.sub_diag by lia. cbn [nth]. f_equal.
    rewrite (IH (S k) (m ++ [x])) by (rewrite app_length; cbn; lia). rewrite <- app_assoc. reflexivity. }
  apply (G l O []). reflexivity.
Qed.

Lemma lengths_near :
  forall off : list f64,
    off <> [] -> Forall offset off ->
    (forall i, (S i < length off)%nat -> B2R (nth i off fzero) <= B2R (nth (S i) off fzero)) ->
    let l := flengths off in
    length l = length off /\ Forall (fun x => fin x /\ 0 <= B2R x) l /\
    ((forall i, (S i < length off)%nat -> B2R (nth i off fzero) + bpow radix2 (-990) <= B2R (nth (S i) off fzero)) ->
     (forall i, (i < length off)%nat ->
        0 <= half_to_both off i /\ near 3 (B2R (nth i l fzero)) (half_to_both off i)) /\
     0 <= B2R (last off fzero) - B2R (nth 0 off fzero) /\
     near 3 (Rsum l) (B2R (last off fzero) - B2R (nth 0 off fzero)) /\
     ((2 <= length off)%nat -> Forall (fun x => tiny <= B2R x) l)).
Proof.
  intros off N O M l. split; [apply flengths_length; exact N|].
  pose proof limits as Lim. rewrite Forall_forall in O.
  assert (On : forall i, (i < length off)%nat -> offset (nth i off fzero)) by (intros i H; apply O, nth_In; exact H).
  (* one step *)
  assert (St : forall i, (S i < length off)%nat ->
    let d := B2R (nth (S i) off fzero) - B2R (nth i off fzero) in
    let h := half (fsub (nth (S i) off fzero) (nth i off fzero)) in
    0 <= d <= bpow radix2 800 /\ fin h /\ 0 <= B2R h <= 2 * bpow radix2 800 /\
    (bpow radix2 (-990) <= d -> near 2 (B2R h) (d / 2))).
  { intros i H d h. destruct (On (S i) H) as [F1 B1]. destruct (On i ltac:(lia)) as [F0 B0]. specialize (M i H).
    assert (D : 0 <= d <= bpow radix2 800) by (unfold d; lra). split; [exact D|].
    destruct (fsub_near (nth (S i) off fzero) (nth i off fzero) F1 F0) as (Fs & Ns & Ps); [fold d; pose proof (bpow_gt_0 radix2 800); lra|].
    fold d in Ns. set (s := fsub (nth (S i) off fzero) (nth i off fzero)) in *.
    assert (Bs : 0 <= B2R s <= 2 * d) by (apply (near_bound 1); [lia|lra|exact Ns]).
    destruct (half_ok s Fs ltac:(pose proof (bpow_gt_0 radix2 800); lra)) as (Fh & Ph & Nh & Lh).
    fold (half s) in Fh, Ph, Nh, Lh. fold h in Fh, Ph, Nh, Lh.
    split; [exact Fh|]. split; [lra|]. intro Sp. apply (near_trans 1 1 _ (B2R s / 2)).
    - apply Nh. destruct Ns as [Ls _]. rewrite pow_1 in Ls. pose proof v_bounds.
      assert (tiny <= bpow radix2 (-990)) by (apply bpow_le; lia). pose proof (bpow_gt_0 radix2 (-990)). nra.
    - destruct Ns as [Ls Us]. unfold near. rewrite !pow_1 in *. lra. }
  assert (St1 : forall i, (i < length off)%nat ->
    let a := if Nat.eqb (S i) (length off) then fzero else half (fsub (nth (S i) off fzero) (nth i off fzero)) in
    let b := match i with O => fzero | S j => half (fsub (nth i off fzero) (nth j off fzero)) end in
    fin a /\ fin b /\ 0 <= B2R a <= 2 * bpow radix2 800 /\ 0 <= B2R b <= 2 * bpow radix2 800 /\ 0 <= half_to_both off i /\
    ((forall i, (S i < length off)%nat -> B2R (nth i off fzero) + bpow radix2 (-990) <= B2R (nth (S i) off fzero)) ->
     near 2 (B2R a + B2R b) (half_to_both off i))).
  { intros i H a b.
    assert (Z : fin fzero /\ 0 <= B2R fzero <= 2 * bpow radix2 800 /\ near 2 (B2R fzero) 0).
    { pose proof (bpow_gt_0 radix2 800). split; [reflexivity|]. cbn [B2R fzero]. unfold near. lra. }
    assert (A : fin a /\ 0 <= B2R a <= 2 * bpow radix2 800 /\
      let e := (if Nat.eqb (S i) (length off) then 0 else (B2R (nth (S i) off fzero) - B2R (nth i off fzero)) / 2) in
      0 <= e /\ ((forall i, (S i < length off)%nat -> B2R (nth i off fzero) + bpow radix2 (-990) <= B2R (nth (S i) off fzero)) -> near 2 (B2R a) e)).
    { unfold a. destruct (Nat.eqb_spec (S i) (length off)) as [E|E].
      - destruct Z as (Z1 & Z2 & Z3). split; [exact Z1|]. split; [exact Z2|]. split; [lra|]. intros _. exact Z3.
      - destruct (St i ltac:(lia)) as (D & F & B & Nr). split; [exact F|]. split; [exact B|]. split; [lra|].
        intro Sp. apply Nr. specialize (Sp i ltac:(lia)). lra. }
    assert (Bb : fin b /\ 0 <= B2R b <= 2 * bpow radix2 800 /\
      let e := (match i with O => 0 | S j => (B2R (nth i off fzero) - B2R (nth j off fzero)) / 2 end) in
      0 <= e /\ ((forall i, (S i < length off)%nat -> B2R (nth i off fzero) + bpow radix2 (-990) <= B2R (nth (S i) off fzero)) -> near 2 (B2R b) e)).
    { unfold b. destruct i as [|j].
      - destruct Z as (Z1 & Z2 & Z3). split; [exact Z1|]. split; [exact Z2|]. split; [lra|]. intros _. exact Z3.
      - destruct (St j ltac:(lia)) as (D & F & B & Nr). split; [exact F|]. split; [exact B|]. split; [lra|].
        intro Sp. apply Nr. specialize (Sp j ltac:(lia)). lra. }
    destruct A as (Fa & Ba & Ea & Na). destruct Bb as (Fb & Bb & Eb & Nb).
    split; [exact Fa|]. split; [exact Fb|]. split; [exact Ba|]. split; [exact Bb|]. unfold half_to_both. split; [lra|].
    intro Sp. apply near_add; auto. }
  assert (Ln : forall i, (i < length off)%nat ->
    fin (nth i l fzero) /\ 0 <= B2R (nth i l fzero) /\ 0 <= half_to_both off i /\
    ((forall i, (S i < length off)%nat -> B2R (nth i off fzero) + bpow radix2 (-990) <= B2R (nth (S i) off fzero)) ->
     near 3 (B2R (nth i l fzero)) (half_to_both off i))).
  { intros i H. unfold l. rewrite flengths_nth by exact H. destruct (St1 i H) as (Fa & Fb & Ba & Bb & Eh & Nr).
    destruct (fadd_near _ _ Fa Fb ltac:(lra) ltac:(lra) ltac:(lra)) as (F & N1 & L1 & _).
    split; [exact F|]. split; [lra|]. split; [exact Eh|]. intro Sp. apply (near_trans 1 2 _ _ _ N1). apply Nr, Sp. }
  assert (Ll : length l = length off) by (apply flengths_length; exact N).
  split.
  { apply Forall_forall. intros x I. apply (In_nth _ _ fzero) in I. destruct I as (i & Hi & <-). rewrite Ll in Hi.
    destruct (Ln i Hi) as (F & P & _). auto. }
  intro Sp. split; [|apply and_assoc; split].
  - intros i H. destruct (Ln i H) as (_ & _ & P & Nr). auto.
  - rewrite <- telescope by exact N. rewrite Rsum_nth, Ll.
    assert (G : forall s, Forall (fun i => (i < length off)%nat) s ->
      0 <= fold_right (fun i s => half_to_both off i + s) 0 s /\
      near 3 (fold_right (fun i s => B2R (nth i l fzero) + s) 0 s) (fold_right (fun i s => half_to_both off i + s) 0 s)).
    { induction 1 as [|i s Hi Hs [P IH]]; cbn [fold_right]; [split; [lra|unfold near; lra]|].
      destruct (Ln i Hi) as (_ & _ & Ph & Nr). split; [lra|]. apply near_add; auto. }
    destruct (G (seq 0 (length off))) as [P Nr]; [apply Forall_forall; intros i I; apply in_seq in I; lia|].
    split; [exact P|exact Nr].
  - intro L2. apply Forall_forall. intros x I. apply (In_nth _ _ fzero) in I. destruct I as (i & Hi & <-). rewrite Ll in Hi.
    destruct (Ln i Hi) as (_ & _ & _ & Nr). destruct (Nr Sp) as [Lo _].
    assert (H2 : bpow radix2 (-990) / 2 <= half_to_both off i).
    { unfold half_to_both. pose proof (bpow_gt_0 radix2 (-990)). destruct (Nat.eqb_spec (S i) (length off)) as [E|E].
      - destruct i as [|j]; [lia|]. specialize (Sp j ltac:(lia)). lra.
      - pose proof (Sp i ltac:(lia)). destruct i as [|j]; [lra|]. specialize (Sp j ltac:(lia)). lra. }
    pose proof (bernoulli 3) as Be. pose proof v_bounds. cbn [INR] in Be.
    assert (tiny <= bpow radix2 (-990) / 4).
    { unfold tiny. replace (bpow radix2 (-990) / 4) with (bpow radix2 (-992)); [apply bpow_le; lia|].
      change (-990)%Z with (2 + -992)%Z. rewrite (bpow_plus radix2 2 (-992)). change (bpow radix2 2) with 4. lra. }
    pose proof (bpow_gt_0 radix2 (-990)). nra.
Qed.
(** C53 in binary64.  The lengths are finite and not negative.  When points are
    at least 2 ^ -990 metre apart, each length is half the distance to both
    neighbours up to 3 units of 2 ^ -52 (relative), and so is their exact sum to
    the distance between the first and the last point. *)
Theorem C53_lengths_in_binary64 :
  forall off : list f64,
    off <> [] -> Forall offset off ->
    (forall i, (S i < length off)%nat -> B2R (nth i off fzero) <= B2R (nth (S i) off fzero)) ->
    let l := flengths off in
    length l = length off /\ Forall (fun x => fin x /\ 0 <= B2R x) l /\
    ((forall i, (S i < length off)%nat -> B2R (nth i off fzero) + bpow radix2 (-990) <= B2R (nth (S i) off fzero)) ->
     (forall i, (i < length off)%nat ->
        Rabs (B2R (nth i l fzero) - half_to_both off i) <= 3 * bpow radix2 (-52) * half_to_both off i) /\
     Rabs (Rsum l - (B2R (last off fzero) - B2R (nth 0 off fzero))) <=
       3 * bpow radix2 (-52) * (B2R (last off fzero) - B2R (nth 0 off fzero)) /\
     ((2 <= length off)%nat -> Forall (fun x => tiny <= B2R x) l)).
Proof.
  intros off N O M l. destruct (lengths_near off N O M) as (A & B & C). fold l in A, B, C. split; [exact A|]. split; [exact B|].
  intro Sp. destruct (C Sp) as (C1 & P & C2 & C3). split; [|split; [|exact C3]].
  - intros i H. destruct (C1 i H) as [Ph Nr]. replace 3 with (INR 3) by (cbn; lra). apply near_err; [lia|exact Ph|exact Nr].
  - replace 3 with (INR 3) by (cbn; lra). apply near_err; [lia|exact P|exact C2].
Qed.
Print Assumptions C53_lengths_in_binary64.

(** * C51 and C52 *)

(** A length: finite and at least 2 ^ -1000 metre. *)
Definition long (x : f64) : Prop := fin x /\ tiny <= B2R x.
Lemma tiny_pos : 0 < tiny.
Proof. apply bpow_gt_0. Qed.
Lemma Rsum_pos l : Forall long l -> 0 <= Rsum l.
Proof.
  induction 1 as [|x l [_ T] H IH]; [cbn; lra|]. rewrite Rsum_cons. pose proof tiny_pos. lra.
Qed.
Lemma long_le x l : Forall long l -> In x l -> B2R x <= Rsum l.
Proof.
  induction 1 as [|y l [Fy Ty] H IH]; [intros []|]. rewrite Rsum_cons. pose proof tiny_pos. pose proof (Rsum_pos l H).
  intros [->|I]; [lra|]. specialize (IH I). lra.
Qed.

(** The sum from left to right. *)
Lemma fold_near l : forall acc s k, fin acc -> 0 <= s -> near k (B2R acc) s -> Forall long l ->
  s + Rsum l <= 2 * bpow radix2 800 -> (Z.of_nat (k + length l) <= 65536)%Z ->
  fin (fold_left fadd l acc) /\ near (k + length l) (B2R (fold_left fadd l acc)) (s + Rsum l) /\
  B2R acc <= B2R (fold_left fadd l acc) /\ Forall (fun x => B2R x <= B2R (fold_left fadd l acc)) l.
Proof.
  pose proof limits as Lim. pose proof tiny_pos as T0.
  induction l as [|x l IH]; intros acc s k Fa Ps N Fl B K; cbn [fold_left length].
  - rewrite Nat.add_0_r. change (Rsum []) with 0. rewrite Rplus_0_r. split; [exact Fa|]. split; [exact N|]. split; [lra|constructor].
  - inversion Fl as [|? ? [Fx Tx] Fl']; subst. cbn [length] in K. rewrite Rsum_cons in *. pose proof (Rsum_pos l Fl') as Pl.
    assert (N' : near k (B2R acc + B2R x) (s + B2R x)).
    { apply near_add; [exact N|]. apply (near_le 0); [lia|lra|apply near_refl]. }
    assert (Ba : 0 <= B2R acc <= 2 * s) by (apply (near_bound k); [lia|exact Ps|exact N]).
    assert (Bx : 0 <= B2R acc + B2R x <= 2 * (s + B2R x)) by (apply (near_bound k); [lia|lra|exact N']).
    destruct (fadd_near acc x Fa Fx ltac:(lra) ltac:(lra) ltac:(lra)) as (Fs & Ns & La & Lx).
    destruct (IH (fadd acc x) (s + B2R x) (S k)) as (F & Nr & Lr & Al); auto; try lra; try lia.
    { apply (near_trans 1 k _ _ _ Ns N'). }
    split; [exact F|]. split; [|split; [lra|constructor; [lra|exact Al]]].
    replace (k + S (length l))%nat with (S k + length l)%nat by lia. replace (s + (B2R x + Rsum l)) with (s + B2R x + Rsum l) by ring. exact Nr.
Qed.

Lemma ftotal_near l : l <> [] -> Forall long l -> Rsum l <= 2 * bpow radix2 800 -> (Z.of_nat (length l) <= 65536)%Z ->
  long (ftotal_of l) /\ near (length l) (B2R (ftotal_of l)) (Rsum l).
Proof.
  intros N Fl B K. destruct (fold_near l fzero 0 0) as (F & Nr & _ & Al); auto; try lra; try reflexivity.
  { unfold near. cbn. lra. }
  fold (ftotal_of l) in F, Nr, Al. rewrite Rplus_0_l in Nr. split; [|exact Nr]. split; [exact F|].
  destruct l as [|x l]; [congruence|]. inversion Fl as [|? ? [_ Tx] _]; subst. inversion Al; subst. lra.
Qed.

(** A list of lengths and what becomes of it. *)
Definition conserved (k : nat) (l l' : list f64) : Prop := Forall long l' /\ near k (Rsum l') (Rsum l).

Lemma near_self k l : Forall long l -> near k (Rsum l) (Rsum l).
Proof. intro H. apply (near_le 0); [lia|apply Rsum_pos; exact H|apply near_refl]. Qed.

Lemma two_parts a b : a ++ b <> [] -> Forall long (a ++ b) -> Rsum (a ++ b) <= 2 * bpow radix2 800 ->
  (Z.of_nat (length (a ++ b)) <= 65536)%Z ->
  (a <> [] -> conserved (length a) (a ++ b) (ftotal_of a :: b)) /\
  (b <> [] -> conserved (length b) (a ++ b) (a ++ [ftotal_of b])).
Proof.
  intros _ F B K. apply Forall_app in F. destruct F as [Fa Fb]. rewrite Rsum_app, app_length in *.
  pose proof (Rsum_pos a Fa). pose proof (Rsum_pos b Fb). split; intro N.
  - destruct (ftotal_near a N Fa ltac:(lra) ltac:(lia)) as [L Nr]. split; [constructor; auto|].
    rewrite Rsum_cons, Rsum_app. apply near_add; [exact Nr|apply near_self; exact Fb].
  - destruct (ftotal_near b N Fb ltac:(lra) ltac:(lia)) as [L Nr]. split; [apply Forall_app; split; auto|].
    rewrite !Rsum_app, Rsum_cons. change (Rsum []) with 0. rewrite Rplus_0_r.
    apply near_add; [apply near_self; exact Fa|exact Nr].
Qed.

Lemma half_long_sum s : fin s -> 2 * tiny <= B2R s <= limit ->
  long (half s) /\ near 1 (B2R (half s)) (B2R s / 2).
Proof.
  intros F [L U]. pose proof tiny_pos. destruct (half_ok s F ltac:(lra)) as (Fh & Ph & Nh & _). specialize (Nh ltac:(lra)).
  split; [|exact Nh]. split; [exact Fh|]. destruct (half_rounds s s F F) as [R _]. cbv beta in R.
  destruct R as [_ E]; [apply (rnd_small 900); [lia|]; rewrite Rabs_pos_eq by lra; fold limit; lra|].
  unfold half. rewrite E. unfold tiny.
  replace (bpow radix2 (-1000)) with (rnd (bpow radix2 (-1000))).
  - apply rnd_mono. fold tiny. lra.
  - apply round_generic; [typeclasses eauto|]. apply generic_format_bpow. unfold SpecFloat.fexp, SpecFloat.emin. lia.
Qed.

Lemma fkeep_near (rule : text) (l : list f64) :
  In rule rule_names -> (4 <= length l)%nat -> (Z.of_nat (length l) <= 65535)%Z ->
  Forall long l -> Rsum l <= 2 * bpow radix2 800 ->
  exists l', fkeep_lengths rule l = Some l' /\ length l' = length (kept rule (length l)) /\ conserved (length l + 1) l l'.
Proof.
  intros H L4 K F B. pose proof limits as Lim. pose proof (bpow_gt_0 radix2 800) as P8. pose proof tiny_pos as T0.
  pose proof (Rsum_pos l F) as Pl.
  assert (Ne : l <> []) by (destruct l; [cbn in L4; lia|discriminate]).
  destruct (ftotal_near l Ne F ltac:(lra) ltac:(lia)) as [Lt Nt].
  on_rules H; unfold fkeep_lengths, kept; same_name; eexists; (split; [reflexivity|]); rewrite ?seq_length.
  - split; [reflexivity|]. split; [exact F|]. apply near_self, F.
  - split; [reflexivity|].
    assert (T2 : 2 * tiny <= B2R (ftotal_of l)).
    { destruct l as [|x [|y m]]; cbn in L4; try lia.
      inversion F as [|? ? [Fx Tx] F1]; subst. inversion F1 as [|? ? [Fy Ty] F2]; subst.
      rewrite !Rsum_cons in *. pose proof (Rsum_pos m F2).
      assert (X1 : 2 * tiny <= B2R (fadd x y)).
      { destruct (fadd_rounds x y Fx Fy) as [R _].
        destruct R as [_ E]; [apply (rnd_small 900); [lia|]; rewrite Rabs_pos_eq by lra; fold limit; lra|]. rewrite E.
        replace (2 * tiny) with (rnd (bpow radix2 (-999))).
        - apply rnd_mono. replace (bpow radix2 (-999)) with (2 * tiny) by (unfold tiny; exact (eq_sym (bpow_plus radix2 1 (-1000)))). lra.
        - rewrite round_generic; [exact (bpow_plus radix2 1 (-1000))|typeclasses eauto|].
          apply generic_format_bpow. unfold SpecFloat.fexp, SpecFloat.emin. lia. }
      unfold ftotal_of. cbn [fold_left].
      assert (Z0 : B2R (fadd fzero x) = B2R x).
      { destruct (fadd_rounds fzero x eq_refl Fx) as [R _]. change (B2R fzero) with 0 in R. rewrite Rplus_0_l, rnd_id in R by exact Fx.
        apply R. apply abs_B2R_lt_emax. }
      assert (Fz : fin (fadd fzero x)).
      { destruct (fadd_near fzero x eq_refl Fx) as [G _]; cbn [B2R fzero]; try lra. exact G. }
      destruct (fadd_near (fadd fzero x) y Fz Fy) as (Fs & Ns & _); [lra|lra|rewrite Z0; lra|]. rewrite Z0 in Ns.
      assert (Same : B2R (fadd (fadd fzero x) y) = B2R (fadd x y)).
      { destruct (fadd_rounds x y Fx Fy) as [R _]. destruct R as [_ E]; [apply (rnd_small 900); [lia|]; rewrite Rabs_pos_eq by lra; fold limit; lra|].
        destruct (fadd_rounds (fadd fzero x) y Fz Fy) as [R' _]. rewrite Z0 in R'.
        destruct R' as [_ E']; [apply (rnd_small 900); [lia|]; rewrite Rabs_pos_eq by lra; fold limit; lra|]. congruence. }
      destruct (fold_near m (fadd (fadd fzero x) y) (B2R x + B2R y) 1) as (_ & _ & La & _); auto; try lra. cbn [length] in K. lia. }
    assert (Bt : 0 <= B2R (ftotal_of l) <= 2 * Rsum l) by (apply (near_bound (length l)); [lia|exact Pl|exact Nt]).
    destruct (half_long_sum (ftotal_of l) (proj1 Lt) ltac:(lra)) as [Lh Nh]. fold (half (ftotal_of l)).
    split; [constructor; [exact Lh|constructor; [exact Lh|constructor]]|]. rewrite !Rsum_cons. change (Rsum []) with 0.
    rewrite Nat.add_comm. apply (near_trans 1 (length l) _ (B2R (ftotal_of l))); [|exact Nt].
    destruct Nh as [N1 N2]. rewrite !pow_1 in *. unfold near. rewrite !pow_1. lra.
  - unfold slice_to, slice_from, py_slice. change (-2)%Z with (- (2))%Z.
    rewrite !slice_bound_neg, !slice_bound_pos by lia. change (Z.to_nat 2) with 2%nat. rewrite Nat.min_r by lia.
    split; [cbn [length]; rewrite app_length, firstn_length, skipn_length; cbn [length]; lia|].
    assert (E2 : skipn 2 l = firstn (length l - 2 - 2) (skipn 2 l) ++ skipn (length l - 2) l).
    { rewrite <- (firstn_skipn (length l - 2 - 2) (skipn 2 l)) at 1. f_equal. rewrite skipn_add. f_equal. lia. }
    set (p := firstn 2 l). set (m := firstn (length l - 2 - 2) (skipn 2 l)) in *. set (q := skipn (length l - 2) l) in *.
    assert (El : l = p ++ m ++ q) by (rewrite <- E2; symmetry; apply firstn_skipn).
    assert (Lp : length p = 2%nat) by (unfold p; rewrite firstn_length; lia).
    assert (Lq : length q = 2%nat) by (unfold q; rewrite skipn_length; lia).
    rewrite El in F, B. apply Forall_app in F. destruct F as [Fp F]. apply Forall_app in F. destruct F as [Fm Fq].
    rewrite !Rsum_app in B. pose proof (Rsum_pos p Fp). pose proof (Rsum_pos m Fm). pose proof (Rsum_pos q Fq).
    destruct (ftotal_near p) as [Lp' Np]; [destruct p; [discriminate|congruence]|exact Fp|lra|lia|].
    destruct (ftotal_near q) as [Lq' Nq]; [destruct q; [discriminate|congruence]|exact Fq|lra|lia|].
    split; [constructor; [exact Lp'|apply Forall_app; split; [exact Fm|constructor; [exact Lq'|constructor]]]|].
    assert (Hl : (2 <= length l + 1)%nat) by lia.
    replace (Rsum l) with (Rsum p + (Rsum m + Rsum q)) by (rewrite El at 1; rewrite !Rsum_app; reflexivity).
    rewrite !Rsum_cons, !Rsum_app, Rsum_cons. change (Rsum []) with 0. rewrite Rplus_0_r.
    rewrite Lp in Np. rewrite Lq in Nq.
    apply near_add; [apply (near_le 2); auto|]. apply near_add; [apply near_self, Fm|apply (near_le 2); auto].
  - unfold slice_to, slice_from. change (-2)%Z with (- (2))%Z. rewrite !slice_bound_neg by lia. change (Z.to_nat 2) with 2%nat.
    split; [rewrite app_length, firstn_length; cbn [length]; lia|].
    set (p := firstn (length l - 2) l). set (q := skipn (length l - 2) l).
    assert (El : l = p ++ q) by (symmetry; apply firstn_skipn).
    assert (Lq : length q = 2%nat) by (unfold q; rewrite skipn_length; lia).
    destruct (two_parts p q) as [_ C]; try (rewrite <- El; auto; lra || lia).
    destruct C as [C1 C2]; [destruct q; [discriminate|congruence]|]. rewrite <- El in C2. split; [exact C1|].
    apply (near_le (length q)); [lia|exact Pl|exact C2].
  - unfold slice_to, slice_from. rewrite !slice_bound_pos by lia. change (Z.to_nat 2) with 2%nat. rewrite Nat.min_r by lia.
    split; [cbn [length]; rewrite skipn_length; lia|].
    set (p := firstn 2 l). set (q := skipn 2 l).
    assert (El : l = p ++ q) by (symmetry; apply firstn_skipn).
    assert (Lp : length p = 2%nat) by (unfold p; rewrite firstn_length; lia).
    destruct (two_parts p q) as [C _]; try (rewrite <- El; auto; lra || lia).
    destruct C as [C1 C2]; [destruct p; [discriminate|congruence]|]. rewrite <- El in C2. split; [exact C1|].
    apply (near_le (length p)); [lia|exact Pl|exact C2].
  - split; [reflexivity|]. split; [constructor; [exact Lt|constructor]|]. rewrite Rsum_cons. change (Rsum []) with 0. rewrite Rplus_0_r.
    apply (near_le (length l)); [lia|exact Pl|exact Nt].
  - split; [reflexivity|]. split; [constructor; [exact Lt|constructor]|]. rewrite Rsum_cons. change (Rsum []) with 0. rewrite Rplus_0_r.
    apply (near_le (length l)); [lia|exact Pl|exact Nt].
Qed.

(** C51 in binary64.  Every rule gives lengths of at least 2 ^ -1000 metre whose
    exact sum is the old one up to n + 1 units of 2 ^ -52 (relative). *)
Theorem C51_rules_in_binary64 :
  forall (rule : text) (l : list f64),
    In rule rule_names -> (4 <= length l)%nat -> (Z.of_nat (length l) <= 65535)%Z ->
    Forall long l -> Rsum l <= bpow radix2 800 ->
    exists l', fkeep_lengths rule l = Some l' /\ length l' = length (kept rule (length l)) /\ Forall long l' /\
      Rabs (Rsum l' - Rsum l) <= INR (length l + 1) * bpow radix2 (-52) * Rsum l.
Proof.
  intros rule l H L4 K F B. pose proof (bpow_gt_0 radix2 800).
  destruct (fkeep_near rule l H L4 K F ltac:(lra)) as (l' & E & EL & Fl' & Nr).
  exists l'. split; [exact E|]. split; [exact EL|]. split; [exact Fl'|].
  apply near_err; [lia|apply Rsum_pos, F|exact Nr].
Qed.
Print Assumptions C51_rules_in_binary64.

(** Removal of the points of a list of positions, one after the other. *)
Fixpoint fremove_lengths (ks : list nat) (l : list f64) : option (list f64) :=
  match ks with
  | [] => Some l
  | k :: ks' => match fremove_length l k with Some l1 => fremove_lengths ks' l1 | None => None end
  end.

Lemma fremove_near l k : (2 <= length l)%nat -> (k < length l)%nat -> (Z.of_nat (length l) <= 65535)%Z ->
  Forall long l -> Rsum l <= 2 * bpow radix2 800 ->
  exists l', fremove_length l k = Some l' /\ S (length l') = length l /\ conserved 2 l l'.
Proof.
  intros L2 Hk K F B. pose proof limits as Lim. pose proof (bpow_gt_0 radix2 800) as P8. pose proof tiny_pos as T0.
  pose proof (Rsum_pos l F) as Pl. unfold fremove_length.
  assert (Ne : l <> []) by (destruct l; [cbn in L2; lia|discriminate]).
  destruct (Nat.eqb_spec k 0) as [->|K0]; [|destruct (Nat.eqb_spec (S k) (length l)) as [K1|K1]].
  - unfold fkeep_lengths. same_name. eexists. split; [reflexivity|].
    unfold slice_to, slice_from. rewrite !slice_bound_pos by lia. change (Z.to_nat 2) with 2%nat. rewrite Nat.min_r by lia.
    split; [cbn [length]; rewrite skipn_length; lia|].
    set (p := firstn 2 l). set (q := skipn 2 l).
    assert (El : l = p ++ q) by (symmetry; apply firstn_skipn).
    assert (Lp : length p = 2%nat) by (unfold p; rewrite firstn_length; lia).
    destruct (two_parts p q) as [C _]; try (rewrite <- El; auto; lra || lia).
    destruct C as [C1 C2]; [destruct p; [discriminate|congruence]|]. rewrite <- El, Lp in C2. split; [exact C1|exact C2].
  - unfold fkeep_lengths. same_name. eexists. split; [reflexivity|].
    unfold slice_to, slice_from. change (-2)%Z with (- (2))%Z. rewrite !slice_bound_neg by lia. change (Z.to_nat 2) with 2%nat.
    split; [rewrite app_length, firstn_length; cbn [length]; lia|].
    set (p := firstn (length l - 2) l). set (q := skipn (length l - 2) l).
    assert (El : l = p ++ q) by (symmetry; apply firstn_skipn).
    assert (Lq : length q = 2%nat) by (unfold q; rewrite skipn_length; lia).
    destruct (two_parts p q) as [_ C]; try (rewrite <- El; auto; lra || lia).
    destruct C as [C1 C2]; [destruct q; [discriminate|congruence]|]. rewrite <- El, Lq in C2. split; [exact C1|exact C2].
  - set (p := firstn (k - 1) l).
    assert (El : l = p ++ skipn (k - 1) l) by (symmetry; apply firstn_skipn).
    assert (Lq : (3 <= length (skipn (k - 1) l))%nat) by (rewrite skipn_length; lia).
    assert (Lp : length p = (k - 1)%nat) by (unfold p; rewrite firstn_length; lia).
    destruct (skipn (k - 1) l) as [|a [|x [|c q]]]; cbn [length] in Lq; try lia. clearbody p.
    rewrite El in F, B, Pl, K. apply Forall_app in F. destruct F as [Fp F]. inversion F as [|? ? La F1]; subst.
    inversion F1 as [|? ? Lx F2]; subst. inversion F2 as [|? ? Lc Fq]; subst.
    rewrite Rsum_app, !Rsum_cons in B. pose proof (Rsum_pos p Fp). pose proof (Rsum_pos q Fq).
    destruct La as [Fa Ta]. destruct Lx as [Fx Tx]. destruct Lc as [Fc Tc].
    destruct (half_ok x Fx ltac:(lra)) as (Fh & Ph & Nh & Uh). specialize (Nh ltac:(lra)). fold (half x) in *.
    destruct (fadd_near a (half x) Fa Fh ltac:(lra) Ph ltac:(lra)) as (F3 & N3 & G3 & _).
    destruct (fadd_near c (half x) Fc Fh ltac:(lra) Ph ltac:(lra)) as (F4 & N4 & G4 & _).
    eexists. split; [reflexivity|]. split; [rewrite !app_length; cbn [length]; lia|].
    split.
    + apply Forall_app. split; [exact Fp|]. constructor; [split; [exact F3|lra]|]. constructor; [split; [exact F4|lra]|exact Fq].
    + rewrite !Rsum_app, !Rsum_cons.
      replace (Rsum p + (B2R a + (B2R x + (B2R c + Rsum q)))) with (Rsum p + ((B2R a + B2R x / 2) + ((B2R c + B2R x / 2) + Rsum q))) by field.
      apply near_add; [apply near_self, Fp|]. apply near_add; [|apply near_add; [|apply near_self, Fq]].
      * apply (near_trans 1 1 _ _ _ N3). apply near_add; [apply (near_le 0); [lia|lra|apply near_refl]|exact Nh].
      * apply (near_trans 1 1 _ _ _ N4). apply near_add; [apply (near_le 0); [lia|lra|apply near_refl]|exact Nh].
Qed.

(** Positions in decreasing order, all below [n]. *)
Fixpoint falling (n : nat) (ks : list nat) : Prop :=
  match ks with
  | [] => True
  | k :: ks' => (k < n)%nat /\ falling k ks'
  end.
Lemma falling_le ks : forall n m, falling n ks -> (n <= m)%nat -> falling m ks.
Proof. destruct ks; cbn; auto. intros n' m [H F] L. split; [lia|exact F]. Qed.

Lemma removals_near ks : forall l j s, falling (length l) ks -> (length ks < length l)%nat -> (Z.of_nat (length l) <= 65535)%Z ->
  (Z.of_nat (j + 2 * length ks) <= 65536)%Z -> Forall long l -> 0 <= s <= bpow radix2 800 -> near j (Rsum l) s ->
  exists l', fremove_lengths ks l = Some l' /\ (length l' + length ks = length l)%nat /\ Forall long l' /\
    near (j + 2 * length ks) (Rsum l') s.
Proof.
  induction ks as [|k ks IH]; intros l j s D L K J F Bnd N; cbn [fremove_lengths length] in *.
  - exists l. split; [reflexivity|]. split; [lia|]. split; [exact F|]. rewrite Nat.mul_0_r, Nat.add_0_r. exact N.
  - destruct D as [Hk D].
    assert (B : 0 <= Rsum l <= 2 * s) by (apply (near_bound j); [lia|lra|exact N]).
    destruct (fremove_near l k ltac:(lia) Hk K F ltac:(lra)) as (l1 & E & El & F1 & N1). rewrite E.
    destruct (IH l1 (2 + j)%nat s) as (l' & E' & El' & F' & N'); auto; try lia.
    { apply (falling_le ks k); [exact D|]. lia. }
    { apply (near_trans 2 j _ _ _ N1 N). }
    exists l'. split; [exact E'|]. split; [lia|]. split; [exact F'|].
    replace (j + 2 * S (length ks))%nat with (2 + j + 2 * length ks)%nat by lia. exact N'.
Qed.

(** C52 in binary64.  The removal of m different points leaves m lengths less,
    all of at least 2 ^ -1000 metre; their exact sum is the old one up to 2 m
    units of 2 ^ -52 (relative). *)
Theorem C52_exceptions_in_binary64 :
  forall (ks : list nat) (l : list f64),
    falling (length l) ks -> (length ks < length l)%nat -> (Z.of_nat (length l) <= 32767)%Z ->
    Forall long l -> Rsum l <= bpow radix2 800 ->
    exists l', fremove_lengths ks l = Some l' /\ (length l' + length ks = length l)%nat /\ Forall long l' /\
      Rabs (Rsum l' - Rsum l) <= INR (2 * length ks) * bpow radix2 (-52) * Rsum l.
Proof.
  intros ks l D L K F B. pose proof (Rsum_pos l F) as P.
  destruct (removals_near ks l 0 (Rsum l) D L ltac:(lia) ltac:(lia) F ltac:(lra) (near_refl _)) as (l' & E & EL & F' & N).
  exists l'. split; [exact E|]. split; [exact EL|]. split; [exact F'|]. apply near_err; [lia|exact P|exact N].
Qed.
Print Assumptions C52_exceptions_in_binary64.

(** From the offsets of a branch to the lengths in the location file, with a rule
    and exceptions: the exact sum of the lengths is the distance between the
    first and the last point up to n + 4 + 2 m units of 2 ^ -52. *)
Theorem C53_branch_in_binary64 :
  forall (off : list f64) (rule : text) (ks : list nat),
    Forall offset off -> (4 <= length off)%nat -> (Z.of_nat (length off) <= 16000)%Z ->
    (forall i, (S i < length off)%nat -> B2R (nth i off fzero) + bpow radix2 (-990) <= B2R (nth (S i) off fzero)) ->
    In rule rule_names ->
    falling (length (kept rule (length off))) ks -> (length ks < length (kept rule (length off)))%nat ->
    exists l1 l2,
      fkeep_lengths rule (flengths off) = Some l1 /\ fremove_lengths ks l1 = Some l2 /\
      (length l2 + length ks = length (kept rule (length off)))%nat /\ Forall long l2 /\
      let d := B2R (last off fzero) - B2R (nth 0 off fzero) in
      Rabs (Rsum l2 - d) <= INR (length off + 4 + 2 * length ks) * bpow radix2 (-52) * d.
Proof.
  intros off rule ks O L4 K Sp Hr D L.
  assert (N : off <> []) by (destruct off; [cbn in L4; lia|discriminate]).
  destruct (lengths_near off N O) as (A & Fl & C).
  { intros i H. specialize (Sp i H). pose proof (bpow_gt_0 radix2 (-990)). lra. }
  destruct (C Sp) as (_ & P & Nr & T2). specialize (T2 ltac:(lia)).
  set (d := B2R (last off fzero) - B2R (nth 0 off fzero)) in *.
  assert (Bd : d <= bpow radix2 800).
  { unfold d. rewrite Forall_forall in O. destruct (O (nth 0 off fzero)) as [_ B0]; [apply nth_In; lia|].
    destruct (exists_last N) as (o & x & ->). rewrite last_last. destruct (O x) as [_ B1]; [apply in_or_app; right; left; reflexivity|]. lra. }
  assert (Long : Forall long (flengths off)).
  { rewrite Forall_forall in *. intros x I. split; [apply Fl, I|apply T2, I]. }
  assert (Bs : 0 <= Rsum (flengths off) <= 2 * d) by (apply (near_bound 3); [lia|exact P|exact Nr]).
  destruct (fkeep_near rule (flengths off) Hr ltac:(lia) ltac:(lia) Long ltac:(lra)) as (l1 & E1 & EL1 & F1 & N1).
  rewrite A in EL1, N1.
  assert (LK : (length (kept rule (length off)) <= length off)%nat).
  { clear - Hr L4. on_rules Hr; unfold kept; same_name; rewrite ?seq_length; cbn [length]; lia. }
  destruct (removals_near ks l1 (length off + 1 + 3) d) as (l2 & E2 & EL2 & F2 & N2); auto; try lia; try lra.
  { rewrite EL1. exact D. }
  { apply (near_trans _ _ _ _ _ N1 Nr). }
  exists l1, l2. split; [exact E1|]. split; [exact E2|]. split; [lia|]. split; [exact F2|].
  replace (length off + 4 + 2 * length ks)%nat with (length off + 1 + 3 + 2 * length ks)%nat by lia.
  apply near_err; [lia|exact P|exact N2].
Qed.
Print Assumptions C53_branch_in_binary64.

(** Five points at 0, 250.1, 500.3, 750.4 and 1000.6 metre meet the hypotheses;
    their lengths add up to 2 ^ -46 metre less than 1000.6, and after the rule
    ignoreedges to still less. *)
Definition places : list f64 :=
  let f (m : positive) (e : Z) (b : SpecFloat.bounded 53 1024 m e = true) : f64 := B754_finite false m e b in
  [fzero; f 8799611459416883%positive (-45)%Z eq_refl; f 8801370678021325%positive (-44)%Z eq_refl;
   f 6600588203864883%positive (-43)%Z eq_refl; f 8801370678021325%positive (-43)%Z eq_refl].

Lemma Rsum_SF l : Rsum l = fold_right (fun x s => SF2R radix2 x + s) 0 (map B2SF l).
Proof. induction l as [|x l IH]; [reflexivity|]. cbn [map fold_right]. rewrite Rsum_cons, IH, SF2R_B2SF. reflexivity. Qed.

Lemma places_values :
  let u := bpow radix2 (-46) in
  map B2R places = [0; 8799611459416883 * 2 * u; 8801370678021325 * 4 * u; 6600588203864883 * 8 * u; 8801370678021325 * 8 * u].
Proof.
  intro u. assert (E1 : bpow radix2 (-45) = 2 * u) by exact (bpow_plus radix2 1 (-46)).
  assert (E2 : bpow radix2 (-44) = 4 * u) by exact (bpow_plus radix2 2 (-46)).
  assert (E3 : bpow radix2 (-43) = 8 * u) by exact (bpow_plus radix2 3 (-46)).
  cbn [map places B2R fzero]. unfold F2R. cbn [Fnum Fexp cond_Zopp]. rewrite E1, E2, E3. repeat (apply f_equal2; [ring|]). reflexivity.
Qed.

Theorem C53_binary64_case :
  Forall offset places /\
  (forall i, (S i < length places)%nat -> B2R (nth i places fzero) + bpow radix2 (-990) <= B2R (nth (S i) places fzero)) /\
  let d := B2R (last places fzero) - B2R (nth 0 places fzero) in
  (* not exact *)
  Rsum (flengths places) = d - bpow radix2 (-46) /\
  exists l, fkeep_lengths (T "ignoreedges") (flengths places) = Some l /\ length l = 3%nat /\
    Rsum l = d - 4 * bpow radix2 (-46).
Proof.
  pose proof places_values as V. cbv zeta in V. set (u := bpow radix2 (-46)) in *.
  assert (U0 : bpow radix2 (-990) <= u) by (apply bpow_le; lia). assert (U1 : 0 < u) by apply bpow_gt_0.
  assert (U2 : 8801370678021325 * 8 * u <= bpow radix2 800).
  { apply Rle_trans with (bpow radix2 56 * u).
    - apply Rmult_le_compat_r; [lra|]. change (bpow radix2 56) with 72057594037927936. lra.
    - unfold u. rewrite <- bpow_plus. apply bpow_le. lia. }
  assert (VN : forall i, B2R (nth i places fzero) = nth i (map B2R places) 0).
  { intro i. change 0 with (B2R fzero). rewrite map_nth. reflexivity. }
  split; [|split].
  - assert (A : Forall (fun x => 0 <= x <= bpow radix2 800) (map B2R places)) by (rewrite V; repeat (apply Forall_cons; [lra|]); apply Forall_nil).
    rewrite Forall_forall in A. apply Forall_forall. intros x I. split; [|apply A, in_map, I].
    cbn [places In] in I. repeat (destruct I as [<-|I]; [reflexivity|]). destruct I.
  - intros i H. rewrite !VN, V. cbn [length places] in H.
    destruct i as [|[|[|[|i]]]]; [cbn [nth]; lra|cbn [nth]; lra|cbn [nth]; lra|cbn [nth]; lra|lia].
  - cbv zeta. change (last places fzero) with (nth 4 places fzero). rewrite !VN, V. cbn [nth].
    assert (E1 : bpow radix2 (-45) = 2 * u) by exact (bpow_plus radix2 1 (-46)).
    assert (E2 : bpow radix2 (-44) = 4 * u) by exact (bpow_plus radix2 2 (-46)).
    split.
    + rewrite Rsum_SF. set (m := map B2SF (flengths places)). vm_compute in m. unfold m. cbn [fold_right SF2R]. unfold F2R. cbn [Fnum Fexp cond_Zopp].
      rewrite E1. fold u. lra.
    + eexists. split; [unfold fkeep_lengths; same_name; reflexivity|]. split; [reflexivity|].
      rewrite Rsum_SF. match goal with |- context [map B2SF ?l] => set (m := map B2SF l) end. vm_compute in m. unfold m.
      cbn [fold_right SF2R]. unfold F2R. cbn [Fnum Fexp cond_Zopp]. rewrite E1, E2. lra.
Qed.
Print Assumptions C53_binary64_case.
