(** The extension of the profile below the first water level in binary64
    arithmetic (Flocq), theorems for C05 with rounding.

    Same code as [extend_css_below_z0] in M_Geometry.v, cross_section.py 1320-1360,
    with IEEE 754 operations that round to nearest.  np.linspace(0, h, 10) is
    numpy's: the numbers 0 to 9 times the step h / 9, where the last one is
    replaced by h, and a step that is zero leads to the quotient by 9 times h.
    np.nansum adds the areas of the selected cells in an order that depends on
    their number only: an arbitrary order for every number. *)
From Coq Require Import String ZArith Reals List Bool Lia Lra Psatz Permutation.
From Flocq Require Import Core.Core Plus_error Relative IEEE754.BinarySingleNaN.
From Verif Require Import PyBase Text L_Network M_Network F_Require F_Volumes F_Arange F_Mean F_Stats F_Areas F_Lengths.
Import ListNotations.
Local Open Scope R_scope.

Definition fnine : f64 := of_nat 9.
(** cross_section.py 1333, element [k] of np.linspace(0, h, 10) *)
Definition fdz (h : f64) (k : nat) : f64 :=
  let step := fdiv h fnine in
  if Nat.eqb k 9 then h
  else if Beqb step fzero then fmul (fdiv (of_nat k) fnine) h
  else fmul (of_nat k) step.
(** cross_section.py 1323-1325 and 1333: the height of the steps *)
Definition fheight (c0 d0 : f64) : f64 := fsub c0 (fsub c0 d0).
(** cross_section.py 1334 *)
Definition flevel (c0 d0 : f64) (k : nat) : f64 := fsub c0 (fdz (fheight c0 d0) k).

(** A cell: its area, its depth at the first time step (cross_section.py
    1327-1329: the level minus the bed level, zero if unknown), and whether it is
    wet and not part of a lake. *)
Record fcell := mkFcell { fc_area : f64; fc_bed : f64; fc_level : f64; fc_active : bool }.
Definition fdepth (c : fcell) : f64 :=
  let d := fsub (fc_level c) (fc_bed c) in if is_nan d then fzero else d.
(** cross_section.py 1330 and 1336 *)
Definition ftolerance : f64 := Bopp milli.
Definition fcounted (dz : f64) (c : fcell) : bool := Bltb ftolerance (fsub (fdepth c) dz) && fc_active c.
(** cross_section.py 1335-1337; [order n] is the order in which numpy adds [n] values *)
Definition fadd_up (order : nat -> plan) (l : list f64) : f64 :=
  match l with [] => fzero | _ => fsum (order (length l)) l end.
Definition fwet (order : nat -> plan) (cells : list fcell) (dz : f64) : f64 :=
  fadd_up order (map fc_area (filter (fcounted dz) cells)).
(** cross_section.py 1340-1343 *)
Definition fflow (extrapolate : bool) (fa0 wet : f64) : f64 := if negb extrapolate then wet else fmin wet fa0.
(** cross_section.py 1345-1353: the rows, in the order in which they are put in
    front of the others: from the water level downwards.  The row [k] has the
    level, the total width and the flow width. *)
Definition fbelow (order : nat -> plan) (extrapolate : bool) (len c0 d0 fa0 : f64) (cells : list fcell) (k : nat) : f64 * f64 * f64 :=
  let dz := fdz (fheight c0 d0) k in
  let wet := fwet order cells dz in
  (fsub c0 dz, fwidth len wet, fwidth len (fflow extrapolate fa0 wet)).

(** * Heights *)

Lemma nine_value : fin fnine /\ B2R fnine = 9.
Proof. destruct (of_nat_value 9 ltac:(lia)) as [F E]. split; [exact F|]. unfold fnine. rewrite E. cbn. lra. Qed.

(** A height that is zero or not absurdly small. *)
Definition sound_height (h : f64) : Prop := fin h /\ (B2R h = 0 \/ bpow radix2 (-900) <= B2R h) /\ B2R h <= 2048.

Lemma step_value h : sound_height h -> fin (fdiv h fnine) /\ B2R (fdiv h fnine) = rnd (B2R h / 9).
Proof.
  intros (F & Z & B). destruct nine_value as [F9 E9]. pose proof (bpow_gt_0 radix2 (-900)).
  destruct (fdiv_rounds fnine ltac:(rewrite E9; lra) h h F F) as [R _]. cbv beta in R. rewrite E9 in R. apply R.
  apply (rnd_small 11); [lia|]. abs_le. consts. lra.
Qed.

Lemma rnd_bpow k : (-1000 <= k <= 900)%Z -> rnd (bpow radix2 k) = bpow radix2 k.
Proof.
  intro H. apply round_generic; [typeclasses eauto|]. apply generic_format_bpow. unfold SpecFloat.fexp, SpecFloat.emin. lia.
Qed.

Lemma dz_value h k : sound_height h -> (k <= 9)%nat ->
  fin (fdz h k) /\ 0 <= B2R (fdz h k) <= B2R h /\
  (B2R h = 0 -> B2R (fdz h k) = 0) /\
  (k <> 9%nat -> 0 < B2R h -> B2R (fdz h k) = rnd (INR k * rnd (B2R h / 9))).
Proof.
  intros H K. pose proof (step_value h H) as [Fs Es]. destruct H as (F & Z & B).
  pose proof (bpow_gt_0 radix2 (-900)) as P900. unfold fdz. destruct (Nat.eqb_spec k 9) as [->|N].
  { split; [exact F|]. split; [lra|]. split; [auto|congruence]. }
  destruct (of_nat_value k ltac:(lia)) as [Fk Ek].
  assert (K8 : 0 <= INR k <= 8) by (split; [apply pos_INR|]; replace 8 with (INR 8) by (cbn; lra); apply le_INR; lia).
  rewrite Beqb_correct by (assumption || reflexivity). change (B2R fzero) with 0. destruct Z as [Z|Z].
  - rewrite Es, Z. replace (0 / 9) with 0 by lra. rewrite rnd_0. rewrite Req_bool_true by reflexivity.
    destruct nine_value as [F9 E9].
    destruct (fdiv_rounds fnine ltac:(rewrite E9; lra) _ _ Fk Fk) as [R _]. cbv beta in R. rewrite E9, Ek in R.
    destruct R as [Fd Ed]; [apply (rnd_small 11); [lia|]; abs_le; consts; lra|].
    destruct (fmul_rounds _ _ Fd F) as [R _]. rewrite Z, Rmult_0_r, rnd_0 in R.
    destruct R as [Fm Em]; [rewrite Rabs_R0; apply bpow_gt_0|]. rewrite Em.
    split; [exact Fm|]. split; [lra|]. split; [auto|lra].
  - assert (S0 : 0 < B2R (fdiv h fnine)).
    { rewrite Es. apply Rlt_le_trans with (bpow radix2 (-904)); [apply bpow_gt_0|]. rewrite <- (rnd_bpow (-904)) by lia. apply rnd_mono.
      replace (bpow radix2 (-900)) with (16 * bpow radix2 (-904)) in Z by (change (-900)%Z with (4 + -904)%Z; rewrite bpow_plus; reflexivity).
      pose proof (bpow_gt_0 radix2 (-904)). lra. }
    rewrite Req_bool_false by lra.
    assert (U : INR k * rnd (B2R h / 9) <= B2R h).
    { assert (R : rnd (B2R h / 9) <= B2R h / 9 * (1 + v)).
      { apply relative. apply Rle_trans with (bpow radix2 (-904)); [apply bpow_le; lia|].
        replace (bpow radix2 (-900)) with (16 * bpow radix2 (-904)) in Z by (change (-900)%Z with (4 + -904)%Z; rewrite bpow_plus; reflexivity).
        pose proof (bpow_gt_0 radix2 (-904)). lra. }
      rewrite <- Es in *. pose proof v_bounds. nra. }
    rewrite <- Es in U.
    destruct (fmul_rounds _ _ Fk Fs) as [R _]. rewrite Ek in R.
    assert (P : 0 <= INR k * B2R (fdiv h fnine)) by (apply Rmult_le_pos; lra).
    destruct R as [Fm Em]; [apply (rnd_small 11); [lia|]; abs_le; consts; lra|]. rewrite Em.
    split; [exact Fm|]. split; [|split; [lra|intros; rewrite Es; reflexivity]].
    split; [rewrite <- rnd_0; apply rnd_mono; lra|rewrite <- (rnd_id h F); apply rnd_mono; lra].
Qed.

Lemma dz_mono h k l : sound_height h -> (k <= l <= 9)%nat -> B2R (fdz h k) <= B2R (fdz h l).
Proof.
  intros H [K L]. destruct (dz_value h k H ltac:(lia)) as (_ & B & Z & E). destruct (dz_value h l H L) as (_ & B' & Z' & E').
  destruct (Nat.eq_dec l 9) as [->|N]; [unfold fdz at 2; rewrite Nat.eqb_refl; lra|].
  destruct (Req_dec (B2R h) 0) as [Zh|Nz]; [rewrite Z, Z'; lra|].
  assert (P : 0 < B2R h) by lra. rewrite E, E' by (lia || exact P). apply rnd_mono. apply Rmult_le_compat_r; [|apply le_INR; lia].
  rewrite <- rnd_0. apply rnd_mono. lra.
Qed.

Lemma dz_accurate h k : sound_height h -> (k <= 9)%nat ->
  Rabs (B2R (fdz h k) - INR k * (B2R h / 9)) <= / IZR (2 ^ 41).
Proof.
  intros H K. destruct (dz_value h k H K) as (_ & B & Z & E). destruct H as (F & Zh & Bh). change (2 ^ 41)%Z with 2199023255552%Z.
  destruct (Nat.eq_dec k 9) as [->|N].
  { unfold fdz. rewrite Nat.eqb_refl. replace (INR 9) with 9 by (cbn; lra). replace (B2R h - 9 * (B2R h / 9)) with 0 by lra. rewrite Rabs_R0. lra. }
  destruct (Req_dec (B2R h) 0) as [Z0|Nz].
  { rewrite (Z Z0), Z0. replace (0 - INR k * (0 / 9)) with 0 by lra. rewrite Rabs_R0. lra. }
  rewrite (E N) by lra.
  assert (K8 : 0 <= INR k <= 8) by (split; [apply pos_INR|]; replace 8 with (INR 8) by (cbn; lra); apply le_INR; lia).
  assert (E1 : Rabs (rnd (B2R h / 9) - B2R h / 9) <= bpow radix2 (8 - 53)) by (apply err; [lia|]; abs_le; consts; lra).
  apply Rabs_le_inv in E1. change (8 - 53)%Z with (-45)%Z in E1.
  assert (E2 : Rabs (rnd (INR k * rnd (B2R h / 9)) - INR k * rnd (B2R h / 9)) <= bpow radix2 (11 - 53)).
  { apply err; [lia|]. abs_le. consts. nra. }
  apply Rabs_le_inv in E2. change (11 - 53)%Z with (-42)%Z in E2. abs_le. consts. nra.
Qed.

Lemma height_value c0 d0 : level c0 -> level d0 -> 0 <= B2R d0 ->
  fin (fheight c0 d0) /\ 0 <= B2R (fheight c0 d0) <= 2048 /\ Rabs (B2R (fheight c0 d0) - B2R d0) <= / IZR (2 ^ 41).
Proof.
  intros [Fc Bc] [Fd Bd] P. unfold fheight. change (2 ^ 41)%Z with 2199023255552%Z. apply Rabs_le_inv in Bc, Bd.
  destruct (fsub_rounds c0 d0 Fc Fd) as [R _].
  destruct R as [Fl El]; [apply (rnd_small 11); [lia|]; abs_le; consts; lra|].
  assert (A1 : Rabs (rnd (B2R c0 - B2R d0) - (B2R c0 - B2R d0)) <= bpow radix2 (11 - 53)) by (apply err; [lia|]; abs_le; consts; lra).
  rewrite <- El in A1. apply Rabs_le_inv in A1. change (11 - 53)%Z with (-42)%Z in A1.
  assert (U : B2R (fsub c0 d0) <= B2R c0) by (rewrite El; apply Rle_trans with (rnd (B2R c0)); [apply rnd_mono; lra|rewrite (rnd_id c0 Fc); lra]).
  set (l := fsub c0 d0) in *.
  destruct (fsub_rounds c0 l Fc Fl) as [R _].
  destruct R as [Fh Eh]; [apply (rnd_small 11); [lia|]; abs_le; consts; lra|].
  assert (A2 : Rabs (rnd (B2R c0 - B2R l) - (B2R c0 - B2R l)) <= bpow radix2 (11 - 53)) by (apply err; [lia|]; abs_le; consts; lra).
  rewrite <- Eh in A2. apply Rabs_le_inv in A2. change (11 - 53)%Z with (-42)%Z in A2.
  split; [exact Fh|]. split; [|abs_le; consts; lra].
  split; [rewrite Eh, <- rnd_0; apply rnd_mono; lra|consts; lra].
Qed.

(** C05 in binary64, the levels: ten levels that never increase downwards, from
    the first water level (exactly) to the bed level, in equal steps up to
    2 ^ -39 metre, which is less than two billionths of a millimetre. *)
Theorem C05_levels_in_binary64 :
  forall c0 d0 : f64, level c0 -> level d0 -> 0 <= B2R d0 ->
    (B2R (fheight c0 d0) = 0 \/ bpow radix2 (-900) <= B2R (fheight c0 d0)) ->
    B2R (flevel c0 d0 0) = B2R c0 /\
    (forall k, (k <= 9)%nat -> fin (flevel c0 d0 k) /\
       Rabs (B2R (flevel c0 d0 k) - (B2R c0 - B2R d0 * INR k / 9)) <= / IZR (2 ^ 39)) /\
    (forall k l, (k <= l <= 9)%nat -> B2R (flevel c0 d0 l) <= B2R (flevel c0 d0 k)).
Proof.
  intros c0 d0 Lc Ld P Z. destruct (height_value c0 d0 Lc Ld P) as (Fh & [B1 B2] & A).
  assert (S : sound_height (fheight c0 d0)) by (split; [exact Fh|split; assumption]).
  destruct Lc as [Fc Bc]. destruct Ld as [Fd Bd]. apply Rabs_le_inv in Bc, Bd, A. change (2 ^ 41)%Z with 2199023255552%Z in A.
  set (h := fheight c0 d0) in *.
  assert (V : forall k, (k <= 9)%nat -> fin (flevel c0 d0 k) /\ B2R (flevel c0 d0 k) = rnd (B2R c0 - B2R (fdz h k))).
  { intros k K. destruct (dz_value h k S K) as (Fk & Bk & _ & _). unfold flevel. fold h.
    destruct (fsub_rounds c0 (fdz h k) Fc Fk) as [R _]. apply R. apply (rnd_small 12); [lia|]. abs_le. consts. lra. }
  split; [|split].
  - destruct (V 0%nat ltac:(lia)) as [_ ->]. destruct (dz_value h 0 S ltac:(lia)) as (_ & B & Z0 & E).
    replace (B2R (fdz h 0)) with 0. { rewrite Rminus_0_r. apply rnd_id. exact Fc. }
    destruct (Req_dec (B2R h) 0) as [Zh|Nz]; [rewrite Z0; auto|]. rewrite E by (lia || lra). cbn [INR]. rewrite Rmult_0_l, rnd_0. reflexivity.
  - intros k K. destruct (V k K) as [Fk Ek]. split; [exact Fk|]. rewrite Ek.
    destruct (dz_value h k S K) as (_ & Bk & _ & _). pose proof (dz_accurate h k S K) as Ak. apply Rabs_le_inv in Ak.
    change (2 ^ 41)%Z with 2199023255552%Z in Ak. change (2 ^ 39)%Z with 549755813888%Z.
    assert (E : Rabs (rnd (B2R c0 - B2R (fdz h k)) - (B2R c0 - B2R (fdz h k))) <= bpow radix2 (12 - 53)) by (apply err; [lia|]; abs_le; consts; lra).
    apply Rabs_le_inv in E. change (12 - 53)%Z with (-41)%Z in E.
    assert (K9 : 0 <= INR k <= 9) by (split; [apply pos_INR|]; replace 9 with (INR 9) by (cbn; lra); apply le_INR; lia).
    abs_le. consts. unfold Rdiv in *. nra.
  - intros k l KL. destruct (V k ltac:(lia)) as [_ ->]. destruct (V l ltac:(lia)) as [_ ->]. apply rnd_mono.
    pose proof (dz_mono h k l S KL). lra.
Qed.
Print Assumptions C05_levels_in_binary64.

(** * Cells *)

Lemma milli_close : Rabs (B2R milli - 1 / 1000) <= / IZR (2 ^ 60).
Proof.
  cbn [B2R milli]. unfold F2R. cbn [Fnum Fexp]. change (cond_Zopp false 4611686018427388) with 4611686018427388%Z. consts.
  change (2 ^ 60)%Z with 1152921504606846976%Z. abs_le. lra.
Qed.
Lemma tolerance_value : fin ftolerance /\ B2R ftolerance = - B2R milli.
Proof. split; [reflexivity|]. unfold ftolerance. apply B2R_Bopp. Qed.

(** A cell that is counted at some depth is counted at every smaller depth. *)
Lemma counted_mono c dz dz' : fin (fdepth c) -> Rabs (B2R (fdepth c)) <= 1048576 -> fin dz -> fin dz' ->
  0 <= B2R dz <= B2R dz' -> B2R dz' <= 2048 -> fcounted dz' c = true -> fcounted dz c = true.
Proof.
  intros F B Fz Fz' H H' C. unfold fcounted in *. apply andb_true_iff in C as [C ->]. rewrite andb_true_r. apply Rabs_le_inv in B.
  destruct (fsub_rounds _ _ F Fz) as [R _]. destruct R as [G E]; [apply (rnd_small 21); [lia|]; abs_le; consts; lra|].
  destruct (fsub_rounds _ _ F Fz') as [R _]. destruct R as [G' E']; [apply (rnd_small 21); [lia|]; abs_le; consts; lra|].
  rewrite Bltb_correct in * by (assumption || reflexivity). revert C. case Rlt_bool_spec; [intros C _|discriminate].
  apply Rlt_bool_true. eapply Rlt_le_trans; [exact C|]. rewrite E, E'. apply rnd_mono. lra.
Qed.

(** C05 in binary64, the cells: at row [k] an active cell is counted if its bed is
    lower than one millimetre above the level of the row, up to 2 ^ -38 metre. *)
Theorem C05_cells_in_binary64 :
  forall (c0 d0 : f64) (c : fcell) (k : nat), level c0 -> level d0 -> 0 <= B2R d0 ->
    (B2R (fheight c0 d0) = 0 \/ bpow radix2 (-900) <= B2R (fheight c0 d0)) ->
    level (fdepth c) -> (k <= 9)%nat -> fc_active c = true ->
    (B2R d0 * INR k / 9 - 1 / 1000 + / IZR (2 ^ 38) <= B2R (fdepth c) -> fcounted (fdz (fheight c0 d0) k) c = true) /\
    (B2R (fdepth c) <= B2R d0 * INR k / 9 - 1 / 1000 - / IZR (2 ^ 38) -> fcounted (fdz (fheight c0 d0) k) c = false).
Proof.
  intros c0 d0 c k Lc Ld P Z [Fe Be] K Ac. destruct (height_value c0 d0 Lc Ld P) as (Fh & [B1 B2] & A).
  assert (S : sound_height (fheight c0 d0)) by (split; [exact Fh|split; assumption]).
  destruct Ld as [Fd Bd]. apply Rabs_le_inv in Bd, A, Be. change (2 ^ 41)%Z with 2199023255552%Z in A.
  set (h := fheight c0 d0) in *. destruct (dz_value h k S K) as (Fk & Bk & _ & _). pose proof (dz_accurate h k S K) as Ak.
  apply Rabs_le_inv in Ak. change (2 ^ 41)%Z with 2199023255552%Z in Ak. change (2 ^ 38)%Z with 274877906944%Z.
  assert (K9 : 0 <= INR k <= 9) by (split; [apply pos_INR|]; replace 9 with (INR 9) by (cbn; lra); apply le_INR; lia).
  destruct (fsub_rounds _ _ Fe Fk) as [R _]. destruct R as [G E]; [apply (rnd_small 12); [lia|]; abs_le; consts; lra|].
  assert (E' : Rabs (rnd (B2R (fdepth c) - B2R (fdz h k)) - (B2R (fdepth c) - B2R (fdz h k))) <= bpow radix2 (12 - 53)) by (apply err; [lia|]; abs_le; consts; lra).
  rewrite <- E in E'. apply Rabs_le_inv in E'. change (12 - 53)%Z with (-41)%Z in E'. consts.
  destruct tolerance_value as [Ft Et]. pose proof milli_close as M. apply Rabs_le_inv in M. change (2 ^ 60)%Z with 1152921504606846976%Z in M.
  assert (D : - / 2199023255552 <= INR k * (B2R h / 9) - B2R d0 * INR k / 9 <= / 2199023255552) by (unfold Rdiv in *; nra).
  unfold fcounted. rewrite Ac, andb_true_r, Bltb_correct by assumption. rewrite Et. split; intro H.
  - apply Rlt_bool_true. lra.
  - apply Rlt_bool_false. lra.
Qed.
Print Assumptions C05_cells_in_binary64.

(** A cell of which the water level is unknown has the depth zero: at the water
    level an active one is counted. *)
Theorem C05_unknown_level_in_binary64 :
  forall c : fcell, is_nan (fc_level c) = true ->
    fdepth c = fzero /\ fcounted fzero c = fc_active c.
Proof.
  intros c H. assert (E : fdepth c = fzero).
  { unfold fdepth. destruct (fc_level c); try discriminate. reflexivity. }
  split; [exact E|]. unfold fcounted. rewrite E. destruct (fc_active c); reflexivity.
Qed.
Print Assumptions C05_unknown_level_in_binary64.

(** * Areas *)

Lemma Rsum_perm l m : Permutation l m -> Rsum l = Rsum m.
Proof.
  induction 1 as [|x l m _ IH|x y l|l m n _ IH1 _ IH2]; [reflexivity|rewrite !Rsum_cons, IH; reflexivity|rewrite !Rsum_cons; lra|].
  rewrite IH1. exact IH2.
Qed.

Lemma sums_not_empty l s : sums l s -> (1 <= length l)%nat.
Proof.
  induction 1 as [x|l r a b _ IH1 _ IH2|l m a P _ IH]; [cbn; lia|rewrite app_length; lia|]. rewrite <- (Permutation_length P). exact IH.
Qed.
Lemma sums_near l s : sums l s -> Forall long l -> Rsum l <= bpow radix2 800 -> (Z.of_nat (length l) <= 65536)%Z ->
  fin s /\ near (length l) (B2R s) (Rsum l).
Proof.
  pose proof limits as Lim. induction 1 as [x|l r a b S1 IH1 S2 IH2|l m a P _ IH]; intros Fl B N.
  - inversion Fl as [|? ? [Fx Tx] _]; subst. split; [exact Fx|]. rewrite Rsum_cons. change (Rsum []) with 0. rewrite Rplus_0_r.
    pose proof tiny_pos. apply (near_le 0); [lia|lra|apply near_refl].
  - apply Forall_app in Fl as [Fl Fr]. rewrite Rsum_app, app_length in *. pose proof (Rsum_pos l Fl). pose proof (Rsum_pos r Fr).
    pose proof (sums_not_empty _ _ S1). pose proof (sums_not_empty _ _ S2).
    destruct (IH1 Fl ltac:(lra) ltac:(lia)) as [Fa Na]. destruct (IH2 Fr ltac:(lra) ltac:(lia)) as [Fb Nb].
    assert (K : exists k, (length l <= k /\ length r <= k /\ 1 + k <= length l + length r)%nat) by (exists (Nat.max (length l) (length r)); lia).
    destruct K as (k & K1 & K2 & K3).
    apply (near_le _ k _ (Rsum l) K1 ltac:(lra)) in Na. apply (near_le _ k _ (Rsum r) K2 ltac:(lra)) in Nb.
    destruct (near_bound k _ (Rsum l) ltac:(lia) ltac:(lra) Na). destruct (near_bound k _ (Rsum r) ltac:(lia) ltac:(lra) Nb).
    destruct (fadd_near a b Fa Fb ltac:(lra) ltac:(lra) ltac:(lra)) as (F & N1 & _).
    split; [exact F|]. apply (near_le (1 + k)); [lia|lra|]. apply (near_trans 1 k _ _ _ N1). apply near_add; assumption.
  - rewrite <- (Rsum_perm l m P) in *. rewrite <- (Permutation_length P) in *. apply IH; auto.
    rewrite Forall_forall in *. intros x I. apply Fl. eapply Permutation_in; eassumption.
Qed.

Lemma plan_sums p l : sums (map (fun i => nth i l fzero) (leaves p)) (fsum p l).
Proof.
  induction p as [i|p IHp q IHq]; cbn [leaves fsum map]; [constructor|]. rewrite map_app. constructor; assumption.
Qed.
Lemma map_nth_seq (l : list f64) : map (fun i => nth i l fzero) (seq 0 (length l)) = l.
Proof.
  induction l as [|x l IH]; [reflexivity|]. cbn [length seq map nth]. f_equal. rewrite <- seq_shift, map_map. exact IH.
Qed.

(** An order of additions for every number of values that uses every value once. *)
Definition orders (order : nat -> plan) : Prop := forall n, (1 <= n)%nat -> Permutation (leaves (order n)) (seq 0 n).

Lemma add_up_sums order l : orders order -> l <> [] -> sums l (fadd_up order l).
Proof.
  intros O N. destruct l as [|x l]; [congruence|]. unfold fadd_up.
  eapply sums_perm; [|apply plan_sums]. rewrite <- (map_nth_seq (x :: l)) at 2. apply Permutation_map. apply O. cbn. lia.
Qed.

Lemma add_up_close order l : orders order -> Forall long l -> Rsum l <= bpow radix2 800 -> (Z.of_nat (length l) <= 65536)%Z ->
  fin (fadd_up order l) /\ 0 <= B2R (fadd_up order l) /\ Rabs (B2R (fadd_up order l) - Rsum l) <= bpow radix2 (-36) * Rsum l.
Proof.
  intros O Fl B N. destruct l as [|x l].
  { split; [reflexivity|]. change (B2R (fadd_up order [])) with 0. change (Rsum []) with 0. rewrite Rminus_0_r, Rabs_R0. lra. }
  destruct (sums_near _ _ (add_up_sums order (x :: l) O ltac:(discriminate)) Fl B N) as [F Nr].
  pose proof (Rsum_pos _ Fl) as P. split; [exact F|]. destruct (near_bound _ _ _ N P Nr) as [Q _]. split; [exact Q|].
  eapply Rle_trans; [apply (near_err _ _ _ N P Nr)|]. apply Rmult_le_compat_r; [exact P|].
  replace (bpow radix2 (-36)) with (bpow radix2 16 * bpow radix2 (-52)) by (rewrite <- bpow_plus; reflexivity).
  apply Rmult_le_compat_r; [apply bpow_ge_0|]. rewrite INR_IZR_INZ. change (bpow radix2 16) with (IZR 65536). apply IZR_le. exact N.
Qed.

(** Fewer cells have a smaller sum of areas. *)
Definition sized (lo : R) (c : fcell) : Prop := fin (fc_area c) /\ lo <= B2R (fc_area c).
Lemma fewer lo (p q : fcell -> bool) cells : 0 < lo -> Forall (sized lo) cells -> (forall c, In c cells -> q c = true -> p c = true) ->
  filter q cells = filter p cells \/ Rsum (map fc_area (filter q cells)) + lo <= Rsum (map fc_area (filter p cells)).
Proof.
  intros L. induction cells as [|c cells IH]; intros F I; [left; reflexivity|]. inversion F as [|? ? [_ Sc] F']; subst.
  specialize (IH F' (fun c H => I c (or_intror H))). cbn [filter]. destruct (q c) eqn:Q.
  - rewrite (I c (or_introl eq_refl) Q). cbn [map]. rewrite !Rsum_cons. destruct IH as [->|IH]; [left; reflexivity|right; lra].
  - destruct (p c); [|exact IH]. right. cbn [map]. rewrite Rsum_cons. destruct IH as [->|IH]; lra.
Qed.
Lemma filter_sum lo (p : fcell -> bool) cells : 0 < lo -> Forall (sized lo) cells ->
  0 <= Rsum (map fc_area (filter p cells)) <= Rsum (map fc_area cells).
Proof.
  intro L. induction 1 as [|c cells [_ Sc] F IH]; [cbn; lra|]. cbn [filter]. destruct (p c); cbn [map]; rewrite ?Rsum_cons; lra.
Qed.
Lemma filter_length_le (p : fcell -> bool) cells : (length (filter p cells) <= length cells)%nat.
Proof. induction cells as [|c cells IH]; [cbn; lia|]. cbn [filter]. destruct (p c); cbn [length]; lia. Qed.

(** Cells of which none is smaller than [lo], at most 65536 of them, and together
    at most 2 ^ 34 times as large as the smallest. *)
Definition sound_cells (lo : R) (cells : list fcell) : Prop :=
  tiny <= lo /\ Forall (sized lo) cells /\ (Z.of_nat (length cells) <= 65536)%Z /\
  Rsum (map fc_area cells) <= bpow radix2 34 * lo /\ Rsum (map fc_area cells) <= bpow radix2 800.

Lemma wet_close order lo cells dz : orders order -> sound_cells lo cells ->
  let exact := Rsum (map fc_area (filter (fcounted dz) cells)) in
  fin (fwet order cells dz) /\ 0 <= B2R (fwet order cells dz) /\
  Rabs (B2R (fwet order cells dz) - exact) <= bpow radix2 (-36) * exact.
Proof.
  intros O (T & F & N & B & B8). cbv zeta. pose proof tiny_pos. assert (L : 0 < lo) by lra.
  pose proof (filter_sum lo (fcounted dz) cells L F). apply add_up_close; [exact O| |lra|].
  - apply Forall_map. rewrite Forall_forall in *. intros c I. apply filter_In in I as [I _]. destruct (F c I) as [Fc Sc]. split; [exact Fc|lra].
  - rewrite map_length. pose proof (filter_length_le (fcounted dz) cells). lia.
Qed.

(** A lower level has at most the wet area of a higher one. *)
Lemma wet_mono order lo cells dz dz' : orders order -> sound_cells lo cells ->
  Forall (fun c => fin (fdepth c) /\ Rabs (B2R (fdepth c)) <= 1048576) cells ->
  fin dz -> fin dz' -> 0 <= B2R dz <= B2R dz' -> B2R dz' <= 2048 ->
  B2R (fwet order cells dz') <= B2R (fwet order cells dz).
Proof.
  intros O S D Fz Fz' H H'. destruct (wet_close order lo cells dz O S) as (_ & P & C). destruct (wet_close order lo cells dz' O S) as (_ & P' & C').
  destruct S as (T & F & N & B & B8). pose proof tiny_pos. assert (L : 0 < lo) by lra.
  destruct (fewer lo (fcounted dz) (fcounted dz') cells L F) as [E|E].
  { intros c I. rewrite Forall_forall in D. destruct (D c I) as [Fc Bc]. apply counted_mono; assumption. }
  { unfold fwet. rewrite E. lra. }
  pose proof (filter_sum lo (fcounted dz) cells L F) as G. pose proof (filter_sum lo (fcounted dz') cells L F) as G'.
  apply Rabs_le_inv in C, C'.
  set (a := Rsum (map fc_area (filter (fcounted dz) cells))) in *. set (a' := Rsum (map fc_area (filter (fcounted dz') cells))) in *.
  set (t := Rsum (map fc_area cells)) in *. consts. lra.
Qed.

(** C05 in binary64: downwards the levels, the total widths and the flow widths
    never increase; a flow width is at most the total width of its row; the widths
    are not negative; and the wet area is the area of the counted cells up to a
    relative error of 2 ^ -36. *)
Theorem C05_extension_in_binary64 :
  forall (order : nat -> plan) (extrapolate : bool) (len c0 d0 fa0 : f64) (lo : R) (cells : list fcell),
    orders order -> level c0 -> level d0 -> 0 <= B2R d0 ->
    (B2R (fheight c0 d0) = 0 \/ bpow radix2 (-900) <= B2R (fheight c0 d0)) ->
    fin len -> 0 < B2R len -> fin fa0 -> 0 <= B2R fa0 -> sound_cells lo cells ->
    Forall (fun c => fin (fdepth c) /\ Rabs (B2R (fdepth c)) <= 1048576) cells ->
    fin (snd (fst (fbelow order extrapolate len c0 d0 fa0 cells 0))) ->
    (forall k z t f, (k <= 9)%nat -> fbelow order extrapolate len c0 d0 fa0 cells k = (z, t, f) ->
       fin z /\ fin t /\ fin f /\ 0 <= B2R f <= B2R t /\ (extrapolate = false -> f = t)) /\
    (forall k l z t f z' t' f', (k <= l <= 9)%nat -> fbelow order extrapolate len c0 d0 fa0 cells k = (z, t, f) ->
       fbelow order extrapolate len c0 d0 fa0 cells l = (z', t', f') ->
       B2R z' <= B2R z /\ B2R t' <= B2R t /\ B2R f' <= B2R f) /\
    (forall k, (k <= 9)%nat ->
       let exact := Rsum (map fc_area (filter (fcounted (fdz (fheight c0 d0) k)) cells)) in
       Rabs (B2R (fwet order cells (fdz (fheight c0 d0) k)) - exact) <= bpow radix2 (-36) * exact).
Proof.
  intros order ex len c0 d0 fa0 lo cells O Lc Ld P Z Fl Pl Ff Pf Sc D Top.
  destruct (C05_levels_in_binary64 c0 d0 Lc Ld P Z) as (_ & LV & LM).
  destruct (height_value c0 d0 Lc Ld P) as (Fh & [B1 B2] & _).
  assert (S : sound_height (fheight c0 d0)) by (split; [exact Fh|split; assumption]). unfold flevel in *. unfold fbelow in *. cbn [fst snd] in Top.
  set (h := fheight c0 d0) in *.
  assert (Wm : forall k l, (k <= l <= 9)%nat -> B2R (fwet order cells (fdz h l)) <= B2R (fwet order cells (fdz h k))).
  { intros k l KL. destruct (dz_value h k S ltac:(lia)) as (Fk & Bk & _). destruct (dz_value h l S ltac:(lia)) as (Fl' & Bl & _).
    pose proof (dz_mono h k l S KL). apply (wet_mono order lo); auto; lra. }
  assert (Wf : forall k, fin (fwet order cells (fdz h k)) /\ 0 <= B2R (fwet order cells (fdz h k))).
  { intro k. destruct (wet_close order lo cells (fdz h k) O Sc) as (F & Q & _). auto. }
  assert (Qf : forall k, fin (fflow ex fa0 (fwet order cells (fdz h k))) /\
                         0 <= B2R (fflow ex fa0 (fwet order cells (fdz h k))) <= B2R (fwet order cells (fdz h k))).
  { intro k. destruct (Wf k) as [F Q]. unfold fflow. destruct ex; cbn [negb]; [|split; [exact F|lra]].
    destruct (fmin_value _ fa0 F Ff) as [Fm ->]. split; [exact Fm|]. split; [apply Rmin_glb; lra|apply Rmin_l]. }
  assert (Tf : forall k, (k <= 9)%nat -> fin (fwidth len (fwet order cells (fdz h k)))).
  { intros k K. destruct (Wf k) as [F Q]. destruct (Wf 0%nat) as [F0 Q0]. pose proof (Wm 0%nat k ltac:(lia)).
    apply (fwidth_mono len _ _ Fl Pl F F0 ltac:(lra) Top). }
  split; [|split].
  - intros k z t f K E. injection E as <- <- <-. destruct (LV k K) as [Fz _]. destruct (Wf k) as [Fw Pw]. destruct (Qf k) as [Fq Bq].
    destruct (fwidth_mono len _ _ Fl Pl Fq Fw Bq (Tf k K)) as [Ft Bt]. split; [exact Fz|]. split; [apply Tf; exact K|]. split; [exact Ft|].
    split; [exact Bt|]. intros ->. reflexivity.
  - intros k l z t f z' t' f' KL E E'. injection E as <- <- <-. injection E' as <- <- <-. split; [apply LM; exact KL|].
    destruct (Wf k) as [Fw Pw]. destruct (Wf l) as [Fw' Pw']. pose proof (Wm k l KL) as M. split.
    + apply (fwidth_mono len _ _ Fl Pl Fw' Fw ltac:(lra) (Tf k ltac:(lia))).
    + destruct (Qf k) as [Fq Bq]. destruct (Qf l) as [Fq' Bq'].
      destruct (fwidth_mono len _ _ Fl Pl Fq Fw Bq (Tf k ltac:(lia))) as [Ft _].
      apply (fwidth_mono len _ _ Fl Pl Fq' Fq); [|exact Ft]. split; [lra|]. unfold fflow. destruct ex; cbn [negb]; [|exact M].
      destruct (fmin_value _ fa0 Fw Ff) as [_ ->]. destruct (fmin_value _ fa0 Fw' Ff) as [_ ->]. apply Rle_min_compat_r. exact M.
  - intros k K. apply (wet_close order lo); assumption.
Qed.
Print Assumptions C05_extension_in_binary64.

(** * Cases *)

(** Addition from left to right. *)
Fixpoint from_left (n : nat) : plan :=
  match n with 0%nat | 1%nat => One 0 | S m => Two (from_left m) (One m) end.
(** numpy adds up to seven values from left to right and eight values in pairs. *)
Definition in_pairs : plan :=
  Two (Two (Two (One 0) (One 1)) (Two (One 2) (One 3))) (Two (Two (One 4) (One 5)) (Two (One 6) (One 7))).
Definition numpy_order (n : nat) : plan := if Nat.eqb n 8 then in_pairs else from_left n.

Lemma from_left_leaves n : (1 <= n)%nat -> leaves (from_left n) = seq 0 n.
Proof.
  induction n as [|n IH]; [lia|]. intros _. destruct n as [|n]; [reflexivity|]. change (leaves (from_left (S (S n)))) with (leaves (from_left (S n)) ++ [S n]). rewrite IH by lia.
  symmetry. apply (seq_S (S n) 0).
Qed.
Lemma numpy_orders : orders numpy_order.
Proof.
  intros n N. unfold numpy_order. destruct (Nat.eqb_spec n 8) as [->|_]; [apply Permutation_refl|].
  rewrite from_left_leaves by exact N. apply Permutation_refl.
Qed.

(** Non-vacuous: two cells of 100 and 200 square metre with a depth of 3 and 1
    metre, a length of 100 metre: the total width is 3 at the water level and 1 at
    the bed; the flow area at the first time step is 150 square metre. *)
Definition two_cells : list fcell :=
  [mkFcell (of_nat 100) (of_nat 0) (of_nat 3) true; mkFcell (of_nat 200) (of_nat 2) (of_nat 3) true;
   mkFcell (of_nat 400) (of_nat 0) (of_nat 3) false].
Theorem C05_binary64_case :
  sound_cells 1 two_cells /\
  map (fun k => match fbelow numpy_order true (of_nat 100) (of_nat 3) (of_nat 3) (of_nat 150) two_cells k with
                (z, t, f) => (B2SF z, B2SF t, B2SF f) end) [0; 3; 4; 9]%nat =
  [(B2SF (of_nat 3), B2SF (of_nat 3), B2SF (fdiv (of_nat 3) (of_nat 2)));
   (B2SF (of_nat 2), B2SF (of_nat 3), B2SF (fdiv (of_nat 3) (of_nat 2)));
   (B2SF (fsub (of_nat 3) (fmul (of_nat 4) (fdiv (of_nat 3) (of_nat 9)))), B2SF (of_nat 1), B2SF (of_nat 1));
   (B2SF (of_nat 0), B2SF (of_nat 1), B2SF (of_nat 1))].
Proof.
  split; [|vm_compute; reflexivity].
  destruct (of_nat_value 100 ltac:(lia)) as [F1 E1]. destruct (of_nat_value 200 ltac:(lia)) as [F2 E2]. destruct (of_nat_value 400 ltac:(lia)) as [F4 E4].
  rewrite INR_IZR_INZ in E1, E2, E4. cbn [Z.of_nat Pos.of_succ_nat Pos.succ] in E1, E2, E4.
  assert (T : tiny <= 1) by (unfold tiny; change 1 with (bpow radix2 0); apply bpow_le; lia).
  assert (B : bpow radix2 34 <= bpow radix2 800) by (apply bpow_le; lia).
  split; [exact T|]. split; [|split; [cbn; lia|]].
  - repeat constructor; cbn [fc_area]; auto; lra.
  - unfold two_cells, Rsum. cbn [map fc_area fold_right]. rewrite E1, E2, E4. change (bpow radix2 34) with (IZR 17179869184) in *. lra.
Qed.
Print Assumptions C05_binary64_case.

(** The condition on the sizes is needed: seven cells of 0.7, 0.4, 0.2, 0.8, 0.1,
    0.7 and 0.7 square metre and an eighth of 2 ^ -64 square metre.  The eighth is
    dry at the lowest row; there numpy adds the seven areas from left to right,
    which gives a larger sum than the eight areas in pairs at the water level. *)
Definition tenths (n : nat) : f64 := fdiv (of_nat n) (of_nat 10).
Definition speck : f64 :=
  let x := fdiv (of_nat 1) (of_nat 65536) in fmul (fmul x x) (fmul x x).
Definition speck_cells : list fcell :=
  map (fun n => mkFcell (tenths n) (of_nat 0) (of_nat 1) true) [7; 4; 2; 8; 1; 7; 7]%nat ++
  [mkFcell speck (tenths 5) (of_nat 1) true].
Theorem C05_tiny_cell_in_binary64_refuted :
  orders numpy_order /\
  Forall (fun c => Bltb fzero (fc_area c) = true /\ fc_active c = true) speck_cells /\
  exists z t f z' t' f',
    fbelow numpy_order false (of_nat 1) (of_nat 1) (of_nat 1) fzero speck_cells 0 = (z, t, f) /\
    fbelow numpy_order false (of_nat 1) (of_nat 1) (of_nat 1) fzero speck_cells 9 = (z', t', f') /\
    Bltb z' z = true /\ Bltb t t' = true.
Proof.
  split; [apply numpy_orders|]. split.
  - repeat constructor; vm_compute; reflexivity.
  - eexists _, _, _, _, _, _. split; [reflexivity|]. split; [reflexivity|]. split; vm_compute; reflexivity.
Qed.
Print Assumptions C05_tiny_cell_in_binary64_refuted.
