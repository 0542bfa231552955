(** Theorems for C65: end points of a branch. *)
From Coq Require Import String List Ascii ZArith QArith Bool Lia Lqa Sorted.
From Verif Require Import PyBase Num Spec L_Num L_List Text L_Text Fixed M_Ini M_Friction T_Friction
  M_Network L_Network T_Rules.
Import ListNotations.
Local Open Scope Q_scope.

Definition increasing_offsets (off : list Q) : Prop :=
  forall i j, (i < j < length off)%nat -> nth i off 0 < nth j off 0.

(** Point of segment [k] at offset [v]. *)
Definition on_segment (off f : list Q) (k : nat) (v : Q) : Q :=
  nth k f 0 + (nth (S k) f 0 - nth k f 0) / (nth (S k) off 0 - nth k off 0) * (v - nth k off 0).

Lemma interp_segment search off f k v :
  bracketing search -> increasing_offsets off -> (S k < length off)%nat ->
  nth k off 0 <= v <= nth (S k) off 0 -> np_interp search off f v == on_segment off f k v.
Proof.
  intros Hs I Hk Hv. unfold np_interp.
  assert (N : off <> []) by (intros ->; cbn in Hk; lia).
  assert (W : nth k off 0 < nth (S k) off 0) by (apply I; lia).
  assert (Le : forall i j, (i <= j < length off)%nat -> nth i off 0 <= nth j off 0).
  { intros i j H. destruct (Nat.eq_dec i j) as [->|]; [lra|]. apply Qlt_le_weak, I. lia. }
  assert (H0 : nth 0 off 0 <= v) by (apply Qle_trans with (nth k off 0); [apply Le; lia|lra]).
  assert (H1 : v <= nth (length off - 1) off 0) by (apply Qle_trans with (nth (S k) off 0); [lra|apply Le; lia]).
  destruct (Qltb (nth (length off - 1) off 0) v) eqn:E1; [qb; lra|].
  destruct (Qltb v (nth 0 off 0)) eqn:E2; [qb; lra|]. clear E1 E2.
  destruct (Hs off v N H0 H1) as (J1 & J2 & J3). set (j := search off v) in *. clearbody j. cbv zeta.
  destruct (lt_eq_lt_dec j k) as [[L|E]|G].
  - exfalso. specialize (J3 ltac:(lia)). pose proof (Le (S j) k ltac:(lia)). lra.
  - subst j. destruct (Nat.eqb_spec k (length off - 1)); [lia|]. unfold on_segment.
    destruct (Qeq_bool (nth k off 0) v) eqn:E3; [|ring].
    apply Qeq_bool_iff in E3. assert (Z : v - nth k off 0 == 0) by lra. rewrite Z. ring.
  - assert (j = S k).
    { destruct (Nat.eq_dec j (S k)); auto. pose proof (I (S k) j ltac:(lia)). lra. }
    subst j. assert (Ev : v == nth (S k) off 0) by lra. unfold on_segment.
    assert (F : forall a b, a + (b - a) / (nth (S k) off 0 - nth k off 0) * (v - nth k off 0) == b)
      by (intros; rewrite Ev; field; lra).
    rewrite F. assert (Z : v - nth (S k) off 0 == 0) by lra.
    destruct (Nat.eqb (S k) (length off - 1)); [reflexivity|].
    destruct (Qeq_bool (nth (S k) off 0) v); [reflexivity|]. rewrite Z. lra.
Qed.

Lemma nth_update_eq (l : list Q) i v d : (i < length l)%nat -> nth i (update_nth i v l) d = v.
Proof. revert i; induction l; intros [|i] H; cbn in *; try lia; auto. apply IHl. lia. Qed.
Lemma nth_update_ne (l : list Q) i j v d : i <> j -> nth j (update_nth i v l) d = nth j l d.
Proof. revert i j; induction l; intros [|i] [|j] H; cbn in *; try lia; auto. Qed.

Lemma on_segment_ext off f g k v : nth k f 0 = nth k g 0 -> nth (S k) f 0 = nth (S k) g 0 ->
  on_segment off f k v = on_segment off g k v.
Proof. intros E1 E2. unfold on_segment. rewrite E1, E2. auto. Qed.

(** A column after the end points have moved. *)
Definition moved (off x x' : list Q) : Prop :=
  let n := length off in
  length x' = n /\
  nth 0 x' 0 == on_segment off x 0 1 /\
  nth (n - 1) x' 0 == on_segment off x (n - 2) (nth (n - 1) off 0 - 1) /\
  forall i, (0 < i < n - 1)%nat -> nth i x' 0 = nth i x 0.

Theorem C65_ends_move_inward : forall search off x y,
  bracketing search -> increasing_offsets off -> nth 0 off 0 == 0 -> (3 <= length off)%nat ->
  length x = length off -> length y = length off ->
  1 <= nth 1 off 0 -> nth (length off - 2) off 0 <= nth (length off - 1) off 0 - 1 ->
  exists x' y', move_ends search off x y = Ok (x', y') /\ moved off x x' /\ moved off y y'.
Proof.
  intros search off x y Hs I Z L Lx Ly F1 F2. set (n := length off) in *.
  assert (NO : off <> []) by (intros ->; cbn in n; lia).
  assert (IP : forall v f, length f = n -> interp search v off f = Ok (np_interp search off f v)).
  { intros v f Lf. unfold interp. fold n. rewrite Lf, Nat.eqb_refl. cbn [negb].
    destruct (Nat.eqb_spec n 0); [lia|auto]. }
  assert (A : forall f, np_interp search off f 1 == on_segment off f 0 1).
  { intro f. apply interp_segment; auto; [fold n; lia|]. lra. }
  assert (P : (n - 1 = S (n - 2))%nat) by lia.
  assert (B : forall f, np_interp search off f (nth (n - 1) off 0 - 1) ==
                        on_segment off f (n - 2) (nth (n - 1) off 0 - 1)).
  { intro f. apply interp_segment; auto; [fold n; lia|]. rewrite P in *. lra. }
  unfold move_ends. rewrite IP by auto. cbn [bind]. rewrite IP by auto. cbn [bind].
  rewrite (py_index_last 0 off NO). cbn [bind]. fold n.
  rewrite !IP by (rewrite update_nth_length; auto). cbn [bind].
  eexists. eexists. split; [reflexivity|].
  rewrite !update_nth_length, Lx, Ly.
  enough (M : forall f, length f = n ->
    moved off f (update_nth (n - 1) (np_interp search off (update_nth 0 (np_interp search off f 1) f)
                                       (nth (n - 1) off 0 - 1)) (update_nth 0 (np_interp search off f 1) f)))
    by (split; apply M; auto).
  intros f Lf. unfold moved. fold n. split; [rewrite !update_nth_length; auto|].
  split; [|split].
  - rewrite nth_update_ne, nth_update_eq by lia. apply A.
  - rewrite nth_update_eq by (rewrite update_nth_length; lia). rewrite B.
    rewrite (on_segment_ext off _ f); [reflexivity| |]; apply nth_update_ne; lia.
  - intros i Hi. rewrite !nth_update_ne by lia. auto.
Qed.
Print Assumptions C65_ends_move_inward.

(** Linear search for the interval. *)
Fixpoint scan (xp : list Q) (x : Q) : nat :=
  match xp with
  | _ :: ((b :: _) as xp') => if Qltb x b then 0%nat else S (scan xp' x)
  | _ => 0%nat
  end.

Example C65_example : move_ends scan [0; 10; 20] [100; 110; 120] [5; 5; 5] <> Raise ValueError /\
  match move_ends scan [0; 10; 20] [100; 110; 120] [5; 5; 5] with
  | Ok (x, y) => (map Qred x, map Qred y) = ([101; 110; 119], [5; 5; 5])
  | Raise _ => False
  end.
Proof. split; [discriminate|vm_compute; reflexivity]. Qed.

(** With two points the last one is interpolated from the moved first point:
    0.9 m instead of 1 m from the end. *)
Theorem C65_two_points_refuted : exists x' y',
  move_ends scan [0; 10] [0; 10] [0; 0] = Ok (x', y') /\ nth 1 x' 0 == 91 # 10.
Proof. eexists. eexists. split; vm_compute; reflexivity. Qed.
Print Assumptions C65_two_points_refuted.

(** A branch shorter than a metre: both points are taken to the opposite side. *)
Theorem C65_short_branch_refuted : exists x' y',
  move_ends scan [0; 1 # 2] [0; 1 # 2] [0; 0] = Ok (x', y') /\ nth 0 x' 0 == 1 # 2.
Proof. eexists. eexists. split; vm_compute; reflexivity. Qed.
Print Assumptions C65_short_branch_refuted.
