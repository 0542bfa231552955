(** C132: order, origin and unit of the values that are split by variance. *)
From Coq Require Import String List Ascii ZArith QArith Qround Bool Lia Lqa Permutation.
From Verif Require Import PyBase Num L_Num Text L_List L_Same M_Geometry M_Classify T_Neighbour T_Variance.
Import ListNotations.
Local Open Scope Q_scope.

(** ** Specification *)

(** The values in another order, all of them raised by [h]. *)
Definition lifted (h x y : Q) : Prop := y == x + h.
Definition rearranged (h : Q) (l l' : list Q) : Prop := exists k, Permutation l k /\ Forall2 (lifted h) k l'.

(** ** Variances *)

Lemma qsum_perm l l' : Permutation l l' -> qsum l == qsum l'.
Proof. unfold qsum. induction 1; cbn [fold_right] in *; lra. Qed.
Lemma qsum_lifted h l l' : Forall2 (lifted h) l l' -> qsum l' == qsum l + h * inject_Z (Z.of_nat (length l)).
Proof.
  induction 1 as [|x y l l' E F IH]; [cbn; ring|]. unfold lifted in E. cbn [length]. rewrite Nat2Z.inj_succ. unfold Z.succ. rewrite inject_Z_plus.
  unfold qsum in *. cbn [fold_right]. rewrite IH, E. ring.
Qed.
Lemma rearranged_length h l l' : rearranged h l l' -> length l = length l'.
Proof. intros (k & P & F). rewrite (Permutation_length P). apply (F2_length _ _ _ F). Qed.
Lemma pvariance_rearranged h l l' : rearranged h l l' -> pvariance l == pvariance l'.
Proof.
  intro R. pose proof (rearranged_length h l l' R) as L. destruct R as (k & P & F).
  destruct l as [|x0 l0] eqn:E; [destruct l'; [reflexivity|discriminate]|]. rewrite <- E in *.
  assert (N : ~ inject_Z (Z.of_nat (length l)) == 0).
  { rewrite E. cbn [length]. intro Z. change 0 with (inject_Z 0) in Z. rewrite inject_Z_injective in Z. lia. }
  assert (M : mean l' == mean l + h).
  { unfold mean. rewrite <- L, (qsum_lifted h k l' F), <- (qsum_perm l k P), <- (Permutation_length P). field. exact N. }
  assert (PV : forall u, pvariance u = qsum (map (fun x => (x - mean u) * (x - mean u)) u) / inject_Z (Z.of_nat (length u))).
  { intro u. unfold pvariance. unfold mean at 1. rewrite map_length. reflexivity. }
  rewrite !PV, <- L. apply Qmult_comp; [|reflexivity].
  rewrite (qsum_perm _ _ (Permutation_map (fun x => (x - mean l) * (x - mean l)) P)).
  revert M. generalize (mean l') (mean l). intros a b M. clear - F M. induction F as [|x y k l1 X F IH]; [reflexivity|]. unfold qsum in *. cbn [map fold_right]. rewrite IH. unfold lifted in X. rewrite X, M. ring.
Qed.
Lemma filter_rearranged h f g l l' : (forall x y, lifted h x y -> f x = g y) -> rearranged h l l' -> rearranged h (filter f l) (filter g l').
Proof.
  intros H (k & P & F). exists (filter f k). split; [apply L_Same.filter_perm, P|].
  clear P. induction F as [|x y k l' E F IH]; [apply Forall2_nil|]. cbn [filter]. rewrite (H x y E). destruct (g y); [apply Forall2_cons; assumption|exact IH].
Qed.
Lemma lt_lifted h s s' x y : s' == s + h -> lifted h x y -> Qltb s x = Qltb s' y.
Proof. unfold lifted. intros S E. destruct (Qltb s x) eqn:A, (Qltb s' y) eqn:B; try reflexivity; exfalso; qb; lra. Qed.
Lemma le_lifted h s s' x y : s' == s + h -> lifted h x y -> Qle_bool x s = Qle_bool y s'.
Proof. unfold lifted. intros S E. destruct (Qle_bool x s) eqn:A, (Qle_bool y s') eqn:B; try reflexivity; exfalso; qb; lra. Qed.
Lemma cost_rearranged h l l' s s' : rearranged h l l' -> s' == s + h -> cost l s == cost l' s'.
Proof.
  intros R S. unfold cost. cbv zeta.
  assert (A : pvariance (highs s l) == pvariance (highs s' l')).
  { apply (pvariance_rearranged h), filter_rearranged; [|exact R]. intros x y. apply lt_lifted, S. }
  assert (B : pvariance (lows s l) == pvariance (lows s' l')).
  { apply (pvariance_rearranged h), filter_rearranged; [|exact R]. intros x y. apply le_lifted, S. }
  destruct (Qltb (pvariance (highs s l)) _) eqn:E, (Qltb (pvariance (highs s' l')) _) eqn:E'; try assumption; qb; lra.
Qed.
Lemma member_rearranged h l l' : rearranged h l l' -> forall x, In x l -> exists y, In y l' /\ y == x + h.
Proof.
  intros (k & P & F) x I. apply (Permutation_in _ P) in I. clear P. induction F as [|a b k l' E F IH]; [destruct I|].
  destruct I as [->|I]; [exists b; split; [left; reflexivity|exact E]|]. destruct (IH I) as (y & J & Y). exists y. split; [right; exact J|exact Y].
Qed.
Lemma member_rearranged' h l l' : rearranged h l l' -> forall y, In y l' -> exists x, In x l /\ y == x + h.
Proof.
  intros (k & P & F) y I. assert (K : exists x, In x k /\ y == x + h).
  { clear P. induction F as [|a b k l' E F IH]; [destruct I|]. destruct I as [->|I]; [exists a; split; [left; reflexivity|exact E]|].
    destruct (IH I) as (x & J & X). exists x. split; [right; exact J|exact X]. }
  destruct K as (x & J & X). exists x. split; [apply (Permutation_in _ (Permutation_sym P)), J|exact X].
Qed.

(** ** C132 *)

(** In another order and raised by a number, every value gets the same label. *)
Theorem C132_order_and_origin :
  forall A (one two : A) h l l' labels labels', l <> [] -> rearranged h l l' -> length labels = length l -> length labels' = length l' ->
    exists f g, classify_by_variance one two labels (map Fin l) = Ok (map f l) /\
      classify_by_variance one two labels' (map Fin l') = Ok (map g l') /\
      forall x y, y == x + h -> f x = g y.
Proof.
  intros A one two h l l' labels labels' N R L L'.
  assert (N' : l' <> []) by (intros ->; pose proof (rearranged_length _ _ _ R) as Z; destruct l; [congruence|discriminate]).
  destruct (C34_optimal_threshold_split A one two labels l N L) as (lo & hi & I1 & I2 & B & C).
  destruct (C34_optimal_threshold_split A one two labels' l' N' L') as (lo' & hi' & I1' & I2' & B' & C').
  assert (LO : lo' == lo + h).
  { destruct (member_rearranged h l l' R lo I1) as (y & J & Y). destruct (member_rearranged' h l l' R lo' I1') as (x & K & X).
    pose proof (B' y J). pose proof (B x K). lra. }
  assert (HI : hi' == hi + h).
  { destruct (member_rearranged h l l' R hi I2) as (y & J & Y). destruct (member_rearranged' h l l' R hi' I2') as (x & K & X).
    pose proof (B' y J). pose proof (B x K). lra. }
  destruct C as [(S & E)|(S & s & (i & Si & Hi) & E & _ & _ & O1 & O2)], C' as [(S' & E')|(S' & s' & (j & Sj & Hj) & E' & _ & _ & O1' & O2')]; try (exfalso; lra).
  - exists (fun _ => one), (fun _ => one). auto.
  - exists (fun x => if Qltb s x then one else two), (fun y => if Qltb s' y then one else two). split; [exact E|]. split; [exact E'|].
    assert (IJ : i = j).
    { set (u := lo + inject_Z (Z.of_nat j)). set (u' := lo' + inject_Z (Z.of_nat i)).
      assert (U : s' == u + h) by (unfold u; rewrite Sj, LO; ring). assert (U' : u' == s + h) by (unfold u'; rewrite Si, LO; ring).
      assert (CU : candidate lo hi u) by (exists j; split; [reflexivity|lra]). assert (CU' : candidate lo' hi' u') by (exists i; split; [reflexivity|lra]).
      pose proof (cost_rearranged h l l' u s' R U) as K. pose proof (cost_rearranged h l l' s u' R U') as K'.
      destruct (Nat.lt_trichotomy i j) as [T|[T|T]]; [exfalso|exact T|exfalso].
      - assert (Q : inject_Z (Z.of_nat i) < inject_Z (Z.of_nat j)) by (rewrite <- Zlt_Qlt; lia).
        assert (W : u' < s') by (unfold u'; rewrite Sj; lra). pose proof (O2' u' CU' W). pose proof (O1 u CU). lra.
      - assert (Q : inject_Z (Z.of_nat j) < inject_Z (Z.of_nat i)) by (rewrite <- Zlt_Qlt; lia).
        assert (W : u < s) by (unfold u; rewrite Si; lra). pose proof (O2 u CU W). pose proof (O1' u' CU'). lra. }
    subst j. intros x y Y. rewrite (lt_lifted h s s' x y); [reflexivity| |exact Y]. rewrite Si, Sj, LO. ring.
Qed.
Print Assumptions C132_order_and_origin.

(** Without another order: the same labels. *)
Theorem C132_origin :
  forall A (one two : A) h l l' labels, l <> [] -> Forall2 (lifted h) l l' -> length labels = length l ->
    classify_by_variance one two labels (map Fin l) = classify_by_variance one two labels (map Fin l').
Proof.
  intros A one two h l l' labels N F L. pose proof (F2_length _ _ _ F) as E.
  destruct (C132_order_and_origin A one two h l l' labels labels N) as (f & g & -> & -> & H); [exists l; split; [apply Permutation_refl|exact F]|exact L|congruence|].
  f_equal. clear - F H. induction F as [|x y l l' X F IH]; [reflexivity|]. cbn [map]. rewrite IH, (H x y X). reflexivity.
Qed.
Print Assumptions C132_origin.

(** The labels that are there before do not matter. *)
Theorem C132_earlier_labels :
  forall A (one two : A) l labels labels', length labels = length l -> length labels' = length l ->
    classify_by_variance one two labels (map Fin l) = classify_by_variance one two labels' (map Fin l).
Proof.
  intros A one two l labels labels' L L'. destruct l as [|x l]; [reflexivity|].
  destruct (C132_order_and_origin A one two 0 (x :: l) (x :: l) labels labels') as (f & g & -> & -> & H); try assumption; [discriminate| |].
  - exists (x :: l). split; [apply Permutation_refl|]. apply F2_refl. intro a. unfold lifted. ring.
  - f_equal. apply map_ext. intro a. apply H. ring.
Qed.
Print Assumptions C132_earlier_labels.

(** The unit matters: the candidates for the split are one unit apart. *)
Theorem C132_unit_refuted :
  exists l l', Forall2 (fun x y => y == 10 * x) l l' /\
    classify_by_variance 1%nat 2%nat [0%nat; 0%nat; 0%nat] (map Fin l) = Ok [1%nat; 1%nat; 1%nat] /\
    classify_by_variance 1%nat 2%nat [0%nat; 0%nat; 0%nat] (map Fin l') = Ok [2%nat; 1%nat; 1%nat].
Proof.
  exists [40; 409 # 10; 408 # 10], [400; 409; 408]. split; [|split; vm_compute; reflexivity].
  repeat (apply Forall2_cons; [reflexivity|]). apply Forall2_nil.
Qed.
Print Assumptions C132_unit_refuted.

(** A channel and a floodplain, listed in two orders and raised by five. *)
Theorem C132_case :
  rearranged 5 [45; 20; 44; 21] [26; 50; 49; 25] /\
  classify_by_variance 1%nat 2%nat [0; 0; 0; 0]%nat (map Fin [45; 20; 44; 21]) = Ok [1; 2; 1; 2]%nat /\
  classify_by_variance 1%nat 2%nat [0; 0; 0; 0]%nat (map Fin [26; 50; 49; 25]) = Ok [2; 1; 1; 2]%nat.
Proof.
  split; [|split; vm_compute; reflexivity]. exists [21; 45; 44; 20]. split.
  - apply (Permutation_trans (l' := [45; 44; 21; 20])).
    + apply perm_skip. apply (Permutation_trans (l' := [44; 20; 21])); [apply perm_swap|apply perm_skip, perm_swap].
    + apply (Permutation_trans (l' := [45; 21; 44; 20])); [apply perm_skip, perm_swap|apply perm_swap].
  - repeat (apply Forall2_cons; [reflexivity|]). apply Forall2_nil.
Qed.
Print Assumptions C132_case.
