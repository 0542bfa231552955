(** Lemmas about the requirement check and the monotonicity mask. *)
From Coq Require Import String List ZArith QArith Qabs Bool Lia Lqa.
From Verif Require Import PyBase Num Spec L_Num M_Geometry.
Import ListNotations.
Local Open Scope Q_scope.

(** ** The increasing sweep on finite values *)

Fixpoint qsweep (prev : Q) (l : list Q) : list Q :=
  match l with
  | [] => []
  | x :: l' => let x' := if Qle_bool x prev then prev + (1 # 1000) else x in x' :: qsweep x' l'
  end.
Definition qincreasing (l : list Q) : list Q :=
  match l with [] => [] | x :: l' => x :: qsweep x l' end.

Lemma increasing_sweep_fin l : forall p,
  increasing_sweep (Fin p) (map Fin l) = map Fin (qsweep p l).
Proof.
  induction l as [|x l IH]; intros p; simpl; auto.
  destruct (Qle_bool x p); simpl; f_equal; auto.
Qed.

Lemma check_increasing_order_fin l :
  check_increasing_order (map Fin l) = map Fin (qincreasing l).
Proof. destruct l; simpl; auto. f_equal. apply increasing_sweep_fin. Qed.

Lemma qsweep_chain l : forall p, chain Qlt p (qsweep p l).
Proof.
  induction l as [|x l IH]; intros p; simpl; auto. split; [|apply IH].
  destruct (Qle_bool x p) eqn:E; qb; lra.
Qed.

Lemma qincreasing_sorted l : sorted Qlt (qincreasing l).
Proof. destruct l; simpl; auto. apply qsweep_chain. Qed.

Lemma qsweep_length l : forall p, length (qsweep p l) = length l.
Proof. induction l; intros; simpl; auto. Qed.
Lemma qincreasing_length l : length (qincreasing l) = length l.
Proof. destruct l; simpl; auto. f_equal. apply qsweep_length. Qed.

Lemma qsweep_ge l : forall p, Forall2 Qle l (qsweep p l).
Proof.
  induction l as [|x l IH]; intros p; simpl; constructor; auto.
  destruct (Qle_bool x p) eqn:E; qb; lra.
Qed.
Lemma qincreasing_ge l : Forall2 Qle l (qincreasing l).
Proof. destruct l; simpl; constructor; try lra. apply qsweep_ge. Qed.

Lemma qsweep_id l : forall p, chain Qlt p l -> qsweep p l = l.
Proof.
  induction l as [|x l IH]; intros p; simpl; auto. intros [H1 H2].
  destruct (Qle_bool x p) eqn:E; qb; [lra|]. f_equal; auto.
Qed.
Lemma qincreasing_id l : sorted Qlt l -> qincreasing l = l.
Proof. destruct l; simpl; auto. intros. f_equal. apply qsweep_id; auto. Qed.

(** Each repaired row is some original row (or the seed) plus 0.001 for every
    row in between. *)
Lemma qsweep_bound l : forall p i r,
  nth_error (qsweep p l) i = Some r ->
  r == p + (1 # 1000) * inject_Z (Z.of_nat (S i)) \/
  exists k x, (k <= i)%nat /\ nth_error l k = Some x /\
              r == x + (1 # 1000) * inject_Z (Z.of_nat (i - k)).
Proof.
  induction l as [|x l IH]; intros p i r H; [destruct i; discriminate|].
  simpl in H. destruct i as [|i]; simpl in H.
  - inversion H; subst; clear H. destruct (Qle_bool x p) eqn:E.
    + left. change (Z.of_nat 1) with 1%Z. ring.
    + right. exists O, x. split; [lia|]. split; auto.
      change (inject_Z (Z.of_nat (0 - 0))) with 0. ring.
  - apply IH in H. destruct H as [H | (k & y & Hk & Hy & Hr)].
    + destruct (Qle_bool x p) eqn:E.
      * left. rewrite H. rewrite (Nat2Z.inj_succ (S i)). unfold Z.succ.
        rewrite inject_Z_plus. change (inject_Z 1) with 1. ring.
      * right. exists O, x. split; [lia|]. split; auto.
    + right. exists (S k), y. split; [lia|]. split; auto.
Qed.

Lemma qincreasing_bound l i r :
  nth_error (qincreasing l) i = Some r ->
  exists k x, (k <= i)%nat /\ nth_error l k = Some x /\
              r == x + (1 # 1000) * inject_Z (Z.of_nat (i - k)).
Proof.
  destruct l as [|x l]; [destruct i; discriminate|]. simpl. destruct i as [|i]; simpl; intros H.
  - inversion H; subst. exists O, r. split; [lia|]. split; auto.
    change (inject_Z (Z.of_nat (0 - 0))) with 0. ring.
  - apply qsweep_bound in H. destruct H as [H | (k & y & Hk & Hy & Hr)].
    + exists O, x. split; [lia|]. split; auto.
    + exists (S k), y. split; [lia|]. split; auto.
Qed.

(** ** Widths *)
Definition qclamp (m : Q) (l : list Q) : list Q := map (fun x => if Qltb x m then m else x) l.

Lemma remove_zero_widths_fin m l :
  check_remove_zero_widths (Fin m) (map Fin l) = map Fin (qclamp m l).
Proof.
  unfold check_remove_zero_widths, qclamp. rewrite !map_map. apply map_ext.
  intros a. simpl. destruct (Qltb a m); auto.
Qed.

Lemma qclamp_ge m l : Forall (fun x => m <= x) (qclamp m l).
Proof.
  unfold qclamp. apply Forall_map. apply Forall_forall. intros x _.
  destruct (Qltb x m) eqn:E; qb; lra.
Qed.

Lemma qclamp_id m l : Forall (fun x => m <= x) l -> qclamp m l = l.
Proof.
  induction 1; simpl; auto. destruct (Qltb x m) eqn:E; qb; [lra|]. f_equal; auto.
Qed.

Lemma Forall2_ge_Forall m l r :
  Forall2 Qle l r -> Forall (fun x => m <= x) l -> Forall (fun x => m <= x) r.
Proof.
  induction 1; intros Hf; inversion Hf; subst; constructor; auto. lra.
Qed.

Lemma qincreasing_Forall_ge m l :
  Forall (fun x => m <= x) l -> Forall (fun x => m <= x) (qincreasing l).
Proof. intros. eapply Forall2_ge_Forall; eauto. apply qincreasing_ge. Qed.

(** ** Flow width at most total width *)
Definition qcap (tw fw : list Q) : list Q := map2 (fun f t => if Qltb t f then t else f) fw tw.

Lemma total_ge_flow_fin tw : forall fw,
  check_total_ge_flow (map Fin tw) (map Fin fw) = map Fin (qcap tw fw).
Proof.
  unfold check_total_ge_flow, qcap.
  induction tw as [|t tw IH]; intros [|f fw]; simpl; auto.
  destruct (Qltb t f); f_equal; auto.
Qed.

Lemma qcap_length tw fw : length tw = length fw -> length (qcap tw fw) = length tw.
Proof. intros. unfold qcap. rewrite map2_length. lia. Qed.

Lemma qcap_le tw fw : length tw = length fw -> Forall2 Qle (qcap tw fw) tw.
Proof.
  revert fw; induction tw as [|t tw IH]; intros [|f fw] H; try discriminate; simpl; constructor.
  - destruct (Qltb t f) eqn:E; qb; lra.
  - apply IH. simpl in H; lia.
Qed.

Lemma qcap_sorted tw : forall fw, sorted Qlt tw -> sorted Qlt fw -> sorted Qlt (qcap tw fw).
Proof.
  destruct tw as [|t tw]; intros [|f fw]; simpl; auto.
  revert t f fw. induction tw as [|t' tw IH]; intros t f [|f' fw]; simpl; auto.
  intros [H1 H2] [H3 H4]. split; [|apply IH; auto].
  destruct (Qltb t f) eqn:E1; destruct (Qltb t' f') eqn:E2; qb; lra.
Qed.

Lemma qcap_ge m tw : forall fw,
  Forall (fun x => m <= x) tw -> Forall (fun x => m <= x) fw ->
  Forall (fun x => m <= x) (qcap tw fw).
Proof.
  unfold qcap. induction tw as [|t tw IH]; intros [|f fw] H1 H2; simpl; constructor.
  - inversion H1; inversion H2; subst. destruct (Qltb t f); auto.
  - inversion H1; inversion H2; subst. apply IH; auto.
Qed.

Lemma qcap_id tw fw : Forall2 Qle fw tw -> qcap tw fw = fw.
Proof.
  unfold qcap. induction 1; simpl; auto. f_equal; auto.
  destruct (Qltb y x) eqn:E; qb; auto. lra.
Qed.

(** ** check_requirements *)
Lemma find_index_Some {A} (f : A -> bool) l i :
  find_index f l = Some i ->
  (exists x, nth_error l i = Some x /\ f x = true) /\
  (forall j x, (j < i)%nat -> nth_error l j = Some x -> f x = false).
Proof.
  revert i; induction l as [|y l IH]; simpl; intros i H; [discriminate|].
  destruct (f y) eqn:E.
  - inversion H; subst. split; [exists y; auto | intros; lia].
  - destruct (find_index f l) as [k|] eqn:Ek; [|discriminate]. inversion H; subst.
    destruct (IH k eq_refl) as [H1 H2]. split; [exact H1|].
    intros [|j] x Hj Hx; simpl in Hx; [inversion Hx; subst; auto|]. apply (H2 j); auto. lia.
Qed.

Lemma find_index_None {A} (f : A -> bool) l :
  find_index f l = None <-> Forall (fun x => f x = false) l.
Proof.
  induction l as [|y l IH]; simpl; split; auto.
  - destruct (f y) eqn:E; [discriminate|]. destruct (find_index f l) eqn:Ek; [discriminate|].
    constructor; auto. apply IH; auto.
  - intros H; inversion H; subst. rewrite H2. apply IH in H3. rewrite H3. auto.
Qed.

Lemma check_requirements_fin m z tw fw :
  (exists w, In w tw /\ ~ w == 0) ->
  check_requirements (Fin m) (map Fin z) (map Fin tw) (map Fin fw) =
  Ok (map Fin (qincreasing z),
      map Fin (qincreasing (qclamp m tw)),
      map Fin (qcap (qincreasing (qclamp m tw)) (qincreasing (qclamp m fw)))).
Proof.
  intros [w [Hin Hw]]. unfold check_requirements, check_remove_duplicate_zeroes.
  destruct (find_index _ (map Fin tw)) eqn:E; simpl.
  - rewrite !remove_zero_widths_fin, !check_increasing_order_fin, total_ge_flow_fin. auto.
  - apply find_index_None in E. rewrite Forall_forall in E.
    specialize (E (Fin w) (in_map Fin _ _ Hin)). simpl in E.
    apply negb_false_iff in E. qb. contradiction.
Qed.

Lemma check_requirements_zero m z tw fw :
  Forall (fun w => w == 0) tw ->
  check_requirements m z (map Fin tw) fw = Raise IndexError.
Proof.
  intros H. unfold check_requirements, check_remove_duplicate_zeroes.
  replace (find_index (fun w : num => negb (neqb w (Fin 0))) (map Fin tw)) with (@None nat); auto.
  symmetry. apply find_index_None. apply Forall_map. eapply Forall_impl; [|exact H].
  intros a Ha. simpl. apply negb_false_iff. qb. auto.
Qed.

(** ** The monotonicity mask *)

(** A simpler recursive form: [best] is the last kept value. *)
Fixpoint records_from (best : Q) (l : list Q) : list bool :=
  match l with
  | [] => []
  | x :: l' => if Qltb best x then true :: records_from x l' else false :: records_from best l'
  end.

Lemma last_true_app_false m : last_true (m ++ [false]) = last_true m.
Proof.
  unfold last_true.
  assert (H : forall i, last_true_from i (m ++ [false]) = last_true_from i m).
  { induction m as [|b m IH]; intros i; simpl; auto. rewrite IH. auto. }
  rewrite H. auto.
Qed.

Lemma last_true_app_true m : last_true (m ++ [true]) = length m.
Proof.
  unfold last_true.
  assert (H : forall i, last_true_from i (m ++ [true]) = Some (i + length m)%nat).
  { induction m as [|b m IH]; intros i; simpl.
    - f_equal; lia.
    - rewrite IH. f_equal; lia. }
  rewrite H. auto.
Qed.

Lemma monotonicity_loop arr : forall rest pre mask best,
  arr = pre ++ rest ->
  length mask = length pre ->
  nth_error arr (last_true mask) = Some best ->
  fold_left (monotonicity_step (map Fin arr)) (seq (length pre) (length rest)) mask
  = mask ++ records_from best rest.
Proof.
  induction rest as [|x rest IH]; intros pre mask best Harr Hlen Hbest; simpl.
  - rewrite app_nil_r; auto.
  - assert (Hx : nth_error arr (length pre) = Some x).
    { rewrite Harr, nth_error_app2, Nat.sub_diag; auto. }
    unfold monotonicity_step at 2.
    rewrite (nth_error_nth (map Fin arr) (last_true mask) NaN (map_nth_error Fin _ _ Hbest)).
    rewrite (nth_error_nth (map Fin arr) (length pre) NaN (map_nth_error Fin _ _ Hx)).
    change (nltb (Fin best) (Fin x)) with (Qltb best x).
    replace (S (length pre)) with (length (pre ++ [x])) by (rewrite app_length; simpl; lia).
    destruct (Qltb best x) eqn:E.
    + rewrite (IH (pre ++ [x]) (mask ++ [true]) x).
      * rewrite <- app_assoc. auto.
      * rewrite <- app_assoc. auto.
      * rewrite !app_length; simpl; lia.
      * rewrite last_true_app_true, Hlen. auto.
    + rewrite (IH (pre ++ [x]) (mask ++ [false]) best).
      * rewrite <- app_assoc. auto.
      * rewrite <- app_assoc. auto.
      * rewrite !app_length; simpl; lia.
      * rewrite last_true_app_false. auto.
Qed.

Lemma check_monotonicity_records a l :
  check_monotonicity (map Fin (a :: l)) = true :: records_from a l.
Proof.
  unfold check_monotonicity. rewrite map_length.
  replace (length (a :: l) - 1)%nat with (length l) by (simpl; lia).
  exact (monotonicity_loop (a :: l) l [a] [true] a eq_refl eq_refl eq_refl).
Qed.

Lemma records_from_length best l : length (records_from best l) = length l.
Proof.
  revert best; induction l as [|x l IH]; intros best; simpl; auto.
  destruct (Qltb best x); simpl; auto.
Qed.

Lemma records_from_spec l : forall best i,
  (i < length l)%nat ->
  (nth i (records_from best l) false = true <->
   exists x, nth_error l i = Some x /\ best < x /\
             forall k y, (k < i)%nat -> nth_error l k = Some y -> y < x).
Proof.
  induction l as [|x l IH]; intros best i Hi; [simpl in Hi; lia|].
  simpl. destruct (Qltb best x) eqn:E; qb.
  - destruct i as [|i]; simpl.
    + split; auto. intros _. exists x. split; auto. split; auto. intros; lia.
    + simpl in Hi. rewrite IH by lia. split; intros (y & Hy & Hlt & Hall).
      * exists y. split; auto. split; [lra|]. intros [|k] w Hk Hw; simpl in Hw.
        { inversion Hw; subst; auto. }
        apply (Hall k); auto. lia.
      * exists y. split; auto. split.
        { apply (Hall O); auto. lia. }
        intros k w Hk Hw. apply (Hall (S k)); auto. lia.
  - destruct i as [|i]; simpl.
    + split; [discriminate|]. intros (y & Hy & Hlt & _). inversion Hy; subst. lra.
    + simpl in Hi. rewrite IH by lia. split; intros (y & Hy & Hlt & Hall).
      * exists y. split; auto. split; [lra|]. intros [|k] w Hk Hw; simpl in Hw.
        { inversion Hw; subst. lra. }
        apply (Hall k); auto. lia.
      * exists y. split; auto. split; auto.
        intros k w Hk Hw. apply (Hall (S k)); auto. lia.
Qed.

Lemma records_from_chain l : forall best, chain Qlt best (select (records_from best l) l).
Proof.
  induction l as [|x l IH]; intros best; simpl; auto.
  destruct (Qltb best x) eqn:E; simpl; qb; auto.
Qed.
