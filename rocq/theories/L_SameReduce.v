(** The requirement check and the simplifier respect a change of datum. *)
From Coq Require Import List ZArith QArith Qabs Bool Permutation Lia Lqa.
From Verif Require Import PyBase Num L_Num L_List M_Geometry M_Simplify Spec_Same L_Same.
Import ListNotations.
Local Open Scope Q_scope.

Lemma raised_of_eq l m : same_column l m -> raised_column 0 l m.
Proof. apply F2_impl. intros a b. apply raised_0. reflexivity. Qed.
Lemma eq_of_raised h l m : h == 0 -> raised_column h l m -> same_column l m.
Proof. intro H. apply F2_impl. intros a b. apply raised_0, H. Qed.

(** ** Requirement check *)

Lemma find_index_rel {A B} (R : A -> B -> Prop) f g l m : (forall a b, R a b -> f a = g b) ->
  Forall2 R l m -> find_index f l = find_index g m.
Proof. intro H. induction 1 as [|a b l m E F IH]; cbn; auto. rewrite (H _ _ E), IH. reflexivity. Qed.
Lemma duplicate_zeroes_eq l m : same_column l m -> check_remove_duplicate_zeroes l = check_remove_duplicate_zeroes m.
Proof.
  intro H. unfold check_remove_duplicate_zeroes.
  rewrite (find_index_rel num_eq _ (fun w => negb (neqb w (Fin 0))) l m); auto.
  intros a b E. rewrite (neqb_eq a (Fin 0) b (Fin 0) E (num_eq_refl _)). reflexivity.
Qed.
Lemma zero_widths_eq w l m : same_column l m -> same_column (check_remove_zero_widths w l) (check_remove_zero_widths w m).
Proof.
  intro H. unfold check_remove_zero_widths. apply (F2_map num_eq); auto. intros a b E.
  rewrite (nltb_eq a w b w E (num_eq_refl _)). destruct (nltb b w); auto using num_eq_refl.
Qed.
Lemma sweep_raised h l m : raised_column h l m -> forall p q, raised h p q ->
  raised_column h (increasing_sweep p l) (increasing_sweep q m).
Proof.
  induction 1 as [|a b l m E F IH]; intros p q P; cbn [increasing_sweep]; [constructor|]. cbv zeta.
  rewrite (nleb_raised h a p b q E P).
  assert (K : raised h (if nleb b q then nadd p (Fin (1 # 1000)) else a) (if nleb b q then nadd q (Fin (1 # 1000)) else b)).
  { destruct (nleb b q); auto. apply nadd_raised; auto using num_eq_refl. }
  constructor; [exact K|apply IH, K].
Qed.
Lemma increasing_raised h l m : raised_column h l m ->
  raised_column h (check_increasing_order l) (check_increasing_order m).
Proof. intros [|a b l' m' E F]; cbn; constructor; auto. apply sweep_raised; auto. Qed.
Lemma increasing_eq l m : same_column l m -> same_column (check_increasing_order l) (check_increasing_order m).
Proof. intro H. apply (eq_of_raised 0); [reflexivity|]. apply increasing_raised, raised_of_eq, H. Qed.

Definition table_rel (h : Q) (t t' : list num * list num * list num) : Prop :=
  raised_column h (fst (fst t)) (fst (fst t')) /\ same_column (snd (fst t)) (snd (fst t')) /\
  same_column (snd t) (snd t').

Lemma check_requirements_rel h w z z' tw tw' fw fw' :
  raised_column h z z' -> same_column tw tw' -> same_column fw fw' ->
  res_rel (table_rel h) (check_requirements w z tw fw) (check_requirements w z' tw' fw').
Proof.
  intros Z T F. unfold check_requirements. rewrite (duplicate_zeroes_eq tw tw' T).
  destruct (check_remove_duplicate_zeroes tw') as [n0|]; cbn [bind res_rel]; [|reflexivity]. cbv zeta.
  pose proof (increasing_eq _ _ (zero_widths_eq w _ _ T)) as T2.
  pose proof (increasing_eq _ _ (zero_widths_eq w _ _ F)) as F2.
  unfold table_rel; cbn [fst snd]. split; [apply increasing_raised, Z|]. split; [exact T2|].
  unfold check_total_ge_flow. apply (F2_map2 num_eq num_eq); auto. intros a a' b b' A B.
  rewrite (nltb_eq _ _ _ _ B A). destruct (nltb b' a'); auto.
Qed.

(** The total widths stay finite. *)
Lemma sweep_fin l : Forall finite l -> forall p, finite p -> Forall finite (increasing_sweep p l).
Proof.
  induction 1 as [|a l E F IH]; intros p P; cbn [increasing_sweep]; [constructor|]. cbv zeta.
  assert (K : finite (if nleb a p then nadd p (Fin (1 # 1000)) else a)).
  { destruct (nleb a p); auto. destruct p; try contradiction. exact I. }
  constructor; [exact K|apply IH, K].
Qed.
Lemma requirements_fin w z tw fw z' tw' fw' : finite w -> Forall finite tw ->
  check_requirements w z tw fw = Ok (z', tw', fw') -> Forall finite tw'.
Proof.
  intros W T H. unfold check_requirements in H.
  destruct (check_remove_duplicate_zeroes tw) as [n0|]; [|discriminate]. cbn [bind] in H. injection H as <- <- <-.
  assert (K : Forall finite (check_remove_zero_widths w tw)).
  { unfold check_remove_zero_widths. apply Forall_map. revert T. apply Forall_impl. intros a A. destruct (nltb a w); auto. }
  destruct K as [|a l A F]; cbn; [constructor|]. constructor; auto. apply sweep_fin; auto.
Qed.

(** ** Triangles *)

(** A point of the profile; with another datum the width must be finite. *)
Definition point_rel (h : Q) (p p' : point) : Prop :=
  raised h (fst p) (fst p') /\ num_eq (snd p) (snd p') /\ (h == 0 \/ finite (snd p)).

(** Equal, or both finite. *)
Definition near (x y : num) : Prop := match x, y with Fin _, Fin _ => True | _, _ => num_eq x y end.
Lemma near_add x y x' y' : near x x' -> near y y' -> near (nadd x y) (nadd x' y').
Proof. destruct x, x', y, y'; cbn; auto; contradiction. Qed.
Lemma near_eq x y : near x y -> ~ finite x -> num_eq x y.
Proof. destruct x, y; cbn; auto; tauto. Qed.
Lemma add_infinite_l x y : ~ finite x -> ~ finite (nadd x y).
Proof. destruct x, y; cbn; tauto. Qed.
Lemma add_infinite_r x y : ~ finite y -> ~ finite (nadd x y).
Proof. destruct x, y; cbn; tauto. Qed.
Lemma mul_near h x x' a a' : raised h x x' -> a == a' -> near (nmul x (Fin a)) (nmul x' (Fin a')).
Proof.
  intros R E. destruct x, x'; cbn in *; try contradiction; auto; rewrite (inf_times_eq _ _ _ E);
    match goal with |- near ?u ?u => destruct u; cbn; auto end.
Qed.
Lemma mul_infinite x a : ~ finite x -> ~ finite (nmul x (Fin a)).
Proof.
  destruct x; cbn; try tauto; intros _; unfold inf_times; destruct (Qeq_bool a 0), (Qltb 0 a); cbn; tauto.
Qed.
Lemma fin_dec x : finite x \/ ~ finite x.
Proof. destruct x; cbn; tauto. Qed.

Lemma triangle_rel h p q r p' q' r' : point_rel h p p' -> point_rel h q q' -> point_rel h r r' ->
  num_eq (triangle_area p q r) (triangle_area p' q' r').
Proof.
  destruct p as [x1 y1], q as [x2 y2], r as [x3 y3], p' as [x1' y1'], q' as [x2' y2'], r' as [x3' y3'].
  intros (X1 & Y1 & F1) (X2 & Y2 & F2) (X3 & Y3 & F3). cbn [fst snd] in *.
  unfold triangle_area. cbn [fst snd]. apply ndiv_eq; [|apply num_eq_refl]. apply nabs_eq.
  destruct F1 as [Z|F1]; [|destruct F2 as [Z|F2]; [|destruct F3 as [Z|F3]]].
  1-3: apply (raised_0 h x1 x1' Z) in X1; apply (raised_0 h x2 x2' Z) in X2; apply (raised_0 h x3 x3' Z) in X3;
       repeat apply nadd_eq; apply nmul_eq; auto using nsub_eq.
  destruct y1 as [a| | |], y2 as [b| | |], y3 as [c| | |]; try contradiction.
  destruct y1' as [a'| | |], y2' as [b'| | |], y3' as [c'| | |]; try contradiction. cbn in Y1, Y2, Y3.
  cbn [nsub nneg nadd].
  assert (B1 : b + - c == b' + - c') by lra. assert (B2 : c + - a == c' + - a') by lra.
  assert (B3 : a + - b == a' + - b') by lra.
  pose proof (mul_near h x1 x1' _ _ X1 B1) as M1. pose proof (mul_near h x2 x2' _ _ X2 B2) as M2.
  pose proof (mul_near h x3 x3' _ _ X3 B3) as M3.
  destruct (fin_dec x1) as [G1|G1].
  2: { apply near_eq; [auto using near_add|]. apply add_infinite_l, add_infinite_l, mul_infinite, G1. }
  destruct (fin_dec x2) as [G2|G2].
  2: { apply near_eq; [auto using near_add|]. apply add_infinite_l, add_infinite_r, mul_infinite, G2. }
  destruct (fin_dec x3) as [G3|G3].
  2: { apply near_eq; [auto using near_add|]. apply add_infinite_r, mul_infinite, G3. }
  destruct x1 as [u1| | |], x2 as [u2| | |], x3 as [u3| | |]; try contradiction.
  destruct x1' as [v1| | |], x2' as [v2| | |], x3' as [v3| | |]; try contradiction. cbn in X1, X2, X3. cbn.
  rewrite X1, X2, X3, Y1, Y2, Y3. ring.
Qed.

Lemma nadd_comm_eq x y : num_eq (nadd x y) (nadd y x).
Proof. destruct x, y; cbn; auto. ring. Qed.
Lemma triangle_row_eq p q r : num_eq (triangle_area_row p q r) (triangle_area p q r).
Proof.
  unfold triangle_area_row, triangle_area. cbv zeta. apply ndiv_eq; [|apply num_eq_refl]. apply nabs_eq.
  eapply num_eq_trans; [apply nadd_comm_eq|]. apply nadd_eq; [|apply num_eq_refl]. apply nadd_comm_eq.
Qed.
Lemma triangle_row_rel h p q r p' q' r' : point_rel h p p' -> point_rel h q q' -> point_rel h r r' ->
  num_eq (triangle_area_row p q r) (triangle_area_row p' q' r').
Proof.
  intros P1 P2 P3. eapply num_eq_trans; [apply triangle_row_eq|].
  eapply num_eq_trans; [apply (triangle_rel h); eauto|]. apply num_eq_sym, triangle_row_eq.
Qed.

(** ** The simplifier *)

Lemma triangle_rows_rel h l m : Forall2 (point_rel h) l m -> same_column (triangle_rows l) (triangle_rows m).
Proof.
  induction 1 as [|p p' l m E F IH]; cbn [triangle_rows]; [constructor|].
  destruct F as [|q q' l m E1 F]; [constructor|]. destruct F as [|r r' l m E2 F]; [constructor|].
  constructor; [apply (triangle_row_rel h); auto|exact IH].
Qed.
Lemma areas_rel h l m : Forall2 (point_rel h) l m ->
  res_rel same_column (triangle_areas_from_array l) (triangle_areas_from_array m).
Proof.
  intro H. pose proof (triangle_rows_rel h l m H) as K. unfold triangle_areas_from_array.
  destruct H as [|p p' l m E F]; [reflexivity|]. destruct F as [|q q' l m E1 F]; cbn [res_rel].
  - repeat constructor.
  - constructor; [exact I|]. apply F2_app; [exact K|]. repeat constructor.
Qed.

Lemma argmin_from_eq l m : same_column l m -> forall k b u v, num_eq u v ->
  argmin_from k b u l = argmin_from k b v m.
Proof.
  induction 1 as [|x y l m E F IH]; intros k b u v U; cbn; auto.
  assert (K : argmin_less x u = argmin_less y v).
  { unfold argmin_less. rewrite (isnan_eq _ _ U), (isnan_eq _ _ E), (nltb_eq _ _ _ _ E U). reflexivity. }
  rewrite K. destruct (argmin_less y v); apply IH; auto.
Qed.
Lemma argmin_eq l m : same_column l m -> argmin l = argmin m.
Proof. intros [|x y l' m' E F]; cbn; auto. apply argmin_from_eq; auto. Qed.
Lemma remove_nth_rel {A B} (R : A -> B -> Prop) l m : Forall2 R l m -> forall k, Forall2 R (remove_nth k l) (remove_nth k m).
Proof. induction 1; intros [|k]; cbn; auto. Qed.
Lemma update_nth_rel {A B} (R : A -> B -> Prop) l m a b : R a b -> Forall2 R l m ->
  forall k, Forall2 R (update_nth k a l) (update_nth k b m).
Proof. intro E. induction 1; intros [|k]; cbn; auto. Qed.
Lemma last_rel {A B} (R : A -> B -> Prop) l m a b : R a b -> Forall2 R l m -> R (last l a) (last m b).
Proof. intro E. induction 1 as [|x y l m X F IH]; cbn; auto. destruct F; auto. Qed.
Lemma remove_eq l m k : same_column l m -> same_column (remove l k) (remove m k).
Proof.
  intro H. unfold remove. apply F2_app; [apply remove_nth_rel, H|]. constructor; [|constructor].
  apply last_rel; auto. exact I.
Qed.

Definition vw_rel (s s' : vw) : Prop :=
  same_column (vreal s) (vreal s') /\ same_column (vareas s) (vareas s') /\ vidx s = vidx s' /\
  vmin s = vmin s' /\ num_eq (vthis s) (vthis s').
Definition step_rel (x y : list num * list num * option nat) : Prop :=
  same_column (fst (fst x)) (fst (fst y)) /\ same_column (snd (fst x)) (snd (fst y)) /\ snd x = snd y.

Lemma indexed_area_rel h pts pts' i a b c : Forall2 (point_rel h) pts pts' ->
  res_rel num_eq (indexed_area pts i a b c) (indexed_area pts' i a b c).
Proof.
  intro H. unfold indexed_area.
  apply (res_rel_bind eq); [destruct (py_index i a); cbn; auto|]. intros ia _ <-.
  apply (res_rel_bind (point_rel h)); [apply py_index_rel, H|]. intros pa pa' PA.
  apply (res_rel_bind eq); [destruct (py_index i b); cbn; auto|]. intros ib _ <-.
  apply (res_rel_bind (point_rel h)); [apply py_index_rel, H|]. intros pb pb' PB.
  apply (res_rel_bind eq); [destruct (py_index i c); cbn; auto|]. intros ic _ <-.
  apply (res_rel_bind (point_rel h)); [apply py_index_rel, H|]. intros pc pc' PC.
  apply (triangle_rel h); auto.
Qed.
Lemma vw_right_rel h pts pts' s s' : Forall2 (point_rel h) pts pts' -> vw_rel s s' ->
  res_rel step_rel (vw_right pts s) (vw_right pts' s').
Proof.
  intros P (S1 & S2 & S3 & S4 & S5). unfold vw_right. rewrite S3, S4. cbv zeta.
  pose proof (indexed_area_rel h pts pts' (vidx s') (Z.of_nat (vmin s') - 1) (Z.of_nat (vmin s')) (Z.of_nat (vmin s') + 1) P) as K.
  destruct (indexed_area pts _ _ _ _) as [ra|e], (indexed_area pts' _ _ _ _) as [rb|e']; cbn [res_rel] in K; try contradiction.
  - destruct (py_index (vidx s') _) as [ri|]; cbn [bind res_rel]; [|reflexivity].
    rewrite (nleb_eq _ _ _ _ K S5).
    assert (E : num_eq (if nleb rb (vthis s') then vthis s else ra) (if nleb rb (vthis s') then vthis s' else rb))
      by (destruct (nleb _ _); auto).
    unfold step_rel; cbn [fst snd]. split; [apply update_nth_rel; auto|]. split; [apply update_nth_rel; auto|reflexivity].
  - subst e'. destruct e; cbn [res_rel]; try reflexivity. split; [exact S1|]. split; [exact S2|reflexivity].
Qed.
Lemma vw_left_rel h pts pts' s s' st st' : Forall2 (point_rel h) pts pts' -> vw_rel s s' -> step_rel st st' ->
  res_rel step_rel (vw_left pts s st) (vw_left pts' s' st').
Proof.
  intros P (S1 & S2 & S3 & S4 & S5) T. destruct st as [[r a] k], st' as [[r' a'] k']. destruct T as (T1 & T2 & T3).
  cbn [fst snd] in *. subst k'. unfold vw_left. rewrite S3, S4. cbv zeta. destruct (Nat.ltb 1 (vmin s')).
  - apply (res_rel_bind num_eq); [apply (indexed_area_rel h), P|]. intros la lb L. rewrite (nleb_eq _ _ _ _ L S5).
    destruct (py_index (vidx s') _) as [ri|]; cbn [bind res_rel]; [|reflexivity].
    assert (E : num_eq (if nleb lb (vthis s') then vthis s else la) (if nleb lb (vthis s') then vthis s' else lb))
      by (destruct (nleb _ _); auto).
    unfold step_rel; cbn [fst snd]. split; [apply update_nth_rel; auto|]. split; [apply update_nth_rel; auto|reflexivity].
  - cbn [res_rel]. unfold step_rel; cbn [fst snd]. auto.
Qed.
Lemma vw_next_rel i st st' : step_rel st st' -> res_rel vw_rel (vw_next i st) (vw_next i st').
Proof.
  intros T. destruct st as [[r a] k], st' as [[r' a'] k']. destruct T as (T1 & T2 & T3).
  cbn [fst snd] in *. subst k'. unfold vw_next. cbv zeta. rewrite (argmin_eq a a' T2).
  set (m := match k with Some (S j) => S j | _ => argmin a' end).
  destruct (pop_index i m); cbn [bind res_rel]; [|reflexivity].
  apply (res_rel_bind num_eq); [apply py_index_rel, T2|]. intros u v U. cbn [res_rel]. unfold vw_rel; cbn.
  split; [exact T1|]. split; [apply remove_eq, T2|]. auto.
Qed.
Lemma vw_loop_rel h pts pts' : Forall2 (point_rel h) pts pts' -> forall fuel s s', vw_rel s s' ->
  res_rel same_column (vw_loop fuel pts s) (vw_loop fuel pts' s').
Proof.
  intro P. induction fuel as [|n IH]; intros s s' S; cbn [vw_loop];
    pose proof S as (S1 & S2 & S3 & S4 & S5);
    rewrite (nltb_eq _ PInf _ PInf S5 (num_eq_refl _)); destruct (nltb _ _); cbn [res_rel]; auto.
  apply (res_rel_bind vw_rel); [|intros; apply IH; auto]. unfold vw_body.
  apply (res_rel_bind step_rel); [apply (vw_right_rel h); auto|]. intros st st' T.
  apply (res_rel_bind step_rel); [apply (vw_left_rel h); auto|]. intros st2 st2' T2.
  rewrite S3. apply vw_next_rel, T2.
Qed.
Lemma thresholds_rel h pts pts' : Forall2 (point_rel h) pts pts' ->
  res_rel same_column (build_thresholds pts) (build_thresholds pts').
Proof.
  intro P. unfold build_thresholds. apply (res_rel_bind same_column); [apply (areas_rel h), P|]. intros r r' R.
  rewrite (F2_length _ _ _ P). apply (res_rel_bind vw_rel).
  - apply vw_next_rel. split; [exact R|]. split; [exact R|reflexivity].
  - intros s s' S. apply (vw_loop_rel h); auto.
Qed.

Lemma insert_desc_eq l m x y : num_eq x y -> same_column l m -> same_column (insert_desc x l) (insert_desc y m).
Proof.
  intro E. induction 1 as [|a b l m A F IH]; cbn [insert_desc].
  - constructor; [exact E|constructor].
  - rewrite (nltb_eq _ _ _ _ E A). destruct (nltb y b); constructor; auto.
Qed.
Lemma sort_desc_eq l m : same_column l m -> same_column (sort_desc l) (sort_desc m).
Proof. unfold sort_desc. induction 1; cbn; [constructor|apply insert_desc_eq; auto]. Qed.
Lemma number_index_rel h pts pts' n : Forall2 (point_rel h) pts pts' ->
  res_rel eq (from_number_index pts n) (from_number_index pts' n).
Proof.
  intro P. unfold from_number_index. apply (res_rel_bind same_column); [apply (thresholds_rel h), P|].
  intros t t' T. pose proof (py_index_rel num_eq _ _ n (sort_desc_eq t t' T)) as K.
  destruct (py_index (sort_desc t) n) as [v|e], (py_index (sort_desc t') n) as [v'|e']; cbn [res_rel] in K |- *; try contradiction.
  - f_equal. apply F2_eq. apply (F2_map num_eq); auto. intros a b E. apply nltb_eq; auto.
  - subst e'. destruct e; reflexivity.
Qed.

Lemma zip_points_rel h z z' : raised_column h z z' -> forall tw tw', same_column tw tw' ->
  (h == 0 \/ Forall finite tw) -> res_rel (Forall2 (point_rel h)) (zip_points z tw) (zip_points z' tw').
Proof.
  induction 1 as [|a b z z' E F IH]; intros tw tw' T K; destruct T as [|w w' tw tw' W T]; cbn [zip_points]; try solve [cbn; constructor].
  - apply (res_rel_bind (Forall2 (point_rel h))).
    + apply IH; auto. destruct K as [K|K]; auto. inversion K; auto.
    + intros l m L. cbn [res_rel]. constructor; auto. split; [exact E|]. split; [exact W|].
      destruct K as [K|K]; auto. inversion K; auto.
Qed.
Lemma reduce_points_rel h n z z' tw tw' fw fw' :
  raised_column h z z' -> same_column tw tw' -> same_column fw fw' -> (h == 0 \/ Forall finite tw) ->
  res_rel (table_rel h) (reduce_points n z tw fw) (reduce_points n z' tw' fw').
Proof.
  intros Z T F K. unfold reduce_points. cbv zeta. rewrite (F2_length _ _ _ T).
  apply (res_rel_bind (Forall2 (point_rel h))); [apply zip_points_rel; auto|]. intros pts pts' P.
  apply (res_rel_bind eq).
  - destruct (n <? Z.of_nat (length tw'))%Z; [|reflexivity].
    pose proof (number_index_rel h pts pts' n P) as N.
    destruct (from_number_index pts n) as [m|e], (from_number_index pts' n) as [m'|e']; cbn [res_rel] in N; try contradiction.
    + subst. reflexivity.
    + subst e'. destruct e; reflexivity.
  - intros m _ <-. destruct m as [mask|]; [|reflexivity].
    apply (res_rel_bind (raised_column h)); [apply mask_index_rel, Z|]. intros a a' A.
    apply (res_rel_bind same_column); [apply mask_index_rel, T|]. intros b b' B.
    apply (res_rel_bind same_column); [apply mask_index_rel, F|]. intros c c' C.
    cbn [res_rel]. unfold table_rel; cbn [fst snd]. auto.
Qed.
