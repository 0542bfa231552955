(** C131: units, origin and axes of a poly-line do not matter for its
    simplification. *)
From Coq Require Import List ZArith QArith Qabs Qround Bool Lia Lqa.
From Verif Require Import PyBase Num L_Num L_List M_Geometry M_Simplify Spec_Same L_Same L_SameReduce.
Import ListNotations.
Local Open Scope Q_scope.

(** ** Specification *)

(** An affine map: (x, y) goes to (a x + b y + e, c x + d y + f). *)
Record affine := mk_affine { a_a : Q; a_b : Q; a_c : Q; a_d : Q; a_e : Q; a_f : Q }.
Definition determinant (m : affine) : Q := a_a m * a_d m - a_b m * a_c m.
(** The factor for areas. *)
Definition area_factor (m : affine) : Q := Qabs (determinant m).
Definition image (m : affine) (p p' : point) : Prop :=
  exists x y x' y', p = (Fin x, Fin y) /\ p' = (Fin x', Fin y') /\
    x' == a_a m * x + a_b m * y + a_e m /\ y' == a_c m * x + a_d m * y + a_f m.
(** A number after a change of unit and origin. *)
Definition moved (k h : Q) (x y : num) : Prop := exists a b, x = Fin a /\ y = Fin b /\ b == k * a + h.
(** An area, [k] times as large; infinite stays infinite. *)
Definition times_area (k : Q) (x y : num) : Prop :=
  match x, y with Fin a, Fin b => b == k * a | PInf, PInf | NaN, NaN => True | _, _ => False end.

(** ** Areas *)

Lemma triangle_fin x1 y1 x2 y2 x3 y3 : triangle_area (Fin x1, Fin y1) (Fin x2, Fin y2) (Fin x3, Fin y3) =
  Fin (Qabs (x1 * (y2 - y3) + x2 * (y3 - y1) + x3 * (y1 - y2)) / 2).
Proof. reflexivity. Qed.
Lemma triangle_image m p q r p' q' r' : image m p p' -> image m q q' -> image m r r' ->
  times_area (area_factor m) (triangle_area p q r) (triangle_area p' q' r').
Proof.
  intros (x1 & y1 & u1 & v1 & -> & -> & U1 & V1) (x2 & y2 & u2 & v2 & -> & -> & U2 & V2) (x3 & y3 & u3 & v3 & -> & -> & U3 & V3).
  rewrite !triangle_fin. unfold area_factor, determinant. cbn [times_area]. rewrite U1, U2, U3, V1, V2, V3.
  transitivity (Qabs ((a_a m * a_d m - a_b m * a_c m) * (x1 * (y2 - y3) + x2 * (y3 - y1) + x3 * (y1 - y2))) / 2).
  - apply Qmult_comp; [|reflexivity]. apply Qabs_wd. ring.
  - rewrite Qabs_Qmult. unfold Qdiv. ring.
Qed.

Section Factor.
  Variable m : affine.
  Hypothesis D : ~ determinant m == 0.
  Let k := area_factor m.

  Lemma factor_positive : 0 < k.
  Proof. unfold k, area_factor. destruct (Qlt_le_dec 0 (Qabs (determinant m))) as [H|H]; [exact H|]. exfalso. apply D.
    pose proof (Qabs_nonneg (determinant m)) as N. revert N H. apply Qabs_case; intros; lra. Qed.

  Lemma lt_area x y x' y' : times_area k x x' -> times_area k y y' -> nltb x y = nltb x' y'.
  Proof.
    pose proof factor_positive as K. destruct x as [a| | |], x' as [a'| | |]; cbn [times_area]; try contradiction; intro X;
      destruct y as [b| | |], y' as [b'| | |]; cbn [times_area]; try contradiction; intro Y; try reflexivity.
    cbn [nltb]. destruct (Qltb a b) eqn:E, (Qltb a' b') eqn:E'; try reflexivity; exfalso; qb; rewrite X, Y in E'.
    - assert (k * a < k * b) by (apply Qmult_lt_l; assumption). lra.
    - apply Qmult_lt_l in E'; [lra|exact K].
  Qed.
  Lemma le_area x y x' y' : times_area k x x' -> times_area k y y' -> nleb x y = nleb x' y'.
  Proof.
    pose proof factor_positive as K. destruct x as [a| | |], x' as [a'| | |]; cbn [times_area]; try contradiction; intro X;
      destruct y as [b| | |], y' as [b'| | |]; cbn [times_area]; try contradiction; intro Y; try reflexivity.
    cbn [nleb]. destruct (Qle_bool a b) eqn:E, (Qle_bool a' b') eqn:E'; try reflexivity; exfalso; qb; rewrite X, Y in E'.
    - assert (k * a <= k * b) by (apply Qmult_le_l; assumption). lra.
    - apply Qmult_le_l in E'; [lra|exact K].
  Qed.
  Lemma nan_area x y : times_area k x y -> isnan x = isnan y.
  Proof. destruct x, y; cbn; try contradiction; reflexivity. Qed.
  Let areas := Forall2 (times_area k).

  Lemma row_image p q r p' q' r' : image m p p' -> image m q q' -> image m r r' ->
    times_area k (triangle_area_row p q r) (triangle_area_row p' q' r').
  Proof.
    intros P1 P2 P3. pose proof (triangle_image m p q r p' q' r' P1 P2 P3) as T.
    pose proof (triangle_row_eq p q r) as E. pose proof (triangle_row_eq p' q' r') as E'. fold k in T.
    destruct (triangle_area p q r), (triangle_area_row p q r); cbn in E; try contradiction;
      destruct (triangle_area p' q' r'), (triangle_area_row p' q' r'); cbn in E'; try contradiction; cbn in T |- *; try contradiction; auto.
    rewrite E, E'. exact T.
  Qed.
  Lemma rows_image l l' : Forall2 (image m) l l' -> areas (triangle_rows l) (triangle_rows l').
  Proof.
    induction 1 as [|p p' l l' E F IH]; cbn [triangle_rows]; [apply Forall2_nil|].
    destruct F as [|q q' l l' E1 F]; [apply Forall2_nil|]. destruct F as [|r r' l l' E2 F]; [apply Forall2_nil|].
    apply Forall2_cons; [apply row_image; assumption|exact IH].
  Qed.
  Lemma array_image l l' : Forall2 (image m) l l' -> res_rel areas (triangle_areas_from_array l) (triangle_areas_from_array l').
  Proof.
    intro H. pose proof (rows_image l l' H) as K. unfold triangle_areas_from_array.
    destruct H as [|p p' l l' E F]; [reflexivity|]. destruct F as [|q q' l l' E1 F]; cbn [res_rel].
    - apply Forall2_cons; [exact Logic.I|apply Forall2_nil].
    - apply Forall2_cons; [exact Logic.I|]. apply F2_app; [exact K|]. apply Forall2_cons; [exact Logic.I|apply Forall2_nil].
  Qed.

  (** ** The elimination *)

  Lemma argmin_from_area l l' : areas l l' -> forall i b u v, times_area k u v -> argmin_from i b u l = argmin_from i b v l'.
  Proof.
    induction 1 as [|x y l l' E F IH]; intros i b u v U; cbn [argmin_from]; auto.
    assert (K : argmin_less x u = argmin_less y v) by (unfold argmin_less; rewrite (nan_area _ _ U), (nan_area _ _ E), (lt_area _ _ _ _ E U); reflexivity).
    rewrite K. destruct (argmin_less y v); apply IH; auto.
  Qed.
  Lemma argmin_area l l' : areas l l' -> argmin l = argmin l'.
  Proof. intros [|x y u v E F]; cbn [argmin]; auto. apply argmin_from_area; auto. Qed.
  Lemma remove_area l l' i : areas l l' -> areas (remove l i) (remove l' i).
  Proof.
    intro H. unfold remove. apply F2_app; [apply remove_nth_rel, H|]. apply Forall2_cons; [|apply Forall2_nil]. apply last_rel; auto. exact Logic.I.
  Qed.
  Definition vw_image (s s' : vw) : Prop :=
    areas (vreal s) (vreal s') /\ areas (vareas s) (vareas s') /\ vidx s = vidx s' /\ vmin s = vmin s' /\ times_area k (vthis s) (vthis s').
  Definition step_image (x y : list num * list num * option nat) : Prop :=
    areas (fst (fst x)) (fst (fst y)) /\ areas (snd (fst x)) (snd (fst y)) /\ snd x = snd y.
  Lemma indexed_image pts pts' i a b c : Forall2 (image m) pts pts' -> res_rel (times_area k) (indexed_area pts i a b c) (indexed_area pts' i a b c).
  Proof.
    intro H. unfold indexed_area.
    apply (res_rel_bind eq); [destruct (py_index i a); cbn; auto|]. intros ia _ <-.
    apply (res_rel_bind (image m)); [apply py_index_rel, H|]. intros pa pa' PA.
    apply (res_rel_bind eq); [destruct (py_index i b); cbn; auto|]. intros ib _ <-.
    apply (res_rel_bind (image m)); [apply py_index_rel, H|]. intros pb pb' PB.
    apply (res_rel_bind eq); [destruct (py_index i c); cbn; auto|]. intros ic _ <-.
    apply (res_rel_bind (image m)); [apply py_index_rel, H|]. intros pc pc' PC.
    cbn [res_rel]. apply triangle_image; auto.
  Qed.
  Lemma right_image pts pts' s s' : Forall2 (image m) pts pts' -> vw_image s s' -> res_rel step_image (vw_right pts s) (vw_right pts' s').
  Proof.
    intros P (S1 & S2 & S3 & S4 & S5). unfold vw_right. rewrite S3, S4. cbv zeta.
    pose proof (indexed_image pts pts' (vidx s') (Z.of_nat (vmin s') - 1) (Z.of_nat (vmin s')) (Z.of_nat (vmin s') + 1) P) as K.
    destruct (indexed_area pts _ _ _ _) as [ra|e], (indexed_area pts' _ _ _ _) as [rb|e']; cbn [res_rel] in K; try contradiction.
    - destruct (py_index (vidx s') _) as [ri|]; cbn [bind res_rel]; [|reflexivity].
      rewrite (le_area _ _ _ _ K S5).
      assert (E : times_area k (if nleb rb (vthis s') then vthis s else ra) (if nleb rb (vthis s') then vthis s' else rb)) by (destruct (nleb _ _); auto).
      unfold step_image; cbn [fst snd]. split; [apply update_nth_rel; auto|]. split; [apply update_nth_rel; auto|reflexivity].
    - subst e'. destruct e; cbn [res_rel]; try reflexivity. split; [exact S1|]. split; [exact S2|reflexivity].
  Qed.
  Lemma left_image pts pts' s s' st st' : Forall2 (image m) pts pts' -> vw_image s s' -> step_image st st' ->
    res_rel step_image (vw_left pts s st) (vw_left pts' s' st').
  Proof.
    intros P (S1 & S2 & S3 & S4 & S5) T. destruct st as [[r a] j], st' as [[r' a'] j']. destruct T as (T1 & T2 & T3).
    cbn [fst snd] in *. subst j'. unfold vw_left. rewrite S3, S4. cbv zeta. destruct (Nat.ltb 1 (vmin s')).
    - apply (res_rel_bind (times_area k)); [apply indexed_image, P|]. intros la lb L. rewrite (le_area _ _ _ _ L S5).
      destruct (py_index (vidx s') _) as [ri|]; cbn [bind res_rel]; [|reflexivity].
      assert (E : times_area k (if nleb lb (vthis s') then vthis s else la) (if nleb lb (vthis s') then vthis s' else lb)) by (destruct (nleb _ _); auto).
      unfold step_image; cbn [fst snd]. split; [apply update_nth_rel; auto|]. split; [apply update_nth_rel; auto|reflexivity].
    - cbn [res_rel]. unfold step_image; cbn [fst snd]. auto.
  Qed.
  Lemma next_image i st st' : step_image st st' -> res_rel vw_image (vw_next i st) (vw_next i st').
  Proof.
    intros T. destruct st as [[r a] j], st' as [[r' a'] j']. destruct T as (T1 & T2 & T3).
    cbn [fst snd] in *. subst j'. unfold vw_next. cbv zeta. rewrite (argmin_area a a' T2).
    set (n := match j with Some (S q) => S q | _ => argmin a' end).
    destruct (pop_index i n); cbn [bind res_rel]; [|reflexivity].
    apply (res_rel_bind (times_area k)); [apply py_index_rel, T2|]. intros u v U. cbn [res_rel]. unfold vw_image; cbn.
    split; [exact T1|]. split; [apply remove_area, T2|]. auto.
  Qed.
  Lemma loop_image pts pts' : Forall2 (image m) pts pts' -> forall fuel s s', vw_image s s' ->
    res_rel areas (vw_loop fuel pts s) (vw_loop fuel pts' s').
  Proof.
    intro P. induction fuel as [|n IH]; intros s s' S; cbn [vw_loop]; pose proof S as (S1 & S2 & S3 & S4 & S5);
      rewrite (lt_area _ PInf _ PInf S5 Logic.I); destruct (nltb _ _); cbn [res_rel]; auto.
    apply (res_rel_bind vw_image); [|intros; apply IH; auto]. unfold vw_body.
    apply (res_rel_bind step_image); [apply right_image; auto|]. intros st st' T.
    apply (res_rel_bind step_image); [apply left_image; auto|]. intros st2 st2' T2. rewrite S3. apply next_image, T2.
  Qed.
  Lemma thresholds_image pts pts' : Forall2 (image m) pts pts' -> res_rel areas (build_thresholds pts) (build_thresholds pts').
  Proof.
    intro P. unfold build_thresholds. apply (res_rel_bind areas); [apply array_image, P|]. intros r r' R.
    rewrite (F2_length _ _ _ P). apply (res_rel_bind vw_image).
    - apply next_image. split; [exact R|]. split; [exact R|reflexivity].
    - intros s s' S. apply loop_image; auto.
  Qed.
  Lemma insert_area l l' x y : times_area k x y -> areas l l' -> areas (insert_desc x l) (insert_desc y l').
  Proof.
    intro E. induction 1 as [|a b l l' A F IH]; cbn [insert_desc]; [apply Forall2_cons; [exact E|apply Forall2_nil]|].
    rewrite (lt_area _ _ _ _ E A). destruct (nltb y b); apply Forall2_cons; auto.
  Qed.
  Lemma sort_area l l' : areas l l' -> areas (sort_desc l) (sort_desc l').
  Proof. unfold sort_desc. induction 1; cbn [fold_right]; [apply Forall2_nil|apply insert_area; auto]. Qed.
  Lemma mask_area (f g : num -> bool) l l' : (forall x y, times_area k x y -> f x = g y) -> areas l l' -> map f l = map g l'.
  Proof. intros H F. apply F2_eq. revert F. apply F2_map. exact H. Qed.
  Lemma index_image pts pts' n : Forall2 (image m) pts pts' -> from_number_index pts n = from_number_index pts' n.
  Proof.
    intro P. unfold from_number_index. pose proof (thresholds_image pts pts' P) as T.
    destruct (build_thresholds pts) as [t|], (build_thresholds pts') as [t'|]; cbn [res_rel] in T; try contradiction; [|subst; reflexivity]. cbn [bind].
    pose proof (py_index_rel _ _ _ n (sort_area t t' T)) as K.
    destruct (py_index (sort_desc t) n) as [v|e], (py_index (sort_desc t') n) as [v'|e']; cbn [res_rel] in K; try contradiction; [|subst; reflexivity].
    f_equal. f_equal. apply mask_area; [|exact T]. intros x y E. apply lt_area; auto.
  Qed.
  Lemma number_image pts pts' n : Forall2 (image m) pts pts' -> res_rel (Forall2 (image m)) (from_number pts n) (from_number pts' n).
  Proof.
    intro P. unfold from_number. apply (res_rel_bind areas); [apply thresholds_image, P|]. intros t t' T.
    pose proof (py_index_rel _ _ _ n (sort_area t t' T)) as K.
    destruct (py_index (sort_desc t) n) as [v|e], (py_index (sort_desc t') n) as [v'|e']; cbn [res_rel] in K; try contradiction.
    - rewrite (mask_area (fun x => nltb v x) (fun x => nltb v' x) t t'); [apply mask_index_rel, P| |exact T]. intros x y E. apply lt_area; auto.
    - subst e'. destruct e; cbn [res_rel]; try reflexivity; exact P.
  Qed.
  Lemma threshold_image pts pts' x y : Forall2 (image m) pts pts' -> times_area k x y ->
    res_rel (Forall2 (image m)) (from_threshold pts x) (from_threshold pts' y).
  Proof.
    intros P X. unfold from_threshold. apply (res_rel_bind areas); [apply thresholds_image, P|]. intros t t' T.
    rewrite (mask_area (fun v => nleb x v) (fun v => nleb y v) t t'); [apply mask_index_rel, P| |exact T]. intros u v E. apply le_area; auto.
  Qed.
End Factor.

(** ** C131 *)

(** The same points are kept: for a number, a ratio and a threshold; the
    thresholds follow the unit of area. *)
Theorem C131_axes_of_a_poly_line :
  forall m pts pts', ~ determinant m == 0 -> Forall2 (image m) pts pts' ->
    (forall n, from_number_index pts n = from_number_index pts' n) /\
    (forall n, res_rel (Forall2 (image m)) (from_number pts n) (from_number pts' n)) /\
    (forall r, res_rel (Forall2 (image m)) (from_ratio pts r) (from_ratio pts' r)) /\
    (forall x y, times_area (area_factor m) x y -> res_rel (Forall2 (image m)) (from_threshold pts x) (from_threshold pts' y)) /\
    res_rel (Forall2 (times_area (area_factor m))) (build_thresholds pts) (build_thresholds pts').
Proof.
  intros m pts pts' D P. split; [intro n; apply (index_image m); assumption|]. split; [intro n; apply number_image; assumption|].
  split; [|split; [intros x y; apply threshold_image; assumption|apply thresholds_image; assumption]].
  intro r. unfold from_ratio. destruct (Qle_bool r 0 || Qltb 1 r); [reflexivity|]. rewrite (F2_length _ _ _ P). apply number_image; assumption.
Qed.
Print Assumptions C131_axes_of_a_poly_line.

(** A table of levels and widths: other units and another datum. *)
Lemma zip_image k h w v : forall z z', Forall2 (moved k h) z z' -> forall tw tw', Forall2 (moved w v) tw tw' ->
  res_rel (Forall2 (image (mk_affine k 0 0 w h v))) (zip_points z tw) (zip_points z' tw').
Proof.
  induction 1 as [|a b z z' E F IH]; intros tw tw' T; destruct T as [|x y tw tw' X T]; cbn [zip_points]; try reflexivity; try apply Forall2_nil.
  apply (res_rel_bind (Forall2 (image (mk_affine k 0 0 w h v)))); [apply IH, T|]. intros l l' L. cbn [res_rel]. apply Forall2_cons; [|exact L].
  destruct E as (p & q & -> & -> & E), X as (r & s & -> & -> & X). exists p, r, q, s. cbn [a_a a_b a_c a_d a_e a_f].
  split; [reflexivity|]. split; [reflexivity|]. split; [rewrite E|rewrite X]; ring.
Qed.
Theorem C131_units_of_a_table :
  forall n k h w v (R : num -> num -> Prop) z z' tw tw' fw fw', ~ k == 0 -> ~ w == 0 ->
    Forall2 (moved k h) z z' -> Forall2 (moved w v) tw tw' -> Forall2 R fw fw' ->
    res_rel (fun t t' => Forall2 (moved k h) (fst (fst t)) (fst (fst t')) /\ Forall2 (moved w v) (snd (fst t)) (snd (fst t')) /\ Forall2 R (snd t) (snd t'))
      (reduce_points n z tw fw) (reduce_points n z' tw' fw').
Proof.
  intros n k h w v R z z' tw tw' fw fw' K W Z T F. unfold reduce_points. cbv zeta. rewrite (F2_length _ _ _ T).
  apply (res_rel_bind (Forall2 (image (mk_affine k 0 0 w h v)))); [apply zip_image; assumption|]. intros pts pts' P.
  assert (D : ~ determinant (mk_affine k 0 0 w h v) == 0).
  { unfold determinant. cbn [a_a a_b a_c a_d]. intro E. assert (E' : k * w == 0) by (rewrite <- E; ring). apply Qmult_integral in E'. tauto. }
  rewrite (index_image _ D pts pts' n P).
  apply (res_rel_bind eq); [destruct (n <? Z.of_nat (length tw'))%Z; [|reflexivity]; destruct (from_number_index pts' n) as [i|e]; [reflexivity|destruct e; reflexivity]|].
  intros i _ <-. destruct i as [mask|]; [|reflexivity].
  apply (res_rel_bind (Forall2 (moved k h))); [apply mask_index_rel, Z|]. intros a a' A.
  apply (res_rel_bind (Forall2 (moved w v))); [apply mask_index_rel, T|]. intros b b' B.
  apply (res_rel_bind (Forall2 R)); [apply mask_index_rel, F|]. intros c c' C. cbn [res_rel fst snd]. auto.
Qed.
Print Assumptions C131_units_of_a_table.

(** Levels in metres and in centimetres from another datum, widths in yards
    and in feet: the same rows. *)
Theorem C131_case :
  let z := map Fin [0; 1; 2; 3; 4] in let tw := map Fin [10; 12; 40; 50; 52] in
  let z' := map Fin [500; 600; 700; 800; 900] in let tw' := map Fin [30; 36; 120; 150; 156] in
  Forall2 (moved 100 500) z z' /\ Forall2 (moved 3 0) tw tw' /\
  reduce_points 3 z tw tw = Ok (map Fin [0; 2; 4], map Fin [10; 40; 52], map Fin [10; 40; 52]) /\
  reduce_points 3 z' tw' tw = Ok (map Fin [500; 700; 900], map Fin [30; 120; 156], map Fin [10; 40; 52]).
Proof.
  cbv zeta. cbn [map]. assert (M : forall k h a b, b == k * a + h -> moved k h (Fin a) (Fin b)) by (intros k h a b E; exists a, b; auto).
  split; [|split; [|split; vm_compute; reflexivity]].
  - repeat (apply Forall2_cons; [apply M; reflexivity|]). apply Forall2_nil.
  - repeat (apply Forall2_cons; [apply M; reflexivity|]). apply Forall2_nil.
Qed.
Print Assumptions C131_case.
