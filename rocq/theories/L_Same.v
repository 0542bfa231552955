(** The arithmetic of Num respects equality of numbers and a change of datum. *)
From Coq Require Import List ZArith QArith Qround Qabs Bool Permutation Lia Lqa.
From Verif Require Import PyBase Num L_Num L_List Spec_Same.
Import ListNotations.
Local Open Scope Q_scope.

(** ** Comparisons *)

Lemma Qle_bool_congr a b c d : (a <= b <-> c <= d) -> Qle_bool a b = Qle_bool c d.
Proof.
  intro H. destruct (Qle_bool c d) eqn:E.
  - apply Qle_bool_true. apply Qle_bool_true in E. apply H, E.
  - apply Qle_bool_false. apply Qle_bool_false in E. apply Qnot_le_lt. intro L. apply H in L. lra.
Qed.
Lemma Qltb_congr a b c d : (b <= a <-> d <= c) -> Qltb a b = Qltb c d.
Proof. intro H. unfold Qltb. f_equal. apply Qle_bool_congr, H. Qed.
Lemma Qeq_bool_congr a b c d : (a == b <-> c == d) -> Qeq_bool a b = Qeq_bool c d.
Proof.
  intro H. destruct (Qeq_bool c d) eqn:E.
  - apply Qeq_bool_true. apply Qeq_bool_true in E. apply H, E.
  - apply Qeq_bool_false. apply Qeq_bool_false in E. intro L. apply E, H, L.
Qed.

Ltac nums := repeat match goal with x : num |- _ => destruct x end; cbn in *; try contradiction; auto.

Lemma num_eq_refl x : num_eq x x.
Proof. destruct x; cbn; auto. reflexivity. Qed.
Lemma num_eq_sym x y : num_eq x y -> num_eq y x.
Proof. nums. intro; lra. Qed.
Lemma num_eq_trans x y z : num_eq x y -> num_eq y z -> num_eq x z.
Proof. nums. intros; lra. Qed.
Lemma raised_0 h x y : h == 0 -> raised h x y <-> num_eq x y.
Proof. intro H. nums; try tauto; split; intro; lra. Qed.
Lemma raised_trans h x y z : num_eq x y -> raised h y z -> raised h x z.
Proof. nums. intros; lra. Qed.
Lemma raised_then h x y z : raised h x y -> num_eq y z -> raised h x z.
Proof. nums. intros; lra. Qed.

Lemma isnan_eq x y : num_eq x y -> isnan x = isnan y.
Proof. nums. Qed.
Lemma isnan_raised h x y : raised h x y -> isnan x = isnan y.
Proof. nums. Qed.
Lemma nltb_eq x y x' y' : num_eq x x' -> num_eq y y' -> nltb x y = nltb x' y'.
Proof. nums. intros. apply Qltb_congr. split; intro; lra. Qed.
Lemma nleb_eq x y x' y' : num_eq x x' -> num_eq y y' -> nleb x y = nleb x' y'.
Proof. nums. intros. apply Qle_bool_congr. split; intro; lra. Qed.
Lemma neqb_eq x y x' y' : num_eq x x' -> num_eq y y' -> neqb x y = neqb x' y'.
Proof. nums. intros. apply Qeq_bool_congr. split; intro; lra. Qed.
Lemma nltb_raised h x y x' y' : raised h x x' -> raised h y y' -> nltb x y = nltb x' y'.
Proof. nums. intros. apply Qltb_congr. split; intro; lra. Qed.
Lemma nleb_raised h x y x' y' : raised h x x' -> raised h y y' -> nleb x y = nleb x' y'.
Proof. nums. intros. apply Qle_bool_congr. split; intro; lra. Qed.

(** ** Arithmetic *)

Lemma nneg_eq x x' : num_eq x x' -> num_eq (nneg x) (nneg x').
Proof. nums. intros; lra. Qed.
Lemma nadd_eq x y x' y' : num_eq x x' -> num_eq y y' -> num_eq (nadd x y) (nadd x' y').
Proof. nums. intros; lra. Qed.
Lemma nsub_eq x y x' y' : num_eq x x' -> num_eq y y' -> num_eq (nsub x y) (nsub x' y').
Proof. intros. apply nadd_eq, nneg_eq; auto. Qed.
Lemma nabs_eq x x' : num_eq x x' -> num_eq (nabs x) (nabs x').
Proof. nums. intro H. rewrite H. reflexivity. Qed.
Lemma inf_times_eq p a b : a == b -> inf_times p a = inf_times p b.
Proof.
  intro H. unfold inf_times. rewrite (Qeq_bool_congr a 0 b 0) by (rewrite H; tauto).
  rewrite (Qltb_congr 0 a 0 b) by (rewrite H; tauto). reflexivity.
Qed.
Lemma nmul_eq x y x' y' : num_eq x x' -> num_eq y y' -> num_eq (nmul x y) (nmul x' y').
Proof.
  nums; intros H1 H2; try (rewrite (inf_times_eq _ _ _ H1)); try (rewrite (inf_times_eq _ _ _ H2));
    try apply num_eq_refl. rewrite H1, H2. reflexivity.
Qed.
Lemma ndiv_eq x y x' y' : num_eq x x' -> num_eq y y' -> num_eq (ndiv x y) (ndiv x' y').
Proof.
  destruct x as [a| | |], x' as [a'| | |], y as [b| | |], y' as [b'| | |]; cbn; try contradiction; auto;
    intros H1 H2; try reflexivity.
  - rewrite (Qeq_bool_congr b 0 b' 0) by (split; intro; lra).
    destruct (Qeq_bool b' 0) eqn:E.
    + rewrite (Qeq_bool_congr a 0 a' 0) by (split; intro; lra).
      rewrite (Qltb_congr 0 a 0 a') by (split; intro; lra). apply num_eq_refl.
    + cbn. rewrite H1, H2. reflexivity.
  - rewrite (Qltb_congr b 0 b' 0) by (split; intro; lra). apply num_eq_refl.
  - rewrite (Qltb_congr b 0 b' 0) by (split; intro; lra). apply num_eq_refl.
Qed.
Lemma npmin_eq x y x' y' : num_eq x x' -> num_eq y y' -> num_eq (npmin x y) (npmin x' y').
Proof.
  intros H1 H2. unfold npmin. rewrite (isnan_eq _ _ H1), (isnan_eq _ _ H2), (nltb_eq _ _ _ _ H2 H1).
  destruct (isnan x'), (isnan y'), (nltb y' x'); auto using num_eq_refl.
Qed.

Lemma nsub_raised h x y x' y' : raised h x x' -> raised h y y' -> num_eq (nsub x y) (nsub x' y').
Proof. unfold nsub. nums. intros; lra. Qed.
Lemma nadd_raised h x y x' y' : raised h x x' -> num_eq y y' -> raised h (nadd x y) (nadd x' y').
Proof. nums. intros; lra. Qed.
Lemma nsub_raised_l h x y x' y' : raised h x x' -> num_eq y y' -> raised h (nsub x y) (nsub x' y').
Proof. intros. apply nadd_raised, nneg_eq; auto. Qed.
Lemma npmin_raised h x y x' y' : raised h x x' -> raised h y y' -> raised h (npmin x y) (npmin x' y').
Proof.
  intros H1 H2. unfold npmin. rewrite (isnan_raised _ _ _ H1), (isnan_raised _ _ _ H2), (nltb_raised _ _ _ _ _ H2 H1).
  destruct (isnan x'), (isnan y'), (nltb y' x'); auto; exact I.
Qed.

(** ** Lists *)

Lemma F2_map {A B C D} (R : A -> B -> Prop) (P : C -> D -> Prop) (f : A -> C) (g : B -> D) l m :
  (forall a b, R a b -> P (f a) (g b)) -> Forall2 R l m -> Forall2 P (map f l) (map g m).
Proof. intro H. induction 1; cbn; constructor; auto. Qed.
Lemma F2_refl {A} (R : A -> A -> Prop) l : (forall a, R a a) -> Forall2 R l l.
Proof. intro H. induction l; constructor; auto. Qed.
Lemma F2_same {A C D} (P : C -> D -> Prop) (f : A -> C) (g : A -> D) l :
  (forall a, In a l -> P (f a) (g a)) -> Forall2 P (map f l) (map g l).
Proof. induction l as [|x l IH]; cbn; intro H; constructor; auto. Qed.
Lemma F2_map2 {A B C A' B' C'} (R : A -> A' -> Prop) (S : B -> B' -> Prop) (P : C -> C' -> Prop) f g l m :
  (forall a a' b b', R a a' -> S b b' -> P (f a b) (g a' b')) ->
  Forall2 R l m -> forall p q, Forall2 S p q -> Forall2 P (map2 f l p) (map2 g m q).
Proof. intros H. induction 1; intros p q [|]; cbn; constructor; auto. Qed.
Lemma F2_length {A B} (R : A -> B -> Prop) l m : Forall2 R l m -> length l = length m.
Proof. induction 1; cbn; auto. Qed.
Lemma F2_nth {A B} (R : A -> B -> Prop) l m da db k :
  Forall2 R l m -> R da db -> R (nth k l da) (nth k m db).
Proof. intros H D. revert k. induction H; intros [|k]; cbn; auto. Qed.
Lemma F2_hd {A B} (R : A -> B -> Prop) l m da db : Forall2 R l m -> R da db -> R (hd da l) (hd db m).
Proof. intros [|] D; auto. Qed.
Lemma F2_skipn {A B} (R : A -> B -> Prop) k : forall l m, Forall2 R l m -> Forall2 R (skipn k l) (skipn k m).
Proof. induction k; intros l m H; auto. destruct H; cbn; auto. Qed.
Lemma F2_slice_from {A B} (R : A -> B -> Prop) k l m : Forall2 R l m -> Forall2 R (slice_from k l) (slice_from k m).
Proof. intro H. unfold slice_from. rewrite (F2_length _ _ _ H). apply F2_skipn, H. Qed.
Lemma F2_select {A B} (R : A -> B -> Prop) l m : Forall2 R l m -> forall b, Forall2 R (select b l) (select b m).
Proof. induction 1; intros [|[] b]; cbn; auto. Qed.
Lemma F2_filter {A B} (R : A -> B -> Prop) f g l m : (forall a b, R a b -> f a = g b) ->
  Forall2 R l m -> Forall2 R (filter f l) (filter g m).
Proof.
  intro H. induction 1 as [|a b l m E F IH]; cbn; auto. rewrite (H _ _ E). destruct (g b); auto.
Qed.
Lemma F2_app {A B} (R : A -> B -> Prop) l m p q : Forall2 R l m -> Forall2 R p q -> Forall2 R (l ++ p) (m ++ q).
Proof. apply Forall2_app. Qed.
Lemma F2_trans {A B C} (R : A -> B -> Prop) (S : B -> C -> Prop) (P : A -> C -> Prop) l m :
  (forall a b c, R a b -> S b c -> P a c) -> Forall2 R l m -> forall n, Forall2 S m n -> Forall2 P l n.
Proof. intro H. induction 1; intros n K; inversion K; subst; constructor; eauto. Qed.
Lemma F2_eq {A} (l m : list A) : Forall2 eq l m -> l = m.
Proof. induction 1; congruence. Qed.
Lemma F2_fold {A B C D} (R : A -> B -> Prop) (P : C -> D -> Prop) f g l m :
  (forall a b x y, P a b -> R x y -> P (f a x) (g b y)) ->
  Forall2 R l m -> forall a b, P a b -> P (fold_left f l a) (fold_left g m b).
Proof. intro H. induction 1; cbn; intros; eauto. Qed.
Lemma F2_flip {A B} (R : A -> B -> Prop) (S : B -> A -> Prop) l m :
  (forall a b, R a b -> S b a) -> Forall2 R l m -> Forall2 S m l.
Proof. intro H. induction 1; constructor; auto. Qed.
Lemma F2_impl {A B} (R S : A -> B -> Prop) l m : (forall a b, R a b -> S a b) -> Forall2 R l m -> Forall2 S l m.
Proof. intro H. induction 1; constructor; auto. Qed.

(** ** Results with exceptions *)

Definition res_rel {A B} (R : A -> B -> Prop) (x : res A) (y : res B) : Prop :=
  match x, y with Ok a, Ok b => R a b | Raise e, Raise f => e = f | _, _ => False end.
Lemma res_rel_bind {A B C D} (R : A -> B -> Prop) (P : C -> D -> Prop) x y f g :
  res_rel R x y -> (forall a b, R a b -> res_rel P (f a) (g b)) -> res_rel P (bind x f) (bind y g).
Proof. destruct x, y; cbn; try contradiction; auto. Qed.
Lemma mask_index_rel {A B} (R : A -> B -> Prop) b l m : Forall2 R l m ->
  res_rel (Forall2 R) (mask_index b l) (mask_index b m).
Proof.
  intro H. unfold mask_index. rewrite (F2_length _ _ _ H).
  destruct (Nat.eqb _ _); cbn; auto. apply F2_select, H.
Qed.
Lemma nth_error_rel {A B} (R : A -> B -> Prop) l m : Forall2 R l m -> forall j,
  match nth_error l j, nth_error m j with Some x, Some y => R x y | None, None => True | _, _ => False end.
Proof. induction 1; intros [|j]; cbn; auto. apply IHForall2. Qed.
Lemma py_index_rel {A B} (R : A -> B -> Prop) l m k : Forall2 R l m -> res_rel R (py_index l k) (py_index m k).
Proof.
  intro H. unfold py_index. rewrite (F2_length _ _ _ H).
  set (k' := if (k <? 0)%Z then _ else k). destruct (k' <? 0)%Z; [cbn; auto|].
  pose proof (nth_error_rel R l m H (Z.to_nat k')) as K.
  destruct (nth_error l _), (nth_error m _); cbn; auto; contradiction.
Qed.

(** ** Sums, means and minima *)

Lemma notnan_eq l m : same_column l m ->
  same_column (filter (fun x => negb (isnan x)) l) (filter (fun x => negb (isnan x)) m).
Proof. apply F2_filter. intros a b H. rewrite (isnan_eq _ _ H). reflexivity. Qed.
Lemma npsum_eq l m : same_column l m -> num_eq (npsum l) (npsum m).
Proof. intro H. apply (F2_fold num_eq num_eq); auto using nadd_eq, num_eq_refl. Qed.
Lemma nansum_eq l m : same_column l m -> num_eq (nansum l) (nansum m).
Proof. intro H. apply npsum_eq, notnan_eq, H. Qed.
Lemma nanmean_eq l m : same_column l m -> num_eq (nanmean l) (nanmean m).
Proof.
  intro H. apply notnan_eq in H. unfold nanmean. cbv zeta.
  pose proof (F2_length _ _ _ H) as L. pose proof (npsum_eq _ _ H) as N.
  destruct H as [|a b l' m' E F]; [exact I|].
  rewrite L. apply ndiv_eq; auto using num_eq_refl.
Qed.
Lemma nanmin_raised h l m : raised_column h l m -> raised h (nanmin l) (nanmin m).
Proof.
  intro H. unfold nanmin.
  assert (K : raised_column h (filter (fun x => negb (isnan x)) l) (filter (fun x => negb (isnan x)) m)).
  { revert H. apply F2_filter. intros a b E. rewrite (isnan_raised _ _ _ E). reflexivity. }
  destruct K as [|a b l' m' E F]; [exact I|].
  revert E. apply (F2_fold (raised h) (raised h)); auto. intros. apply npmin_raised; auto.
Qed.

(** The order of the terms of a sum does not matter. *)
Lemma nadd_swap a x y : num_eq (nadd (nadd a x) y) (nadd (nadd a y) x).
Proof. destruct a, x, y; cbn; auto. lra. Qed.
Lemma fold_nadd_perm l m : Permutation l m -> forall a b, num_eq a b ->
  num_eq (fold_left nadd l a) (fold_left nadd m b).
Proof.
  induction 1; intros a b E; cbn; auto.
  - apply IHPermutation, nadd_eq; auto using num_eq_refl.
  - assert (K : forall u v, num_eq u v -> num_eq (fold_left nadd l u) (fold_left nadd l v)).
    { intros u v U. apply (F2_fold num_eq num_eq); auto using nadd_eq. apply F2_refl, num_eq_refl. }
    apply K. eapply num_eq_trans; [apply nadd_swap|]. repeat apply nadd_eq; auto using num_eq_refl.
  - eapply num_eq_trans; [apply IHPermutation1, E|]. apply IHPermutation2, num_eq_refl.
Qed.
Lemma filter_perm {A} (f : A -> bool) l m : Permutation l m -> Permutation (filter f l) (filter f m).
Proof.
  induction 1; cbn; auto.
  - destruct (f x); auto.
  - destruct (f x), (f y); auto using perm_swap, Permutation_refl.
  - eapply Permutation_trans; eauto.
Qed.
Lemma npsum_perm l m : Permutation l m -> num_eq (npsum l) (npsum m).
Proof. intro H. apply fold_nadd_perm; auto using num_eq_refl. Qed.
Lemma nansum_perm l m : Permutation l m -> num_eq (nansum l) (nansum m).
Proof. intro H. apply npsum_perm, filter_perm, H. Qed.
Lemma nanmean_perm l m : Permutation l m -> num_eq (nanmean l) (nanmean m).
Proof.
  intro H. apply (filter_perm (fun x => negb (isnan x))) in H. unfold nanmean. cbv zeta.
  pose proof (Permutation_length H) as L. pose proof (npsum_perm _ _ H) as N. rewrite L.
  destruct (filter _ l), (filter _ m); try discriminate; [exact I|].
  apply ndiv_eq; auto using num_eq_refl.
Qed.

Lemma nansum_reordered l m : reordered num_eq l m -> num_eq (nansum l) (nansum m).
Proof. intros (k & P & F). eapply num_eq_trans; [apply nansum_perm, P|apply nansum_eq, F]. Qed.
Lemma nanmean_reordered l m : reordered num_eq l m -> num_eq (nanmean l) (nanmean m).
Proof. intros (k & P & F). eapply num_eq_trans; [apply nanmean_perm, P|apply nanmean_eq, F]. Qed.
Lemma npsum_reordered l m : reordered num_eq l m -> num_eq (npsum l) (npsum m).
Proof. intros (k & P & F). eapply num_eq_trans; [apply npsum_perm, P|apply npsum_eq, F]. Qed.

Lemma reordered_map {A B C D} (R : A -> B -> Prop) (P : C -> D -> Prop) (f : A -> C) (g : B -> D) l m :
  (forall a b, R a b -> P (f a) (g b)) -> reordered R l m -> reordered P (map f l) (map g m).
Proof. intros H (k & Q1 & F). exists (map f k). split; [apply Permutation_map, Q1|revert F; apply F2_map, H]. Qed.
Lemma reordered_filter {A B} (R : A -> B -> Prop) f g l m : (forall a b, R a b -> f a = g b) ->
  reordered R l m -> reordered R (filter f l) (filter g m).
Proof. intros H (k & Q1 & F). exists (filter f k). split; [apply filter_perm, Q1|revert F; apply F2_filter, H]. Qed.
Lemma reordered_length {A B} (R : A -> B -> Prop) l m : reordered R l m -> length l = length m.
Proof. intros (k & Q1 & F). rewrite (Permutation_length Q1). apply (F2_length _ _ _ F). Qed.

(** The mean of raised levels is raised. *)
Lemma fold_nadd_raised h l m : raised_column h l m -> forall a b k, (raised (inject_Z k * h) a b) ->
  raised (inject_Z (k + Z.of_nat (length l)) * h) (fold_left nadd l a) (fold_left nadd m b).
Proof.
  induction 1 as [|x y l m E F IH]; intros a b k K; cbn [fold_left length].
  - rewrite Z.add_0_r. exact K.
  - replace (k + Z.of_nat (S (length l)))%Z with ((k + 1) + Z.of_nat (length l))%Z by lia.
    apply IH. clear -E K. destruct a, b, x, y; cbn in *; try contradiction; auto.
    rewrite inject_Z_plus, K, E. ring.
Qed.
Lemma nanmean_raised h l m : raised_column h l m -> raised h (nanmean l) (nanmean m).
Proof.
  intro H. unfold nanmean. cbv zeta.
  assert (K : raised_column h (filter (fun x => negb (isnan x)) l) (filter (fun x => negb (isnan x)) m)).
  { revert H. apply F2_filter. intros a b E. rewrite (isnan_raised _ _ _ E). reflexivity. }
  pose proof (F2_length _ _ _ K) as L.
  pose proof (fold_nadd_raised h _ _ K (Fin 0) (Fin 0) 0%Z) as N.
  destruct K as [|a b l' m' E F]; [exact I|].
  assert (Z0 : raised (inject_Z 0 * h) (Fin 0) (Fin 0)) by (cbn; ring). specialize (N Z0).
  fold (npsum (a :: l')) in N. fold (npsum (b :: m')) in N. rewrite L.
  rewrite L in N. rewrite Z.add_0_l in N.
  set (n := Z.of_nat (length (b :: m'))) in *. unfold nofnat. fold n.
  assert (P : ~ inject_Z n == 0).
  { intro Q0. unfold n in Q0. cbn in Q0. unfold Qeq in Q0. cbn in Q0. lia. }
  destruct (npsum (a :: l')), (npsum (b :: m')); cbn in *; try contradiction; auto;
    destruct (Qeq_bool (inject_Z n) 0) eqn:Z1; try (apply Qeq_bool_true in Z1; contradiction); cbn;
    try (destruct (Qltb (inject_Z n) 0); exact I).
  rewrite N. field. exact P.
Qed.
