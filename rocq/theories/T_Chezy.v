(** C130: the order of the links, the unit and the size of the roughness. *)
From Coq Require Import String List Ascii ZArith QArith Bool Lia Lqa Permutation.
From Verif Require Import PyBase Num Spec Spec_Same L_Num L_List L_Same L_Cells M_Friction T_Friction T_Dry T_Speed.
Import ListNotations.
Local Open Scope Q_scope.

(** ** Specification *)

(** Tables for the same sections on the same levels, with values in relation
    [R]; or the same exception. *)
Definition same_table {A} (R : num -> num -> Prop) (t u : table A) : Prop := level t = level u /\ Forall2 R (friction t) (friction u).
Definition same_tables {A} (R : num -> num -> Prop) (a b : res (list (string * table A))) : Prop :=
  match a, b with
  | Ok l, Ok m => Forall2 (fun x y => fst x = fst y /\ same_table R (snd x) (snd y)) l m
  | Raise e, Raise e' => e = e'
  | _, _ => False
  end.
(** A larger Chezy value on the same links: a value that is missing or zero
    stays so. *)
Definition rises (x y : num) : Prop :=
  (x = NaN /\ y = NaN) \/ exists a b, x = Fin a /\ y = Fin b /\ a <= b /\ (a == 0 <-> b == 0).
Definition not_smaller (x y : num) : Prop := exists a b, x = Fin a /\ y = Fin b /\ a <= b.
(** Tables with finite values, after a change of unit. *)
Definition scaled_table (k : Q) (t u : qtable) : Prop := qlevel t = qlevel u /\ Forall2 (fun a b => b == k * a) (qfriction t) (qfriction u).
Definition scaled_tables (k : Q) (t u : tables) : Prop := Forall2 (fun x y => fst x = fst y /\ scaled_table k (snd x) (snd y)) t u.

(** ** Lemmas *)

Lemma assoc_set_F2 {A} (P : A -> A -> Prop) s v w l m : P v w -> Forall2 (fun x y => fst x = fst y /\ P (snd x) (snd y)) l m ->
  Forall2 (fun x y : string * A => fst x = fst y /\ P (snd x) (snd y)) (assoc_set s v l) (assoc_set s w m).
Proof.
  intros V F. induction F as [|[a x] [b y] l m [E X] F IH]; cbn [assoc_set fst snd] in *.
  - apply Forall2_cons; [split; [reflexivity|exact V]|apply Forall2_nil].
  - subst b. destruct (String.eqb s a); apply Forall2_cons; auto.
Qed.
Lemma tables_F2 {A} R (f g : string -> res (table A)) ss :
  (forall s, match f s, g s with Ok t, Ok u => same_table R t u | Raise e, Raise e' => e = e' | _, _ => False end) ->
  forall l m, Forall2 (fun x y => fst x = fst y /\ same_table R (snd x) (snd y)) l m ->
  same_tables R (fold_res (fun tabs s => t <- f s ;; Ok (assoc_set s t tabs)) ss l) (fold_res (fun tabs s => t <- g s ;; Ok (assoc_set s t tabs)) ss m).
Proof.
  intros H. induction ss as [|s ss IH]; intros l m F; [exact F|]. cbn [fold_res]. specialize (H s).
  destruct (f s) as [t|], (g s) as [u|]; cbn [bind]; try contradiction; [|exact H]. apply IH, assoc_set_F2; assumption.
Qed.
Lemma make_F2 {A} R (z : list A) a b : Forall2 R a b ->
  match make_table z a, make_table z b with Ok t, Ok u => same_table R t u | Raise e, Raise e' => e = e' | _, _ => False end.
Proof. intro F. unfold make_table. rewrite (F2_length _ _ _ F). destruct (Nat.eqb _ _); [split; [reflexivity|exact F]|reflexivity]. Qed.
Lemma simple_F2 (R : num -> num -> Prop) steps rows rows' :
  (forall t, R (nan_to_zero (nanmean (map zero_to_nan (column t rows)))) (nan_to_zero (nanmean (map zero_to_nan (column t rows'))))) ->
  Forall2 R (friction_simple steps rows) (friction_simple steps rows').
Proof. intro H. unfold friction_simple. induction steps; cbn [map]; [apply Forall2_nil|apply Forall2_cons; auto]. Qed.
Lemma column_F2 (R : num -> num -> Prop) t rows rows' : R NaN NaN -> Forall2 (Forall2 R) rows rows' -> Forall2 R (column t rows) (column t rows').
Proof.
  intros N F. unfold column. induction F as [|r r' rows rows' E F IH]; cbn [map]; [apply Forall2_nil|]. apply Forall2_cons; [|exact IH].
  clear -N E. revert t. induction E as [|x y l m X E IH]; intro t; destruct t; cbn [nth]; auto.
Qed.
Lemma map_zero_F2 (R S : num -> num -> Prop) l m : (forall x y, R x y -> S (zero_to_nan x) (zero_to_nan y)) -> Forall2 R l m ->
  Forall2 S (map zero_to_nan l) (map zero_to_nan m).
Proof. intros H F. induction F; cbn [map]; [apply Forall2_nil|apply Forall2_cons; auto]. Qed.
Lemma select_F2' {A} (R : A -> A -> Prop) mask : forall l m, Forall2 R l m -> Forall2 R (select mask l) (select mask m).
Proof.
  induction mask as [|b mask IH]; intros l m F; [apply Forall2_nil|]. destruct F as [|x y l m E F]; [destruct b; apply Forall2_nil|].
  cbn [select]. destruct b; [apply Forall2_cons|]; auto.
Qed.

(** Values in relation [R] link by link, tables in relation [S]. *)
Lemma build_F2 {A} (R S : num -> num -> Prop) skip (z : list A) d d' : R NaN NaN ->
  (forall l m, Forall2 R l m -> S (nan_to_zero (nanmean (map zero_to_nan l))) (nan_to_zero (nanmean (map zero_to_nan m)))) ->
  nsteps d' = nsteps d -> edge_section d' = edge_section d -> Forall2 (Forall2 R) (chezy d) (chezy d') ->
  same_tables S (build_roughness_tables 0 skip z d) (build_roughness_tables 0 skip z d').
Proof.
  intros N H T E F. unfold build_roughness_tables. rewrite E. apply tables_F2; [|apply Forall2_nil].
  intro s. unfold build_table, mask_index, section_is. rewrite E, T, <- (F2_length _ _ _ F). destruct (Nat.eqb _ _); [|reflexivity]. cbn [bind Z.eqb].
  apply make_F2, simple_F2. intro t. apply H, column_F2; [exact N|]. apply select_F2', F.
Qed.

Lemma zero_scaled k x y : 0 < k -> scaled k x y -> scaled k (zero_to_nan x) (zero_to_nan y).
Proof.
  intros K [[-> ->]|(a & b & -> & -> & E)]; [left; split; reflexivity|]. unfold zero_to_nan. cbn [neqb].
  destruct (Qeq_bool a 0) eqn:A, (Qeq_bool b 0) eqn:B; [left; split; reflexivity|exfalso|exfalso|right; exists a, b; auto].
  - apply Qeq_bool_iff in A. apply Qeq_bool_neq in B. apply B. rewrite E, A. ring.
  - apply Qeq_bool_iff in B. apply Qeq_bool_neq in A. apply A. rewrite E in B. apply Qmult_integral in B. destruct B as [B|B]; [lra|exact B].
Qed.
Lemma nan_zero_scaled k x y : scaled k x y -> scaled k (nan_to_zero x) (nan_to_zero y).
Proof.
  intros [[-> ->]|(a & b & -> & -> & E)]; right; [exists 0, 0|exists a, b; auto]. repeat split. ring.
Qed.

(** ** C130 *)

(** The order of the links. *)
Lemma select_pairs {A} s : forall (ss : list string) (rows : list A), length ss = length rows ->
  select (map (String.eqb s) ss) rows = map snd (filter (fun p => String.eqb s (fst p)) (combine ss rows)).
Proof.
  induction ss as [|a ss IH]; intros [|r rows] L; try discriminate; [reflexivity|]. injection L as L. cbn [map select combine filter fst].
  destruct (String.eqb s a); cbn [map snd]; rewrite IH by exact L; reflexivity.
Qed.
Lemma fst_combine {A B} : forall (l : list A) (m : list B), length l = length m -> map fst (combine l m) = l.
Proof. induction l as [|x l IH]; intros [|y m] L; try discriminate; [reflexivity|]. injection L as L. cbn. rewrite IH by exact L. reflexivity. Qed.

Theorem C130_order_of_the_links :
  forall (Lev : Type) skip (z : list Lev) d d', nsteps d' = nsteps d ->
    length (edge_section d) = length (chezy d) -> length (edge_section d') = length (chezy d') ->
    Permutation (combine (edge_section d) (chezy d)) (combine (edge_section d') (chezy d')) ->
    same_tables num_eq (build_roughness_tables 0 skip z d) (build_roughness_tables 0 skip z d').
Proof.
  intros Lev skip z d d' T L L' P. unfold build_roughness_tables.
  replace (np_unique (edge_section d')) with (np_unique (edge_section d)).
  2:{ apply sorted_ext; try apply np_unique_sorted. intro x. rewrite !np_unique_In.
      rewrite <- (fst_combine _ _ L), <- (fst_combine _ _ L'). split; apply Permutation_in, Permutation_map; [|apply Permutation_sym]; exact P. }
  apply tables_F2; [|apply Forall2_nil]. intro s. unfold build_table, mask_index, section_is.
  rewrite !map_length, L, L', !Nat.eqb_refl, T. cbn [bind Z.eqb]. apply make_F2, simple_F2. intro t.
  rewrite (select_pairs s _ _ L), (select_pairs s _ _ L').
  assert (E : num_eq (nanmean (map zero_to_nan (column t (map snd (filter (fun p => String.eqb s (fst p)) (combine (edge_section d) (chezy d)))))))
                     (nanmean (map zero_to_nan (column t (map snd (filter (fun p => String.eqb s (fst p)) (combine (edge_section d') (chezy d')))))))).
  { apply nanmean_perm, Permutation_map. unfold column. apply Permutation_map, Permutation_map, L_Same.filter_perm, P. }
  destruct (nanmean _), (nanmean _); cbn in *; try contradiction; try exact Logic.I; try exact E; reflexivity.
Qed.
Print Assumptions C130_order_of_the_links.

(** The unit of the roughness. *)
Theorem C130_unit_of_roughness :
  forall (Lev : Type) skip (z : list Lev) k d d', 0 < k -> nsteps d' = nsteps d -> edge_section d' = edge_section d ->
    Forall2 (Forall2 (scaled k)) (chezy d) (chezy d') ->
    same_tables (scaled k) (build_roughness_tables 0 skip z d) (build_roughness_tables 0 skip z d').
Proof.
  intros Lev skip z k d d' K T E F. apply (build_F2 (scaled k)); try assumption; [left; split; reflexivity|].
  intros l m G. apply nan_zero_scaled, mean_scale. apply (map_zero_F2 (scaled k)); [|exact G]. intros x y. apply zero_scaled, K.
Qed.
Print Assumptions C130_unit_of_roughness.

(** Larger Chezy values never give a smaller value in a table. *)
Lemma mean_rises l m : Forall2 (fun x y => (x = NaN /\ y = NaN) \/ not_smaller x y) l m ->
  not_smaller (nan_to_zero (nanmean l)) (nan_to_zero (nanmean m)).
Proof.
  intro F.
  assert (G : exists la lb, filter (fun x => negb (isnan x)) l = map Fin la /\ filter (fun x => negb (isnan x)) m = map Fin lb /\ Forall2 Qle la lb).
  { induction F as [|x y l m E F (la & lb & A & B & C)]; [exists [], []; repeat split; apply Forall2_nil|].
    destruct E as [[-> ->]|(a & b & -> & -> & E)]; cbn [filter isnan negb]; [exists la, lb; auto|].
    exists (a :: la), (b :: lb). rewrite A, B. repeat split. apply Forall2_cons; assumption. }
  destruct G as (la & lb & A & B & C).
  assert (N : forall u, nanmean u = nanmean (filter (fun x => negb (isnan x)) u)).
  { intro u. unfold nanmean. replace (filter _ (filter _ u)) with (filter (fun x => negb (isnan x)) u); [reflexivity|].
    induction u as [|x u IH]; [reflexivity|]. cbn [filter]. destruct (negb (isnan x)) eqn:X; [|exact IH]. cbn [filter]. rewrite X, <- IH. reflexivity. }
  rewrite (N l), (N m), A, B. destruct C as [|a b la lb E C]; [exists 0, 0; repeat split; lra|].
  destruct (L_Cells.nanmean_fin (a :: la)) as (x & -> & X); [discriminate|]. destruct (L_Cells.nanmean_fin (b :: lb)) as (y & -> & Y); [discriminate|].
  exists x, y. repeat split. rewrite X, Y. cbn [length]. rewrite (F2_length _ _ _ C). unfold Qdiv. apply Qmult_le_compat_r.
  - assert (Q : forall u v, Forall2 Qle u v -> Qsum u <= Qsum v).
    { intros u v H. induction H as [|p q u v H1 H2 IH]; cbn; [lra|]. unfold Qsum in *. cbn. lra. }
    apply Q, Forall2_cons; assumption.
  - apply Qinv_le_0_compat. unfold Qle. cbn. lia.
Qed.
Theorem C130_larger_values :
  forall (Lev : Type) skip (z : list Lev) d d', nsteps d' = nsteps d -> edge_section d' = edge_section d ->
    Forall2 (Forall2 rises) (chezy d) (chezy d') ->
    same_tables not_smaller (build_roughness_tables 0 skip z d) (build_roughness_tables 0 skip z d').
Proof.
  intros Lev skip z d d' T E F. apply (build_F2 rises); try assumption; [left; split; reflexivity|].
  intros l m G. apply mean_rises. apply (map_zero_F2 rises); [|exact G]. intros x y [[-> ->]|(a & b & -> & -> & L & Z)]; [left; split; reflexivity|].
  unfold zero_to_nan. cbn [neqb]. destruct (Qeq_bool a 0) eqn:A, (Qeq_bool b 0) eqn:B; [left; split; reflexivity|exfalso|exfalso|right; exists a, b; auto].
  - apply Qeq_bool_iff, Z in A. apply Qeq_bool_neq in B. contradiction.
  - apply Qeq_bool_iff, Z in B. apply Qeq_bool_neq in A. contradiction.
Qed.
Print Assumptions C130_larger_values.

(** ** Interpolation to common levels *)

Lemma nth_scaled k : forall f g i, Forall2 (fun a b => b == k * a) f g -> nth i g 0 == k * nth i f 0.
Proof. intros f g i F. revert i. induction F as [|a b f g E F IH]; intros [|i]; cbn [nth]; auto; ring. Qed.
Lemma interp_scaled k search xp f g x : Forall2 (fun a b => b == k * a) f g -> np_interp search xp g x == k * np_interp search xp f x.
Proof.
  intro F. unfold np_interp. cbv zeta. destruct (Qltb _ x); [apply nth_scaled, F|]. destruct (Qltb x _); [apply nth_scaled, F|].
  destruct (Nat.eqb _ _); [apply nth_scaled, F|]. destruct (Qeq_bool _ _); [apply nth_scaled, F|].
  rewrite (nth_scaled k f g (S (search xp x)) F), (nth_scaled k f g (search xp x) F). unfold Qdiv. ring.
Qed.
Lemma assoc_scaled k s t u : scaled_tables k t u ->
  match assoc s t, assoc s u with Some a, Some b => scaled_table k a b | None, None => True | _, _ => False end.
Proof.
  intro F. induction F as [|[a x] [b y] t u [E X] F IH]; cbn [assoc fst snd] in *; [exact Logic.I|]. subst b. destruct (String.eqb s a); [exact X|exact IH].
Qed.
Lemma interpolate_scaled k search z t u : scaled_table k t u ->
  match interpolate search z t, interpolate search z u with Ok a, Ok b => scaled_table k a b | Raise e, Raise e' => e = e' | _, _ => False end.
Proof.
  intros [L F]. unfold interpolate. rewrite <- L, <- (F2_length _ _ _ F). destruct (Nat.eqb _ 0); [reflexivity|]. destruct (negb _); [reflexivity|].
  split; [reflexivity|]. cbn [qfriction]. induction z as [|x z IH]; cbn [map]; [apply Forall2_nil|]. apply Forall2_cons; [apply interp_scaled, F|exact IH].
Qed.
Lemma range_scaled k s css css' : Forall2 (scaled_tables k) css css' -> level_range s css = level_range s css'.
Proof.
  unfold level_range. intro F. generalize (big, - big). induction F as [|t u css css' E F IH]; intro mm; [reflexivity|]. cbn [fold_res].
  pose proof (assoc_scaled k s t u E) as A. destruct (assoc s t) as [a|], (assoc s u) as [b|]; try contradiction; [|apply IH].
  destruct A as [<- _]. destruct (np_min (qlevel a)); [|reflexivity]. destruct (np_max (qlevel a)); [|reflexivity]. cbn [bind]. apply IH.
Qed.
Lemma section_scaled k search s z css css' : Forall2 (scaled_tables k) css css' ->
  Forall2 (scaled_tables k) (fst (interpolate_section search s z css)) (fst (interpolate_section search s z css')) /\
  snd (interpolate_section search s z css) = snd (interpolate_section search s z css').
Proof.
  intro F. induction F as [|t u css css' E F IH]; [split; [apply Forall2_nil|reflexivity]|]. cbn [interpolate_section].
  pose proof (assoc_scaled k s t u E) as A. destruct (assoc s t) as [a|], (assoc s u) as [b|]; try contradiction.
  - pose proof (interpolate_scaled k search z a b A) as I. destruct (interpolate search z a), (interpolate search z b); try contradiction.
    + destruct (interpolate_section search s z css), (interpolate_section search s z css'). cbn [fst snd] in *. destruct IH as [IH ->].
      split; [|reflexivity]. apply Forall2_cons; [apply assoc_set_F2; assumption|exact IH].
    + split; [apply Forall2_cons; assumption|reflexivity].
  - destruct (interpolate_section search s z css), (interpolate_section search s z css'). cbn [fst snd] in *. destruct IH as [IH ->].
    split; [|reflexivity]. apply Forall2_cons; assumption.
Qed.

(** The tables of all cross-sections after the interpolation; with [k = 1]
    equal tables stay equal. *)
Theorem C130_unit_after_interpolation :
  forall search k css css', Forall2 (scaled_tables k) css css' ->
    Forall2 (scaled_tables k) (fst (interpolate_friction search css)) (fst (interpolate_friction search css')) /\
    snd (interpolate_friction search css) = snd (interpolate_friction search css').
Proof.
  intros search k css css' F. unfold interpolate_friction.
  replace (flat_map (map fst) css') with (flat_map (map fst) css).
  2:{ clear search. induction F as [|t u css css' E F IH]; [reflexivity|]. cbn [flat_map]. rewrite IH. f_equal.
      induction E as [|x y t u [X _] E IHE]; [reflexivity|]. cbn [map]. rewrite X, IHE. reflexivity. }
  generalize (np_unique (flat_map (map fst) css)). intro ss. revert css css' F. induction ss as [|s ss IH]; intros css css' F; [split; [exact F|reflexivity]|].
  cbn [interpolate_sections]. rewrite <- (range_scaled k s css css' F). destruct (level_range s css) as [[lo hi]|]; [|split; [exact F|reflexivity]].
  pose proof (section_scaled k search s (arange lo hi) css css' F) as [A B].
  destruct (interpolate_section search s (arange lo hi) css) as [r b], (interpolate_section search s (arange lo hi) css') as [r' b']. cbn [fst snd] in *. subst b'.
  destruct b; [apply IH, A|split; [exact A|reflexivity]].
Qed.
Print Assumptions C130_unit_after_interpolation.

(** Two sections, three links, a link that falls dry. *)
Theorem C130_case :
  let d := {| chezy := [[Fin 40; Fin 44]; [Fin 20; NaN]; [Fin 0; Fin 46]]; nsteps := 2; edge_section := ["main"; "floodplain1"; "main"]%string;
              edge_faces := []; area_full := None |} in
  let d' := {| chezy := [[Fin 0; Fin 46]; [Fin 40; Fin 44]; [Fin 20; NaN]]; nsteps := 2; edge_section := ["main"; "main"; "floodplain1"]%string;
               edge_faces := []; area_full := None |} in
  let e := {| chezy := [[Fin 50; Fin 44]; [Fin 20; NaN]; [Fin 0; Fin 48]]; nsteps := 2; edge_section := ["main"; "floodplain1"; "main"]%string;
              edge_faces := []; area_full := None |} in
  let red r := match r with Ok tabs => map (fun st => (fst st, map (fun x => match x with Fin q => Fin (Qred q) | _ => x end) (friction (snd st)))) tabs | Raise _ => [] end in
  red (build_roughness_tables 0 0 [1%nat; 2%nat] d) = [("floodplain1", [Fin 20; Fin 0]); ("main", [Fin 40; Fin 45])]%string /\
  red (build_roughness_tables 0 0 [1%nat; 2%nat] d') = red (build_roughness_tables 0 0 [1%nat; 2%nat] d) /\
  red (build_roughness_tables 0 0 [1%nat; 2%nat] e) = [("floodplain1", [Fin 20; Fin 0]); ("main", [Fin 50; Fin 46])]%string.
Proof. cbv zeta. repeat split; vm_compute; reflexivity. Qed.
Print Assumptions C130_case.

(** A larger value can make a table smaller if it is on a link that was dry. *)
Theorem C130_dry_link_matters :
  let d := {| chezy := [[Fin 40]; [Fin 0]]; nsteps := 1; edge_section := ["main"; "main"]%string; edge_faces := []; area_full := None |} in
  let d' := {| chezy := [[Fin 40]; [Fin 10]]; nsteps := 1; edge_section := ["main"; "main"]%string; edge_faces := []; area_full := None |} in
  exists t t', build_roughness_tables 0 0 [1%nat] d = Ok [("main"%string, t)] /\ build_roughness_tables 0 0 [1%nat] d' = Ok [("main"%string, t')] /\
    (exists a b, friction t = [Fin a] /\ friction t' = [Fin b] /\ b < a).
Proof.
  cbv zeta. eexists. eexists. split; [vm_compute; reflexivity|]. split; [vm_compute; reflexivity|]. eexists. eexists.
  split; [reflexivity|]. split; [reflexivity|]. reflexivity.
Qed.
Print Assumptions C130_dry_link_matters.
