(** Theorems for C19 and C20: friction averages and uniform friction tables. *)
From Coq Require Import String List Sorted ZArith QArith Qround Qabs Bool Lia Lqa.
From Verif Require Import PyBase Num Spec L_Num L_List M_Friction.
Import ListNotations.
Local Open Scope Q_scope.

(** ** C19: averages *)

Definition mean (l : list Q) : Q := Qsum l / inject_Z (Z.of_nat (length l)).

(** The non-zero Chezy values at one time step; [None] is a missing value. *)
Definition known_chezy (col : list num) : list Q :=
  flat_map (fun x => match x with Fin q => if Qeq_bool q 0 then [] else [q] | _ => [] end) col.

Definition finite_or_nan (x : num) : Prop := match x with Fin _ | NaN => True | _ => False end.

Lemma known_filter col : Forall finite_or_nan col ->
  filter (fun x => negb (isnan x)) (map zero_to_nan col) = map Fin (known_chezy col).
Proof.
  induction 1 as [|x col Hx _ IH]; auto. cbn [map].
  destruct x as [q| | |]; try contradiction; simpl filter.
  - change (known_chezy (Fin q :: col)) with ((if Qeq_bool q 0 then [] else [q]) ++ known_chezy col).
    rewrite IH. unfold zero_to_nan. cbn [neqb]. destruct (Qeq_bool q 0); reflexivity.
  - exact IH.
Qed.

Lemma npsum_fin' l : exists s, npsum (map Fin l) = Fin s /\ s == Qsum l.
Proof.
  unfold npsum. assert (G : forall l acc, exists s, fold_left nadd (map Fin l) (Fin acc) = Fin s /\ s == acc + Qsum l).
  { clear. induction l; intros acc; simpl; [exists acc; split; auto; lra|].
    destruct (IHl (acc + a)) as (s & -> & E). exists s. split; auto. rewrite E. unfold Qsum; simpl. lra. }
  destruct (G l 0) as (s & H & E). exists s. split; auto. lra.
Qed.

Lemma simple_value col : Forall finite_or_nan col ->
  exists v, nan_to_zero (nanmean (map zero_to_nan col)) = Fin v /\
    (known_chezy col = [] -> v == 0) /\
    (known_chezy col <> [] -> v == mean (known_chezy col)).
Proof.
  intros H. unfold nanmean. rewrite known_filter by auto.
  destruct (known_chezy col) as [|a l] eqn:E.
  - exists 0. repeat split; auto; congruence.
  - destruct (npsum_fin' (a :: l)) as (s & Hs & Es).
    cbn [map]. change (Fin a :: map Fin l) with (map Fin (a :: l)). rewrite Hs.
    unfold nofnat. rewrite map_length. cbn [ndiv].
    destruct (Qeq_bool (inject_Z (Z.of_nat (length (a :: l)))) 0) eqn:E0.
    + apply Qeq_bool_iff in E0. exfalso. revert E0. unfold inject_Z, Qeq. simpl. lia.
    + eexists. split; [reflexivity|]. split; [congruence|]. intros _. unfold mean. rewrite Es. reflexivity.
Qed.

Lemma Qsum_bounds lo hi l : Forall (fun x => lo <= x <= hi) l ->
  lo * inject_Z (Z.of_nat (length l)) <= Qsum l <= hi * inject_Z (Z.of_nat (length l)).
Proof.
  induction 1 as [|x l Hx _ IH]; [simpl; unfold inject_Z; lra|].
  change (length (x :: l)) with (S (length l)). rewrite Nat2Z.inj_succ. unfold Z.succ.
  rewrite inject_Z_plus. change (inject_Z 1) with 1. unfold Qsum in *. simpl fold_right.
  set (n := inject_Z (Z.of_nat (length l))) in *. nra.
Qed.

Lemma mean_bounds lo hi l : l <> [] -> Forall (fun x => lo <= x <= hi) l -> lo <= mean l <= hi.
Proof.
  intros Hl H. apply Qsum_bounds in H. unfold mean.
  assert (Hn : 0 < inject_Z (Z.of_nat (length l))).
  { destruct l; [congruence|]. simpl length. rewrite Nat2Z.inj_succ. unfold inject_Z, Qlt. simpl. lia. }
  split; [apply Qle_shift_div_l | apply Qle_shift_div_r]; lra.
Qed.

(** The values of one section at time step [t]. *)
Definition section_column (t : nat) (s : string) (d : links) : list num :=
  map (fun r => nth t r NaN) (select (map (String.eqb s) (edge_section d)) (chezy d)).

(** Each link has a label, each row has a value (or NaN) per time step. *)
Definition well_formed (d : links) : Prop :=
  length (edge_section d) = length (chezy d) /\
  Forall (fun r => length r = nsteps d /\ Forall finite_or_nan r) (chezy d).

Lemma select_incl {A} m (l : list A) x : In x (select m l) -> In x l.
Proof.
  revert l; induction m as [|[] m IH]; intros [|y l] H; simpl in *; auto; try contradiction.
  destruct H; auto.
Qed.

Lemma section_column_ok d t s : well_formed d -> Forall finite_or_nan (section_column t s d).
Proof.
  intros [_ H]. unfold section_column. rewrite Forall_forall in *. intros x Hx.
  apply in_map_iff in Hx. destruct Hx as (r & <- & Hr). apply select_incl, H in Hr. destruct Hr as [_ Hr].
  rewrite Forall_forall in Hr.
  destruct (Nat.lt_ge_cases t (length r)).
  - apply Hr, nth_In; auto.
  - rewrite nth_overflow by lia. exact I.
Qed.

(** Reading the tables. *)
Definition table_value {A} (tabs : list (string * table A)) (s : string) (i : nat) : option num :=
  match assoc s tabs with Some t => nth_error (friction t) i | None => None end.

Lemma assoc_set_same {A} k (v : A) d : assoc k (assoc_set k v d) = Some v.
Proof.
  induction d as [|[k' v'] d IH]; simpl.
  - rewrite String.eqb_refl. auto.
  - destruct (String.eqb k k') eqn:E; simpl; rewrite E; auto.
Qed.

Lemma assoc_set_other {A} k k' (v : A) d : k <> k' -> assoc k' (assoc_set k v d) = assoc k' d.
Proof.
  intros Hne. induction d as [|[k0 v0] d IH]; simpl.
  - destruct (String.eqb_spec k' k); congruence.
  - destruct (String.eqb_spec k k0); simpl; destruct (String.eqb_spec k' k0); subst; auto; congruence.
Qed.

Lemma insert_unique_In s t l : In s (insert_unique t l) <-> s = t \/ In s l.
Proof.
  induction l as [|u l IH]; simpl; [intuition|].
  destruct (String.compare t u) eqn:E; simpl.
  - apply String.compare_eq_iff in E. subst. intuition.
  - intuition.
  - rewrite IH. intuition.
Qed.

Lemma np_unique_In s l : In s (np_unique l) <-> In s l.
Proof.
  induction l as [|t l IH]; simpl; [tauto|]. rewrite insert_unique_In, IH. intuition.
Qed.

(** Strictly increasing in the order of strings. *)
Definition str_sorted := Sorted.StronglySorted (fun a b => String.compare a b = Lt).

Lemma compare_trans a : forall b c, String.compare a b = Lt -> String.compare b c = Lt -> String.compare a c = Lt.
Proof.
  induction a as [|x a IH]; intros [|y b] [|z c]; simpl; try discriminate; auto.
  unfold Ascii.compare.
  destruct (N.compare_spec (Ascii.N_of_ascii x) (Ascii.N_of_ascii y)); try discriminate;
  destruct (N.compare_spec (Ascii.N_of_ascii y) (Ascii.N_of_ascii z)); try discriminate;
  destruct (N.compare_spec (Ascii.N_of_ascii x) (Ascii.N_of_ascii z)); try reflexivity; try lia; eauto.
Qed.

Lemma np_unique_sorted l : str_sorted (np_unique l).
Proof.
  unfold str_sorted. induction l as [|t l IH]; simpl; [constructor|]. revert IH. generalize (np_unique l). clear.
  intros l H. induction H as [|u l H IH Hall]; simpl; [repeat constructor|].
  destruct (String.compare t u) eqn:E.
  - constructor; auto.
  - constructor; [constructor; auto|]. constructor; auto. eapply Forall_impl; [|exact Hall].
    intros a Ha. eapply compare_trans; eauto.
  - constructor; auto. rewrite Forall_forall in *. intros x Hx. apply insert_unique_In in Hx.
    destruct Hx as [->|Hx]; auto. rewrite String.compare_antisym, E. reflexivity.
Qed.

Lemma compare_irrefl a : String.compare a a <> Lt.
Proof. pose proof (String.compare_antisym a a) as H. destruct (String.compare a a); discriminate. Qed.

Lemma np_unique_NoDup l : NoDup (np_unique l).
Proof.
  pose proof (np_unique_sorted l) as H. induction H as [|u l' H IH Hall]; constructor; auto.
  intros Hin. rewrite Forall_forall in Hall. apply (compare_irrefl u), Hall, Hin.
Qed.

(** Folding a function that fills one entry per key. *)
Lemma build_fold {A} (f : string -> res A) l : NoDup l -> forall tabs0 tabs,
  fold_res (fun tabs s => t <- f s ;; Ok (assoc_set s t tabs)) l tabs0 = Ok tabs ->
  (forall s, In s l -> exists t, f s = Ok t /\ assoc s tabs = Some t) /\
  (forall s, ~ In s l -> assoc s tabs = assoc s tabs0).
Proof.
  induction 1 as [|x l Hx HN IH]; intros tabs0 tabs H; simpl in H.
  - inversion H; subst. split; auto. intros s [].
  - destruct (f x) as [t|] eqn:E; [|discriminate]. simpl in H.
    destruct (IH _ _ H) as [A1 A2]. split.
    + intros s [<-|Hs]; auto. exists t. split; auto. rewrite A2 by auto. apply assoc_set_same.
    + intros s Hs. simpl in Hs. rewrite A2 by tauto. apply assoc_set_other. intros <-. tauto.
Qed.

Lemma build_fold_ok {A} (f : string -> res A) l :
  (forall s, In s l -> exists t, f s = Ok t) -> forall tabs0, exists tabs,
  fold_res (fun tabs s => t <- f s ;; Ok (assoc_set s t tabs)) l tabs0 = Ok tabs.
Proof.
  induction l as [|x l IH]; intros H tabs0; simpl; [eauto|].
  destruct (H x) as [t Ht]; [left; auto|]. rewrite Ht. simpl. apply IH. intros; apply H; right; auto.
Qed.

Lemma skipn_seq k : forall a n, skipn k (seq a n) = seq (a + k) (n - k).
Proof.
  induction k; intros a n; [rewrite Nat.add_0_r, Nat.sub_0_r; auto|].
  destruct n; simpl; auto. rewrite IHk. f_equal; lia.
Qed.

Lemma slice_from_seq skip n : slice_from (Z.of_nat skip) (seq 0 n) = seq (Nat.min n skip) (n - skip).
Proof.
  unfold slice_from, slice_bound. rewrite seq_length.
  destruct (Z.ltb_spec (Z.of_nat skip) 0); [lia|]. rewrite Nat2Z.id, skipn_seq. f_equal; lia.
Qed.

(** C19, arithmetic mean.  End to end on _build_roughness_tables. *)
Theorem C19_friction_is_mean_of_nonzero :
  forall (Lev : Type) (skip : nat) (z : list Lev) d,
    well_formed d -> length z = (nsteps d - skip)%nat ->
    exists tabs, build_roughness_tables 0 (Z.of_nat skip) z d = Ok tabs /\
      (* tables for exactly the sections that occur, on the levels [z] *)
      (forall s, (exists t, assoc s tabs = Some t) <-> In s (edge_section d)) /\
      (forall s t, assoc s tabs = Some t -> level t = z /\ length (friction t) = length z) /\
      (* row i of the table belongs to time step skip + i *)
      forall s i, In s (edge_section d) -> (i < length z)%nat ->
        exists v, table_value tabs s i = Some (Fin v) /\
          let known := known_chezy (section_column (skip + i) s d) in
          (known = [] -> v == 0) /\
          (known <> [] -> v == mean known) /\
          (forall lo hi, known <> [] -> Forall (fun x => lo <= x <= hi) known -> lo <= v <= hi) /\
          (Forall (fun x => 0 < x) known -> (v == 0 <-> known = [])).
Proof.
  intros Lev skip z d Hwf Hz. pose proof Hwf as [HL Hrows].
  set (f := build_table 0 (Z.of_nat skip) z d).
  assert (Hf : forall s, f s = Ok {| level := z;
            friction := friction_simple (seq (Nat.min (nsteps d) skip) (nsteps d - skip))
                          (select (map (String.eqb s) (edge_section d)) (chezy d)) |}).
  { intros s. unfold f, build_table, mask_index, section_is. rewrite map_length, HL, Nat.eqb_refl. cbn [bind].
    rewrite slice_from_seq. cbn [Z.eqb bind]. unfold make_table, friction_simple.
    rewrite map_length, seq_length, Hz, Nat.eqb_refl. reflexivity. }
  destruct (build_fold_ok f (np_unique (edge_section d)) (fun s _ => ex_intro _ _ (Hf s)) []) as [tabs Ht].
  destruct (build_fold f _ (np_unique_NoDup _) _ _ Ht) as [A B].
  exists tabs. split; [exact Ht|].
  assert (Hin : forall s, (exists t, assoc s tabs = Some t) <-> In s (edge_section d)).
  { intros s. rewrite <- np_unique_In. destruct (in_dec string_dec s (np_unique (edge_section d))) as [H|H].
    - destruct (A s H) as (t & _ & Ha). split; eauto.
    - rewrite (B s H). simpl. split; [intros [t Hx]; discriminate | tauto]. }
  split; auto. split.
  - intros s t Hs. assert (Hi : In s (edge_section d)) by (apply Hin; eauto).
    apply np_unique_In in Hi. destruct (A s Hi) as (t' & Hft & Ha). rewrite Hs in Ha. inversion Ha; subst t'.
    rewrite Hf in Hft. inversion Hft; subst t. cbn. split; auto. unfold friction_simple.
    rewrite map_length, seq_length; auto.
  - intros s i Hs Hi. apply np_unique_In in Hs. destruct (A s Hs) as (t & Hft & Ha).
    unfold table_value. rewrite Ha. rewrite Hf in Hft. inversion Hft; subst t. cbn [friction].
    unfold friction_simple. rewrite nth_error_map, nth_error_seq by lia. cbn [option_map].
    replace (Nat.min (nsteps d) skip + i)%nat with (skip + i)%nat by lia.
    change (column (skip + i) (select (map (String.eqb s) (edge_section d)) (chezy d)))
      with (section_column (skip + i) s d).
    destruct (simple_value (section_column (skip + i) s d) (section_column_ok _ _ _ Hwf)) as (v & -> & V1 & V2).
    exists v. split; auto. cbv zeta. split; auto. split; auto. split.
    + intros lo hi Hk Hb. rewrite (V2 Hk). apply mean_bounds; auto.
    + intros Hp. split; auto. intros Hv. destruct (known_chezy _) as [|a l] eqn:E; auto. exfalso.
      assert (Hne : a :: l <> []) by discriminate. specialize (V2 Hne).
      assert (Hm : exists lo, 0 < lo /\ Forall (fun x => lo <= x) (a :: l)).
      { clear - Hp. induction (a :: l) as [|x m IH]; [exists 1; split; [lra|constructor]|].
        inversion Hp; subst. destruct (IH H2) as (lo & L1 & L2).
        exists (if Qlt_le_dec lo x then lo else x). destruct (Qlt_le_dec lo x); split; auto.
        - constructor; auto; lra.
        - constructor; [lra|]. eapply Forall_impl; [|exact L2]. simpl; intros; lra. }
      destruct Hm as (lo & L1 & L2). 
      assert (Hs' : lo * inject_Z (Z.of_nat (length (a :: l))) <= Qsum (a :: l)).
      { clear - L2. induction L2 as [|x m Hx _ IH]; [unfold inject_Z; simpl; lra|].
        change (length (x :: m)) with (S (length m)). rewrite Nat2Z.inj_succ. unfold Z.succ.
        rewrite inject_Z_plus. change (inject_Z 1) with 1. unfold Qsum in *. simpl fold_right. lra. }
      assert (Hn : 0 < inject_Z (Z.of_nat (length (a :: l)))).
      { simpl length. rewrite Nat2Z.inj_succ. unfold inject_Z, Qlt. simpl. lia. }
      assert (lo <= mean (a :: l)) by (unfold mean; apply Qle_shift_div_l; auto). lra.
Qed.
Print Assumptions C19_friction_is_mean_of_nonzero.

Definition example_links : links :=
  {| chezy := [[Fin 1; Fin 30; Fin 0]; [Fin 1; Fin 50; Fin 0]; [Fin 2; NaN; Fin 40]]; nsteps := 3;
     edge_section := ["main"; "main"; "floodplain1"]%string;
     edge_faces := [[0; 1]; [1; 2]; [2; 3]]%nat; area_full := None |}.
Example C19_case : exists tabs v0 v1,
  build_roughness_tables 0 1 [5; 6] example_links = Ok tabs /\
  table_value tabs "main" 0 = Some (Fin v0) /\ v0 == 40 /\ table_value tabs "main" 1 = Some (Fin v1) /\ v1 == 0.
Proof. eexists _, _, _. split; [vm_compute; reflexivity|]. repeat split. Qed.

(** Any other weighing option is rejected (if there are links at all). *)
Theorem C19_unknown_weighing_is_rejected :
  forall (Lev : Type) w skip (z : list Lev) d, well_formed d -> edge_section d <> [] -> w <> 0%Z -> w <> 1%Z ->
    build_roughness_tables w skip z d = Raise ValueError.
Proof.
  intros Lev w skip z d [HL _] Hne H0 H1. unfold build_roughness_tables.
  destruct (np_unique (edge_section d)) as [|s l] eqn:E.
  - destruct (edge_section d) as [|t es]; [congruence|].
    assert (In t (np_unique (t :: es))) by (apply np_unique_In; left; auto). rewrite E in H. destruct H.
  - simpl. unfold build_table, mask_index, section_is. rewrite map_length, HL, Nat.eqb_refl. cbn [bind].
    destruct (Z.eqb_spec w 0); [congruence|]. destruct (Z.eqb_spec w 1); [congruence|]. reflexivity.
Qed.
Print Assumptions C19_unknown_weighing_is_rejected.

(** Levels and friction values of different numbers are refused: no table is
    ever cut or filled up to fit. *)
Theorem C19_number_of_levels :
  forall (Lev : Type) skip (z : list Lev) d, well_formed d -> edge_section d <> [] ->
    (length z = length (slice_from skip (seq 0 (nsteps d))) ->
       exists tabs, build_roughness_tables 0 skip z d = Ok tabs /\ forall s t, assoc s tabs = Some t -> level t = z) /\
    (length z <> length (slice_from skip (seq 0 (nsteps d))) ->
       build_roughness_tables 0 skip z d = Raise ValueError).
Proof.
  intros Lev skip z d [HL _] Hne. unfold build_roughness_tables.
  set (f := build_table 0 skip z d).
  set (st := slice_from skip (seq 0 (nsteps d))).
  assert (Hf : forall s, f s = make_table z (friction_simple st (select (section_is s d) (chezy d)))).
  { intros s. unfold f, build_table, mask_index, section_is. rewrite map_length, HL, Nat.eqb_refl. reflexivity. }
  split; intros Hz.
  - assert (Hf' : forall s, f s = Ok (mk_table z (friction_simple st (select (section_is s d) (chezy d))))).
    { intros s. rewrite Hf. unfold make_table, friction_simple. rewrite map_length, Hz, Nat.eqb_refl. reflexivity. }
    destruct (build_fold_ok f (np_unique (edge_section d)) (fun s _ => ex_intro _ _ (Hf' s)) []) as [tabs Ht].
    destruct (build_fold f _ (np_unique_NoDup _) _ _ Ht) as [A B].
    exists tabs. split; [exact Ht|]. intros s t Hs.
    destruct (in_dec string_dec s (np_unique (edge_section d))) as [H|H].
    + destruct (A s H) as (t' & Ht' & Ha). rewrite Hs in Ha. inversion Ha; subst t'.
      rewrite Hf' in Ht'. inversion Ht'. reflexivity.
    + rewrite (B s H) in Hs. discriminate.
  - destruct (np_unique (edge_section d)) as [|s l] eqn:E.
    + destruct (edge_section d) as [|t es]; [congruence|].
      assert (In t (np_unique (t :: es))) by (apply np_unique_In; left; auto). rewrite E in H. destruct H.
    + cbn [fold_res]. rewrite Hf. unfold make_table, friction_simple. rewrite map_length.
      destruct (Nat.eqb_spec (length z) (length st)); [contradiction|]. reflexivity.
Qed.
Print Assumptions C19_number_of_levels.

(** C19, area weighing.  On the data that the importer delivers (no
    [area_full]) it always fails. *)
Theorem C19_area_weighing_fails_refuted :
  exists d, well_formed d /\ area_full d = None /\
    build_roughness_tables 1 0 [5; 6; 7] d = Raise AttributeError.
Proof.
  exists example_links. split; [|split; [reflexivity | vm_compute; reflexivity]].
  split; [reflexivity|]. repeat constructor.
Qed.
Print Assumptions C19_area_weighing_fails_refuted.

Theorem C19_area_weighing_always_fails :
  forall (Lev : Type) skip (z : list Lev) d, well_formed d -> length (edge_faces d) = length (edge_section d) ->
    edge_section d <> [] -> area_full d = None ->
    build_roughness_tables 1 skip z d = Raise AttributeError.
Proof.
  intros Lev skip z d [HL _] HF Hne Ha. unfold build_roughness_tables.
  destruct (np_unique (edge_section d)) as [|s l] eqn:E.
  - destruct (edge_section d) as [|t es]; [congruence|].
    assert (In t (np_unique (t :: es))) by (apply np_unique_In; left; auto). rewrite E in H. destruct H.
  - assert (Hs : In s (edge_section d)) by (apply np_unique_In; rewrite E; left; auto).
    simpl. unfold build_table, mask_index, section_is. rewrite map_length, HL, HF, HL, Nat.eqb_refl. cbn [bind].
    cbn [Z.eqb Pos.eqb bind]. rewrite Ha.
    assert (Hsel : select (map (String.eqb s) (edge_section d)) (edge_faces d) <> []).
    { clear - Hs HF. revert HF. generalize (edge_faces d). induction (edge_section d) as [|t es IH]; [destruct Hs|].
      intros [|x xs] HF; [discriminate|]. simpl. destruct (String.eqb_spec s t); [discriminate|].
      destruct Hs as [Hs|Hs]; [congruence|]. apply IH; auto. }
    destruct (select _ (edge_faces d)); [congruence|]. reflexivity.
Qed.
Print Assumptions C19_area_weighing_always_fails.

(** If the areas are supplied: a weighted mean when no link is dry, ... *)
Definition weighted_mean (values weights : list Q) : Q :=
  Qsum (map2 Qmult values weights) / Qsum weights.

Lemma npsum_weighted chez : forall w tot, length w = length chez -> ~ tot == 0 ->
  exists s, npsum (map2 nmul (map Fin chez) (map (fun a => ndiv a (Fin tot)) (map Fin w))) = Fin s /\
            s == Qsum (map2 Qmult chez w) / tot.
Proof.
  intros w tot L Ht.
  assert (E : map2 nmul (map Fin chez) (map (fun a => ndiv a (Fin tot)) (map Fin w)) =
              map Fin (map2 (fun c a => c * (a / tot)) chez w)).
  { revert w L; induction chez; intros [|x w] L; simpl in *; try discriminate; auto.
    destruct (Qeq_bool tot 0) eqn:E; [apply Qeq_bool_iff in E; congruence|]. f_equal. auto. }
  rewrite E. destruct (npsum_fin' (map2 (fun c a => c * (a / tot)) chez w)) as (s & Hs & Es).
  exists s. split; auto. rewrite Es. clear - Ht L.
  revert w L; induction chez; intros [|x w] L; unfold Qsum in *; simpl in *; try discriminate.
  - field. auto.
  - rewrite IHchez by lia. field. auto.
Qed.

Theorem C19_area_weighing_without_dry_links_partial :
  forall area efs steps rows la t,
    (* every link has two faces with known positive total area *)
    Forall2 (fun ef a => link_area area ef = Fin a /\ 0 < a) efs la -> efs <> [] ->
    length rows = length efs -> In t steps ->
    forall cs, map (fun r => nth t r NaN) rows = map Fin cs -> Forall (fun c => ~ c == 0) cs ->
    exists out, friction_area (Some area) efs steps rows = Ok out /\
      forall i, nth_error steps i = Some t ->
        exists v, nth_error out i = Some (Fin v) /\ v == weighted_mean cs la.
Proof.
  intros area efs steps rows la t Hla Hne Hlen Ht cs Hcs Hnz.
  unfold friction_area. eexists. split; [reflexivity|]. intros i Hi.
  rewrite nth_error_map, Hi. cbn [option_map].
  assert (E1 : map (link_area area) efs = map Fin la).
  { clear - Hla. induction Hla; simpl; auto. destruct H. congruence. }
  assert (Lla : length la = length efs) by (clear - Hla; induction Hla; simpl; auto).
  assert (E2 : map zero_to_nan (column t rows) = map Fin cs).
  { unfold column. rewrite Hcs. clear - Hnz. induction Hnz; simpl; auto. unfold zero_to_nan at 1. simpl.
    destruct (Qeq_bool x 0) eqn:E; [apply Qeq_bool_iff in E; contradiction|]. congruence. }
  rewrite E1, E2. destruct (npsum_fin' la) as (tot & Htot & Et). rewrite Htot.
  assert (Pt : 0 < tot).
  { rewrite Et. clear - Hla Hne. destruct Hla; [congruence|]. clear Hne.
    assert (0 <= Qsum l').
    { clear - Hla. induction Hla; unfold Qsum in *; simpl; [lra|]. destruct H. lra. }
    destruct H. unfold Qsum in *. simpl. lra. }
  assert (Lc : length la = length cs).
  { apply (f_equal (@length _)) in Hcs. rewrite !map_length in Hcs. lia. }
  destruct (npsum_weighted cs la tot Lc) as (s & Hs & Es); [lra|].
  rewrite Hs. exists s. split; auto. rewrite Es. unfold weighted_mean. rewrite Et. reflexivity.
Qed.
Print Assumptions C19_area_weighing_without_dry_links_partial.

Example C19_area_case : exists out,
  friction_area (Some (fun n => Some (Fin (inject_Z (Z.of_nat (S n)))))) [[0; 1]; [1; 2]]%nat [0]%nat
    [[Fin 30]; [Fin 50]] = Ok out /\ exists v, nth_error out 0 = Some (Fin v) /\ v == 85 # 2.
Proof. eexists. split; [vm_compute; reflexivity|]. eexists. split; reflexivity. Qed.

(** ... but one dry link makes the average of the whole section zero. *)
Theorem C19_dry_link_zeroes_area_mean_refuted :
  exists area efs rows,
    rows = [[Fin 30]; [Fin 0]; [Fin 50]] /\
    known_chezy (column 0 rows) = [30; 50] /\
    friction_area (Some area) efs [O] rows = Ok [Fin 0].
Proof.
  exists (fun _ => Some (Fin 1)), [[0; 1]; [1; 2]; [2; 3]]%nat, [[Fin 30]; [Fin 0]; [Fin 50]].
  split; [reflexivity|]. split; vm_compute; reflexivity.
Qed.
Print Assumptions C19_dry_link_zeroes_area_mean_refuted.

(** ** C20: interpolation to common levels *)

(** What numpy's search guarantees for a value within the outer levels, also
    if the levels are not sorted. *)
Definition bracketing (search : list Q -> Q -> nat) : Prop :=
  forall xp x, xp <> [] -> nth 0 xp 0 <= x -> x <= nth (length xp - 1) xp 0 ->
    let j := search xp x in
    (j < length xp)%nat /\ nth j xp 0 <= x /\
    ((S j < length xp)%nat -> x < nth (S j) xp 0).

Lemma interp_bounds search xp fp x lo hi :
  bracketing search -> xp <> [] -> length fp = length xp ->
  Forall (fun f => lo <= f <= hi) fp -> lo <= np_interp search xp fp x <= hi.
Proof.
  intros Hs Hne L Hf. unfold np_interp.
  assert (Hlen : (0 < length xp)%nat) by (destruct xp; [congruence | simpl; lia]).
  assert (B : forall k, (k < length xp)%nat -> lo <= nth k fp 0 <= hi).
  { intros k Hk. rewrite Forall_forall in Hf. apply Hf, nth_In. lia. }
  destruct (Qltb (nth (length xp - 1) xp 0) x) eqn:E1; [apply B; lia|].
  destruct (Qltb x (nth 0 xp 0)) eqn:E2; [apply B; lia|].
  qb. destruct (Hs xp x Hne E2 E1) as (H1 & H2 & H3). cbv zeta in *.
  set (j := search xp x) in *.
  destruct (Nat.eqb_spec j (length xp - 1)); [apply B; lia|].
  destruct (Qeq_bool (nth j xp 0) x); [apply B; lia|].
  assert (H4 : (S j < length xp)%nat) by lia. specialize (H3 H4).
  pose proof (B j ltac:(lia)) as Bj. pose proof (B (S j) H4) as Bj1.
  set (a := nth j fp 0) in *. set (b := nth (S j) fp 0) in *.
  set (u := nth j xp 0) in *. set (v := nth (S j) xp 0) in *.
  assert (Hw : 0 < v - u) by lra.
  assert (Ew : (b - a) / (v - u) * (x - u) == (b - a) * ((x - u) / (v - u))) by (field; lra).
  set (r := (x - u) / (v - u)) in *.
  assert (R0 : 0 <= r) by (subst r; apply Qle_shift_div_l; lra).
  assert (R1 : r <= 1) by (subst r; apply Qle_shift_div_r; lra).
  rewrite Ew. clearbody r a b. clear - R0 R1 Bj Bj1. split; nra.
Qed.

(** A table with at least one row. *)
Definition good_table (t : qtable) : Prop :=
  qlevel t <> [] /\ length (qfriction t) = length (qlevel t).
Definition all_tables (P : qtable -> Prop) (css : list tables) : Prop :=
  forall t s tab, In t css -> assoc s t = Some tab -> P tab.

(** Smallest / largest level of a section over the model. *)
Definition is_level (s : string) (css : list tables) (z : Q) : Prop :=
  exists t tab, In t css /\ assoc s t = Some tab /\ In z (qlevel tab).

Lemma np_min_spec l : l <> [] -> exists m, np_min l = Ok m /\ In m l /\ Forall (fun x => m <= x) l.
Proof.
  destruct l as [|a l]; [congruence|]. intros _. simpl np_min. eexists; split; [reflexivity|].
  revert a; induction l as [|b l IH]; intros a.
  - split; [left; auto|]. repeat constructor. simpl. lra.
  - change (fold_left qmin2 (b :: l) a) with (fold_left qmin2 l (qmin2 a b)).
    unfold qmin2 at 2 4. destruct (Qltb b a) eqn:E; qb.
    + destruct (IH b) as [H1 H2]. split; [right; exact H1|].
      inversion H2; subst. constructor; [lra | constructor; auto].
    + destruct (IH a) as [H1 H2]. split; [destruct H1 as [H1|H1]; [left; exact H1 | right; right; exact H1]|].
      inversion H2; subst. constructor; auto. constructor; auto. lra.
Qed.

Lemma np_max_spec l : l <> [] -> exists m, np_max l = Ok m /\ In m l /\ Forall (fun x => x <= m) l.
Proof.
  destruct l as [|a l]; [congruence|]. intros _. simpl np_max. eexists; split; [reflexivity|].
  revert a; induction l as [|b l IH]; intros a.
  - split; [left; auto|]. repeat constructor. simpl. lra.
  - change (fold_left qmax2 (b :: l) a) with (fold_left qmax2 l (qmax2 a b)).
    unfold qmax2 at 2 4. destruct (Qltb a b) eqn:E; qb.
    + destruct (IH b) as [H1 H2]. split; [right; exact H1|].
      inversion H2; subst. constructor; [lra | constructor; auto].
    + destruct (IH a) as [H1 H2]. split; [destruct H1 as [H1|H1]; [left; exact H1 | right; right; exact H1]|].
      inversion H2; subst. constructor; auto. constructor; auto. lra.
Qed.

(** The range loop, from any start values. *)
Definition range_step (section : string) (mm : Q * Q) (t : tables) : res (Q * Q) :=
  match assoc section t with
  | None => Ok mm
  | Some tab =>
      lo <- np_min (qlevel tab) ;;
      hi <- np_max (qlevel tab) ;;
      Ok (qmin2 (fst mm) lo, qmax2 (snd mm) hi)
  end.

Lemma range_spec s css : (forall t tab, In t css -> assoc s t = Some tab -> qlevel tab <> []) ->
  forall l0 h0, exists lo hi, fold_res (range_step s) css (l0, h0) = Ok (lo, hi) /\
    (lo = l0 \/ is_level s css lo) /\ (hi = h0 \/ is_level s css hi) /\
    lo <= l0 /\ h0 <= hi /\ (forall z, is_level s css z -> lo <= z <= hi).
Proof.
  induction css as [|t css IH]; intros Hg l0 h0; simpl.
  - exists l0, h0. split; auto. split; auto. split; auto. split; [lra|]. split; [lra|].
    intros z (t & tab & [] & _).
  - assert (Hg' : forall t tab, In t css -> assoc s t = Some tab -> qlevel tab <> []).
    { intros; eapply Hg; eauto. right; auto. }
    unfold range_step at 1. destruct (assoc s t) as [tab|] eqn:E.
    + destruct (np_min_spec (qlevel tab)) as (m & -> & M1 & M2); [apply (Hg t); auto; left; auto|].
      destruct (np_max_spec (qlevel tab)) as (M & -> & N1 & N2); [apply (Hg t); auto; left; auto|].
      cbn [bind fst snd]. rewrite Forall_forall in M2, N2.
      assert (Q1 : qmin2 l0 m <= l0 /\ qmin2 l0 m <= m /\ (qmin2 l0 m = l0 \/ qmin2 l0 m = m)).
      { unfold qmin2. destruct (Qltb m l0) eqn:F; qb; repeat split; auto; lra. }
      assert (Q2 : h0 <= qmax2 h0 M /\ M <= qmax2 h0 M /\ (qmax2 h0 M = h0 \/ qmax2 h0 M = M)).
      { unfold qmax2. destruct (Qltb h0 M) eqn:F; qb; repeat split; auto; lra. }
      destruct (IH Hg' (qmin2 l0 m) (qmax2 h0 M)) as (lo & hi & H & A1 & A2 & A3 & A4 & A5).
      exists lo, hi. split; [exact H|].
      destruct Q1 as (B1 & B2 & B3). destruct Q2 as (C1 & C2 & C3).
      split; [|split; [|split; [lra|split; [lra|]]]].
      * destruct A1 as [A1|(t' & tab' & X & Y & Z)].
        -- rewrite A1. destruct B3 as [->| ->]; [left; auto|]. right. exists t, tab. repeat split; auto. left; auto.
        -- right. exists t', tab'. repeat split; auto. right; auto.
      * destruct A2 as [A2|(t' & tab' & X & Y & Z)].
        -- rewrite A2. destruct C3 as [->| ->]; [left; auto|]. right. exists t, tab. repeat split; auto. left; auto.
        -- right. exists t', tab'. repeat split; auto. right; auto.
      * intros z (t' & tab' & [<-|X] & Y & Z).
        -- rewrite E in Y. inversion Y; subst tab'. specialize (M2 z Z). specialize (N2 z Z). simpl in *. lra.
        -- apply A5. exists t', tab'. auto.
    + destruct (IH Hg' l0 h0) as (lo & hi & H & A1 & A2 & A3 & A4 & A5).
      exists lo, hi. split; [exact H|]. split; [|split; [|split; [auto|split; [auto|]]]].
      * destruct A1 as [A1|(t' & tab' & X & Y & Z)]; auto. right. exists t', tab'. repeat split; auto. right; auto.
      * destruct A2 as [A2|(t' & tab' & X & Y & Z)]; auto. right. exists t', tab'. repeat split; auto. right; auto.
      * intros z (t' & tab' & [<-|X] & Y & Z); [congruence|]. apply A5. exists t', tab'. auto.
Qed.

Lemma level_range_fold s css : level_range s css = fold_res (range_step s) css (big, - big).
Proof. reflexivity. Qed.

(** Effect of one section on the table list of one cross-section. *)
Definition renew (search : list Q -> Q -> nat) (new_z : list Q) (tab : qtable) : qtable :=
  {| qlevel := new_z; qfriction := map (np_interp search (qlevel tab) (qfriction tab)) new_z |}.
Definition renew_in search s new_z (t : tables) : tables :=
  match assoc s t with None => t | Some tab => assoc_set s (renew search new_z tab) t end.

Lemma interpolate_section_ok search s new_z css :
  (forall t tab, In t css -> assoc s t = Some tab -> good_table tab) ->
  interpolate_section search s new_z css = (map (renew_in search s new_z) css, true).
Proof.
  induction css as [|t css IH]; intros H; simpl; auto.
  rewrite IH by (intros; eapply H; eauto; right; auto).
  destruct (assoc s t) as [tab|] eqn:E; [|replace (renew_in search s new_z t) with t by (unfold renew_in; rewrite E; auto); auto].
  replace (renew_in search s new_z t) with (assoc_set s (renew search new_z tab) t)
    by (unfold renew_in; rewrite E; auto).
  destruct (H t tab (or_introl eq_refl) E) as [H1 H2]. unfold interpolate.
  destruct (qlevel tab) as [|x l] eqn:El; [congruence|]. simpl length at 1. cbn [Nat.eqb].
  rewrite H2, <- El, Nat.eqb_refl. cbn [negb]. unfold renew. reflexivity.
Qed.

Lemma assoc_renew_other search s s' new_z t : s <> s' ->
  assoc s' (renew_in search s new_z t) = assoc s' t.
Proof. intros H. unfold renew_in. destruct (assoc s t); auto. apply assoc_set_other; auto. Qed.

Lemma assoc_renew_same search s new_z t :
  assoc s (renew_in search s new_z t) = option_map (renew search new_z) (assoc s t).
Proof.
  unfold renew_in. destruct (assoc s t) eqn:E; simpl; [apply assoc_set_same | auto].
Qed.

(** Two lists of cross-sections with the same tables for section [s]. *)
Definition same_section (s : string) (css css' : list tables) : Prop :=
  Forall2 (fun t t' => assoc s t' = assoc s t) css css'.

Lemma same_refl s css : same_section s css css.
Proof. unfold same_section. induction css; constructor; auto. Qed.

Lemma same_level_range s css css' : same_section s css css' -> level_range s css' = level_range s css.
Proof.
  rewrite !level_range_fold. generalize (big, - big). intros mm H. revert mm.
  induction H; intros mm; simpl; auto. unfold range_step at 1 3. rewrite H.
  destruct (assoc s x) as [tab|]; auto. destruct (np_min _); simpl; auto. destruct (np_max _); simpl; auto.
Qed.

Lemma same_in s css css' t' tab : same_section s css css' -> In t' css' -> assoc s t' = Some tab ->
  exists t, In t css /\ assoc s t = Some tab.
Proof.
  induction 1; simpl; intros Hin Ha; [tauto|].
  destruct Hin as [<-|Hin]; [exists x; split; auto; congruence|].
  destruct IHForall2 as (t & ? & ?); eauto.
Qed.

(** The result of a section: interpolated from the original. *)
Definition done_section search (s : string) (css css' : list tables) : Prop :=
  exists lo hi, level_range s css = Ok (lo, hi) /\
  Forall2 (fun t t' => assoc s t' = option_map (renew search (arange lo hi)) (assoc s t)) css css'.

Lemma Forall2_map_r {A B C} (R : A -> B -> Prop) (f : C -> B) l m :
  Forall2 R l (map f m) <-> Forall2 (fun a c => R a (f c)) l m.
Proof.
  revert m; induction l as [|a l IH]; intros [|c m]; simpl; split; intros H; inversion H; subst; constructor; auto;
    apply IH; auto.
Qed.

Lemma Forall2_imp {A B} (R S : A -> B -> Prop) l m : (forall a b, R a b -> S a b) -> Forall2 R l m -> Forall2 S l m.
Proof. intros H. induction 1; constructor; auto. Qed.

Lemma Forall2_comp_map {A B C D} (R : A -> B -> Prop) (S : C -> D -> Prop) (T : A -> D -> Prop)
    (f : B -> C) l m n :
  Forall2 R l m -> Forall2 S (map f m) n -> (forall a b d, R a b -> S (f b) d -> T a d) -> Forall2 T l n.
Proof.
  intros H. revert n. induction H; intros n Hn HT; simpl in Hn; inversion Hn; subst; constructor; eauto.
Qed.

Lemma interpolate_sections_ok search css0 sections : NoDup sections -> forall css,
  (forall s, In s sections -> same_section s css0 css) ->
  (forall s t tab, In s sections -> In t css0 -> assoc s t = Some tab -> good_table tab) ->
  exists css', interpolate_sections search sections css = (css', true) /\
    (forall s, In s sections -> done_section search s css0 css') /\
    (forall s, ~ In s sections -> same_section s css css').
Proof.
  induction 1 as [|s sections Hs HN IH]; intros css Hsame Hgood; simpl.
  - exists css. split; auto. split; [intros s []|]. intros s _. apply same_refl.
  - assert (Hss : same_section s css0 css) by (apply Hsame; left; auto).
    rewrite (same_level_range _ _ _ Hss).
    destruct (range_spec s css0) with (l0 := big) (h0 := - big) as (lo & hi & Hr & _).
    { intros t tab Ht Ha. apply (Hgood s t tab); auto. left; auto. }
    rewrite level_range_fold, Hr.
    assert (Hg1 : forall t tab, In t css -> assoc s t = Some tab -> good_table tab).
    { intros t tab Ht Ha. destruct (same_in _ _ _ _ _ Hss Ht Ha) as (t0 & H1 & H2).
      eapply Hgood; eauto. left; auto. }
    rewrite interpolate_section_ok by exact Hg1.
    destruct (IH (map (renew_in search s (arange lo hi)) css)) as (css' & Hc & Hd & Ho).
    + intros s' Hs'. unfold same_section. rewrite Forall2_map_r. eapply Forall2_imp; [|apply (Hsame s'); right; exact Hs'].
      intros a b Hab. cbn beta. rewrite assoc_renew_other by (intros <-; auto). exact Hab.
    + intros s' t tab Hs' Ht Ha. eapply Hgood; eauto. right; auto.
    + exists css'. split; [exact Hc|]. split.
      * intros s' [<-|Hs']; [|auto]. exists lo, hi. split; [rewrite level_range_fold; exact Hr|].
        specialize (Ho s Hs). unfold same_section in Ho.
        refine (Forall2_comp_map _ _ _ _ _ _ _ Hss Ho _). intros t0 t t' H1 H2. cbn beta in *.
        rewrite H2, assoc_renew_same, H1. reflexivity.
      * intros s' Hs'. simpl in Hs'. assert (s' <> s /\ ~ In s' sections) by (split; [intros ->|]; tauto).
        destruct H as [H1 H2]. specialize (Ho s' H2). unfold same_section in *.
        refine (Forall2_comp_map _ _ _ _ _ _ _ (same_refl s' css) Ho _). intros t0 t t' H3 H4. cbn beta in *.
        rewrite H4, assoc_renew_other by auto. exact H3.
Qed.

Lemma sections_of_css (css : list tables) s : (exists t tab, In t css /\ assoc s t = Some tab) ->
  In s (np_unique (flat_map (map fst) css)).
Proof.
  intros (t & tab & Ht & Ha). apply np_unique_In, in_flat_map. exists t. split; auto.
  clear Ht. induction t as [|[k v] t IH]; [discriminate|]. simpl in *.
  destruct (String.eqb_spec s k); [left; auto | right; apply IH; auto].
Qed.

(** C20.  Every cross-section has tables with at least one row. *)
Theorem C20_friction_tables_become_uniform :
  forall search (css : list tables),
    bracketing search -> all_tables good_table css ->
    (forall s z, is_level s css z -> - big <= z <= big) ->
    exists css', interpolate_friction search css = (css', true) /\ length css' = length css /\
      forall s, (exists z, is_level s css z) ->
        exists lo hi,
          (* lowest and highest level of the section in the model *)
          is_level s css lo /\ is_level s css hi /\ (forall z, is_level s css z -> lo <= z <= hi) /\
          forall i t t', nth_error css i = Some t -> nth_error css' i = Some t' ->
            (assoc s t = None -> assoc s t' = None) /\
            forall tab, assoc s t = Some tab -> exists tab',
              assoc s t' = Some tab' /\
              (* the common level column: steps of 0.1 from the lowest up to the highest level *)
              length (qlevel tab') = Z.to_nat (Qceiling ((hi - lo) / (1 # 10))) /\
              (forall k z, nth_error (qlevel tab') k = Some z -> z == lo + inject_Z (Z.of_nat k) * (1 # 10) /\ z < hi) /\
              length (qfriction tab') = length (qlevel tab') /\
              (* values: interpolated, hence within the range of the original values *)
              qfriction tab' = map (np_interp search (qlevel tab) (qfriction tab)) (qlevel tab') /\
              (forall a b, Forall (fun f => a <= f <= b) (qfriction tab) ->
                           Forall (fun f => a <= f <= b) (qfriction tab')).
Proof.
  intros search css Hsearch Hgood Hbig.
  destruct (interpolate_sections_ok search css (np_unique (flat_map (map fst) css)) (np_unique_NoDup _) css)
    as (css' & Hc & Hd & Ho).
  { intros s _. apply same_refl. }
  { intros s t tab _ Ht Ha. eapply Hgood; eauto. }
  exists css'. split; [exact Hc|].
  assert (Hlen : length css' = length css).
  { destruct (in_dec string_dec EmptyString (np_unique (flat_map (map fst) css))) as [Hi|Hi].
    - destruct (Hd _ Hi) as (lo & hi & _ & H). clear - H. induction H; simpl; auto.
    - specialize (Ho _ Hi). clear - Ho. induction Ho; simpl; auto. }
  split; auto. intros s (z0 & t0 & tab0 & Ht0 & Ha0 & Hz0).
  assert (Hs : In s (np_unique (flat_map (map fst) css))) by (apply sections_of_css; eauto).
  assert (Hl0 : is_level s css z0) by (exists t0, tab0; auto).
  destruct (Hd s Hs) as (lo & hi & Hr & HF).
  destruct (range_spec s css) with (l0 := big) (h0 := - big) as (lo' & hi' & Hr' & A1 & A2 & A3 & A4 & A5).
  { intros t tab Ht Ha. apply (Hgood t s tab); auto. }
  rewrite level_range_fold, Hr' in Hr. inversion Hr; subst lo' hi'.
  (* the start values only survive if they are levels (or equal to one) *)
  assert (Hlo : exists lo2, is_level s css lo2 /\ lo2 == lo).
  { destruct A1 as [->|A1]; [|exists lo; split; auto; reflexivity].
    exists z0. split; auto. pose proof (A5 z0 Hl0). pose proof (Hbig s z0 Hl0). lra. }
  assert (Hhi : exists hi2, is_level s css hi2 /\ hi2 == hi).
  { destruct A2 as [->|A2]; [|exists hi; split; auto; reflexivity].
    exists z0. split; auto. pose proof (A5 z0 Hl0). pose proof (Hbig s z0 Hl0). lra. }
  destruct Hlo as (lo2 & L1 & L2). destruct Hhi as (hi2 & L3 & L4).
  exists lo2, hi2. split; auto. split; auto. split; [intros z Hz; specialize (A5 z Hz); lra|].
  intros i t t' Hi Hi'.
  assert (Hrow : assoc s t' = option_map (renew search (arange lo hi)) (assoc s t)).
  { clear - HF Hi Hi'. revert i Hi Hi'. induction HF; intros [|i] Hi Hi'; simpl in *; try discriminate.
    - inversion Hi; inversion Hi'; subst; auto.
    - eauto. }
  assert (Ht : In t css) by (eapply nth_error_In; eauto).
  split; [intros E; rewrite Hrow, E; auto|].
  intros tab Ha. rewrite Ha in Hrow. simpl in Hrow. eexists. split; [exact Hrow|].
  cbn [renew qlevel qfriction]. split; [|split; [|split; [|split]]].
  - unfold arange, zstep. rewrite map_length, seq_length. f_equal. apply Qceiling_comp. rewrite L2, L4. reflexivity.
  - intros k z Hk. unfold arange in Hk. rewrite nth_error_map in Hk.
    destruct (nth_error (seq 0 _) k) as [k'|] eqn:E; [|discriminate]. simpl in Hk. inversion Hk; subst z.
    assert (Hlt : (k < Z.to_nat (Qceiling ((hi - lo) / zstep)))%nat).
    { rewrite <- (seq_length (Z.to_nat (Qceiling ((hi - lo) / zstep))) 0). apply nth_error_Some. congruence. }
    rewrite nth_error_seq in E by auto. inversion E; subst k'. simpl Nat.add.
    unfold zstep in *. split; [rewrite L2; reflexivity|].
    assert (Hc' : (Z.of_nat k <= Qceiling ((hi - lo) / (1 # 10)) - 1)%Z) by lia.
    pose proof (Qceiling_lt ((hi - lo) / (1 # 10))) as Hcl.
    rewrite Zle_Qle in Hc'. 
    assert (Hd' : (hi - lo) / (1 # 10) == (hi - lo) * 10) by (field).
    assert (inject_Z (Z.of_nat k) < (hi - lo) * 10) by (rewrite <- Hd'; eapply Qle_lt_trans; [exact Hc'|exact Hcl]).
    lra.
  - rewrite map_length. reflexivity.
  - reflexivity.
  - intros a b Hab. destruct (Hgood t s tab Ht Ha) as [G1 G2]. rewrite Forall_forall. intros f Hf.
    apply in_map_iff in Hf. destruct Hf as (x & <- & _). apply interp_bounds; auto.
Qed.
Print Assumptions C20_friction_tables_become_uniform.

(** A search that meets [bracketing]: scan from the left. *)
Fixpoint scan (xp : list Q) (x : Q) (j : nat) : nat :=
  match xp with
  | [] => j - 1
  | a :: xp' => if Qltb x a then j - 1 else scan xp' x (S j)
  end.

Lemma scan_spec xp x : forall j, (0 < j)%nat ->
  let r := scan xp x j in (j - 1 <= r <= j - 1 + length xp)%nat /\
    ((r < j - 1 + length xp)%nat -> x < nth (r - (j - 1)) xp 0) /\
    ((j <= r)%nat -> nth (r - j) xp 0 <= x).
Proof.
  induction xp as [|a xp IH]; intros j Hj; cbv zeta; simpl.
  - split; [lia|]. split; intros; lia.
  - destruct (Qltb x a) eqn:E; qb.
    + split; [lia|]. split; [intros _; rewrite Nat.sub_diag; auto|]. intros; lia.
    + destruct (IH (S j) ltac:(lia)) as (H1 & H2 & H3). cbv zeta in *. set (r := scan xp x (S j)) in *.
      split; [lia|]. split.
      * intros H. replace (r - (j - 1))%nat with (S (r - (S j - 1))) by lia. apply H2. lia.
      * intros H. destruct (Nat.eq_dec r j) as [->|Hne]; [rewrite Nat.sub_diag; auto|].
        replace (r - j)%nat with (S (r - S j)) by lia. apply H3. lia.
Qed.

Definition linear_search (xp : list Q) (x : Q) : nat :=
  match xp with [] => 0%nat | _ :: xp' => scan xp' x 1 end.

Lemma linear_search_bracketing : bracketing linear_search.
Proof.
  intros xp x Hne H0 Hl. destruct xp as [|a xp]; [congruence|]. cbv zeta. unfold linear_search.
  destruct (scan_spec xp x 1 ltac:(lia)) as (H1 & H2 & H3). cbv zeta in *.
  set (r := scan xp x 1) in *. simpl length in *. split; [lia|]. split.
  - destruct r; [exact H0|]. specialize (H3 ltac:(lia)). simpl in H3. rewrite Nat.sub_0_r in H3. exact H3.
  - intros H. simpl. specialize (H2 ltac:(lia)). replace (r - (1 - 1))%nat with r in H2 by lia. auto.
Qed.

(** C20: for strictly increasing levels the interpolation is exact at the
    original levels, whatever search is used. *)
Theorem C20_interpolation_keeps_table_points :
  forall search xp fp k, bracketing search -> strictly_increasing xp -> length fp = length xp ->
    (k < length xp)%nat -> np_interp search xp fp (nth k xp 0) == nth k fp 0.
Proof.
  intros search xp fp k Hs Hinc L Hk.
  assert (Hmono : forall i j, (i < j)%nat -> (j < length xp)%nat -> nth i xp 0 < nth j xp 0).
  { intros i j Hij Hj. apply (Hinc i j); auto; apply nth_error_nth'; lia. }
  unfold np_interp. set (x := nth k xp 0).
  destruct (Qltb (nth (length xp - 1) xp 0) x) eqn:E1; qb.
  { exfalso. destruct (Nat.eq_dec k (length xp - 1)) as [->|]; [subst x; lra|].
    specialize (Hmono k (length xp - 1)%nat ltac:(lia) ltac:(lia)). subst x. lra. }
  destruct (Qltb x (nth 0 xp 0)) eqn:E2; qb.
  { exfalso. destruct k; [subst x; lra|]. specialize (Hmono 0%nat (S k) ltac:(lia) ltac:(lia)). subst x. lra. }
  destruct (Hs xp x) as (H1 & H2 & H3); auto; [destruct xp; [simpl in Hk; lia | discriminate]|].
  cbv zeta in *. set (j := search xp x) in *.
  assert (j = k).
  { destruct (Nat.lt_trichotomy j k) as [H|[H|H]]; auto; exfalso.
    - specialize (H3 ltac:(lia)). destruct (Nat.eq_dec (S j) k) as [e|]; [rewrite e in H3; unfold x in H3; lra|].
      specialize (Hmono (S j) k ltac:(lia) ltac:(lia)). unfold x in H3. lra.
    - specialize (Hmono k j ltac:(lia) ltac:(lia)). unfold x in H2. lra. }
  rewrite H. destruct (Nat.eqb_spec k (length xp - 1)); [reflexivity|].
  destruct (Qeq_bool (nth k xp 0) x); [reflexivity|].
  fold x. assert (Z : x - x == 0) by ring. rewrite Z. ring.
Qed.
Print Assumptions C20_interpolation_keeps_table_points.

Definition example_tables : list tables :=
  [[("main", {| qlevel := [0; 1 # 5]; qfriction := [30; 40] |})];
   [("main", {| qlevel := [1 # 10; 1 # 2]; qfriction := [20; 60] |});
    ("floodplain1", {| qlevel := [2]; qfriction := [25] |})]]%string.
Example C20_case :
  match interpolate_friction linear_search example_tables with
  | ([[(_, a)]; [(_, b); (_, c)]], true) =>
      map Qred (qlevel a) = [0; 1 # 10; 1 # 5; 3 # 10; 2 # 5] /\ map Qred (qfriction a) = [30; 35; 40; 40; 40] /\
      map Qred (qlevel b) = [0; 1 # 10; 1 # 5; 3 # 10; 2 # 5] /\ map Qred (qfriction b) = [20; 20; 30; 40; 50]
      /\ c = {| qlevel := []; qfriction := [] |}
  | _ => False
  end.
Proof. vm_compute. repeat split; reflexivity. Qed.

(** A section whose levels are all equal ends with empty tables (the case
    above, floodplain1): the stop level is not part of the column. *)
Theorem C20_single_level_empties_table_refuted :
  exists css s, all_tables good_table css /\
    (exists z, is_level s css z) /\
    forall t tab, In t (fst (interpolate_friction linear_search css)) -> assoc s t = Some tab -> qlevel tab = [].
Proof.
  exists [[("main", {| qlevel := [2]; qfriction := [25] |})]]%string, "main"%string.
  split; [|split].
  - intros t s tab [<-|[]] H. simpl in H. destruct (String.eqb s "main"); [|discriminate]. inversion H; subst.
    split; [discriminate | reflexivity].
  - exists 2. eexists _, _. split; [left; reflexivity|]. split; [reflexivity|]. left; auto.
  - intros t tab [<-|[]] H. vm_compute in H. inversion H; subst. reflexivity.
Qed.
Print Assumptions C20_single_level_empties_table_refuted.

(** C20: it never raises; a table without rows makes it report failure. *)
Lemma interpolate_section_other search s s' new_z css : s <> s' ->
  same_section s' css (fst (interpolate_section search s new_z css)).
Proof.
  intros Hne. induction css as [|t css IH]; simpl; [constructor|].
  destruct (assoc s t) as [tab|] eqn:E.
  - destruct (interpolate search new_z tab).
    + destruct (interpolate_section search s new_z css) as [r ok]. simpl in *. constructor; auto.
      apply assoc_set_other; auto.
    + simpl. apply same_refl.
  - destruct (interpolate_section search s new_z css) as [r ok]. simpl in *. constructor; auto.
Qed.

Theorem C20_empty_table_is_reported :
  forall search css s t tab,
    In t css -> assoc s t = Some tab -> qlevel tab = [] ->
    snd (interpolate_friction search css) = false.
Proof.
  intros search css s t tab Ht Ha He.
  assert (Hs : In s (np_unique (flat_map (map fst) css))) by (apply sections_of_css; eauto).
  unfold interpolate_friction. revert Hs. generalize (np_unique (flat_map (map fst) css)). intros l.
  assert (Hex : exists t tab, In t css /\ assoc s t = Some tab /\ qlevel tab = []) by eauto.
  clear t tab Ht Ha He. revert css Hex.
  induction l as [|s0 l IH]; intros css Hex Hs; [destruct Hs|]. simpl.
  destruct (string_dec s0 s) as [->|Hne].
  - assert (Hr : exists e, level_range s css = Raise e).
    { rewrite level_range_fold. generalize (big, - big). destruct Hex as (t & tab & Ht & Ha & He). clear - Ht Ha He.
      induction css as [|t0 css IH]; [destruct Ht|]. intros mm. simpl. destruct Ht as [<-|Ht].
      - unfold range_step at 1. rewrite Ha, He. simpl. eauto.
      - unfold range_step at 1. destruct (assoc s t0) as [tab0|]; auto.
        destruct (np_min (qlevel tab0)); simpl; [|eauto]. destruct (np_max (qlevel tab0)); simpl; eauto. }
    destruct Hr as [e ->]. reflexivity.
  - destruct (level_range s0 css) as [[lo hi]|]; [|reflexivity].
    pose proof (interpolate_section_other search s0 s (arange lo hi) css Hne) as Ho.
    destruct (interpolate_section search s0 (arange lo hi) css) as [css' ok]. simpl in Ho.
    destruct ok; [|reflexivity]. apply IH; [|destruct Hs; [congruence|auto]].
    destruct Hex as (t & tab & Ht & Ha & He). clear - Ho Ht Ha He.
    induction Ho; [destruct Ht|]. destruct Ht as [<-|Ht].
    + exists y, tab. split; [left; auto|]. split; auto. congruence.
    + destruct (IHHo Ht) as (t' & tab' & X & Y & Z). exists t', tab'. split; [right; auto|]. auto.
Qed.
Print Assumptions C20_empty_table_is_reported.
