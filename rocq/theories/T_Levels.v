(** Theorems for C95: the friction that belongs to a level. *)
From Coq Require Import String List Ascii ZArith QArith Qround Bool Lia Lqa.
From Verif Require Import PyBase Num Spec L_Num L_List Text L_Text Fixed M_Ini M_Friction T_Friction M_Import M_Network M_Export L_Export
  T_Definitions T_Sobek T_Roughness M_Geometry T_Geometry
  M_Sections M_Cli M_Data M_Pipeline T_Pipeline M_Chain T_RoughChain M_Levels.
Import ListNotations.
Local Open Scope Q_scope.

(** ** Tables of finite numbers *)

Definition lift_table (t : qtable) : table num := mk_table (map Fin (qlevel t)) (map Fin (qfriction t)).
Definition lift_tables (t : tables) : ntables := map (fun e => (fst e, lift_table (snd e))) t.

Lemma assoc_lift s t : assoc s (lift_tables t) = option_map lift_table (assoc s t).
Proof. induction t as [|[k v] t IH]; [reflexivity|]. cbn. destruct (String.eqb s k); [reflexivity|exact IH]. Qed.

Lemma assoc_set_lift s v t : assoc_set s (lift_table v) (lift_tables t) = lift_tables (assoc_set s v t).
Proof.
  induction t as [|[k w] t IH]; [reflexivity|]. cbn. destruct (String.eqb s k); cbn; [reflexivity|]. f_equal. exact IH.
Qed.

Lemma npmin_fin a b : npmin (Fin a) (Fin b) = Fin (qmin2 a b).
Proof. unfold npmin, qmin2. cbn. destruct (Qltb b a); reflexivity. Qed.
Lemma npmax_fin a b : npmax (Fin a) (Fin b) = Fin (qmax2 a b).
Proof. unfold npmax, qmax2. cbn. destruct (Qltb a b); reflexivity. Qed.

Lemma np_min_fin l : np_min_n (map Fin l) = match np_min l with Ok q => Ok (Fin q) | Raise e => Raise e end.
Proof.
  destruct l as [|x l]; [reflexivity|]. cbn [map np_min_n np_min]. f_equal. revert x.
  induction l as [|y l IH]; intros x; [reflexivity|]. cbn [map fold_left]. rewrite npmin_fin. apply IH.
Qed.
Lemma np_max_fin l : np_max_n (map Fin l) = match np_max l with Ok q => Ok (Fin q) | Raise e => Raise e end.
Proof.
  destruct l as [|x l]; [reflexivity|]. cbn [map np_max_n np_max]. f_equal. revert x.
  induction l as [|y l IH]; intros x; [reflexivity|]. cbn [map fold_left]. rewrite npmax_fin. apply IH.
Qed.

(** The levels of section [s] are those of [c']. *)
Definition levels_are (s : string) (t : ntables) (t' : tables) : Prop :=
  option_map level (assoc s t) = option_map (fun tab => map Fin (qlevel tab)) (assoc s t').

Lemma level_range_lift s css css' : Forall2 (levels_are s) css css' ->
  level_range_n s css = match level_range s css' with Ok (lo, hi) => Ok (Fin lo, Fin hi) | Raise e => Raise e end.
Proof.
  unfold level_range_n, level_range. generalize big, (- big). intros a b F. revert a b.
  induction F as [|t t' css css' H F IH]; intros a b; [reflexivity|]. cbn [fold_res]. unfold levels_are in H.
  destruct (assoc s t) as [tab|], (assoc s t') as [tab'|]; try discriminate H; [|apply IH].
  cbn [option_map] in H. assert (E : level tab = map Fin (qlevel tab')) by congruence. rewrite E, np_min_fin, np_max_fin.
  destruct (np_min (qlevel tab')) as [lo|]; [|reflexivity]. destruct (np_max (qlevel tab')) as [hi|]; [|reflexivity].
  cbn [bind fst snd]. rewrite npmin_fin, npmax_fin. apply IH.
Qed.

Lemma interp_lift search xp fp x : bracketing search -> xp <> [] ->
  np_interp_n search xp (map Fin fp) x = Fin (np_interp search xp fp x).
Proof.
  intros Hs Hne. unfold np_interp_n, np_interp. cbv zeta. rewrite !map_nth.
  destruct (Qltb (nth (length xp - 1) xp 0) x) eqn:E1; [reflexivity|].
  destruct (Qltb x (nth 0 xp 0)) eqn:E2; [reflexivity|]. qb.
  destruct (Hs xp x Hne E2 E1) as (H1 & H2 & H3). cbv zeta in *. set (j := search xp x) in *. clearbody j.
  destruct (Nat.eqb_spec j (length xp - 1)) as [E|E]; [reflexivity|].
  destruct (Qeq_bool (nth j xp 0) x); [reflexivity|].
  specialize (H3 ltac:(lia)). cbn [nsub nadd nneg ndiv].
  destruct (Qeq_bool (nth (S j) xp 0 - nth j xp 0) 0) eqn:E3.
  { exfalso. apply Qeq_bool_iff in E3. lra. }
  cbn [nmul nadd isnan]. reflexivity.
Qed.

Lemma finite_parts l : map finite_part (map Fin l) = l.
Proof. rewrite map_map. cbn. apply map_id. Qed.

Lemma interpolate_lift search new_z t : bracketing search ->
  interpolate_n search new_z (lift_table t) =
  match interpolate search new_z t with Ok t' => Ok (lift_table t') | Raise e => Raise e end.
Proof.
  intros Hs. unfold interpolate_n, interpolate, lift_table. cbn [level friction]. rewrite !map_length, finite_parts.
  destruct (Nat.eqb_spec (length (qlevel t)) 0) as [E|E]; [reflexivity|].
  destruct (negb _); [reflexivity|]. f_equal. f_equal. cbn [qfriction]. rewrite map_map. apply map_ext. intros z.
  apply interp_lift; auto. intros X. rewrite X in E. auto.
Qed.

Lemma section_lift search s lo hi css : bracketing search ->
  interpolate_section_n search s (Fin lo, Fin hi) (map lift_tables css) =
  (map lift_tables (fst (interpolate_section search s (arange lo hi) css)), snd (interpolate_section search s (arange lo hi) css)).
Proof.
  intros Hs. induction css as [|t css IH]; [reflexivity|]. cbn [map interpolate_section_n interpolate_section fst snd].
  rewrite assoc_lift, IH. destruct (assoc s t) as [tab|]; cbn [option_map arange_n bind].
  - rewrite interpolate_lift by auto. destruct (interpolate search (arange lo hi) tab) as [tab'|]; [|reflexivity].
    destruct (interpolate_section search s (arange lo hi) css) as [r ok]. cbn [fst snd map]. rewrite assoc_set_lift. reflexivity.
  - destruct (interpolate_section search s (arange lo hi) css) as [r ok]. reflexivity.
Qed.

Lemma levels_are_lift s css : Forall2 (levels_are s) (map lift_tables css) css.
Proof.
  induction css as [|t css IH]; constructor; auto. unfold levels_are. rewrite assoc_lift. destruct (assoc s t); reflexivity.
Qed.

Lemma sections_lift search secs : bracketing search -> forall css,
  interpolate_sections_n search secs (map lift_tables css) =
  (map lift_tables (fst (interpolate_sections search secs css)), snd (interpolate_sections search secs css)).
Proof.
  intros Hs. induction secs as [|s secs IH]; intros css; [reflexivity|]. cbn [interpolate_sections_n interpolate_sections].
  rewrite (level_range_lift s _ css) by apply levels_are_lift.
  destruct (level_range s css) as [[lo hi]|]; [|reflexivity]. rewrite section_lift by auto.
  destruct (interpolate_section search s (arange lo hi) css) as [r ok]. cbn [fst snd]. destruct ok; [apply IH|reflexivity].
Qed.

(** Between two levels with an unknown or infinite friction: a missing value
    gives a missing value, one infinite value gives that value, two equal
    infinite values give it, and two opposite ones a missing value. *)
Theorem C95_unknown_friction :
  forall search z0 z1 f0 f1 x, bracketing search -> z0 < x -> x < z1 ->
    let v := np_interp_n search [z0; z1] [f0; f1] x in
    (f0 = NaN \/ f1 = NaN -> v = NaN) /\
    (forall q, f0 = Fin q -> f1 = PInf \/ f1 = NInf -> v = f1) /\
    (forall q, f1 = Fin q -> f0 = PInf \/ f0 = NInf -> v = f0) /\
    (f0 = PInf \/ f0 = NInf -> f1 = f0 -> v = f0) /\
    (f0 = PInf /\ f1 = NInf \/ f0 = NInf /\ f1 = PInf -> v = NaN).
Proof.
  intros search z0 z1 f0 f1 x Hs Hx0 Hx1. cbv zeta.
  assert (A : ~ x < z0) by lra. assert (B : ~ z1 < x) by lra.
  assert (X0 : nth 0 [z0; z1] 0 <= x) by (cbn; lra). assert (X1 : x <= nth (length [z0; z1] - 1) [z0; z1] 0) by (cbn; lra).
  destruct (Hs [z0; z1] x ltac:(discriminate) X0 X1) as (H1 & H2 & H3). cbv zeta in *.
  unfold np_interp_n. cbn [length Nat.sub nth] in *.
  destruct (Qltb z1 x) eqn:E1; [apply Qltb_true in E1; contradiction|].
  destruct (Qltb x z0) eqn:E2; [apply Qltb_true in E2; contradiction|].
  destruct (search [z0; z1] x) as [|[|j]]; cbn in H1, H2, H3; [|exfalso; lra|exfalso; lia].
  cbn [Nat.eqb nth]. destruct (Qeq_bool z0 x) eqn:E3; [apply Qeq_bool_iff in E3; lra|].
  assert (D : 0 < z1 - z0) by lra. assert (S : 0 < x - z0) by lra. assert (S' : x - z1 < 0) by lra.
  assert (D0 : Qltb (z1 - z0) 0 = false) by (apply Qltb_false; lra).
  assert (D1 : Qeq_bool (z1 - z0) 0 = false) by (apply Qeq_bool_false; lra).
  assert (T0 : Qeq_bool (x - z0) 0 = false) by (apply Qeq_bool_false; lra).
  assert (T1 : Qltb 0 (x - z0) = true) by (apply Qltb_true; lra).
  assert (T2 : Qeq_bool (x - z1) 0 = false) by (apply Qeq_bool_false; lra).
  assert (T3 : Qltb 0 (x - z1) = false) by (apply Qltb_false; lra).
  destruct f0 as [a| | |], f1 as [b| | |]; cbn [nsub nneg nadd ndiv]; rewrite ?D0, ?D1;
    cbn [nmul]; unfold inf_times; rewrite ?T0, ?T1, ?T2, ?T3; cbn;
    repeat split; intros; repeat match goal with
    | H : _ \/ _ |- _ => destruct H
    | H : _ /\ _ |- _ => destruct H
    end; try discriminate; reflexivity.
Qed.
Print Assumptions C95_unknown_friction.

(** For finite tables this is the interpolation of M_Friction.v, of which C20
    and C89 speak. *)
Theorem C95_finite_tables :
  forall search css, bracketing search ->
    interpolate_friction_n search (map lift_tables css) =
    (map lift_tables (fst (interpolate_friction search css)), snd (interpolate_friction search css)).
Proof.
  intros search css Hs. unfold interpolate_friction_n, interpolate_friction.
  replace (flat_map (map fst) (map lift_tables css)) with (flat_map (map fst) css).
  - apply sections_lift; auto.
  - induction css as [|t css IH]; [reflexivity|]. cbn. rewrite IH. f_equal. unfold lift_tables. rewrite map_map. reflexivity.
Qed.
Print Assumptions C95_finite_tables.

(** ** The friction that belongs to a level *)

(** Rising water: the table gives the friction of the own time steps, and lies on
    the line between two of them. *)
Theorem C95_rising_water :
  forall search t z, bracketing search -> good_table t -> strictly_increasing (qlevel t) ->
    let v := np_interp search (qlevel t) (qfriction t) z in
    let lev k := nth k (qlevel t) 0 in
    let val k := nth k (qfriction t) 0 in
    let last := (length (qlevel t) - 1)%nat in
    (z <= lev 0%nat -> v == val 0%nat) /\ (lev last <= z -> v == val last) /\
    (forall k, (k <= last)%nat -> z == lev k -> v == val k) /\
    (forall k, (k < last)%nat -> lev k <= z <= lev (S k) ->
       (v - val k) * (lev (S k) - lev k) == (val (S k) - val k) * (z - lev k)).
Proof.
  intros search t z Hs G Inc v lev val last. pose proof (interp_value search t z Hs G) as V. fold v in V.
  destruct G as [Hne L]. assert (Hl : (0 < length (qlevel t))%nat) by (destruct (qlevel t); [congruence|cbn; lia]).
  assert (M : forall i j, (i < j)%nat -> (j <= last)%nat -> lev i < lev j).
  { intros i j Hij Hj. unfold lev, last in *. apply (Inc i j); auto; apply nth_error_nth'; lia. }
  assert (Ge : forall k, (k <= last)%nat -> z == lev k -> v == val k).
  { intros k Hk Ez. unfold value_at in V. cbv zeta in V. fold last in V. fold (lev last) in V. fold (lev 0%nat) in V.
    destruct V as [[A B]|[[A B]|(k' & K1 & K2 & K3)]].
    - destruct (Nat.eq_dec k last) as [->|Nk]; [rewrite B; reflexivity|]. pose proof (M k last ltac:(lia) ltac:(lia)). lra.
    - destruct k as [|k]; [rewrite B; reflexivity|]. pose proof (M 0%nat (S k) ltac:(lia) ltac:(lia)). lra.
    - fold (lev k') (lev (S k')) (val k') (val (S k')) in *.
      destruct (Nat.lt_trichotomy k k') as [H|[H|H]].
      + pose proof (M k k' H ltac:(lia)). lra.
      + subst k'. assert (X : (v - val k) * (lev (S k) - lev k) == 0).
        { rewrite K3, Ez. ring. }
        apply Qmult_integral in X. pose proof (M k (S k) ltac:(lia) ltac:(lia)). destruct X; lra.
      + destruct (Nat.eq_dec k (S k')) as [->|Nk]; [lra|]. pose proof (M (S k') k ltac:(lia) ltac:(lia)). lra. }
  split; [|split; [|split; [exact Ge|]]].
  - intros Hz. destruct (Qlt_le_dec z (lev 0%nat)) as [H|H]; [|apply Ge; [lia|lra]].
    unfold value_at in V. cbv zeta in V. fold last in V. fold (lev last) (lev 0%nat) in V.
    destruct V as [[A B]|[[A B]|(k' & K1 & K2 & K3)]].
    + destruct (Nat.eq_dec last 0) as [E|E]; [rewrite E in A; lra|]. pose proof (M 0%nat last ltac:(lia) ltac:(lia)). lra.
    + rewrite B. reflexivity.
    + fold (lev k') in K2. destruct k' as [|k']; [lra|]. pose proof (M 0%nat (S k') ltac:(lia) ltac:(lia)). lra.
  - intros Hz. unfold value_at in V. cbv zeta in V. fold last in V. fold (lev last) (lev 0%nat) in V.
    destruct V as [[A B]|[[A B]|(k' & K1 & K2 & K3)]].
    + rewrite B. reflexivity.
    + destruct (Nat.eq_dec last 0) as [E|E]; [rewrite E in Hz; lra|]. pose proof (M 0%nat last ltac:(lia) ltac:(lia)). lra.
    + fold (lev (S k')) in K2. destruct (Nat.eq_dec (S k') last) as [E|E]; [rewrite E in K2; lra|].
      pose proof (M (S k') last ltac:(lia) ltac:(lia)). lra.
  - intros k Hk Hz. pose proof (M k (S k) ltac:(lia) ltac:(lia)) as W.
    destruct (Qeq_dec z (lev k)) as [E|E]; [rewrite (Ge k) by (auto; lia); rewrite E; ring|].
    destruct (Qeq_dec z (lev (S k))) as [E2|E2]; [rewrite (Ge (S k)) by (auto; lia); rewrite E2; ring|].
    unfold value_at in V. cbv zeta in V. fold last in V. fold (lev last) (lev 0%nat) in V.
    destruct V as [[A B]|[[A B]|(k' & K1 & K2 & K3)]].
    + exfalso. destruct (Nat.eq_dec (S k) last) as [E3|E3]; [rewrite <- E3 in A; lra|].
      pose proof (M (S k) last ltac:(lia) ltac:(lia)). lra.
    + exfalso. destruct k as [|k]; [lra|]. pose proof (M 0%nat (S k) ltac:(lia) ltac:(lia)). lra.
    + fold (lev k') (lev (S k')) (val k') (val (S k')) in *.
      destruct (Nat.lt_trichotomy k k') as [H|[H|H]].
      * exfalso. destruct (Nat.eq_dec (S k) k') as [<-|Nk]; [lra|]. pose proof (M (S k) k' ltac:(lia) ltac:(lia)). lra.
      * subst k'. exact K3.
      * exfalso. destruct (Nat.eq_dec (S k') k) as [<-|Nk]; [lra|]. pose proof (M (S k') k ltac:(lia) ltac:(lia)). lra.
Qed.
Print Assumptions C95_rising_water.

(** Whatever the course of the water level: from the level of the last time step
    upwards the table has the friction of the last time step. *)
Theorem C95_last_time_step_rules :
  forall search t z, bracketing search -> good_table t ->
    nth (length (qlevel t) - 1) (qlevel t) 0 < z ->
    np_interp search (qlevel t) (qfriction t) z = nth (length (qlevel t) - 1) (qfriction t) 0.
Proof.
  intros search t z Hs G H. unfold np_interp. cbv zeta.
  destruct (Qltb (nth (length (qlevel t) - 1) (qlevel t) 0) z) eqn:E; [reflexivity|]. qb. lra.
Qed.
Print Assumptions C95_last_time_step_rules.

(** ** The tables of generated cross-sections *)

(** Every table of a generated cross-section is on the same levels, and its
    friction is finite. *)
Lemma build_tables_entries weighing skip z d tabs : weighing = 0%Z -> well_formed d ->
  build_roughness_tables weighing skip z d = Ok tabs ->
  Forall (fun e => level (snd e) = z /\ exists fs, friction (snd e) = map Fin fs /\ length fs = length (@level num (snd e))) tabs.
Proof.
  intros -> W. unfold build_roughness_tables. generalize (np_unique (edge_section d)). intros secs.
  assert (G : forall tabs0, Forall (fun e => level (snd e) = z /\ exists fs, friction (snd e) = map Fin fs /\
      length fs = length (@level num (snd e))) tabs0 ->
    fold_res (fun tabs s => t <- build_table 0 skip z d s ;; Ok (assoc_set s t tabs)) secs tabs0 = Ok tabs ->
    Forall (fun e => level (snd e) = z /\ exists fs, friction (snd e) = map Fin fs /\ length fs = length (@level num (snd e))) tabs).
  { induction secs as [|s secs IH]; intros tabs0 F H; cbn [fold_res] in H; [injection H as <-; exact F|].
    destruct (build_table 0 skip z d s) as [t|] eqn:Et; cbn [bind] in H; [|discriminate H]. refine (IH _ _ H). clear IH H.
    assert (P : level t = z /\ exists fs, friction t = map Fin fs /\ length fs = length (level t)).
    { unfold build_table in Et. destruct (mask_index (section_is s d) (chezy d)) as [rows|] eqn:Em; cbn [bind] in Et; [|discriminate Et].
      change (Z.eqb 0 0) with true in Et. cbn [bind] in Et. unfold make_table in Et.
      destruct (Nat.eqb_spec (length z) (length (friction_simple (slice_from skip (seq 0 (nsteps d))) rows))) as [L|]; [|discriminate Et].
      injection Et as <-. cbn [level friction]. split; [reflexivity|].
      assert (Hr : rows = select (map (String.eqb s) (edge_section d)) (chezy d)).
      { unfold mask_index in Em. destruct (Nat.eqb _ _); [|discriminate Em]. injection Em as <-. reflexivity. }
      assert (X : forall steps, exists fs, friction_simple steps rows = map Fin fs).
      { induction steps as [|k steps [fs IH]]; [exists []; reflexivity|].
        destruct (simple_value (M_Friction.column k rows)) as (v & Ev & _).
        { unfold M_Friction.column. rewrite Hr. apply (section_column_ok d k s W). }
        exists (v :: fs). unfold friction_simple in *. cbn [map]. rewrite Ev, IH. reflexivity. }
      destruct (X (slice_from skip (seq 0 (nsteps d)))) as [fs Ef]. exists fs. split; [exact Ef|].
      rewrite L, Ef, map_length. reflexivity. }
    clear Et. induction F as [|[k v] tabs0 Hv F IH]; cbn; [constructor; [exact P|constructor]|].
    destruct (String.eqb s k); constructor; auto. }
  intros H. exact (G [] (Forall_nil _) H).
Qed.

Definition generated (st : settings) (minw tol : Q) (c : css) : Prop :=
  exists smooth mean correction clean name len centre nt s faces zc,
    generate_cross_section smooth mean correction clean st name (Fin len) centre nt s = Ok (Some c) /\
    well_formed (links_of nt s) /\ zc <> [] /\ valid_css st minw tol len s faces zc c.

Lemma generated_tables st minw tol c : st_weighing st = 0%Z -> generated st minw tol c ->
  exists t, s_tables c = lift_tables t /\ Forall (fun e => good_table (snd e)) t.
Proof.
  intros Hw (smooth & mean & correction & clean & name & len & centre & nt & s & faces & zc & G & W & Nz & V).
  assert (E : exists z, Forall (fun e => level (snd e) = z /\ exists fs, friction (snd e) = map Fin fs /\
      length fs = length (@level num (snd e))) (s_tables c)).
  { unfold generate_cross_section in G. destruct (Nat.ltb _ _); [discriminate G|].
    destruct (build_cross_section_geometry smooth mean correction st (Fin len) centre (cells_of s))
      as [[[[g [[crest total] flow]] [[z tw] fw]] [[z' tw'] fw']]|] eqn:Eg; cbn [bind] in G; [|discriminate G].
    destruct (build_roughness_tables (st_weighing st) (gp_skip (st_geometry st)) (g_z_roughness g) (links_of nt s))
      as [tabs|] eqn:Et; cbn [bind] in G; [|discriminate G].
    destruct (nsection_widths _ _ _ _ _) as [w|]; cbn [bind] in G; [|discriminate G].
    destruct (compute_floodplain_base _ _ _ _) as [b|]; cbn [bind] in G; [|discriminate G].
    injection G as <-. cbn [s_tables]. exists (g_z_roughness g). eapply build_tables_entries; eauto. }
  destruct E as (z & F).
  assert (L : forall n t, assoc n (s_tables c) = Some t -> level t = map Fin zc).
  { destruct V as (? & ? & ? & ? & ? & ? & ? & ? & ? & V). intros n t A. repeat (destruct V as [_ V]). apply (V n t A). }
  assert (Z : s_tables c = [] \/ z = map Fin zc).
  { destruct (s_tables c) as [|[n t] tabs]; [left; reflexivity|]. right. inversion F as [|? ? [A _] _]; subst.
    cbn [snd]. apply (L n t). cbn. rewrite String.eqb_refl. reflexivity. }
  destruct Z as [->| ->]; [exists []; split; [reflexivity|constructor]|].
  clear L V G. induction F as [|[n t] tabs [A (fs & B & C)] F (q & E & Gq)]; [exists []; split; [reflexivity|constructor]|].
  cbn [snd] in *. exists ((n, {| qlevel := zc; qfriction := fs |}) :: q). split.
  - cbn. f_equal; [|exact E]. f_equal. destruct t as [lv fr]. cbn in A, B. subst. reflexivity.
  - constructor; [|exact Gq]. cbn. split; [exact Nz|]. cbn. rewrite C, A, map_length. reflexivity.
Qed.

(** The cross-sections that the exporter sees after a run are those of C89. *)
Theorem C95_generated_run :
  forall search st minw tol (l : list (place * css)), bracketing search -> st_weighing st = 0%Z ->
    Forall (fun e => generated st minw tol (snd e)) l ->
    exists l', map fst l' = map (fun e => as_exported (fst e) (snd e)) l /\
      map (fun e => lift_tables (snd e)) l' = map (fun e => s_tables (snd e)) l /\
      all_tables good_table (map snd l') /\
      finalised_run search l = finalised search l' /\
      snd (interpolate_friction_n search (map (fun e => s_tables (snd e)) l)) = true.
Proof.
  intros search st minw tol l Hs Hw F.
  assert (E : exists ts, map lift_tables ts = map (fun e => s_tables (snd e)) l /\
      Forall (fun t => Forall (fun e => good_table (snd e)) t) ts).
  { induction F as [|[p c] l G F (ts & E & Gt)]; [exists []; split; [reflexivity|constructor]|].
    destruct (generated_tables st minw tol c Hw G) as (t & Et & Gt'). exists (t :: ts). cbn. rewrite E, <- Et. auto. }
  destruct E as (ts & E & Gt).
  assert (Len : length ts = length l) by (rewrite <- (map_length lift_tables ts), E, map_length; reflexivity).
  exists (combine (map (fun e => as_exported (fst e) (snd e)) l) ts).
  assert (Lc : length (map (fun e => as_exported (fst e) (snd e)) l) = length ts) by (rewrite map_length; auto).
  assert (S1 : forall A B (a : list A) (b : list B), length a = length b -> map fst (combine a b) = a).
  { clear. intros A B a. induction a as [|x a IH]; intros [|y b] L; try discriminate; cbn; auto. f_equal. apply IH. cbn in L. lia. }
  assert (S2 : forall A B (a : list A) (b : list B), length a = length b -> map snd (combine a b) = b).
  { clear. intros A B a. induction a as [|x a IH]; intros [|y b] L; try discriminate; cbn; auto. f_equal. apply IH. cbn in L. lia. }
  assert (Good : all_tables good_table ts).
  { intros t s tab It Ha. rewrite Forall_forall in Gt. specialize (Gt t It). clear - Gt Ha.
    induction Gt as [|[k v] t G Gt IH]; [discriminate Ha|]. cbn in Ha. destruct (String.eqb s k); [injection Ha as <-; exact G|auto]. }
  split; [apply S1; exact Lc|]. split; [rewrite <- map_map, S2, E; auto|]. split; [rewrite S2; auto|]. split.
  - unfold finalised_run, finalised. rewrite <- E, C95_finite_tables, S1, S2 by auto. cbn [fst]. clear.
    generalize (map (fun e : place * css => as_exported (fst e) (snd e)) l). intros xs0.
    generalize (fst (interpolate_friction search ts)). intros ts'. revert ts'.
    induction xs0 as [|x xs0 IH]; intros [|t ts']; try reflexivity. cbn [map map2]. f_equal; [|apply IH].
    unfold with_ntables, with_tables. f_equal. unfold lift_tables. rewrite map_map. reflexivity.
  - rewrite <- E, C95_finite_tables by auto. cbn [snd]. unfold interpolate_friction.
    destruct (interpolate_sections_ok search ts (np_unique (flat_map (map fst) ts)) (np_unique_NoDup _) ts) as (css' & Hc & _).
    + intros s _. apply T_Friction.same_refl.
    + intros s t tab _ It Ha. eapply Good; eauto.
    + rewrite Hc. reflexivity.
Qed.
Print Assumptions C95_generated_run.

(** ** Levels that are no numbers *)

Definition finite (x : num) : Prop := exists q, x = Fin q.
Definition finiteb (x : num) : bool := match x with Fin _ => true | _ => false end.
Definition shaped (tab : table num) : Prop := level tab <> [] /\ length (friction tab) = length (level tab).
Definition all_shaped (css : list ntables) : Prop := forall t s tab, In t css -> assoc s t = Some tab -> shaped tab.

(** All levels of a section are finite, in all cross-sections. *)
Definition finite_section (s : string) (css : list ntables) : Prop :=
  forall t tab x, In t css -> assoc s t = Some tab -> In x (level tab) -> finite x.
Definition finite_sectionb (s : string) (css : list ntables) : bool :=
  forallb (fun t => match assoc s t with Some tab => forallb finiteb (level tab) | None => true end) css.

(** The tables of a section after the interpolation: on the common levels. *)
Definition interpolated (search : list Q -> Q -> nat) (s : string) (css css' : list ntables) : Prop :=
  exists lo hi, level_range_n s css = Ok (Fin lo, Fin hi) /\
  (forall t tab q, In t css -> assoc s t = Some tab -> In (Fin q) (level tab) -> lo <= q <= hi) /\
  Forall2 (fun t t' => assoc s t' = option_map (fun tab =>
    mk_table (map Fin (arange lo hi))
      (map (np_interp_n search (map finite_part (level tab)) (friction tab)) (arange lo hi))) (assoc s t)) css css'.
Definition untouched (s : string) (css css' : list ntables) : Prop :=
  Forall2 (fun t t' => assoc s t' = assoc s t) css css'.

Lemma finiteb_iff x : finiteb x = true <-> finite x.
Proof. unfold finite. destruct x; cbn; split; intros H; try discriminate H; eauto; destruct H; discriminate. Qed.

Lemma finite_sectionb_iff s css : finite_sectionb s css = true <-> finite_section s css.
Proof.
  unfold finite_sectionb, finite_section. rewrite forallb_forall. split.
  - intros H t tab x It Ha Ix. specialize (H t It). rewrite Ha in H. rewrite forallb_forall in H. apply finiteb_iff. auto.
  - intros H t It. destruct (assoc s t) as [tab|] eqn:Ha; [|reflexivity]. apply forallb_forall. intros x Ix.
    apply finiteb_iff. eapply H; eauto.
Qed.

Lemma untouched_refl s css : untouched s css css.
Proof. induction css; constructor; auto. Qed.

Lemma untouched_in s css css' t' tab : untouched s css css' -> In t' css' -> assoc s t' = Some tab ->
  exists t, In t css /\ assoc s t = Some tab.
Proof.
  induction 1 as [|x y l m H F IH]; [intros []|]. intros [<-|I] A; [exists x; split; [left; auto|congruence]|].
  destruct (IH I A) as (t & J & B). exists t. split; [right; auto|auto].
Qed.

Lemma untouched_in' s css css' t tab : untouched s css css' -> In t css -> assoc s t = Some tab ->
  exists t', In t' css' /\ assoc s t' = Some tab.
Proof.
  induction 1 as [|x y l m H F IH]; [intros []|]. intros [<-|I] A; [exists y; split; [left; auto|congruence]|].
  destruct (IH I A) as (t' & J & B). exists t'. split; [right; auto|auto].
Qed.

Lemma untouched_range s css css' : untouched s css css' -> level_range_n s css' = level_range_n s css.
Proof.
  unfold level_range_n. generalize (Fin big, Fin (- big)). intros mm F. revert mm.
  induction F as [|t t' css css' H F IH]; intros mm; [reflexivity|]. cbn [fold_res]. rewrite H.
  destruct (assoc s t) as [tab|]; [|apply IH]. destruct (np_min_n (level tab)); [|reflexivity].
  destruct (np_max_n (level tab)); [|reflexivity]. cbn [bind]. apply IH.
Qed.

(** The section alone, as numbers. *)
Definition only (s : string) (t : ntables) : tables :=
  match assoc s t with Some tab => [(s, {| qlevel := map finite_part (level tab); qfriction := [] |})] | None => [] end.

Lemma finite_back l : (forall x, In x l -> finite x) -> l = map Fin (map finite_part l).
Proof.
  induction l as [|x l IH]; intros H; [reflexivity|]. cbn. rewrite <- IH by (intros; apply H; right; auto). f_equal.
  destruct (H x (or_introl eq_refl)) as [q ->]. reflexivity.
Qed.

Lemma only_levels s css : finite_section s css -> Forall2 (levels_are s) css (map (only s) css).
Proof.
  intros H. induction css as [|t css IH]; constructor.
  - unfold levels_are, only. destruct (assoc s t) as [tab|] eqn:A; [|reflexivity]. cbn. rewrite String.eqb_refl. cbn.
    f_equal. apply finite_back. intros x I. apply (H t tab); auto. left. auto.
  - apply IH. intros t' tab x I. apply H. right. auto.
Qed.

(** A range is finite exactly if the levels are. *)
Lemma finite_range s css : all_shaped css -> finite_section s css ->
  exists lo hi, level_range_n s css = Ok (Fin lo, Fin hi) /\
    forall t tab q, In t css -> assoc s t = Some tab -> In (Fin q) (level tab) -> lo <= q <= hi.
Proof.
  intros Sh H. rewrite (level_range_lift s css (map (only s) css)) by (apply only_levels; auto).
  destruct (range_spec s (map (only s) css)) with (l0 := big) (h0 := - big) as (lo & hi & Hr & R).
  { intros t tab It Ha. apply in_map_iff in It. destruct It as (t0 & <- & It). unfold only in Ha.
    destruct (assoc s t0) as [tab0|] eqn:A; [|discriminate Ha]. cbn in Ha. rewrite String.eqb_refl in Ha. injection Ha as <-.
    cbn. destruct (Sh t0 s tab0 It A) as [N _]. destruct (level tab0); [congruence|discriminate]. }
  rewrite level_range_fold, Hr. exists lo, hi. split; [reflexivity|].
  intros t tab q It Ha Iq. destruct R as (_ & _ & _ & _ & R). apply R. exists (only s t), {| qlevel := map finite_part (level tab); qfriction := [] |}.
  split; [apply in_map; auto|]. unfold only. rewrite Ha. cbn. rewrite String.eqb_refl. split; [reflexivity|].
  apply in_map_iff. exists (Fin q). auto.
Qed.

Definition low (x : num) : Prop := x = NaN \/ x = NInf.
Definition high (x : num) : Prop := x = NaN \/ x = PInf.
Lemma low_min a b : low a \/ low b -> low (npmin a b).
Proof. unfold low, npmin. destruct a, b; cbn; intuition (try discriminate); auto. Qed.
Lemma high_max a b : high a \/ high b -> high (npmax a b).
Proof. unfold high, npmax. destruct a, b; cbn; intuition (try discriminate); auto. Qed.

Lemma min_low l : forall m, (exists x, In x l /\ low x) -> np_min_n l = Ok m -> low m.
Proof.
  destruct l as [|x l]; [discriminate|]. intros m H [= <-].
  assert (G : forall l x, low x \/ (exists y, In y l /\ low y) -> low (fold_left npmin l x)).
  { clear. induction l as [|y l IH]; intros x [H|(z & I & H)]; cbn; auto; [destruct I|apply IH; left; apply low_min; auto|].
    apply IH. destruct I as [<-|I]; [left; apply low_min; auto|right; eauto]. }
  apply G. destruct H as (y & [<-|I] & H); eauto.
Qed.
Lemma max_high l : forall m, (exists x, In x l /\ high x) -> np_max_n l = Ok m -> high m.
Proof.
  destruct l as [|x l]; [discriminate|]. intros m H [= <-].
  assert (G : forall l x, high x \/ (exists y, In y l /\ high y) -> high (fold_left npmax l x)).
  { clear. induction l as [|y l IH]; intros x [H|(z & I & H)]; cbn; auto; [destruct I|apply IH; left; apply high_max; auto|].
    apply IH. destruct I as [<-|I]; [left; apply high_max; auto|right; eauto]. }
  apply G. destruct H as (y & [<-|I] & H); eauto.
Qed.

Lemma unknown_range s css : all_shaped css -> finite_sectionb s css = false ->
  exists lo hi, level_range_n s css = Ok (lo, hi) /\ arange_n lo hi = Raise ValueError.
Proof.
  intros Sh H.
  assert (G : forall css, all_shaped css -> forall lo0 hi0, low lo0 \/ high hi0 \/ finite_sectionb s css = false ->
    exists lo hi, fold_res (fun mm t => match assoc s t with
      | None => Ok mm
      | Some tab => lo <- np_min_n (level tab) ;; hi <- np_max_n (level tab) ;; Ok (npmin (fst mm) lo, npmax (snd mm) hi)
      end) css (lo0, hi0) = Ok (lo, hi) /\ (low lo \/ high hi)).
  { clear css Sh H. induction css as [|t css IH]; intros Sh lo0 hi0 H; cbn [fold_res].
    - exists lo0, hi0. split; [reflexivity|]. destruct H as [H|[H|H]]; auto. discriminate H.
    - assert (Sh' : all_shaped css) by (intros t' s' tab' I; apply Sh; right; auto).
      destruct (assoc s t) as [tab|] eqn:A.
      + destruct (Sh t s tab (or_introl eq_refl) A) as [N _].
        assert (Elo : exists m, np_min_n (level tab) = Ok m) by (destruct (level tab); [congruence|eexists; reflexivity]).
        assert (Ehi : exists m, np_max_n (level tab) = Ok m) by (destruct (level tab); [congruence|eexists; reflexivity]).
        destruct Elo as (lo & Elo), Ehi as (hi & Ehi). rewrite Elo, Ehi. cbn [bind fst snd]. apply IH; auto.
        destruct H as [H|[H|H]]; [left; apply low_min; auto|right; left; apply high_max; auto|].
        cbn [finite_sectionb forallb] in H. rewrite A in H. apply andb_false_iff in H. destruct H as [H|H]; [|auto].
        assert (X : exists x, In x (level tab) /\ finiteb x = false).
        { clear - H. induction (level tab) as [|x l IH]; [discriminate H|]. cbn in H. apply andb_false_iff in H.
          destruct H as [H|H]; [exists x; split; [left; auto|auto]|]. destruct (IH H) as (y & I & F). exists y. split; [right; auto|auto]. }
        destruct X as (x & Ix & Fx). destruct x; try discriminate Fx.
        * left. apply low_min. right. eapply min_low; eauto. exists NaN. split; [auto|left; auto].
        * right. left. apply high_max. right. eapply max_high; eauto. exists PInf. split; [auto|right; auto].
        * left. apply low_min. right. eapply min_low; eauto. exists NInf. split; [auto|right; auto].
      + apply IH; auto. destruct H as [H|[H|H]]; auto. cbn [finite_sectionb forallb] in H. rewrite A in H. auto. }
  destruct (G css Sh (Fin big) (Fin (- big)) (or_intror (or_intror H))) as (lo & hi & E & B). exists lo, hi.
  split; [exact E|]. destruct B as [[-> | ->]|[-> | ->]]; try reflexivity; destruct lo; reflexivity.
Qed.

Definition renew_n (search : list Q -> Q -> nat) (new_z : list Q) (tab : table num) : table num :=
  mk_table (map Fin new_z) (map (np_interp_n search (map finite_part (level tab)) (friction tab)) new_z).
Definition renew_in_n search s new_z (t : ntables) : ntables :=
  match assoc s t with None => t | Some tab => assoc_set s (renew_n search new_z tab) t end.

Lemma section_finite search s lo hi css : (forall t tab, In t css -> assoc s t = Some tab -> shaped tab) ->
  interpolate_section_n search s (Fin lo, Fin hi) css = (map (renew_in_n search s (arange lo hi)) css, true).
Proof.
  induction css as [|t css IH]; intros Sh; [reflexivity|]. cbn [interpolate_section_n map].
  rewrite IH by (intros t' tab' I; apply Sh; right; auto).
  assert (E : renew_in_n search s (arange lo hi) t =
    match assoc s t with None => t | Some tab => assoc_set s (renew_n search (arange lo hi) tab) t end) by reflexivity.
  rewrite E. destruct (assoc s t) as [tab|] eqn:A; [|reflexivity]. cbn [fst snd arange_n bind]. unfold interpolate_n.
  destruct (Sh t tab (or_introl eq_refl) A) as [N L].
  destruct (Nat.eqb_spec (length (level tab)) 0) as [E0|_]; [destruct (level tab); [congruence|discriminate E0]|].
  rewrite L, Nat.eqb_refl. reflexivity.
Qed.

Lemma section_unknown search s lo hi css : arange_n lo hi = Raise ValueError ->
  (exists t, In t css /\ assoc s t <> None) -> interpolate_section_n search s (lo, hi) css = (css, false).
Proof.
  intros E. induction css as [|t css IH]; intros (t' & I & N); [destruct I|]. cbn [interpolate_section_n].
  destruct (assoc s t) as [tab|] eqn:A; [cbn [fst snd]; rewrite E; reflexivity|].
  destruct I as [<-|I]; [congruence|]. rewrite IH by eauto. reflexivity.
Qed.

Lemma unknown_has_table s css : finite_sectionb s css = false -> exists t, In t css /\ assoc s t <> None.
Proof.
  induction css as [|t css IH]; [discriminate|]. cbn [finite_sectionb forallb]. intros H. destruct (assoc s t) eqn:A.
  - exists t. split; [left; auto|congruence].
  - destruct (IH H) as (t' & I & N). exists t'. split; [right; auto|auto].
Qed.

Lemma untouched_finite s css css' : untouched s css css' -> finite_sectionb s css' = finite_sectionb s css.
Proof.
  induction 1 as [|t t' css css' H F IH]; [reflexivity|]. cbn [finite_sectionb forallb]. rewrite H. f_equal. exact IH.
Qed.

Lemma untouched_trans s a b c : untouched s a b -> untouched s b c -> untouched s a c.
Proof.
  intros F. revert c. induction F as [|x y l m H F IH]; intros c G; inversion G as [|? ? ? ? E G']; subst; constructor; [congruence|apply IH; exact G'].
Qed.

Lemma untouched_renew search s s' new_z css : s <> s' -> untouched s' css (map (renew_in_n search s new_z) css).
Proof.
  intros N. induction css as [|t css IH]; constructor; auto. unfold renew_in_n. destruct (assoc s t); auto.
  apply assoc_set_other. auto.
Qed.

Lemma sections_in_order search css0 secs : all_shaped css0 -> str_sorted secs -> forall css,
  (forall s, In s secs -> untouched s css0 css) ->
  exists css' ok, interpolate_sections_n search secs css = (css', ok) /\
    (ok = true <-> forall s, In s secs -> finite_section s css0) /\
    (forall s, In s secs -> (forall s', In s' secs -> String.compare s' s <> Gt -> finite_section s' css0) ->
       interpolated search s css0 css') /\
    (forall s, In s secs -> (exists s', In s' secs /\ String.compare s' s <> Gt /\ ~ finite_section s' css0) ->
       untouched s css0 css') /\
    (forall s, ~ In s secs -> untouched s css css').
Proof.
  intros Sh0 St. induction St as [|a secs St IH Ha]; intros css U.
  - exists css, true. split; [reflexivity|]. split; [split; [intros _ s []|auto]|]. split; [intros s []|]. split; [intros s []|].
    intros s _. apply untouched_refl.
  - cbn [interpolate_sections_n]. pose proof (U a (or_introl eq_refl)) as Ua. rewrite (untouched_range _ _ _ Ua).
    rewrite Forall_forall in Ha.
    assert (Na : ~ In a secs) by (intros I; apply Ha in I; exact (compare_irrefl _ I)).
    assert (Self : forall x, String.compare x x <> Gt).
    { intros x X. pose proof (String.compare_antisym x x) as Y. rewrite X in Y. discriminate Y. }
    destruct (finite_sectionb a css0) eqn:Fb.
    + pose proof (proj1 (finite_sectionb_iff _ _) Fb) as Fa.
      destruct (finite_range a css0 Sh0 Fa) as (lo & hi & Er & Rg). rewrite Er.
      assert (Es : interpolate_section_n search a (Fin lo, Fin hi) css = (map (renew_in_n search a (arange lo hi)) css, true)).
      { apply section_finite. intros t tab I A. destruct (untouched_in _ _ _ _ _ Ua I A) as (t0 & I0 & A0). eapply Sh0; eauto. }
      rewrite Es. destruct (IH (map (renew_in_n search a (arange lo hi)) css)) as (css' & ok & E & Ok & D & N & O).
      { intros s I. eapply untouched_trans; [apply U; right; auto|]. apply untouched_renew. intros ->. auto. }
      exists css', ok. split; [exact E|]. split; [|split; [|split]].
      * rewrite Ok. split; [intros H s [<-|I]; auto|intros H s I; apply H; right; auto].
      * intros s [<-|I] H.
        -- exists lo, hi. split; [exact Er|]. split; [exact Rg|]. specialize (O a Na). clear - Ua O.
           assert (G : forall c c', untouched a css0 c -> untouched a (map (renew_in_n search a (arange lo hi)) c) c' ->
             Forall2 (fun t t' => assoc a t' = option_map (renew_n search (arange lo hi)) (assoc a t)) css0 c').
           { clear. intros c c' F. revert c'. induction F as [|x y l m H F IH]; intros c' G; inversion G as [|? ? ? ? H2 G2]; subst; constructor; auto.
             rewrite H2. unfold renew_in_n. rewrite H. destruct (assoc a x) as [tab|] eqn:A; cbn; [apply assoc_set_same|]. rewrite H. auto. }
           exact (G css css' Ua O).
        -- apply D; auto. intros s' I' C. apply H; [right; auto|auto].
      * intros s [<-|I] (s' & I' & C & B).
        -- destruct I' as [<-|I']; [contradiction|]. exfalso. apply Ha in I'. rewrite String.compare_antisym, I' in C. apply C. reflexivity.
        -- destruct I' as [<-|I']; [contradiction|]. apply N; eauto.
      * intros s Ns. cbn in Ns. eapply untouched_trans; [|apply O; tauto]. apply untouched_renew. tauto.
    + destruct (unknown_range a css0 Sh0 Fb) as (lo & hi & Er & Ar). rewrite Er.
      rewrite section_unknown; auto.
      2:{ rewrite <- (untouched_finite _ _ _ Ua) in Fb. apply unknown_has_table; auto. }
      assert (NF : ~ finite_section a css0) by (intros X; apply finite_sectionb_iff in X; congruence).
      exists css, false. split; [reflexivity|]. split; [|split; [|split]].
      * split; [discriminate|]. intros H. exfalso. apply NF, H. left. auto.
      * intros s I H. exfalso. apply NF, (H a); [left; auto|]. destruct I as [<-|I]; [auto|].
        apply Ha in I. rewrite I. discriminate.
      * intros s I _. apply U. auto.
      * intros s _. apply untouched_refl.
Qed.

Lemma sections_present (css : list ntables) s : (exists t, In t css /\ assoc s t <> None) <-> In s (np_unique (flat_map (map fst) css)).
Proof.
  rewrite np_unique_In, in_flat_map. split; intros (t & I & H); exists t; (split; [exact I|]).
  - clear I. induction t as [|[k v] t IH]; [cbn in H; congruence|]. cbn in H |- *. destruct (String.eqb_spec s k); auto.
  - clear I. induction t as [|[k v] t IH]; [destruct H|]. cbn in H |- *. destruct (String.eqb_spec s k); [discriminate|]. 
    destruct H as [H|H]; [congruence|auto].
Qed.

(** The interpolation fails exactly if a level of some cross-section is no
    number.  The sections before the first such section in the alphabet are
    interpolated; that section and all later ones keep their tables, in all
    cross-sections. *)
Theorem C95_unknown_levels :
  forall search css, all_shaped css ->
    let r := interpolate_friction_n search css in
    (snd r = true <-> forall s, finite_section s css) /\
    forall s, (exists t, In t css /\ assoc s t <> None) ->
      ((forall s', String.compare s' s <> Gt -> finite_section s' css) -> interpolated search s css (fst r)) /\
      ((exists s', String.compare s' s <> Gt /\ ~ finite_section s' css) -> untouched s css (fst r)).
Proof.
  intros search css Sh. unfold interpolate_friction_n.
  destruct (sections_in_order search css (np_unique (flat_map (map fst) css)) Sh (np_unique_sorted _) css)
    as (css' & ok & E & Ok & D & N & _); [intros; apply untouched_refl|].
  rewrite E. cbn [fst snd].
  assert (P : forall s, ~ finite_section s css -> In s (np_unique (flat_map (map fst) css))).
  { intros s H. apply sections_present. apply unknown_has_table. apply not_true_iff_false. rewrite finite_sectionb_iff. exact H. }
  split.
  - rewrite Ok. split; intros H s; [|intros _; apply H].
    destruct (finite_sectionb s css) eqn:Fb; [apply finite_sectionb_iff; auto|].
    assert (X : ~ finite_section s css) by (rewrite <- finite_sectionb_iff; congruence). exfalso. apply X, H, P, X.
  - intros s I. apply sections_present in I. split; intros H; [apply D; auto|]. apply N; auto.
    destruct H as (s' & C & X). exists s'. auto.
Qed.
Print Assumptions C95_unknown_levels.

(** ** Refutations *)

(** Ten faces in which the water has the levels [levels]; the first face, at the
    centre, is dry at all times if [dry]. *)
Definition dry_face (n : nat) : face :=
  mkFace 20 0 (repeat 0 n) (repeat (Fin (-999)) n) (repeat 0 n) (M_Geometry.LInt 1).
Definition wet_face (levels : list Q) (i : nat) : face :=
  mkFace 20 (inject_Z (Z.of_nat i) / 10) (map (fun z => z - inject_Z (Z.of_nat i) / 10) levels)
    (map Fin levels) (map (fun _ => 1) levels) (M_Geometry.LInt (if Nat.ltb i 6 then 1 else 2)).
Definition faces_with (dry : bool) (levels : list Q) : list face :=
  (if dry then dry_face (length levels) else wet_face levels 0) :: map (wet_face levels) (seq 1 9).
Definition selection_with (dry : bool) (levels chezy_main : list Q) : selection :=
  let faces := faces_with dry levels in
  mk_selection (repeat (Fin 0) 10) (repeat (Fin 0) 10) (map (fun f => Fin (f_area f)) faces)
    (map (fun f => Fin (f_bed f)) faces) (map (fun f => map Fin (f_depth f)) faces)
    (map f_level faces) (map (fun f => map Fin (f_vel f)) faces) (map f_section faces)
    [map Fin chezy_main] [] (repeat false 10) None [Fin 0] [Fin 0] [T "main"].
Definition settings_20 : settings :=
  mk_settings (mkParams 0 1 1 (Fin (1 # 100)) (Fin (3 # 100)) false) (Fin (1 # 2)) 20 false (Fin (1 # 2)) 0.
Definition generate (name : text) (dry : bool) (levels chezy_main : list Q) : res (option css) :=
  generate_cross_section (fun x => x) (fun _ _ => Fin 0) (fun _ => Raise ValueError) (fun x => x)
    settings_20 name (Fin 10) 0 3 (selection_with dry levels chezy_main).

(** The value [v] at the level [z] lies on a line between two successive time
    steps of the table. *)
Definition on_some_line (levels values : list Q) (z v : Q) : Prop :=
  exists k, (S k < length levels)%nat /\
    (v - nth k values 0) * (nth (S k) levels 0 - nth k levels 0) ==
    (nth (S k) values 0 - nth k values 0) * (z - nth k levels 0).

(** The water rises from 1 to 3 m and falls to 2 m; the friction is 38 + 2 z at
    all time steps.  The table of the run has the friction of the last time step
    at all levels above 2 m. *)
Theorem C95_falling_flood_refuted :
  exists c, generate (T "waal_1000.0") false [1; 3; 2] [40; 44; 42] = Ok (Some c) /\
    s_tables c = [("main"%string, mk_table (map Fin [1; 3; 2]) (map Fin [40; 44; 42]))] /\
    exists levels values,
      interpolate_friction_n linear_search [s_tables c] =
        ([[("main"%string, mk_table (map Fin levels) (map Fin values))]], true) /\
      length levels = 20%nat /\ length values = 20%nat /\
      (forall k, (k <= 10)%nat -> nth k values 0 == 38 + 2 * nth k levels 0) /\
      (forall k, (11 <= k < 20)%nat -> 2 < nth k levels 0 /\ nth k values 0 == 42 /\
         ~ on_some_line [1; 3; 2] [40; 44; 42] (nth k levels 0) (nth k values 0)).
Proof.
  eexists. split; [vm_compute; reflexivity|]. split; [reflexivity|].
  eexists (arange 1 3), (map (np_interp linear_search [1; 3; 2] [40; 44; 42]) (arange 1 3)). split; [vm_compute; reflexivity|].
  split; [vm_compute; reflexivity|]. split; [vm_compute; reflexivity|]. split.
  - intros k Hk. do 11 (destruct k as [|k]; [vm_compute; reflexivity|]). lia.
  - intros k Hk. do 11 (destruct k as [|k]; [lia|]).
    do 9 (destruct k as [|k]; [split; [vm_compute; reflexivity|]; split; [vm_compute; reflexivity|];
      intros (j & Hj & E); do 2 (destruct j as [|j]; [vm_compute in E; discriminate E|]); cbn in Hj; lia|]). lia.
Qed.
Print Assumptions C95_falling_flood_refuted.

(** A cross-section of which the face at the centre is dry at all times is
    generated, with levels that are no numbers, although there is moving water in
    its control volume. *)
Theorem C80_dry_centre_refuted :
  exists c, generate (T "waal_3000.0") true [1; 2; 3] [40; 41; 42] = Ok (Some c) /\
    s_z c = repeat NaN 11 /\ Forall (fun w => exists q, w = Fin q /\ 0 < q) (s_tw c) /\
    s_tables c = [("main"%string, mk_table (repeat NaN 3) (map Fin [40; 41; 42]))].
Proof.
  eexists. split; [vm_compute; reflexivity|]. split; [reflexivity|]. split; [|reflexivity].
  cbn [s_tw]. repeat (constructor; [eexists; split; [reflexivity|vm_compute; reflexivity]|]). constructor.
Qed.
Print Assumptions C80_dry_centre_refuted.

(** With a maximum of six points in a profile such a cross-section stops the
    run: the areas of its triangles are no numbers, no row is above the threshold,
    and the widths of the sections ask for the last of no rows. *)
Definition settings_points (n : Z) : settings :=
  mk_settings (st_geometry settings_20) (st_minwidth settings_20) n (st_correction settings_20) (st_base settings_20) (st_weighing settings_20).
Theorem C80_dry_centre_few_points_refuted :
  let gen n := generate_cross_section (fun x => x) (fun _ _ => Fin 0) (fun _ => Raise ValueError) (fun x => x)
    (settings_points n) (T "waal_3000.0") (Fin 10) 0 3 (selection_with true [1; 2; 3] [40; 41; 42]) in
  gen 6%Z = Raise IndexError /\ gen 20%Z = generate (T "waal_3000.0") true [1; 2; 3] [40; 41; 42].
Proof. split; [vm_compute; reflexivity|reflexivity]. Qed.
Print Assumptions C80_dry_centre_few_points_refuted.

(** One such cross-section in the run leaves the tables of all others as they
    are.  The file of a section has the levels of the first cross-section on a
    branch, so that another cross-section is read with levels that are not its
    own: here the friction at the levels 11, 12 and 13 m is found at 1, 2 and 3 m. *)
Definition three_places : list place :=
  [mk_place (T "waal") (Fin 1000) NaN (x_volumes example_low); mk_place (T "waal") (Fin 2000) NaN (x_volumes example_low);
   mk_place (T "lek") (Fin 3000) NaN (x_volumes example_low)].
Definition read_back (l : list (place * css)) (name : text) : option (list Q * list Q) :=
  match get_roughness_info read_number (fun x => x)
          (roughness_file (show_num 3) (show_num 3) (finalised_run linear_search l) (T "Main")) name with
  | Ok (Some lv, Some vs) => Some (map (fun x => Qred (finite_part x)) lv, map (fun x => Qred (finite_part x)) vs)
  | _ => None
  end.
Theorem C95_one_dry_centre_spoils_all_refuted :
  exists a b c,
    generate (T "waal_1000.0") false [1; 2; 3] [40; 41; 42] = Ok (Some a) /\
    generate (T "waal_2000.0") false [11; 12; 13] [50; 51; 52] = Ok (Some b) /\
    generate (T "lek_3000.0") true [1; 2; 3] [40; 41; 42] = Ok (Some c) /\
    (* without the third cross-section *)
    match read_back (combine three_places [a; b]) (T "waal_2000.0") with
    | Some (lv, vs) => length lv = 120%nat /\ nth 0 lv 0 = 1 /\ nth 100 lv 0 = 11 /\ nth 110 lv 0 = 12 /\
        nth 0 vs 0 = 50 /\ nth 100 vs 0 = 50 /\ nth 110 vs 0 = 51
    | None => False
    end /\
    (* with the third cross-section, on another branch *)
    snd (interpolate_friction_n linear_search (map s_tables [a; b; c])) = false /\
    fst (interpolate_friction_n linear_search (map s_tables [a; b; c])) = map s_tables [a; b; c] /\
    read_back (combine three_places [a; b; c]) (T "waal_2000.0") = Some ([1; 2; 3], [50; 51; 52]).
Proof.
  do 3 eexists. do 3 (split; [vm_compute; reflexivity|]). split; [vm_compute; repeat split; reflexivity|].
  split; [vm_compute; reflexivity|]. split; [vm_compute; reflexivity|]. vm_compute. reflexivity.
Qed.
Print Assumptions C95_one_dry_centre_spoils_all_refuted.
