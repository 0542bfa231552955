(** Theorems for C104: the cross-sections that are computed besides a
    cross-section do not matter. *)
From Coq Require Import String List Ascii ZArith QArith Qround Bool Lia Lqa.
From Verif Require Import PyBase Num Spec L_Num L_List Text L_Text Fixed M_Ini M_Log M_Run T_Run T_Generate M_Friction T_Friction M_Import M_Network M_Export L_Export
  T_Definitions T_Sobek T_Roughness M_Geometry T_Geometry
  M_Sections M_Cli M_Data M_Pipeline T_Pipeline M_Chain T_RoughChain M_Levels T_Levels Spec_Same L_Same.
Import ListNotations.
Local Open Scope Q_scope.

(** ** The selected locations *)

Lemma map_res_in {A B} (f : A -> res B) l : forall m, map_res f l = Ok m -> forall b, In b m -> exists a, In a l /\ f a = Ok b.
Proof.
  induction l as [|a l IH]; cbn [map_res]; intros m E b I; [injection E as <-; destruct I|].
  destruct (f a) as [c|] eqn:Ea; cbn [bind] in E; [|discriminate E].
  destruct (map_res f l) as [m'|]; cbn [bind] in E; [|discriminate E]. injection E as <-.
  destruct I as [<-|I]; [exists a; split; [left; reflexivity|exact Ea]|].
  destruct (IH m' eq_refl b I) as (a' & I' & E'). exists a'. split; [right; exact I'|exact E'].
Qed.

Lemma selected_in {A} ks (l s : list A) : selected ks l = Ok s -> incl s l.
Proof.
  intros E a I. unfold selected in E. destruct (map_res_in _ _ _ E a I) as (k & _ & Ek). unfold py_index in Ek. cbv zeta in Ek.
  match type of Ek with context [if ?b then Raise IndexError else _] => destruct b; [discriminate Ek|] end.
  match type of Ek with match nth_error l ?j with _ => _ end = _ => destruct (nth_error l j) eqn:N; [|discriminate Ek] end.
  injection Ek as <-. eapply nth_error_In; eauto.
Qed.

(** Every location of a selection gives the cross-section that it gives in the
    run over all locations; the order of the selection is the order of the
    results.  Locations outside the selection cannot stop the run. *)
Theorem C104_selected_cross_sections :
  forall log_line pickled selection ed l s, selected selection l = Ok s ->
    (forall c, In c s -> wanted c = true -> exists x, cd_build c = Ok x) ->
    snd (generate_list log_line pickled selection ed l) = Ok (flat_map built s) /\
    forall all, snd (generate_list log_line pickled [] ed l) = Ok all ->
      all = flat_map built l /\ forall x, In x (flat_map built s) -> In x all.
Proof.
  intros log_line pickled selection ed l s E H. split; [apply C47_generated_list; auto|].
  intros all A.
  assert (B : forall c, In c l -> wanted c = true -> exists x, cd_build c = Ok x).
  { intros c I W. destruct (cd_build c) as [x|e] eqn:Ec; [exists x; reflexivity|].
    destruct (C47_failure_stops_the_run log_line pickled [] ed l l c e (C47_no_selection _ l) I W Ec) as (e' & E').
    rewrite E' in A. discriminate A. }
  rewrite (C47_generated_list log_line pickled [] ed l l (C47_no_selection _ l) B) in A. injection A as <-.
  split; [reflexivity|]. intros x. rewrite !in_flat_map. intros (c & I & X). exists c. split; [|exact X].
  exact (selected_in _ _ _ E c I).
Qed.
Print Assumptions C104_selected_cross_sections.

(** ** The friction tables of a run in closed form *)

Definition tables_of (l : list (place * css)) : list ntables := map (fun e => s_tables (snd e)) l.
(** All levels are numbers, and no section occurs twice in a cross-section. *)
Definition known (l : list (place * css)) : Prop :=
  all_shaped (tables_of l) /\ (forall s, finite_section s (tables_of l)) /\ forall t, In t (tables_of l) -> NoDup (map fst t).

(** The levels of a section. *)
Definition nlevel (s : string) (css : list ntables) (z : Q) : Prop :=
  exists t tab, In t css /\ assoc s t = Some tab /\ In (Fin z) (level tab).
Definition grid (s : string) (css : list ntables) : list Q :=
  match level_range_n s css with Ok (Fin lo, Fin hi) => arange lo hi | _ => [] end.
Definition on_grid (search : list Q -> Q -> nat) (css : list ntables) (t : ntables) : ntables :=
  map (fun e => (fst e, renew_n search (grid (fst e) css) (snd e))) t.

Lemma assoc_in {A} s (d : list (string * A)) v : NoDup (map fst d) -> (assoc s d = Some v <-> In (s, v) d).
Proof.
  induction d as [|[k w] d IH]; cbn [map fst assoc]; intros N; [split; [discriminate|intros []]|].
  inversion N as [|? ? Nk N']; subst. destruct (String.eqb_spec s k) as [->|Ne].
  - split; [intros [= ->]; left; reflexivity|]. intros [J|I]; [injection J as ->; reflexivity|].
    exfalso. apply Nk. exact (in_map fst _ _ I).
  - rewrite (IH N'). split; [intros I; right; exact I|]. intros [J|I]; [injection J as J1 J2; congruence|exact I].
Qed.

Lemma assoc_ext {A} (a b : list (string * A)) : NoDup (map fst a) -> map fst b = map fst a ->
  (forall s, assoc s b = assoc s a) -> b = a.
Proof.
  revert b. induction a as [|[k v] a IH]; intros [|[k' w] b] N K H; cbn [map fst] in *; try discriminate; [reflexivity|].
  injection K as Kk K. subst k'. inversion N as [|? ? Nk N']; subst.
  pose proof (H k) as Hk. cbn [assoc] in Hk. rewrite String.eqb_refl in Hk. injection Hk as Hk. subst w. f_equal. apply IH; auto.
  intros n. pose proof (H n) as Hs. cbn [assoc] in Hs. destruct (String.eqb_spec n k) as [En|_]; [|exact Hs]. rewrite En. clear Hs.
  assert (Z : forall l : list (string * A), ~ In k (map fst l) -> assoc k l = None).
  { induction l as [|[j u] l IHl]; intros Nl; [reflexivity|]. cbn [assoc]. destruct (String.eqb_spec k j) as [->|].
    - exfalso. apply Nl. left. reflexivity.
    - apply IHl. intros I. apply Nl. right. exact I. }
  rewrite !Z; auto. rewrite K. exact Nk.
Qed.

Lemma assoc_set_keys {A} s (v : A) d : assoc s d <> None -> map fst (assoc_set s v d) = map fst d.
Proof.
  induction d as [|[k w] d IH]; cbn [assoc]; [congruence|]. intros H. cbn [assoc_set].
  destruct (String.eqb_spec s k) as [->|]; [reflexivity|]. cbn [map fst]. f_equal. auto.
Qed.

(** Interpolation keeps the sections of every cross-section. *)
Lemma section_keys search s range css : Forall2 (fun t t' => map fst t' = map fst t) css (fst (interpolate_section_n search s range css)).
Proof.
  induction css as [|t css IH]; cbn [interpolate_section_n]; [constructor|].
  destruct (assoc s t) as [tab|] eqn:A.
  - destruct (bind _ _) as [tab'|].
    + destruct (interpolate_section_n search s range css) as [r ok]. cbn [fst] in *. constructor; [|exact IH].
      apply assoc_set_keys. congruence.
    + apply F2_refl. reflexivity.
  - destruct (interpolate_section_n search s range css) as [r ok]. cbn [fst] in *. constructor; [reflexivity|exact IH].
Qed.
Lemma sections_keys search secs : forall css, Forall2 (fun t t' => map fst t' = map fst t) css (fst (interpolate_sections_n search secs css)).
Proof.
  induction secs as [|s secs IH]; intros css; cbn [interpolate_sections_n]; [apply F2_refl; reflexivity|].
  destruct (level_range_n s css) as [range|]; [|apply F2_refl; reflexivity].
  pose proof (section_keys search s range css) as K. destruct (interpolate_section_n search s range css) as [css' ok]. cbn [fst] in K.
  destruct ok; [|exact K]. eapply F2_trans; [|exact K|apply IH]. cbn. intros a b c E1 E2. congruence.
Qed.

Lemma assoc_on_grid search css s t : assoc s (on_grid search css t) = option_map (renew_n search (grid s css)) (assoc s t).
Proof.
  unfold on_grid. induction t as [|[k v] t IH]; [reflexivity|]. cbn [map fst snd assoc].
  destruct (String.eqb_spec s k) as [->|]; [reflexivity|exact IH].
Qed.
Lemma on_grid_keys search css t : map fst (on_grid search css t) = map fst t.
Proof. unfold on_grid. rewrite map_map. reflexivity. Qed.

Lemma interpolate_closed search css : all_shaped css -> (forall s, finite_section s css) -> (forall t, In t css -> NoDup (map fst t)) ->
  fst (interpolate_friction_n search css) = map (on_grid search css) css.
Proof.
  intros Sh Fs Nd. destruct (C95_unknown_levels search css Sh) as [_ H].
  pose proof (sections_keys search (np_unique (flat_map (map fst) css)) css) as K. fold (interpolate_friction_n search css) in K.
  set (r := fst (interpolate_friction_n search css)) in *.
  assert (A : forall s, Forall2 (fun t t' => assoc s t' = option_map (renew_n search (grid s css)) (assoc s t)) css r).
  { intros s. destruct (in_dec string_dec s (np_unique (flat_map (map fst) css))) as [I|NI].
    - apply sections_present in I. destruct (H s I) as [X _]. destruct X as (lo & hi & Er & _ & F); [intros; apply Fs|].
      unfold grid. rewrite Er. exact F.
    - assert (Z : forall t, In t css -> ~ In s (map fst t)).
      { intros t It Is. apply NI. apply np_unique_In. apply in_flat_map. exists t. split; auto. }
      assert (Zn : forall t : ntables, ~ In s (map fst t) -> assoc s t = None).
      { induction t as [|[j u] t IHt]; intros Nl; [reflexivity|]. cbn [assoc]. destruct (String.eqb_spec s j) as [->|].
        - exfalso. apply Nl. left. reflexivity.
        - apply IHt. intros Ix. apply Nl. right. exact Ix. }
      generalize (grid s css). intros g. revert Z. clear - K Zn. induction K as [|t t' a b E K IH]; intros Z; constructor.
      + rewrite (Zn t), (Zn t'); [reflexivity|rewrite E|]; apply Z; left; reflexivity.
      + apply IH. intros u Iu. apply Z. right. exact Iu. }
  assert (G : forall cs rs, Forall2 (fun t t' : ntables => map fst t' = map fst t) cs rs -> (forall t, In t cs -> NoDup (map fst t)) ->
    (forall s, Forall2 (fun t t' => assoc s t' = option_map (renew_n search (grid s css)) (assoc s t)) cs rs) -> rs = map (on_grid search css) cs).
  { clear. induction 1 as [|t t' a b E K IH]; intros Nd A; [reflexivity|]. cbn [map]. f_equal.
    - apply assoc_ext.
      + rewrite on_grid_keys. apply Nd. left. reflexivity.
      + rewrite on_grid_keys. exact E.
      + intros s. rewrite assoc_on_grid. specialize (A s). inversion A; subst. assumption.
    - apply IH; [intros u Iu; apply Nd; right; exact Iu|]. intros s. specialize (A s). inversion A; subst. assumption. }
  apply G; auto.
Qed.

Lemma finalised_closed search l : known l ->
  finalised_run search l = map (fun e => with_ntables (as_exported (fst e) (snd e)) (on_grid search (tables_of l) (s_tables (snd e)))) l.
Proof.
  intros (Sh & Fs & Nd). unfold finalised_run. fold (tables_of l). rewrite interpolate_closed by auto.
  unfold tables_of at 2. generalize (tables_of l). intros css. clear. induction l as [|e l IH]; [reflexivity|].
  cbn [map map2]. f_equal. exact IH.
Qed.

(** ** Ranges *)

Lemma range_of_levels s css : all_shaped css -> finite_section s css ->
  exists lo hi, level_range_n s css = Ok (Fin lo, Fin hi) /\ (lo = big \/ nlevel s css lo) /\ (hi = - big \/ nlevel s css hi) /\
    lo <= big /\ - big <= hi /\ forall z, nlevel s css z -> lo <= z <= hi.
Proof.
  intros Sh H. rewrite (level_range_lift s css (map (only s) css)) by (apply only_levels; auto).
  destruct (range_spec s (map (only s) css)) with (l0 := big) (h0 := - big) as (lo & hi & Hr & R).
  { intros t tab It Ha. apply in_map_iff in It. destruct It as (t0 & <- & It). unfold only in Ha.
    destruct (assoc s t0) as [tab0|] eqn:A; [|discriminate Ha]. cbn in Ha. rewrite String.eqb_refl in Ha. injection Ha as <-.
    cbn. destruct (Sh t0 s tab0 It A) as [N _]. destruct (level tab0); [congruence|discriminate]. }
  assert (Iff : forall z, is_level s (map (only s) css) z <-> nlevel s css z).
  { intros z. split.
    - intros (t & tab & It & Ha & Iz). apply in_map_iff in It. destruct It as (t0 & <- & It). unfold only in Ha.
      destruct (assoc s t0) as [tab0|] eqn:A; [|discriminate Ha]. cbn in Ha. rewrite String.eqb_refl in Ha. injection Ha as <-.
      cbn [qlevel] in Iz. apply in_map_iff in Iz. destruct Iz as (x & <- & Ix). exists t0, tab0. split; [auto|]. split; [auto|].
      destruct (H t0 tab0 x It A Ix) as [q ->]. exact Ix.
    - intros (t & tab & It & Ha & Iz). exists (only s t), {| qlevel := map finite_part (level tab); qfriction := [] |}.
      split; [apply in_map; auto|]. unfold only. rewrite Ha. cbn. rewrite String.eqb_refl. split; [reflexivity|].
      apply in_map_iff. exists (Fin z). auto. }
  rewrite level_range_fold, Hr. exists lo, hi. split; [reflexivity|]. rewrite <- !Iff. destruct R as (R1 & R2 & R3 & R4 & R5).
  repeat (split; [assumption|]). intros z Hz. apply R5, Iff, Hz.
Qed.

(** The outermost levels of a section in a run occur in the part. *)
Definition covers (s : string) (part l : list ntables) : Prop :=
  forall z, nlevel s l z -> exists z1 z2, nlevel s part z1 /\ nlevel s part z2 /\ z1 <= z <= z2.

Lemma nlevel_incl s part l z : incl part l -> nlevel s part z -> nlevel s l z.
Proof. intros I (t & tab & It & H). exists t, tab. split; [apply I; exact It|exact H]. Qed.

Lemma arange_eq lo lo' hi hi' : lo == lo' -> hi == hi' -> Forall2 Qeq (arange lo hi) (arange lo' hi').
Proof.
  intros E1 E2. unfold arange.
  assert (C : Qceiling ((hi - lo) / zstep) = Qceiling ((hi' - lo') / zstep)) by (apply Qceiling_comp; rewrite E1, E2; reflexivity).
  rewrite C. apply F2_same. intros k. rewrite E1. reflexivity.
Qed.

Lemma grid_covered s part l : all_shaped l -> finite_section s l -> incl part l -> covers s part l ->
  Forall2 Qeq (grid s part) (grid s l).
Proof.
  intros Sh Fs I C.
  assert (Sh' : all_shaped part) by (intros t s' tab It; apply Sh, I, It).
  assert (Fs' : finite_section s part) by (intros t tab x It; apply Fs, I, It).
  destruct (range_of_levels s l Sh Fs) as (lo & hi & E & L1 & L2 & L3 & L4 & L5).
  destruct (range_of_levels s part Sh' Fs') as (lo' & hi' & E' & M1 & M2 & M3 & M4 & M5).
  unfold grid. rewrite E, E'. apply arange_eq.
  - apply Qle_antisym.
    + destruct L1 as [->|L1]; [exact M3|]. destruct (C lo L1) as (z1 & z2 & N1 & _ & B & _). specialize (M5 z1 N1). lra.
    + destruct M1 as [->|M1]; [exact L3|]. apply (L5 lo'). eapply nlevel_incl; eauto.
  - apply Qle_antisym.
    + destruct M2 as [->|M2]; [exact L4|]. apply (L5 hi'). eapply nlevel_incl; eauto.
    + destruct L2 as [->|L2]; [exact M4|]. destruct (C hi L2) as (z1 & z2 & _ & N2 & _ & B). specialize (M5 z2 N2). lra.
Qed.

(** ** Friction at a level *)

(** The search looks at the value of a level only. *)
Definition by_value (search : list Q -> Q -> nat) : Prop := forall xp x y, x == y -> search xp x = search xp y.

Lemma interp_by_value search xp fp x y : by_value search -> x == y -> num_eq (np_interp_n search xp fp x) (np_interp_n search xp fp y).
Proof.
  intros B E. unfold np_interp_n. cbv zeta. rewrite (B xp x y E).
  assert (E1 : Qltb (nth (length xp - 1) xp 0) x = Qltb (nth (length xp - 1) xp 0) y) by (apply Qltb_congr; rewrite E; reflexivity).
  assert (E2 : Qltb x (nth 0 xp 0) = Qltb y (nth 0 xp 0)) by (apply Qltb_congr; rewrite E; reflexivity).
  assert (E3 : Qeq_bool (nth (search xp y) xp 0) x = Qeq_bool (nth (search xp y) xp 0) y) by (apply Qeq_bool_congr; rewrite E; reflexivity).
  rewrite E1, E2, E3. clear E1 E2 E3. destruct (Qltb _ y); [apply num_eq_refl|]. destruct (Qltb y _); [apply num_eq_refl|].
  destruct (Nat.eqb _ _); [apply num_eq_refl|]. destruct (Qeq_bool (nth (search xp y) xp 0) y); [apply num_eq_refl|].
  set (slope := ndiv _ _). generalize (nth (search xp y) fp (Fin 0)), (nth (S (search xp y)) fp (Fin 0)). intros f0 f1.
  generalize (nth (search xp y) xp 0), (nth (S (search xp y)) xp 0). intros a b.
  assert (V : forall c f, num_eq (nadd (nmul slope (Fin (x - c))) f) (nadd (nmul slope (Fin (y - c))) f)).
  { intros c f. apply nadd_eq; [|apply num_eq_refl]. apply nmul_eq; [apply num_eq_refl|]. cbn. rewrite E. reflexivity. }
  rewrite (isnan_eq _ _ (V a f0)). destruct (isnan _); [|apply V].
  rewrite (isnan_eq _ _ (V b f1)). destruct (isnan _ && neqb f0 f1); [apply num_eq_refl|apply V].
Qed.

(** Two friction tables as they are exported. *)
Definition same_tables (a b : list (text * (list num * list num))) : Prop :=
  Forall2 (fun x y => fst x = fst y /\ same_column (fst (snd x)) (fst (snd y)) /\ same_column (snd (snd x)) (snd (snd y))) a b.
(** At a level that both tables have they have the same friction. *)
Definition agree (a b : list num * list num) : Prop :=
  forall i j z z', nth_error (fst a) i = Some (Fin z) -> nth_error (fst b) j = Some (Fin z') -> z == z' ->
    num_eq (nth i (snd a) NaN) (nth j (snd b) NaN).
Definition without_roughness (x : xs) : xs := with_ntables x [].

Lemma renewed_agree search g h tab : by_value search -> agree (level (renew_n search g tab), friction (renew_n search g tab))
  (level (renew_n search h tab), friction (renew_n search h tab)).
Proof.
  intros B i j z z' Ei Ej E. cbn [fst snd renew_n level friction] in *. rewrite nth_error_map in Ei, Ej.
  destruct (nth_error g i) as [x|] eqn:Gi; [|discriminate Ei]. injection Ei as ->.
  destruct (nth_error h j) as [y|] eqn:Hj; [|discriminate Ej]. injection Ej as ->.
  set (f := np_interp_n search (map finite_part (level tab)) (friction tab)).
  rewrite (nth_error_nth _ i NaN (x := f z)) by (rewrite nth_error_map, Gi; reflexivity).
  rewrite (nth_error_nth _ j NaN (x := f z')) by (rewrite nth_error_map, Hj; reflexivity).
  apply interp_by_value; auto.
Qed.

(** A cross-section of a selection after the interpolation of the friction, and
    the same cross-section in the run over all locations: all is the same but the
    roughness, the tables are of the same sections, and they have the same
    friction at the levels that both have.  If the outermost levels of the run
    are those of the selection, the tables are the same. *)
Theorem C104_selection_does_not_matter_partial :
  forall search l part i j e x y, by_value search -> known l -> incl part l ->
    nth_error part i = Some e -> nth_error l j = Some e ->
    nth_error (finalised_run search part) i = Some x -> nth_error (finalised_run search l) j = Some y ->
    without_roughness x = without_roughness y /\
    Forall2 (fun a b => fst a = fst b /\ agree (snd a) (snd b)) (x_tables x) (x_tables y) /\
    ((forall s, covers s (tables_of part) (tables_of l)) -> same_tables (x_tables x) (x_tables y)).
Proof.
  intros search l part i j e x y B K I Ei Ej Ex Ey.
  assert (It : incl (tables_of part) (tables_of l)).
  { intros t Ht. unfold tables_of in *. apply in_map_iff in Ht. destruct Ht as (a & <- & Ia). apply in_map_iff. exists a. auto. }
  assert (K' : known part).
  { destruct K as (Sh & Fs & Nd). split; [|split].
    - intros t s tab Ht. apply Sh, It, Ht.
    - intros s t tab z Ht. apply Fs, It, Ht.
    - intros t Ht. apply Nd, It, Ht. }
  rewrite finalised_closed, nth_error_map, Ei in Ex by exact K'. rewrite finalised_closed, nth_error_map, Ej in Ey by exact K.
  injection Ex as <-. injection Ey as <-. split; [reflexivity|]. unfold with_ntables, on_grid. cbn [x_tables]. rewrite !map_map. cbn [fst snd].
  split.
  - apply F2_same. intros [s tab]. cbn [fst snd]. split; [reflexivity|]. apply renewed_agree. exact B.
  - intros C. apply F2_same. intros [s tab]. cbn [fst snd]. split; [reflexivity|].
    destruct K as (Sh & Fs & Nd). pose proof (grid_covered s _ _ Sh (Fs s) It (C s)) as G.
    unfold renew_n. cbn [level friction]. split.
    + apply (F2_map Qeq); [|exact G]. intros a b. cbn. auto.
    + apply (F2_map Qeq); [|exact G]. intros a b Hab. apply interp_by_value; auto.
Qed.
Print Assumptions C104_selection_does_not_matter_partial.

(** The order of a selection changes the order of the results only. *)
Theorem C104_order_of_the_selection :
  forall search l part i j e x y, by_value search -> known l -> incl part l -> incl l part ->
    nth_error part i = Some e -> nth_error l j = Some e ->
    nth_error (finalised_run search part) i = Some x -> nth_error (finalised_run search l) j = Some y ->
    without_roughness x = without_roughness y /\ same_tables (x_tables x) (x_tables y).
Proof.
  intros search l part i j e x y B K I I' Ei Ej Ex Ey.
  destruct (C104_selection_does_not_matter_partial search l part i j e x y B K I Ei Ej Ex Ey) as (A & _ & C).
  split; [exact A|]. apply C. intros s z Hz. exists z, z.
  assert (J : incl (tables_of l) (tables_of part)).
  { intros t Ht. unfold tables_of in *. apply in_map_iff in Ht. destruct Ht as (a & <- & Ia). apply in_map_iff. exists a. auto. }
  pose proof (nlevel_incl s _ _ z J Hz) as N. split; [exact N|]. split; [exact N|]. lra.
Qed.
Print Assumptions C104_order_of_the_selection.

(** ** Generated cross-sections *)

Lemma assoc_set_NoDup {A} s (v : A) d : NoDup (map fst d) -> NoDup (map fst (assoc_set s v d)).
Proof.
  induction d as [|[k w] d IH]; cbn [assoc_set]; intros N; [cbn; constructor; [intros []|constructor]|].
  destruct (String.eqb_spec s k) as [->|Ne]; [exact N|]. cbn [map fst] in *. inversion N as [|? ? Nk N']; subst.
  constructor; [|apply IH; exact N']. intros I. apply Nk.
  assert (X : forall l, In k (map fst (assoc_set s v l)) -> In k (map fst l)).
  { induction l as [|[j u] l IHl]; cbn [assoc_set]; [cbn; intros [E|[]]; congruence|].
    destruct (String.eqb_spec s j) as [->|]; [intros H; exact H|]. cbn [map fst]. intros [E|H]; [left; exact E|right; auto]. }
  apply X. exact I.
Qed.

Lemma build_tables_NoDup {A} weighing skip (z : list A) d tabs : build_roughness_tables weighing skip z d = Ok tabs -> NoDup (map fst tabs).
Proof.
  unfold build_roughness_tables. generalize (np_unique (edge_section d)). intros secs.
  assert (G : forall tabs0, NoDup (map fst tabs0) ->
    fold_res (fun tabs s => t <- build_table weighing skip z d s ;; Ok (assoc_set s t tabs)) secs tabs0 = Ok tabs -> NoDup (map fst tabs)).
  { induction secs as [|s secs IH]; intros tabs0 N H; cbn [fold_res] in H; [injection H as <-; exact N|].
    destruct (build_table weighing skip z d s) as [t|]; cbn [bind] in H; [|discriminate H].
    refine (IH _ _ H). apply assoc_set_NoDup. exact N. }
  intros H. refine (G [] _ H). constructor.
Qed.

Lemma generated_NoDup st minw tol c : generated st minw tol c -> NoDup (map fst (s_tables c)).
Proof.
  intros (smooth & mean & correction & clean & name & len & centre & nt & s & faces & zc & G & _).
  unfold generate_cross_section in G. destruct (Nat.ltb _ _); [discriminate G|].
  destruct (build_cross_section_geometry smooth mean correction st (Fin len) centre (cells_of s))
    as [[[[g [[crest total] flow]] [[z tw] fw]] [[z' tw'] fw']]|] eqn:Eg; cbn [bind] in G; [|discriminate G].
  destruct (build_roughness_tables (st_weighing st) (gp_skip (st_geometry st)) (g_z_roughness g) (links_of nt s))
    as [tabs|] eqn:Et; cbn [bind] in G; [|discriminate G].
  destruct (nsection_widths _ _ _ _ _) as [w|]; cbn [bind] in G; [|discriminate G].
  destruct (compute_floodplain_base _ _ _ _) as [b|]; cbn [bind] in G; [|discriminate G].
  injection G as <-. cbn [s_tables]. eapply build_tables_NoDup; eauto.
Qed.

(** Cross-sections with water at the centre of their control volume have known
    levels. *)
Theorem C104_generated_cross_sections_are_known :
  forall st minw tol (l : list (place * css)), st_weighing st = 0%Z ->
    Forall (fun e => generated st minw tol (snd e)) l -> known l.
Proof.
  intros st minw tol l Hw F. unfold known, tables_of. rewrite Forall_forall in F.
  assert (P : forall t, In t (map (fun e => s_tables (snd e)) l) -> NoDup (map fst t) /\
    exists q, t = lift_tables q /\ Forall (fun e => good_table (snd e)) q).
  { intros t It. apply in_map_iff in It. destruct It as (e & <- & Ie). split; [eapply generated_NoDup; eauto|].
    eapply generated_tables; eauto. }
  assert (Gd : forall q s tab, Forall (fun e : string * qtable => good_table (snd e)) q -> assoc s q = Some tab -> good_table tab).
  { clear. induction q as [|[k v] q IH]; intros s tab G A; [discriminate A|]. inversion G; subst. cbn in A.
    destruct (String.eqb s k); [injection A as <-; assumption|eauto]. }
  split; [|split].
  - intros t s tab It A. destruct (P t It) as (_ & q & -> & G). rewrite assoc_lift in A.
    destruct (assoc s q) as [v|] eqn:Aq; [|discriminate A]. injection A as <-. destruct (Gd q s v G Aq) as [N L].
    split; cbn.
    + destruct (qlevel v); [congruence|discriminate].
    + rewrite !map_length. exact L.
  - intros s t tab x It A Ix. destruct (P t It) as (_ & q & -> & G). rewrite assoc_lift in A.
    destruct (assoc s q) as [v|]; [|discriminate A]. injection A as <-. cbn in Ix. apply in_map_iff in Ix.
    destruct Ix as (z & <- & _). exists z. reflexivity.
  - intros t It. apply P. exact It.
Qed.
Print Assumptions C104_generated_cross_sections_are_known.

(** ** Examples *)

Lemma linear_search_by_value : by_value linear_search.
Proof.
  intros xp x y E. destruct xp as [|a xp]; [reflexivity|]. cbn [linear_search]. generalize 1%nat. intros j. revert j.
  induction xp as [|b xp IH]; intros j; [reflexivity|]. cbn [scan].
  assert (Q1 : Qle_bool b x = Qle_bool b y) by (apply Qle_bool_congr; rewrite E; reflexivity).
  assert (Q2 : Qltb x b = Qltb y b) by (apply Qltb_congr; rewrite E; reflexivity).
  rewrite ?Q1, ?Q2. destruct (Qle_bool b y), (Qltb y b); rewrite ?IH; reflexivity.
Qed.

(** The roughness that the 1D model reads at a level. *)
Definition read_at (l : list (place * css)) (name : text) (z : Q) : option Q :=
  match read_back l name with Some (lv, vs) => Some (Qred (np_interp linear_search lv vs z)) | None => None end.

(** In a river with an almost constant level the roughness of a cross-section
    alone is that of its lowest level; with another cross-section in the run it
    depends on the level. *)
Theorem C104_roughness_refuted :
  exists a b,
    generate (T "waal_1000.0") false [1; 2; 3] [40; 44; 42] = Ok (Some a) /\
    generate (T "waal_2000.0") false [1; 1 + (1 # 50); 1 + (1 # 20)] [40; 44; 60] = Ok (Some b) /\
    let all := combine three_places [a; b] in
    let part := [nth 1 three_places (mk_place (T "waal") (Fin 2000) NaN (x_volumes example_low))] in
    map (read_at all (T "waal_2000.0")) [1; 1 + (1 # 20); 3] = [Some 40; Some 50; Some 60] /\
    map (read_at (combine part [b]) (T "waal_2000.0")) [1; 1 + (1 # 20); 3] = [Some 40; Some 40; Some 40].
Proof. do 2 eexists. do 2 (split; [vm_compute; reflexivity|]). split; vm_compute; reflexivity. Qed.
Print Assumptions C104_roughness_refuted.

(** A cross-section with the lowest and the highest level of the run. *)
Theorem C104_case :
  exists a c,
    generate (T "waal_1000.0") false [1; 2; 3] [40; 44; 42] = Ok (Some a) /\
    generate (T "waal_2000.0") false [3 # 2; 2; 5 # 2] [40; 44; 60] = Ok (Some c) /\
    let l := combine three_places [a; c] in
    let part := combine three_places [a] in
    known l /\ incl part l /\ (forall s, covers s (tables_of part) (tables_of l)) /\
    length (finalised_run linear_search part) = 1%nat /\
    map (read_at l (T "waal_1000.0")) [1; 2; 5 # 2] = [Some 40; Some 44; Some 43] /\
    map (read_at part (T "waal_1000.0")) [1; 2; 5 # 2] = [Some 40; Some 44; Some 43].
Proof.
  do 2 eexists. do 2 (split; [vm_compute; reflexivity|]). cbv zeta.
  assert (A : forall (t : ntables) s tab, assoc s t = Some tab -> length t = 1%nat -> exists k, t = [(k, tab)] /\ s = k).
  { intros [|[k v] [|? ?]] s tab H L; try discriminate L. cbn in H. destruct (String.eqb_spec s k); [|discriminate H].
    injection H as ->. eauto. }
  split; [|split; [|split]].
  - split; [|split].
    + intros t s tab [<-|[<-|[]]] H; (destruct (A _ _ _ H eq_refl) as (k & E & _); cbn [s_tables snd] in E; injection E as _ <-);
        split; [discriminate|reflexivity|discriminate|reflexivity].
    + intros s t tab x [<-|[<-|[]]] H I; (destruct (A _ _ _ H eq_refl) as (k & E & _); cbn [s_tables snd] in E; injection E as _ <-);
        cbn [level In] in I; destruct I as [<-|[<-|[<-|[]]]]; eexists; reflexivity.
    + intros t [<-|[<-|[]]]; (cbn [s_tables snd map fst]; constructor; [intros []|constructor]).
  - intros e [<-|[]]. left. reflexivity.
  - intros s z (t & tab & It & H & I).
    assert (S : s = "main"%string /\ 1 <= z <= 3).
    { destruct It as [<-|[<-|[]]]; (destruct (A _ _ _ H eq_refl) as (k & E & Ek); cbn [s_tables snd] in E; injection E as E1 E2;
        subst tab; cbn [level In] in I; split; [congruence|]; destruct I as [I|[I|[I|[]]]]; injection I as <-; split; discriminate). }
    destruct S as [-> [L1 L2]]. exists 1, 3. split; [|split; [|split; assumption]];
      (eexists _, _; split; [left; reflexivity|]; split; [reflexivity|]; cbn [level In snd]); auto.
  - split; [vm_compute; reflexivity|]. split; vm_compute; reflexivity.
Qed.
Print Assumptions C104_case.
