(** C98: the order in which the map file lists the faces does not matter.
    C99: neither does the datum from which levels are measured. *)
From Coq Require Import String List Ascii ZArith QArith Qround Bool Permutation Lia Lqa.
From Verif Require Import PyBase Num Text L_Num L_List M_Geometry M_Sections M_Friction M_Simplify M_Import M_Cli M_Pipeline
  Spec_Same L_Same L_SameGeometry L_SameReduce T_Pipeline.
Import ListNotations.
Local Open Scope Q_scope.

(** ** Two descriptions of one control volume *)

(** Face [k] of [s'] is face [i] of [s]; its levels are raised by [h]. *)
Definition same_face (h : Q) (s : selection) (i : nat) (s' : selection) (k : nat) : Prop :=
  nth k (s_x s') NaN = nth i (s_x s) NaN /\ nth k (s_y s') NaN = nth i (s_y s) NaN /\
  nth k (s_region s') [] = nth i (s_region s) [] /\ nth k (s_islake s') false = nth i (s_islake s) false /\
  nth k (s_section s') (M_Geometry.LInt 0) = nth i (s_section s) (M_Geometry.LInt 0) /\
  num_eq (nth i (s_area s) NaN) (nth k (s_area s') NaN) /\
  same_column (nth i (s_depth s) []) (nth k (s_depth s') []) /\
  same_column (nth i (s_vel s) []) (nth k (s_vel s') []) /\
  raised h (nth i (s_bed s) NaN) (nth k (s_bed s') NaN) /\
  Forall2 (raised_level h) (nth i (s_level s) []) (nth k (s_level s') []).

Definition all_columns (s : selection) (n : nat) : Prop :=
  face_columns s n /\ length (s_area s) = n /\ length (s_depth s) = n /\ length (s_level s) = n /\ length (s_vel s) = n.

(** The [n] faces of [s'] are those of [s] in the given order; the links are
    the same. *)
Definition same_river (h : Q) (n : nat) (order : list nat) (s s' : selection) : Prop :=
  Permutation order (seq 0 n) /\ all_columns s n /\ all_columns s' n /\
  (forall k i, nth_error order k = Some i -> same_face h s i s' k) /\
  s_chezy s' = s_chezy s /\ s_edge_faces s' = s_edge_faces s /\ s_edge_x s' = s_edge_x s /\
  s_edge_y s' = s_edge_y s /\ s_edge_section s' = s_edge_section s.

(** The same cross-section, with its levels raised by [h]; crest level and
    floodplain base are treated apart. *)
Definition same_table (h : Q) (t t' : string * table num) : Prop :=
  fst t = fst t' /\ raised_column h (level (snd t)) (level (snd t')) /\ friction (snd t) = friction (snd t').
Definition same_widths (w w' : nwidths) : Prop :=
  num_eq (nw_main w) (nw_main w') /\ num_eq (nw_fp1 w) (nw_fp1 w') /\ num_eq (nw_fp2 w) (nw_fp2 w').
Definition same_point (h : Q) (p p' : mask_point num face_props) : Prop :=
  m_coords p = m_coords p' /\
  p_css (m_props p) = p_css (m_props p') /\ p_lake (m_props p) = p_lake (m_props p') /\
  p_region (m_props p) = p_region (m_props p') /\ p_section (m_props p) = p_section (m_props p') /\
  raised h (p_bed (m_props p)) (p_bed (m_props p')).
Definition same_cross_section (h : Q) (c c' : css) : Prop :=
  s_name c = s_name c' /\
  raised_column h (s_z c) (s_z c') /\ same_column (s_tw c) (s_tw c') /\ same_column (s_fw c) (s_fw c') /\
  raised_column h (s_css_z c) (s_css_z c') /\ same_column (s_css_tw c) (s_css_tw c') /\ same_column (s_css_fw c) (s_css_fw c') /\
  num_eq (s_extra_total c) (s_extra_total c') /\ num_eq (s_extra_flow c) (s_extra_flow c') /\
  Forall2 (same_table h) (s_tables c) (s_tables c') /\ same_widths (s_widths c) (s_widths c') /\
  reordered (same_point h) (s_faces c) (s_faces c') /\ s_links c = s_links c'.

(** The search for the summer dike gives the same dike for the same geometry. *)
Definition follows (h : Q) (correction : geometry -> res (num * num * num)) : Prop :=
  forall g g', geometry_rel h g g' ->
    res_rel (fun r r' => raised h (fst (fst r)) (fst (fst r')) /\ num_eq (snd (fst r)) (snd (fst r')) /\
                         num_eq (snd r) (snd r')) (correction g) (correction g').
Definition option_rel {A B} (R : A -> B -> Prop) (x : option A) (y : option B) : Prop :=
  match x, y with Some a, Some b => R a b | None, None => True | _, _ => False end.

(** ** Columns by row *)

Lemma F2_of_nth {A B} (R : A -> B -> Prop) : forall l m, length l = length m ->
  (forall k a b, nth_error l k = Some a -> nth_error m k = Some b -> R a b) -> Forall2 R l m.
Proof.
  induction l as [|a l IH]; intros [|b m] L H; try discriminate; constructor.
  - apply (H 0%nat); reflexivity.
  - apply IH; [cbn in L; lia|]. intros k x y X Y. apply (H (S k)); auto.
Qed.
Lemma column_by_row {A} (d : A) l n : length l = n -> map (fun i => nth i l d) (seq 0 n) = l.
Proof.
  intros <-. induction l as [|a l IH]; [reflexivity|]. cbn [length seq map nth]. f_equal.
  rewrite <- seq_shift, map_map. exact IH.
Qed.
Lemma cells_reordered h n order s s' : same_river h n order s s' ->
  reordered (cell_rel h) (cells_of s) (cells_of s').
Proof.
  intros (P & (_ & A & _) & (_ & A' & _) & F & _). unfold cells_of. rewrite A, A'.
  match goal with |- reordered _ (map ?f _) (map ?g _) => set (cf := f); set (cg := g) end.
  exists (map cf order). split; [apply Permutation_map, Permutation_sym, P|].
  assert (L : length order = n) by (rewrite (Permutation_length P), seq_length; reflexivity).
  apply F2_of_nth; [rewrite !map_length, seq_length; exact L|].
  intros k a b X Y. rewrite nth_error_map in X. destruct (nth_error order k) as [i|] eqn:O; [|discriminate]. injection X as <-.
  assert (K : (k < n)%nat) by (rewrite <- L; apply nth_error_Some; congruence).
  rewrite nth_error_map, nth_error_seq in Y by exact K. injection Y as <-. cbn [Nat.add].
  destruct (F k i O) as (_ & _ & _ & _ & F5 & F6 & F7 & F8 & F9 & F10). unfold cf, cg, cell_rel. cbn. auto 10.
Qed.
Lemma columns_of_cells s n : all_columns s n ->
  s_area s = map c_area (cells_of s) /\ s_bed s = map c_bed (cells_of s) /\ s_section s = map c_section (cells_of s).
Proof.
  intros ((_ & _ & _ & B & _ & S) & A & _). unfold cells_of. rewrite A, !map_map. cbn.
  rewrite !column_by_row by auto. auto.
Qed.
Lemma cells_length s n : all_columns s n -> length (cells_of s) = n.
Proof. intros (_ & A & _). unfold cells_of. rewrite map_length, seq_length. exact A. Qed.

Lemma mask_by_row {A} (f : A -> num) (g : A -> M_Sections.label) k rows :
  mask_index (map (label_is k) (map g rows)) (map f rows) = Ok (map f (filter (fun r => label_is k (g r)) rows)).
Proof.
  unfold mask_index. rewrite !map_length, Nat.eqb_refl. f_equal.
  induction rows as [|r rows IH]; [reflexivity|]. cbn [map select filter]. destruct (label_is k (g r)); cbn [map]; rewrite IH; reflexivity.
Qed.

(** ** Section widths and floodplain base *)

Lemma py_floor_eq x y : num_eq x y -> py_floor x = py_floor y.
Proof. destruct x, y; cbn; try contradiction; auto. intro H. f_equal. apply Qfloor_comp, H. Qed.
Lemma section_widths_rel h len cells cells' fw fw' cfw cfw' :
  reordered (cell_rel h) cells cells' -> same_column fw fw' -> same_column cfw cfw' ->
  res_rel same_widths
    (nsection_widths len (map c_area cells) (map section_of (map c_section cells)) fw cfw)
    (nsection_widths len (map c_area cells') (map section_of (map c_section cells')) fw' cfw').
Proof.
  intros R F C. unfold nsection_widths. cbv zeta. rewrite !(map_map c_section).
  rewrite !mask_by_row. cbn [bind].
  assert (P : forall k, reordered num_eq
     (map c_area (filter (fun r => label_is k (section_of (c_section r))) cells))
     (map c_area (filter (fun r => label_is k (section_of (c_section r))) cells'))).
  { intro k. apply (reordered_map (cell_rel h)). { intros a b (A & _). exact A. }
    revert R. apply reordered_filter. intros a b (_ & _ & _ & _ & _ & S). rewrite S. reflexivity. }
  match goal with |- context [ndiv (nadd (nansum (map c_area (filter ?f cells))) _) len] => idtac end.
  set (m := ndiv (nadd (nansum (map c_area (filter (fun r => label_is 1 (section_of (c_section r))) cells))) _) len).
  set (m' := ndiv (nadd (nansum (map c_area (filter (fun r => label_is 1 (section_of (c_section r))) cells'))) _) len).
  set (f1 := ndiv (nansum (map c_area (filter (fun r => label_is 2 (section_of (c_section r))) cells))) len).
  set (f1' := ndiv (nansum (map c_area (filter (fun r => label_is 2 (section_of (c_section r))) cells'))) len).
  set (f2 := ndiv (nansum (map c_area (filter (fun r => label_is 3 (section_of (c_section r))) cells))) len).
  set (f2' := ndiv (nansum (map c_area (filter (fun r => label_is 3 (section_of (c_section r))) cells'))) len).
  assert (M : num_eq m m').
  { unfold m, m'. apply ndiv_eq; [|apply num_eq_refl]. apply nadd_eq; [apply nansum_reordered, P|apply npsum_reordered, P]. }
  assert (G1 : num_eq f1 f1') by (apply ndiv_eq; [apply nansum_reordered, P|apply num_eq_refl]).
  assert (G2 : num_eq f2 f2') by (apply ndiv_eq; [apply nansum_reordered, P|apply num_eq_refl]).
  clearbody m m' f1 f1' f2 f2'.
  apply (res_rel_bind num_eq); [apply py_index_rel, F|]. intros a a' A.
  assert (D : num_eq (nsub a (nadd (nadd (nadd (Fin 0) m) f1) f2)) (nsub a' (nadd (nadd (nadd (Fin 0) m') f1') f2')))
    by (repeat first [apply nsub_eq | apply nadd_eq]; auto using num_eq_refl).
  rewrite (nltb_eq (Fin 0) _ (Fin 0) _ (num_eq_refl _) D).
  set (b := nltb (Fin 0) _).
  assert (M2 : num_eq (if b then nadd m (nsub a (nadd (nadd (nadd (Fin 0) m) f1) f2)) else m)
                      (if b then nadd m' (nsub a' (nadd (nadd (nadd (Fin 0) m') f1') f2')) else m'))
    by (destruct b; auto using nadd_eq).
  match type of M2 with num_eq ?u ?v => set (m2 := u) in *; set (m2' := v) in * end. clearbody m2 m2'.
  apply (res_rel_bind num_eq); [apply py_index_rel, C|]. intros c c' CC.
  rewrite (py_floor_eq (nmul (nsub m2 c) (Fin 100)) (nmul (nsub m2' c') (Fin 100)))
    by (apply nmul_eq; [apply nsub_eq; auto|apply num_eq_refl]).
  destruct (py_floor _) as [fl|]; cbn [bind]; [|reflexivity].
  destruct (Qltb _ 0); cbn [res_rel]; unfold same_widths; cbn; auto using nsub_eq, nadd_eq, num_eq_refl.
Qed.

Lemma floodplain_base_rel h crest crest' tol cells cells' :
  reordered (cell_rel h) cells cells' -> raised h crest crest' ->
  res_rel (raised h)
    (compute_floodplain_base crest tol (map c_bed cells) (map section_of (map c_section cells)))
    (compute_floodplain_base crest' tol (map c_bed cells') (map section_of (map c_section cells'))).
Proof.
  intros R C. unfold compute_floodplain_base. cbv zeta. rewrite !(map_map c_section).
  assert (E : existsb (fun b => b) (map (label_is 2) (map (fun x => section_of (c_section x)) cells)) =
              existsb (fun b => b) (map (label_is 2) (map (fun x => section_of (c_section x)) cells'))).
  { rewrite !map_map.
    assert (X : forall l : list cell, existsb (fun b => b) (map (fun x => label_is 2 (section_of (c_section x))) l) =
       negb (forallb (fun x => negb (label_is 2 (section_of (c_section x)))) l)).
    { induction l as [|x l IH]; cbn; auto. rewrite IH. destruct (label_is 2 _); reflexivity. }
    rewrite !X. f_equal. revert R. apply forallb_reordered. intros a b (_ & _ & _ & _ & _ & S). rewrite S. reflexivity. }
  rewrite E. clear E. pose proof (nsub_raised_l h _ _ _ _ C (num_eq_refl tol)) as T.
  destruct (existsb _ _); [|exact T]. rewrite !mask_by_row. cbn [bind].
  assert (M : raised h (nanmean (map c_bed (filter (fun r => label_is 2 (section_of (c_section r))) cells)))
                       (nanmean (map c_bed (filter (fun r => label_is 2 (section_of (c_section r))) cells')))).
  { assert (K : reordered (raised h) (map c_bed (filter (fun r => label_is 2 (section_of (c_section r))) cells))
                     (map c_bed (filter (fun r => label_is 2 (section_of (c_section r))) cells'))).
    { apply (reordered_map (cell_rel h)). { intros a b (_ & B & _). exact B. }
      revert R. apply reordered_filter. intros a b (_ & _ & _ & _ & _ & S). rewrite S. reflexivity. }
    destruct K as (k & P & F). eapply raised_trans; [apply nanmean_perm, P|apply nanmean_raised, F]. }
  rewrite (nltb_raised h _ _ _ _ T M). destruct (nltb _ _); auto.
Qed.

(** ** Roughness tables *)

Lemma assoc_set_rel h s t t' tabs tabs' : same_table h (s, t) (s, t') -> Forall2 (same_table h) tabs tabs' ->
  Forall2 (same_table h) (assoc_set s t tabs) (assoc_set s t' tabs').
Proof.
  intros T. induction 1 as [|[k v] [k' v'] l m E F IH]; cbn [assoc_set]; [repeat constructor; apply T|].
  pose proof E as (E1 & E2 & E3). cbn [fst snd] in E1, E2, E3. subst k'. destruct (String.eqb s k).
  - constructor; auto. destruct T as (_ & T2 & T3). split; [reflexivity|]. auto.
  - constructor; auto.
Qed.
Lemma roughness_rel h w skip z z' d : raised_column h z z' ->
  res_rel (Forall2 (same_table h)) (build_roughness_tables w skip z d) (build_roughness_tables w skip z' d).
Proof.
  intro Z. unfold build_roughness_tables. set (names := np_unique _). clearbody names.
  assert (K : forall tabs tabs', Forall2 (same_table h) tabs tabs' ->
    res_rel (Forall2 (same_table h))
      (fold_res (fun tabs s => t <- build_table w skip z d s ;; Ok (assoc_set s t tabs)) names tabs)
      (fold_res (fun tabs s => t <- build_table w skip z' d s ;; Ok (assoc_set s t tabs)) names tabs')).
  { induction names as [|s names IH]; intros tabs tabs' T; cbn [fold_res]; [exact T|].
    assert (B : res_rel (fun t t' => same_table h (s, t) (s, t')) (build_table w skip z d s) (build_table w skip z' d s)).
    { unfold build_table. destruct (mask_index _ (chezy d)) as [rows|]; cbn [bind]; [|reflexivity].
      match goal with |- res_rel _ (bind ?m _) _ => destruct m as [fr|]; cbn [bind]; [|reflexivity] end.
      unfold make_table. rewrite (F2_length _ _ _ Z). destruct (Nat.eqb _ _); [|reflexivity].
      split; [reflexivity|]. split; [exact Z|reflexivity]. }
    destruct (build_table w skip z d s), (build_table w skip z' d s); cbn [res_rel bind] in B |- *; try contradiction; [|exact B].
    apply IH, assoc_set_rel; auto. }
  apply K. constructor.
Qed.

(** ** The points of the output file *)

Lemma points_reordered h clean name n order s s' : same_river h n order s s' ->
  reordered (same_point h) (map (face_point clean name s) (seq 0 n)) (map (face_point clean name s') (seq 0 n)).
Proof.
  intros (P & _ & _ & F & _). exists (map (face_point clean name s) order).
  split; [apply Permutation_map, Permutation_sym, P|].
  assert (L : length order = n) by (rewrite (Permutation_length P), seq_length; reflexivity).
  apply F2_of_nth; [rewrite !map_length, seq_length; exact L|].
  intros k a b X Y. rewrite nth_error_map in X. destruct (nth_error order k) as [i|] eqn:O; [|discriminate]. injection X as <-.
  assert (K : (k < n)%nat) by (rewrite <- L; apply nth_error_Some; congruence).
  rewrite nth_error_map, nth_error_seq in Y by exact K. injection Y as <-. cbn [Nat.add].
  destruct (F k i O) as (F1 & F2 & F3 & F4 & F5 & _ & _ & _ & F9 & _).
  unfold same_point, face_point; cbn. rewrite F1, F2, F3, F4, F5. auto 10.
Qed.

(** ** Finite widths *)

Lemma nansum_finite l : Forall (fun x => x = NaN \/ finite x) l -> finite (nansum l).
Proof.
  intro H. unfold nansum. assert (K : forall a, finite a -> finite (fold_left nadd (filter (fun x => negb (isnan x)) l) a)).
  { induction H as [|x l X F IH]; intros a A; cbn [filter fold_left]; auto.
    destruct X as [->|X]; [cbn; auto|]. destruct x; try contradiction. cbn [isnan negb fold_left]. apply IH.
    destruct a; try contradiction. exact I. }
  apply K. exact I.
Qed.
Lemma div_finite x len : finite x -> finite len -> ~ num_eq len (Fin 0) -> finite (ndiv x len).
Proof.
  destruct x, len; cbn; try tauto. intros _ _ N. destruct (Qeq_bool q0 0) eqn:E; [|exact I].
  apply Qeq_bool_true in E. contradiction.
Qed.
Lemma select_Forall {A} (P : A -> Prop) l : Forall P l -> forall m, Forall P (select m l).
Proof. induction 1; intros [|[] m]; cbn; auto. Qed.
Lemma geometry_widths_finite smooth mean p len i cells g : finite len -> ~ num_eq len (Fin 0) ->
  gp_method p <> 0%Z -> Forall (fun c => c_area c = NaN \/ finite (c_area c)) cells ->
  build_geometry smooth mean p len i cells = Ok g -> Forall finite (k_tw (g_cols g)).
Proof.
  intros L L0 M A H. rewrite build_geometry_cells in H by exact M. cbv zeta in H.
  destruct (fill_centre_level _ _) as [cl|]; [|discriminate]. cbn [bind] in H.
  destruct (forallb _ _); [|discriminate]. unfold finish_geometry in H. cbv zeta in H.
  match type of H with bind ?m _ = _ => destruct m as [z|]; [|discriminate] end. cbn [bind] in H.
  match type of H with bind ?m _ = _ => destruct m as [tv|]; [|discriminate] end. cbn [bind] in H.
  match type of H with bind ?m _ = _ => destruct m as [fv|]; [|discriminate] end. cbn [bind] in H.
  match type of H with bind ?m _ = _ => destruct m as [wa|] eqn:W; [|discriminate] end. cbn [bind] in H.
  match type of H with bind ?m _ = _ => destruct m as [fa|]; [|discriminate] end. cbn [bind] in H.
  injection H as <-. cbn [g_cols].
  assert (WA : Forall finite wa).
  { unfold mask_index in W. destruct (Nat.eqb _ _); [|discriminate]. injection W as <-. apply select_Forall, Forall_map, Forall_forall.
    intros t _. rewrite masked_area_map. apply nansum_finite, Forall_map. revert A. apply Forall_impl. intros c C.
    destruct (nth t (cwet p c) false); auto. }
  unfold extend_css_below_z0. cbv zeta. set (k0 := compute_css_above_z0 len z wa fa tv fv).
  assert (K0 : Forall finite (k_tw k0)).
  { unfold k0; cbn. apply Forall_map. revert WA. apply Forall_impl. intros a Fa. apply div_finite; auto. }
  clearbody k0. match goal with |- context [fold_left (below_z0_step _ _ ?a ?b _) ?d _] => generalize a b d end.
  intros c0 f0 l. revert k0 K0.
  induction l as [|dz l IH]; intros k K; cbn [fold_left]; auto. apply IH. unfold below_z0_step; cbn. constructor; auto.
  apply div_finite; auto. unfold wet_area_below. apply nansum_finite, Forall_map.
  apply Forall_forall. intros x X. apply filter_In in X. destruct X as [X _]. apply in_map_iff in X.
  destruct X as (c & <- & C). cbn. rewrite Forall_forall in A. apply A, C.
Qed.

(** ** The cross-section *)

Section Same.
  Variables (smooth smooth' : list (list num) -> list (list num)) (mean mean' : list (list num) -> nat -> num).
  Variable correction : geometry -> res (num * num * num).
  Variable clean : num -> num.

  Lemma perform_rel h on g g' len : follows h correction -> geometry_rel h g g' ->
    num_eq (snd (fst (perform_correction correction on g len))) (snd (fst (perform_correction correction on g' len))) /\
    num_eq (snd (perform_correction correction on g len)) (snd (perform_correction correction on g' len)) /\
    (h == 0 \/ (on = true /\ forall g, exists r, correction g = Ok r) ->
     raised h (fst (fst (perform_correction correction on g len))) (fst (fst (perform_correction correction on g' len)))).
  Proof.
    intros F G. specialize (F g g' G). unfold perform_correction. destruct on.
    - destruct (correction g) as [[[c t] f]|e] eqn:E, (correction g') as [[[c' t'] f']|e'] eqn:E'; cbn [res_rel fst snd] in F |- *; try contradiction.
      + destruct F as (F1 & F2 & F3). split; [apply ndiv_eq; auto using num_eq_refl|]. split; [apply ndiv_eq; auto using num_eq_refl|]. auto.
      + split; [apply num_eq_refl|]. split; [apply num_eq_refl|]. intros [Z|[_ K]]; [cbn; lra|].
        destruct (K g) as (r & R). congruence.
    - cbn. split; [reflexivity|]. split; [reflexivity|]. intros [Z|[K _]]; [lra|discriminate].
  Qed.

  Lemma reduce_css_rel h n t t' : table_rel h t t' -> (h == 0 \/ Forall finite (snd (fst t))) ->
    res_rel (table_rel h) (reduce_css_points n t) (reduce_css_points n t').
  Proof.
    destruct t as [[z tw] fw], t' as [[z' tw'] fw']. intros (Z & T & F) K. cbn [fst snd] in *. unfold reduce_css_points.
    pose proof (reduce_points_rel h n z z' tw tw' fw fw' Z T F K) as R.
    destruct (reduce_points n z tw fw) as [r|e], (reduce_points n z' tw' fw') as [r'|e']; cbn [res_rel] in R |- *; try contradiction.
    - exact R.
    - subst e'. destruct e; cbn; try reflexivity; repeat split; constructor.
  Qed.

  Lemma generate_rel h st name len n order s s' i i' nt :
    gp_method (st_geometry st) <> 0%Z -> follows h correction -> same_river h n order s s' ->
    nth_error order i' = Some i ->
    (h == 0 \/ (finite len /\ ~ num_eq len (Fin 0) /\ finite (st_minwidth st) /\
                Forall (fun a => a = NaN \/ finite a) (s_area s))) ->
    res_rel (option_rel (fun c c' => same_cross_section h c c' /\
        (h == 0 \/ (st_correction st = true /\ forall g, exists r, correction g = Ok r) ->
         raised h (s_crest c) (s_crest c') /\ raised h (s_base c) (s_base c'))))
      (generate_cross_section smooth mean correction clean st name len i nt s)
      (generate_cross_section smooth' mean' correction clean st name len i' nt s').
  Proof.
    intros M FC SR CI FIN. pose proof SR as (P & C & C' & F & E1 & E2 & E3 & E4 & E5).
    pose proof (cells_reordered h n order s s' SR) as R.
    destruct (columns_of_cells s n C) as (CA & CB & CS). destruct (columns_of_cells s' n C') as (CA' & CB' & CS').
    assert (X : length (s_x s) = n /\ length (s_x s') = n) by (split; [apply C|apply C']). destruct X as [X X'].
    assert (ORD : length order = n) by (rewrite (Permutation_length P), seq_length; reflexivity).
    assert (HC : exists c c', nth_error (cells_of s) i = Some c /\ nth_error (cells_of s') i' = Some c' /\ cell_rel h c c').
    { assert (I1 : (i' < n)%nat) by (rewrite <- ORD; apply nth_error_Some; congruence).
      assert (I2 : (i < n)%nat).
      { apply nth_error_In in CI. apply (Permutation_in _ P) in CI. apply in_seq in CI. lia. }
      unfold cells_of. rewrite (proj1 (proj2 C)), (proj1 (proj2 C')).
      rewrite !nth_error_map, !nth_error_seq by auto. cbn [option_map Nat.add].
      eexists. eexists. split; [reflexivity|]. split; [reflexivity|].
      destruct (F i' i CI) as (_ & _ & _ & _ & F5 & F6 & F7 & F8 & F9 & F10). unfold cell_rel. cbn. auto 10. }
    destruct HC as (cc & cc' & N1 & N2 & CR).
    unfold generate_cross_section. rewrite X, X'. destruct (Nat.ltb n 10); [exact I|].
    pose proof (build_geometry_rel h smooth mean smooth' mean' (st_geometry st) len len (cells_of s) (cells_of s') i i' cc cc'
                  M (num_eq_refl _) R N1 N2 CR) as G.
    unfold build_cross_section_geometry.
    destruct (build_geometry smooth mean (st_geometry st) len i (cells_of s)) as [g|e] eqn:BG,
             (build_geometry smooth' mean' (st_geometry st) len i' (cells_of s')) as [g'|e'] eqn:BG';
      cbn [res_rel bind] in G |- *; try contradiction; [|exact G].
    pose proof G as (GC & G1 & G2 & GR). pose proof GC as (Z1 & T1 & W1 & _).
    destruct (perform_rel h (st_correction st) g g' len FC G) as (SD1 & SD2 & SD3).
    pose proof (check_requirements_rel h (st_minwidth st) _ _ _ _ _ _ Z1 T1 W1) as Q1.
    destruct (check_requirements (st_minwidth st) (k_z (g_cols g)) _ _) as [[[z tw] fw]|e] eqn:CQ,
             (check_requirements (st_minwidth st) (k_z (g_cols g')) _ _) as [[[z' tw'] fw']|e'];
      cbn [res_rel bind] in Q1 |- *; try contradiction; [|exact Q1].
    assert (FT : h == 0 \/ Forall finite tw).
    { destruct FIN as [Z|(L1 & L2 & L3 & L4)]; [left; exact Z|right].
      apply (requirements_fin _ _ _ _ _ _ _ L3 (geometry_widths_finite _ _ _ _ _ _ _ L1 L2 M ltac:(
        rewrite CA in L4; apply Forall_map in L4; exact L4) BG) CQ). }
    pose proof (reduce_css_rel h (st_points st) (z, tw, fw) (z', tw', fw') Q1 FT) as Q2.
    destruct (reduce_css_points (st_points st) (z, tw, fw)) as [[[z2 tw2] fw2]|e] eqn:RQ,
             (reduce_css_points (st_points st) (z', tw', fw')) as [[[z2' tw2'] fw2']|e'];
      cbn [res_rel bind] in Q2 |- *; try contradiction; [|exact Q2].
    destruct (perform_correction correction (st_correction st) g len) as [[c t] f] eqn:PC.
    destruct (perform_correction correction (st_correction st) g' len) as [[c' t'] f'] eqn:PC'. cbn [fst snd] in SD1, SD2, SD3.
    assert (LN : links_of nt s' = links_of nt s) by (unfold links_of; rewrite E1, E2, E5; reflexivity). rewrite LN.
    pose proof (roughness_rel h (st_weighing st) (gp_skip (st_geometry st)) _ _ (links_of nt s) GR) as TB.
    destruct (build_roughness_tables _ _ (g_z_roughness g) _) as [tabs|e], (build_roughness_tables _ _ (g_z_roughness g') _) as [tabs'|e'];
      cbn [res_rel bind] in TB |- *; try contradiction; [|exact TB].
    destruct Q1 as (A1 & A2 & A3). destruct Q2 as (B1 & B2 & B3). cbn [fst snd] in A1, A2, A3, B1, B2, B3.
    rewrite CA, CA', CB, CB', CS, CS'.
    pose proof (section_widths_rel h len _ _ _ _ _ _ R B3 A3) as SW.
    destruct (nsection_widths len (map c_area (cells_of s)) _ _ _) as [w|e], (nsection_widths len (map c_area (cells_of s')) _ _ _) as [w'|e'];
      cbn [res_rel bind] in SW |- *; try contradiction; [|exact SW].
    assert (BA : exists b b', compute_floodplain_base c (st_base st) (map c_bed (cells_of s)) (map section_of (map c_section (cells_of s))) = Ok b /\
                 compute_floodplain_base c' (st_base st) (map c_bed (cells_of s')) (map section_of (map c_section (cells_of s'))) = Ok b' /\
                 (raised h c c' -> raised h b b')).
    { assert (O : forall c cells, exists b, compute_floodplain_base c (st_base st) (map c_bed cells) (map section_of (map c_section cells)) = Ok b).
      { intros x cells. unfold compute_floodplain_base. cbv zeta. rewrite (map_map c_section), mask_by_row. cbn [bind].
        destruct (existsb _ _); [destruct (nltb _ _)|]; eauto. }
      destruct (O c (cells_of s)) as (b & O1). destruct (O c' (cells_of s')) as (b' & O2). exists b, b'.
      split; [exact O1|]. split; [exact O2|]. intro RC.
      pose proof (floodplain_base_rel h c c' (st_base st) _ _ R RC) as K. rewrite O1, O2 in K. exact K. }
    destruct BA as (b & b' & O1 & O2 & O3). rewrite O1, O2. cbn [bind res_rel option_rel].
    assert (FP : face_output_list clean name s = map (face_point clean name s) (seq 0 n) /\
                 face_output_list clean name s' = map (face_point clean name s') (seq 0 n)).
    { assert (K : forall q, all_columns q n -> face_output_list clean name q = map (face_point clean name q) (seq 0 n)).
      { intros q ((A & A' & A'' & A4 & A5 & A6) & _). unfold face_output_list. rewrite A. apply points_until_all. rewrite map_map.
        apply map_ext_in. intros k Hk. apply in_seq in Hk.
        rewrite (item_nth _ _ false), (item_nth _ _ NaN), (item_nth (s_region q) _ []),
          (item_nth (s_section q) _ (M_Geometry.LInt 0)), (item_nth (s_x q) _ NaN), (item_nth (s_y q) _ NaN) by lia.
        reflexivity. }
      split; apply K; auto. }
    destruct FP as [FP FP'].
    split.
    - unfold same_cross_section. cbn [s_name s_z s_tw s_fw s_css_z s_css_tw s_css_fw s_extra_total s_extra_flow s_tables s_widths s_faces s_links].
      rewrite FP, FP'. repeat (split; [first [reflexivity | assumption | apply (points_reordered h clean name n order), SR]|]).
      unfold edge_output_list. rewrite E3, E4, E5. reflexivity.
    - intro K. specialize (SD3 K). cbn. auto.
  Qed.
End Same.
