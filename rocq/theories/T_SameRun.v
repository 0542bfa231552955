(** C98 and C99: theorems and cases. *)
From Coq Require Import String List Ascii ZArith QArith Qround Bool Permutation Lia Lqa.
From Verif Require Import PyBase Num Text L_Num L_List M_Geometry M_Sections M_Friction M_Simplify M_Import M_Cli M_Pipeline M_Rolling
  Spec_Same L_Same L_SameGeometry L_SameReduce T_Pipeline T_Same.
Import ListNotations.
Local Open Scope Q_scope.

(** C98.  Whatever the order in which the faces of a control volume are listed,
    the cross-section is the same: table, dike, roughness, section widths,
    floodplain base, and the points of the output file up to their order; or
    the same exception is raised.  [i] and [i'] are the places of the face
    nearest to the location. *)
Theorem C98_the_order_of_the_faces_does_not_matter :
  forall smooth mean correction clean st name len n order s s' i i' nt,
    gp_method (st_geometry st) <> 0%Z -> follows 0 correction ->
    same_river 0 n order s s' -> nth_error order i' = Some i ->
    res_rel (option_rel (fun c c' =>
        same_cross_section 0 c c' /\ num_eq (s_crest c) (s_crest c') /\ num_eq (s_base c) (s_base c')))
      (generate_cross_section smooth mean correction clean st name len i nt s)
      (generate_cross_section smooth mean correction clean st name len i' nt s').
Proof.
  intros smooth mean correction clean st name len n order s s' i i' nt M F R C.
  pose proof (generate_rel smooth smooth mean mean correction clean 0 st name len n order s s' i i' nt M F R C
    (or_introl (Qeq_refl 0))) as K.
  destruct (generate_cross_section smooth mean correction clean st name len i nt s) as [[c|]|e],
    (generate_cross_section smooth mean correction clean st name len i' nt s') as [[c'|]|e']; cbn in K |- *; auto.
  destruct K as (K & L). destruct (L (or_introl (Qeq_refl 0))) as (L1 & L2). split; [exact K|].
  split; apply (raised_0 0); auto; reflexivity.
Qed.
Print Assumptions C98_the_order_of_the_faces_does_not_matter.

(** C99.  With all bed and water levels raised by [h] the cross-section is the
    same with its levels raised by [h]: level column and levels of the roughness
    tables, and not one width, area or roughness changes.  The crest level of
    the summer dike and the floodplain base follow if the search for the dike
    is on, and succeeds and follows the datum itself. *)
Theorem C99_the_datum_does_not_matter_partial :
  forall smooth mean correction clean st name len n order s s' i i' nt h,
    gp_method (st_geometry st) <> 0%Z -> follows h correction ->
    finite len -> ~ num_eq len (Fin 0) -> finite (st_minwidth st) ->
    Forall (fun a => a = NaN \/ finite a) (s_area s) ->
    same_river h n order s s' -> nth_error order i' = Some i ->
    res_rel (option_rel (fun c c' =>
        same_cross_section h c c' /\
        (st_correction st = true -> (forall g, exists r, correction g = Ok r) ->
         raised h (s_crest c) (s_crest c') /\ raised h (s_base c) (s_base c'))))
      (generate_cross_section smooth mean correction clean st name len i nt s)
      (generate_cross_section smooth mean correction clean st name len i' nt s').
Proof.
  intros smooth mean correction clean st name len n order s s' i i' nt h M F L1 L2 L3 L4 R C.
  pose proof (generate_rel smooth smooth mean mean correction clean h st name len n order s s' i i' nt M F R C
    (or_intror (conj L1 (conj L2 (conj L3 L4))))) as K.
  destruct (generate_cross_section smooth mean correction clean st name len i nt s) as [[c|]|e],
    (generate_cross_section smooth mean correction clean st name len i' nt s') as [[c'|]|e']; cbn in K |- *; auto.
  destruct K as (K1 & K2). split; [exact K1|]. intros K3 K4. apply K2. right. auto.
Qed.
Print Assumptions C99_the_datum_does_not_matter_partial.

(** ** A river of twelve faces *)

Definition bed_of (k : nat) : Q := inject_Z (Z.of_nat k) / 4.
Definition vel_of (k : nat) : Q := if Nat.eqb k 0 then 2 else 0.
(** Three time steps; the water rises a metre in each. *)
Definition case_selection (h : Q) (faces : list nat) : selection :=
  mk_selection (map (fun k => nofnat k) faces) (map (fun _ => Fin 0) faces) (map (fun _ => Fin 100) faces)
    (map (fun k => Fin (bed_of k + h)) faces)
    (map (fun k => map (fun w => npmax (Fin 0) (Fin (w - bed_of k))) [1; 2; 3]) faces)
    (map (fun k => map (fun w => if Qltb (bed_of k) w then Fin (w + h) else NaN) [1; 2; 3]) faces)
    (map (fun k => map (fun _ => Fin (vel_of k)) [1; 2; 3]) faces)
    (map (fun k => M_Geometry.LInt (if Nat.ltb k 6 then 1 else 2)) faces)
    [[Fin 40; Fin 41; Fin 42]] (map (fun _ => T "r") faces) (map (fun _ => false) faces) None [Fin 0] [Fin 0] [T "main"].
Definition case_settings (method : Z) (on : bool) : settings :=
  mk_settings (mkParams 0 1 method (Fin (1 # 10)) (Fin (15 # 100)) true) (Fin 1) 20 on (Fin (1 # 2)) 0.
Definition case_run (method : Z) (on : bool) (h : Q) (faces : list nat) (centre : nat) : res (option css) :=
  generate_cross_section rolling_rows overall_mean (fun g => Ok (hd NaN (rev (k_z (g_cols g))), Fin 10, Fin 5)) (fun x => x)
    (case_settings method on) (T "css") (Fin 100) centre 3 (case_selection h faces).

Definition one_order : list nat := [0; 1; 2; 3; 4; 5; 6; 7; 8; 9; 10; 11]%nat.
Definition other_order : list nat := [3; 1; 4; 11; 5; 0; 9; 2; 6; 10; 8; 7]%nat.

Lemma other_order_perm : Permutation other_order (seq 0 12).
Proof.
  apply NoDup_Permutation.
  - unfold other_order. repeat constructor; cbn; intuition discriminate.
  - apply seq_NoDup.
  - intro x. rewrite in_seq. unfold other_order. cbn. split; [intuition lia|].
    intros [_ H]. do 12 (destruct x as [|x]; [tauto|]). lia.
Qed.
Lemma nth_of_map {A B} (f : A -> B) l k x d : nth_error l k = Some x -> nth k (map f l) d = f x.
Proof. intro H. apply nth_error_nth. rewrite nth_error_map, H. reflexivity. Qed.
Lemma case_same_river h : 0 <= h -> same_river h 12 other_order (case_selection 0 one_order) (case_selection h other_order).
Proof.
  intro H. unfold same_river. split; [apply other_order_perm|].
  split; [cbn; repeat split|]. split; [cbn; repeat split|]. split; [|cbn; auto 10].
  intros k i K.
  assert (J : nth_error one_order i = Some i).
  { assert (B : (i < 12)%nat).
    { apply nth_error_In in K. apply (Permutation_in _ other_order_perm) in K. apply in_seq in K. lia. }
    clear -B. do 12 (destruct i as [|i]; [reflexivity|]). lia. }
  unfold same_face, case_selection.
  cbn [s_x s_y s_area s_bed s_depth s_level s_vel s_section s_region s_islake].
  rewrite !(nth_of_map _ _ _ _ _ K), !(nth_of_map _ _ _ _ _ J).
  repeat (split; [reflexivity|]). split; [apply F2_refl, num_eq_refl|]. split; [apply F2_refl, num_eq_refl|].
  split; [cbn; lra|]. apply (F2_same (raised_level h)). intros w W. destruct (Qltb (bed_of i) w).
  - right. assert (0 <= w) by (destruct W as [<-|[<-|[<-|[]]]]; lra).
    split; [cbn; intro; lra|]. split; cbn; [intro; lra|lra].
  - right. cbn. tauto.
Qed.

Lemma case_follows h : follows h (fun g => Ok (hd NaN (rev (k_z (g_cols g))), Fin 10, Fin 5)).
Proof.
  intros g g' ((Z & _) & _). cbn [res_rel fst snd]. split; [|split; reflexivity].
  apply F2_hd; [|exact I]. clear -Z. revert Z. generalize (k_z (g_cols g)) (k_z (g_cols g')). intros l m.
  induction 1 as [|a b l m E F IH]; cbn; [constructor|]. apply F2_app; auto.
Qed.

(** What of a computed cross-section is looked at below. *)
Definition got {X} (f : css -> X) (r : res (option css)) : option X := match r with Ok (Some c) => Some (f c) | _ => None end.
Lemma got_some {X} (f : css -> X) r x : got f r = Some x -> exists c, r = Ok (Some c) /\ f c = x.
Proof. destruct r as [[c|]|e]; cbn; intro H; try discriminate. injection H as H. eauto. Qed.
Definition lowest_terms (n : num) : num := match n with Fin q => Fin (Qred q) | x => x end.
Lemma lowest_terms_eq n : num_eq (lowest_terms n) n.
Proof. destruct n; cbn; try exact I. apply Qred_correct. Qed.
Lemma F2_nth_num l m k : same_column l m -> num_eq (nth k l NaN) (nth k m NaN).
Proof.
  intro H. revert k. induction H as [|a b l m E F IH]; intros [|k]; cbn; try exact I; auto.
Qed.

(** The hypotheses are met, and both runs give a cross-section of thirteen rows
    with a roughness table; the points of the output file are listed in another
    order. *)
Theorem C98_case :
  follows 0 (fun g => Ok (hd NaN (rev (k_z (g_cols g))), Fin 10, Fin 5)) /\
  same_river 0 12 other_order (case_selection 0 one_order) (case_selection 0 other_order) /\
  nth_error other_order 5 = Some 0%nat /\ other_order <> one_order /\
  exists c c', case_run 1 true 0 one_order 0 = Ok (Some c) /\ case_run 1 true 0 other_order 5 = Ok (Some c') /\
  same_cross_section 0 c c' /\ length (s_z c) = 13%nat /\ length (s_tables c) = 1%nat /\
  hd_error (s_faces c) <> hd_error (s_faces c').
Proof.
  split; [apply case_follows|]. split; [apply case_same_river; lra|]. split; [reflexivity|]. split; [discriminate|].
  pose proof (C98_the_order_of_the_faces_does_not_matter rolling_rows overall_mean _ (fun x => x) (case_settings 1 true)
    (T "css") (Fin 100) 12 other_order (case_selection 0 one_order) (case_selection 0 other_order) 0 5 3
    ltac:(cbn; discriminate) (case_follows 0) (case_same_river 0 ltac:(lra)) eq_refl) as K.
  fold (case_run 1 true 0 one_order 0) in K. fold (case_run 1 true 0 other_order 5) in K.
  pose (f := fun c => (length (s_z c), length (s_tables c), option_map (fun p => map lowest_terms (m_coords p)) (hd_error (s_faces c)))).
  destruct (got_some f (case_run 1 true 0 one_order 0) (13%nat, 1%nat, Some [Fin 0; Fin 0])) as (c & E & G); [vm_compute; reflexivity|].
  destruct (got_some f (case_run 1 true 0 other_order 5) (13%nat, 1%nat, Some [Fin 3; Fin 0])) as (c' & E' & G'); [vm_compute; reflexivity|].
  rewrite E, E' in K. destruct K as (K & _).
  unfold f in G, G'. injection G as G1 G2 G3. injection G' as _ _ G3'.
  exists c, c'. repeat (split; [assumption|]). intro B. rewrite B in G3. congruence.
Qed.
Print Assumptions C98_case.

(** The legacy method smooths the velocity over the faces before and after a
    face in the list, so that the order of the list decides which faces convey:
    the flow width in the top row is 6.001 m with the fast face first in the
    list and 10 m with the fast face in the middle of it. *)
Theorem C98_mean_method_refuted :
  same_river 0 12 other_order (case_selection 0 one_order) (case_selection 0 other_order) /\
  exists c c', case_run 0 true 0 one_order 0 = Ok (Some c) /\ case_run 0 true 0 other_order 5 = Ok (Some c') /\
  num_eq (nth 12 (s_fw c) NaN) (Fin (6001 # 1000)) /\ num_eq (nth 12 (s_fw c') NaN) (Fin 10) /\
  ~ same_column (s_fw c) (s_fw c').
Proof.
  split; [apply case_same_river; lra|].
  pose (f := fun c => lowest_terms (nth 12 (s_fw c) NaN)).
  destruct (got_some f (case_run 0 true 0 one_order 0) (Fin (6001 # 1000))) as (c & E & G); [vm_compute; reflexivity|].
  destruct (got_some f (case_run 0 true 0 other_order 5) (Fin 10)) as (c' & E' & G'); [vm_compute; reflexivity|].
  exists c, c'. split; [exact E|]. split; [exact E'|].
  unfold f in G, G'. pose proof (lowest_terms_eq (nth 12 (s_fw c) NaN)) as N. pose proof (lowest_terms_eq (nth 12 (s_fw c') NaN)) as N'.
  rewrite G in N. rewrite G' in N'.
  split; [apply num_eq_sym; exact N|]. split; [apply num_eq_sym; exact N'|].
  intro H. apply (F2_nth_num _ _ 12) in H.
  assert (X : num_eq (Fin (6001 # 1000)) (Fin 10)).
  { eapply num_eq_trans; [exact N|]. eapply num_eq_trans; [exact H|]. apply num_eq_sym. exact N'. }
  cbn in X. vm_compute in X. discriminate.
Qed.
Print Assumptions C98_mean_method_refuted.

(** The same river twenty metres higher, the faces also in another order. *)
Theorem C99_case :
  follows 20 (fun g => Ok (hd NaN (rev (k_z (g_cols g))), Fin 10, Fin 5)) /\
  same_river 20 12 other_order (case_selection 0 one_order) (case_selection 20 other_order) /\
  exists c c', case_run 1 true 0 one_order 0 = Ok (Some c) /\ case_run 1 true 20 other_order 5 = Ok (Some c') /\
  same_cross_section 20 c c' /\ raised 20 (s_crest c) (s_crest c') /\ raised 20 (s_base c) (s_base c') /\
  length (s_z c) = 13%nat /\ num_eq (s_base c) (Fin (17 # 8)).
Proof.
  split; [apply case_follows|]. split; [apply case_same_river; lra|].
  pose proof (C99_the_datum_does_not_matter_partial rolling_rows overall_mean _ (fun x => x) (case_settings 1 true)
    (T "css") (Fin 100) 12 other_order (case_selection 0 one_order) (case_selection 20 other_order) 0 5 3 20
    ltac:(cbn; discriminate) (case_follows 20) ltac:(exact I) ltac:(cbn; intro X; vm_compute in X; discriminate)
    ltac:(exact I)) as K.
  specialize (K ltac:(cbn [s_area case_selection]; apply Forall_forall; intros a A; apply in_map_iff in A;
    destruct A as (b & <- & _); right; exact I) (case_same_river 20 ltac:(lra)) eq_refl).
  fold (case_run 1 true 0 one_order 0) in K. fold (case_run 1 true 20 other_order 5) in K.
  pose (f := fun c => (length (s_z c), lowest_terms (s_base c))).
  destruct (got_some f (case_run 1 true 0 one_order 0) (13%nat, Fin (17 # 8))) as (c & E & G); [vm_compute; reflexivity|].
  destruct (got_some (fun c => tt) (case_run 1 true 20 other_order 5) tt) as (c' & E' & G'); [vm_compute; reflexivity|].
  rewrite E, E' in K. destruct K as (K & L).
  destruct (L eq_refl (fun g => ex_intro _ _ eq_refl)) as (L1 & L2).
  unfold f in G. injection G as G1 G2.
  exists c, c'. split; [exact E|]. split; [exact E'|]. split; [exact K|]. split; [exact L1|]. split; [exact L2|]. split; [exact G1|].
  rewrite <- G2. apply num_eq_sym, lowest_terms_eq.
Qed.
Print Assumptions C99_case.

(** Without the search for a summer dike its crest stays at zero, and the
    floodplain base level is kept below it: half a metre below zero for a river
    whose bed is at zero, and half a metre below zero for the same river twenty
    metres higher. *)
Theorem C99_floodplain_base_refuted :
  same_river 20 12 other_order (case_selection 0 one_order) (case_selection 20 other_order) /\
  exists c c', case_run 1 false 0 one_order 0 = Ok (Some c) /\ case_run 1 false 20 other_order 5 = Ok (Some c') /\
  raised_column 20 (s_z c) (s_z c') /\
  num_eq (s_base c) (Fin (-1 # 2)) /\ num_eq (s_base c') (Fin (-1 # 2)) /\ ~ raised 20 (s_base c) (s_base c').
Proof.
  split; [apply case_same_river; lra|].
  pose proof (C99_the_datum_does_not_matter_partial rolling_rows overall_mean _ (fun x => x) (case_settings 1 false)
    (T "css") (Fin 100) 12 other_order (case_selection 0 one_order) (case_selection 20 other_order) 0 5 3 20
    ltac:(cbn; discriminate) (case_follows 20) ltac:(exact I) ltac:(cbn; intro X; vm_compute in X; discriminate)
    ltac:(exact I)) as K.
  specialize (K ltac:(cbn [s_area case_selection]; apply Forall_forall; intros a A; apply in_map_iff in A;
    destruct A as (b & <- & _); right; exact I) (case_same_river 20 ltac:(lra)) eq_refl).
  fold (case_run 1 false 0 one_order 0) in K. fold (case_run 1 false 20 other_order 5) in K.
  pose (f := fun c => lowest_terms (s_base c)).
  destruct (got_some f (case_run 1 false 0 one_order 0) (Fin (-1 # 2))) as (c & E & G); [vm_compute; reflexivity|].
  destruct (got_some f (case_run 1 false 20 other_order 5) (Fin (-1 # 2))) as (c' & E' & G'); [vm_compute; reflexivity|].
  rewrite E, E' in K. destruct K as (K & _).
  exists c, c'. split; [exact E|]. split; [exact E'|]. split; [apply K|].
  unfold f in G, G'. pose proof (lowest_terms_eq (s_base c)) as N. pose proof (lowest_terms_eq (s_base c')) as N'.
  rewrite G in N. rewrite G' in N'. apply num_eq_sym in N, N'. split; [exact N|]. split; [exact N'|].
  destruct (s_base c) as [q| | |], (s_base c') as [q'| | |]; cbn in N, N' |- *; try contradiction.
  rewrite N, N'. intro H. vm_compute in H. discriminate.
Qed.
Print Assumptions C99_floodplain_base_refuted.
