(** Theorems for C80 and C81 on the whole way from the map file to the
    cross-sections. *)
From Coq Require Import String List Ascii ZArith QArith Qminmax Bool Lia Lqa.
From Verif Require Import PyBase Num Spec L_Num L_List Text L_Text M_Friction T_Friction M_Import M_Classify M_Polygon
  M_Data T_Neighbour T_Data M_Geometry T_Geometry M_Simplify M_Sections T_Sections M_Cli M_Pipeline T_Pipeline.
Import ListNotations.
Local Open Scope Q_scope.

Definition qval (x : num) : Q := match x with Fin q => q | _ => 0 end.
Definition finite (l : list num) : Prop := Forall (fun x => exists q, x = Fin q) l.

Lemma finite_qval l : finite l -> l = map Fin (map qval l).
Proof. induction 1 as [|x l [q ->] _ IH]; cbn; congruence. Qed.

(** Results of a calculation that ran well: all values at the faces are
    numbers, depths and areas are not negative, no level is -999, and the Chezy
    values of the links are numbers or missing. *)
Definition sound_results (f : map_file) (nf : nat) : Prop :=
  (forall i, (i < nf)%nat ->
     (exists a, value_at (v_face_area f) i = Fin a /\ 0 <= a) /\
     (exists b, value_at (v_face_bed f) i = Fin b) /\
     (exists d, series (v_waterdepth f) i = map Fin d /\ Forall (fun x => 0 <= x) d) /\
     (exists h, series (v_s1 f) i = map Fin h /\ Forall (fun x => ~ x == -999) h) /\
     finite (series (v_ucx f) i) /\ finite (series (v_ucy f) i)) /\
  (forall k, In k (internal_of f) -> Forall finite_or_nan (series (chezy_of f) k)).

Definition takes_roots (sqrt : num -> num) : Prop :=
  forall q, 0 <= q -> exists r, sqrt (Fin q) = Fin r /\ 0 <= r.

(** Face [i] as the file describes it. *)
Definition face_at (sqrt : num -> num) (f : map_file) (i : nat) (section : M_Geometry.label) : face :=
  mkFace (qval (value_at (v_face_area f) i)) (qval (value_at (v_face_bed f) i))
    (map qval (series (v_waterdepth f) i)) (dry_levels (series (v_waterdepth f) i) (series (v_s1 f) i))
    (map qval (magnitude sqrt (series (v_ucx f) i) (series (v_ucy f) i))) section.

Lemma series_length v n nt i : has_shape v n nt -> v <> None -> length (series v i) = nt.
Proof. intros S N. destruct v as [m|]; [|congruence]. cbn. rewrite map_length. apply (S m eq_refl). Qed.

Lemma magnitude_ok sqrt a b : takes_roots sqrt -> finite a -> finite b -> length b = length a ->
  exists m, magnitude sqrt a b = map Fin m /\ Forall (fun x => 0 <= x) m /\ length m = length a.
Proof.
  intros R A. revert b. induction A as [|x a [p ->] _ IH]; intros [|y b] B L; try discriminate.
  - exists []. cbn. auto.
  - inversion B as [|? ? [q ->] B']; subst. destruct (IH b B') as (m & E & P & Lm); [cbn in L; lia|].
    destruct (R (p * p + q * q)) as (r & Er & Pr); [nra|].
    exists (r :: m). unfold magnitude in *. cbn [map2 map length]. rewrite E. cbn [nmul nadd]. rewrite Er. auto.
Qed.

Lemma dry_levels_ok d h : length h = length d -> Forall (fun x => ~ x == -999) h ->
  Forall level_entry_ok (dry_levels (map Fin d) (map Fin h)) /\
  length (dry_levels (map Fin d) (map Fin h)) = length d.
Proof.
  revert h. induction d as [|x d IH]; intros [|y h] L F; try discriminate.
  - split; constructor.
  - inversion F; subst. destruct (IH h) as [A B]; [cbn in L; lia|auto|].
    unfold dry_levels in *. cbn [map map2 length]. rewrite B. split; auto.
    constructor; auto. unfold level_entry_ok. destruct (neqb _ _); [left; reflexivity|right; eauto].
Qed.

Section Faces.
  Variables (sqrt : num -> num) (f : map_file) (nf ne nn nt : nat).
  Hypothesis R : takes_roots sqrt.
  Hypothesis D : dims f nf ne nn nt.
  Hypothesis Rq : required f = true.
  Hypothesis S : sound_results f nf.

  Lemma face_at_ok i sec : (i < nf)%nat ->
    face_ok nt (face_at sqrt f i sec) /\ 0 <= f_area (face_at sqrt f i sec) /\
    value_at (v_face_area f) i = Fin (f_area (face_at sqrt f i sec)) /\
    value_at (v_face_bed f) i = Fin (f_bed (face_at sqrt f i sec)) /\
    series (v_waterdepth f) i = map Fin (f_depth (face_at sqrt f i sec)) /\
    magnitude sqrt (series (v_ucx f) i) (series (v_ucy f) i) = map Fin (f_vel (face_at sqrt f i sec)).
  Proof.
    intro H. destruct S as [SF _].
    destruct (SF i H) as ((a & Ea & Pa) & (b & Eb) & (d & Ed & Pd) & (h & Eh & Ph) & Fx & Fy).
    destruct D as (_ & _ & _ & _ & _ & _ & _ & _ & _ & _ & _ & _ & _ & Sd & Sh & _ & Sx & Sy & _).
    unfold required in Rq. rewrite !andb_true_iff in Rq.
    assert (P : v_waterdepth f <> None /\ v_s1 f <> None /\ v_ucx f <> None /\ v_ucy f <> None).
    { repeat split; intro E; rewrite E in Rq; cbn in Rq; intuition discriminate. }
    destruct P as (P1 & P2 & P3 & P4).
    pose proof (series_length _ _ _ i Sd P1) as L1. pose proof (series_length _ _ _ i Sh P2) as L2.
    pose proof (series_length _ _ _ i Sx P3) as L3. pose proof (series_length _ _ _ i Sy P4) as L4.
    destruct (magnitude_ok sqrt _ _ R Fx Fy) as (m & Em & Pm & Lm); [congruence|].
    assert (QV : forall l, map qval (map Fin l) = l) by (intro l; rewrite map_map; apply map_id).
    unfold face_at, face_ok. cbn [f_area f_bed f_depth f_level f_vel].
    rewrite Ea, Eb, Ed, Eh, Em, !QV. cbn [qval].
    rewrite Ed, map_length in L1. rewrite Eh, map_length in L2.
    destruct (dry_levels_ok d h) as [Q1 Q2]; [congruence|auto|].
    repeat split; auto; congruence.
  Qed.

  Lemma map_map2_l {A B C E} (g : A -> E) (k : C -> E) (h : A -> B -> C) l : forall m, length m = length l ->
    (forall x y, In x l -> g x = k (h x y)) -> map g l = map k (map2 h l m).
  Proof.
    induction l as [|x l IH]; intros [|y m] L H; try discriminate; [reflexivity|].
    cbn [map map2]. f_equal; [apply H; left; auto|apply IH; [cbn in L; lia|intros; apply H; right; auto]].
  Qed.
  Lemma map_map2_r {A B C} (k : C -> B) (h : A -> B -> C) l : forall m, length m = length l ->
    (forall x y, k (h x y) = y) -> m = map k (map2 h l m).
  Proof.
    induction l as [|x l IH]; intros [|y m] L H; try discriminate; [reflexivity|].
    cbn [map map2]. f_equal; [symmetry; apply H|apply IH; [cbn in L; lia|auto]].
  Qed.

  Lemma reports_describes s fi ei : reports sqrt f s fi ei -> (forall i, In i fi -> (i < nf)%nat) ->
    let faces := map2 (face_at sqrt f) fi (s_section s) in
    describes s faces /\ length faces = length fi /\ Forall (face_ok nt) faces /\
    Forall (fun x => 0 <= f_area x) faces.
  Proof.
    intros (Rx & Ry & Ra & Rb & Rd & Rl & Rv & Ls & Lr & _) Hi faces.
    assert (L : length faces = length fi) by (unfold faces; rewrite map2_length; lia).
    split; [|split; [exact L|]].
    - unfold describes, faces. rewrite Rx, Ra, Rb, Rd, Rl, Rv.
      split; [apply map_map2_l; [auto|]; intros i y I; apply (face_at_ok i y (Hi i I))|].
      split; [apply map_map2_l; [auto|]; intros i y I; apply (face_at_ok i y (Hi i I))|].
      split; [apply map_map2_l; [auto|]; intros i y I; apply (face_at_ok i y (Hi i I))|].
      split; [apply map_map2_l; [auto|]; intros i y I; reflexivity|].
      split; [apply map_map2_l; [auto|]; intros i y I; apply (face_at_ok i y (Hi i I))|].
      split; [apply map_map2_r; [auto|]; reflexivity|].
      rewrite map_length, <- L. reflexivity.
    - clear L. unfold faces. clear faces. revert Ls Hi. generalize (s_section s). clear - R D Rq S.
      induction fi as [|i fi IH]; intros [|y m] L Hi; try discriminate; [split; constructor|].
      destruct (IH m) as [A B]; [cbn in L; lia|intros; apply Hi; right; auto|].
      destruct (face_at_ok i y) as (Q1 & Q2 & _); [apply Hi; left; auto|].
      split; cbn [map2]; constructor; auto.
  Qed.

  Lemma reports_links s fi ei : reports sqrt f s fi ei -> (forall k, In k ei -> In k (internal_of f)) ->
    well_formed (links_of nt s).
  Proof.
    intros (_ & _ & _ & _ & _ & _ & _ & _ & _ & _ & _ & _ & Rc & Ls & _) Hk.
    unfold well_formed, links_of. cbn [edge_section chezy nsteps]. rewrite Rc, !map_length. split; [auto|].
    apply Forall_forall. intros r I. apply in_map_iff in I. destruct I as (k & <- & I). split.
    - destruct D as (_ & _ & _ & _ & _ & _ & _ & _ & _ & _ & _ & _ & _ & _ & _ & _ & _ & _ & S1 & S2 & _).
      unfold required in Rq. rewrite !andb_true_iff, orb_true_iff in Rq. unfold chezy_of.
      destruct (v_czu f) as [m|] eqn:E.
      + apply (series_length _ ne); [exact S1|discriminate].
      + apply (series_length _ ne); [exact S2|]. intro E'. rewrite E' in Rq. cbn in Rq. intuition discriminate.
    - apply S. apply Hk. exact I.
  Qed.
End Faces.

(** C80, end to end.  Every control volume of the map file with at least ten
    faces, a known level at its centre and water that is not at rest becomes a
    valid cross-section. *)
Theorem C80_from_the_map_file_to_the_cross_section :
  forall nearest within inside sqrt smooth mean correction clean c file mt f css dr ds regions sections c' m
         nf ne nn nt (st : settings) (sk L : nat) (method : Z) (abs_thr rel_thr minw tol : Q) (ex : bool),
    dims f nf ne nn nt -> fits c nf (length (internal_of f)) ->
    set_fm_model_data nearest within inside c file mt f css dr ds regions sections = (c', Ok m) ->
    takes_roots sqrt -> sound_results f nf ->
    st_geometry st = mkParams (Z.of_nat sk) (Z.of_nat L) method (Fin abs_thr) (Fin rel_thr) ex ->
    st_minwidth st = Fin minw -> st_base st = Fin tol -> (2 <= st_points st)%Z -> st_weighing st = 0%Z ->
    method <> 0%Z -> (sk < nt)%nat -> (L < nt - sk)%nat ->
    (forall g crest total flow, correction g = Ok (crest, total, flow) -> exists q, crest = Fin q) ->
    forall id, exists s fi ei,
      get_selection sqrt m id = Ok s /\ reports sqrt f s fi ei /\
      forall (len : Q) (centre i0 : nat) (zc : list Q),
        let faces := map2 (face_at sqrt f) fi (s_section s) in
        0 < len -> (10 <= length fi)%nat -> nth_error fi centre = Some i0 ->
        fill_centre_level (skipn sk (series (v_waterdepth f) i0))
          (skipn sk (dry_levels (series (v_waterdepth f) i0) (series (v_s1 f) i0))) = Ok (map Fin zc) ->
        (exists t x, (t < nt - sk)%nat /\ (forall u, (u < t)%nat -> nth u zc 0 < nth t zc 0) /\
                     In x faces /\ activeb sk L t x = true /\ 0 < f_area x) ->
        exists cs,
          generate_cross_section smooth mean correction clean st id (Fin len) centre nt s = Ok (Some cs) /\
          s_name cs = id /\ valid_css st minw tol len s faces zc cs /\
          s_faces cs = map (face_point clean id s) (seq 0 (length fi)) /\
          s_links cs = map (link_point clean id s) (seq 0 (length ei)).
Proof.
  intros nearest within inside sqrt smooth mean correction clean c file mt f css dr ds regions sections c' m
    nf ne nn nt st sk L method abs_thr rel_thr minw tol ex D F H R S Eg Em Eb Hp Ew Hm Hs HL Hcorr id.
  assert (Rq : required f = true).
  { destruct (required f) eqn:E; auto. pose proof (proj2 (C76_missing_variables_are_refused f nf ne nn nt D) E) as X.
    unfold set_fm_model_data in H. rewrite X in H. discriminate. }
  destruct (C76_cross_sections_get_the_data_of_the_file nearest within inside sqrt c file mt f css dr ds regions sections
    c' m nf ne nn nt D F H) as (fi & ei & Sel & Hfi & Hei & _).
  destruct (Sel id) as (s & Es & Rep). exists s, (fi id), (ei id). split; [exact Es|]. split; [exact Rep|].
  intros len centre i0 zc faces Hlen H10 Hc Hz Hwet.
  destruct (reports_describes sqrt f nf ne nn nt R D Rq S s (fi id) (ei id) Rep (proj2 (Hfi id))) as (Q1 & Q2 & Q3 & Q4).
  fold faces in Q1, Q2, Q3, Q4.
  assert (Ls : length (s_section s) = length (fi id)) by (destruct Rep as (_ & _ & _ & _ & _ & _ & _ & X & _); exact X).
  assert (Hc' : exists sec, nth_error faces centre = Some (face_at sqrt f i0 sec)).
  { unfold faces. clear - Hc Ls. revert centre Hc. generalize dependent (s_section s).
    induction (fi id) as [|x l IH]; intros [|y m'] Lm [|n] Hn; try discriminate.
    - cbn in Hn. injection Hn as ->. exists y. reflexivity.
    - apply IH; auto. }
  destruct Hc' as [sec Hc'].
  assert (Hd : series (v_waterdepth f) i0 = map Fin (f_depth (face_at sqrt f i0 sec))).
  { apply (face_at_ok sqrt f nf ne nn nt R D Rq S i0 sec). apply (Hfi id). eapply nth_error_In; eauto. }
  destruct (C80_generated_cross_section_is_valid smooth mean correction clean st id sk L nt centre method abs_thr rel_thr
    len minw tol ex s faces (face_at sqrt f i0 sec) zc) as (cs & G1 & G2 & G3); auto.
  - lia.
  - change (f_level (face_at sqrt f i0 sec)) with (dry_levels (series (v_waterdepth f) i0) (series (v_s1 f) i0)).
    rewrite <- skipn_map, <- Hd. exact Hz.
  - eapply reports_links; eauto. apply Hei.
  - exists cs. split; [exact G1|]. split; [exact G2|]. split; [exact G3|].
    destruct Rep as (R1 & R2 & _ & R4 & _ & _ & _ & R8 & R9 & R10 & R11 & R12 & _ & R14 & _).
    eapply C81_points_of_a_cross_section; [| |exact G1].
    + unfold face_columns. rewrite R1, R2, R4, R10, !map_length. auto 10.
    + unfold link_columns. rewrite R11, R12, !map_length. auto.
Qed.
Print Assumptions C80_from_the_map_file_to_the_cross_section.

(** C81, refuted: the points say is_lake = False for every face, also for the
    faces that are found to be lakes. *)
Theorem C81_lakes_are_never_marked_refuted :
  forall nearest within inside sqrt smooth mean correction clean c file mt f css dr ds regions sections c' m
         nf ne nn nt st id s len centre cs,
    dims f nf ne nn nt -> fits c nf (length (internal_of f)) ->
    set_fm_model_data nearest within inside c file mt f css dr ds regions sections = (c', Ok m) ->
    get_selection sqrt m id = Ok s ->
    generate_cross_section smooth mean correction clean st id len centre nt s = Ok (Some cs) ->
    Forall (fun p => p_lake (m_props p) = false) (s_faces cs).
Proof.
  intros nearest within inside sqrt smooth mean correction clean c file mt f css dr ds regions sections c' m
    nf ne nn nt st id s len centre cs D F H Es G.
  destruct (C76_cross_sections_get_the_data_of_the_file nearest within inside sqrt c file mt f css dr ds regions sections
    c' m nf ne nn nt D F H) as (fi & ei & Sel & _).
  destruct (Sel id) as (s' & Es' & Rep). rewrite Es in Es'. injection Es' as <-.
  destruct Rep as (R1 & R2 & _ & R4 & _ & _ & _ & R8 & R9 & R10 & R11 & R12 & _ & R14 & _).
  destruct (C81_points_of_a_cross_section smooth mean correction clean st id len centre nt s cs (length (fi id)) (length (ei id)))
    as [E _].
  - unfold face_columns. rewrite R1, R2, R4, R10, !map_length. auto 10.
  - unfold link_columns. rewrite R11, R12, !map_length. auto.
  - exact G.
  - rewrite E. apply Forall_forall. intros p I. apply in_map_iff in I. destruct I as (i & <- & I). apply in_seq in I.
    cbn [face_point m_props p_lake]. rewrite R10.
    destruct (nth_in_or_default i (map (fun _ : nat => false) (fi id)) false) as [X|X]; [|exact X].
    apply in_map_iff in X. destruct X as (? & X & _). auto.
Qed.
Print Assumptions C81_lakes_are_never_marked_refuted.

(** A case: ten faces in a row, one link, three time steps. *)
Definition row_matrix (n : nat) (g : nat -> nat -> Q) : option matrix :=
  Some (mk_matrix n (map (fun t => map (fun i => Fin (g t i)) (seq 0 n)) (seq 0 3))).
Definition qn (n : nat) : Q := inject_Z (Z.of_nat n).
Definition ten_faces : map_file :=
  mk_map_file (Some (map qn (seq 0 10))) (Some (repeat 0 10)) (Some (repeat (Fin 20) 10))
    (Some (map (fun i => Fin (qn i)) (seq 0 10))) (Some (repeat (1, [2; 3])%Z 10)) (Some [1]%Z)
    (Some [0]) (Some [0]) (Some [[1; 2]%nat]) (Some [(1, 2)%Z]) (Some [0; 1]) (Some [0; 0]) (Some [Fin 0; Fin 60; Fin 120])
    (row_matrix 10 (fun t i => Qmax 0 (qn t * 4 + 1 - qn i))) (row_matrix 10 (fun t i => Qmax (qn i) (qn t * 4 + 1)))
    (row_matrix 10 (fun t i => 30 + qn i)) (row_matrix 1 (fun t i => 40)) None
    (row_matrix 10 (fun t i => 1)) (row_matrix 10 (fun t i => 0)) (row_matrix 1 (fun t i => 1)).
Definition ten_faces_css : res (option css) :=
  match snd (set_fm_model_data first_nearest (fun _ _ => false) (fun _ _ => false) (fun _ => None) (T "map.nc") (0, 0)%Z
               ten_faces (Ok (mk_columns [(0, 0)] [T "a"] [T "r"] [1] [0])) VNull VNull None None) with
  | Ok m =>
      match get_selection (fun x => x) m (T "a") with
      | Ok s => generate_cross_section (fun x => x) (fun _ _ => Fin 0) (fun _ => Raise ValueError) (fun x => x)
                  example_settings (T "a") (Fin 10) 0 3 s
      | Raise e => Raise e
      end
  | Raise e => Raise e
  end.
Example C80_whole_case :
  takes_roots (fun x => x) /\ dims ten_faces 10 1 2 3 /\ sound_results ten_faces 10 /\
  exists cs, ten_faces_css = Ok (Some cs) /\ (2 <= length (s_z cs) <= 6)%nat /\ length (s_faces cs) = 10%nat /\
    length (s_links cs) = 1%nat /\ length (s_tables cs) = 1%nat.
Proof.
  split; [intros q H; eauto|]. split; [|split].
  - unfold dims, ten_faces, has_length, has_shape, row_matrix; cbn -[repeat seq map].
    repeat split; intros; repeat match goal with H : Some _ = Some _ |- _ => injection H as <- end;
      try discriminate; try reflexivity.
  - split.
    + intros i Hi.
      assert (F : (forall (P : nat -> Prop), P 0 -> P 1 -> P 2 -> P 3 -> P 4 -> P 5 -> P 6 -> P 7 -> P 8 -> P 9 -> P i)%nat).
      { intros P. do 10 (destruct i as [|i]; [tauto|]). lia. }
      unfold finite. apply F; vm_compute;
        (split; [eexists; split; [reflexivity|vm_compute; discriminate]|]);
        (split; [eexists; reflexivity|]);
        (split; [eexists; split; [instantiate (1 := [_; _; _]); reflexivity|
                 repeat apply Forall_cons; [..|apply Forall_nil]; vm_compute; discriminate]|]);
        (split; [eexists; split; [instantiate (1 := [_; _; _]); reflexivity|
                 repeat apply Forall_cons; [..|apply Forall_nil]; vm_compute; discriminate]|]);
        (split; repeat apply Forall_cons; try apply Forall_nil; eexists; reflexivity).
    + intros k Hk. vm_compute in Hk. destruct Hk as [<-|[]]. vm_compute. repeat apply Forall_cons; try apply Forall_nil; exact I.
  - eexists. split; [vm_compute; reflexivity|]. cbn [s_z s_faces s_links s_tables length]. lia.
Qed.
