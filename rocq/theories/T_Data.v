(** Theorems for C76, C77 and C78: what reaches the cross-sections of the 2D
    results in the map file. *)
From Coq Require Import String List Ascii ZArith QArith Bool Lia.
From Verif Require Import PyBase Num Text L_Text L_List L_Num M_Geometry M_Import M_Classify M_Polygon M_Data.
From Verif Require Import T_Select T_Neighbour.
Import ListNotations.

(** * What a map file says *)

(** A variable has the given dimension, if it is in the file. *)
Definition has_length {A} (v : option (list A)) (n : nat) : Prop := forall l, v = Some l -> length l = n.
Definition has_shape (v : option matrix) (points steps : nat) : Prop :=
  forall m, v = Some m -> m_points m = points /\ length (m_steps m) = steps.

(** The dimensions of a netCDF file: [nf] faces, [ne] edges, [nn] nodes and [nt]
    time steps. *)
Definition dims (f : map_file) (nf ne nn nt : nat) : Prop :=
  has_length (v_face_x f) nf /\ has_length (v_face_y f) nf /\ has_length (v_face_area f) nf /\
  has_length (v_face_bed f) nf /\ has_length (v_face_nodes f) nf /\
  has_length (v_edge_type f) ne /\ has_length (v_edge_x f) ne /\ has_length (v_edge_y f) ne /\
  has_length (v_edge_faces f) ne /\ has_length (v_edge_nodes f) ne /\
  has_length (v_node_x f) nn /\ has_length (v_node_y f) nn /\ has_length (v_time f) nt /\
  has_shape (v_waterdepth f) nf nt /\ has_shape (v_s1 f) nf nt /\ has_shape (v_czs f) nf nt /\
  has_shape (v_ucx f) nf nt /\ has_shape (v_ucy f) nf nt /\
  has_shape (v_czu f) ne nt /\ has_shape (v_cftrt f) ne nt /\ has_shape (v_u1 f) ne nt.

(** The value of a variable at a point, and its values over time. *)
Definition coord_at (v : option (list Q)) (i : nat) : num :=
  match v with Some l => Fin (nth i l 0%Q) | None => NaN end.
Definition value_at (v : option (list num)) (i : nat) : num :=
  match v with Some l => nth i l NaN | None => NaN end.
Definition series (v : option matrix) (i : nat) : list num :=
  match v with Some m => map (fun step => nth i step NaN) (m_steps m) | None => [] end.

(** The edges of type 1, in the order of the file. *)
Definition internal_of (f : map_file) : list nat :=
  match v_edge_type f with
  | Some types => filter (fun k => Z.eqb (nth k types 0%Z) 1) (seq 0 (length types))
  | None => []
  end.

(** The Chezy values of the edges: mesh2d_czu, in older files mesh2d_cftrt. *)
Definition chezy_of (f : map_file) : option matrix :=
  match v_czu f with Some m => Some m | None => v_cftrt f end.

(** A selection holds the rows of the faces [fi] and of the edges [ei]. *)
Definition reports (sqrt : num -> num) (f : map_file) (s : selection) (fi ei : list nat) : Prop :=
  s_x s = map (coord_at (v_face_x f)) fi /\
  s_y s = map (coord_at (v_face_y f)) fi /\
  s_area s = map (value_at (v_face_area f)) fi /\
  s_bed s = map (value_at (v_face_bed f)) fi /\
  s_depth s = map (series (v_waterdepth f)) fi /\
  s_level s = map (fun i => dry_levels (series (v_waterdepth f) i) (series (v_s1 f) i)) fi /\
  s_vel s = map (fun i => magnitude sqrt (series (v_ucx f) i) (series (v_ucy f) i)) fi /\
  length (s_section s) = length fi /\ length (s_region s) = length fi /\
  s_islake s = map (fun _ => false) fi /\      (* the lakes are not in the file *)
  s_edge_x s = map (coord_at (v_edge_x f)) ei /\
  s_edge_y s = map (coord_at (v_edge_y f)) ei /\
  s_chezy s = map (series (chezy_of f)) ei /\
  length (s_edge_section s) = length ei /\
  s_edge_faces s = match v_edge_faces f with
                   | Some l => Some (map (fun k => nth k l []) ei)
                   | None => None
                   end.

(** Labels that were cached for this mesh. *)
Definition fits (c : caches) (nf ni : nat) : Prop :=
  forall n m fl el, c n = Some (Whole m fl el) -> length fl = nf /\ length el = ni.

(** * Lemmas *)

Lemma variable_ok {A} (v : option A) x : variable v = Ok x -> v = Some x.
Proof. destruct v; cbn; congruence. Qed.

Lemma column_ok {A B} (rows : list A) (col r : list B) : column rows col = Ok r -> r = col /\ length col = length rows.
Proof.
  unfold column. destruct (Nat.eqb _ _) eqn:E; [|discriminate]. intro H. apply Nat.eqb_eq in E. split; congruence.
Qed.

Lemma bind_ok {A B} (m : res A) (k : A -> res B) r : bind m k = Ok r -> exists a, m = Ok a /\ k a = Ok r.
Proof. destruct m; cbn; [eauto|discriminate]. Qed.

Tactic Notation "step" hyp(H) ident(x) ident(E) := apply bind_ok in H; destruct H as (x & E & H).

Lemma transpose_length v : length (transpose v) = m_points v.
Proof. unfold transpose. rewrite map_length, seq_length. auto. Qed.

Lemma transpose_nth v i : (i < m_points v)%nat -> nth i (transpose v) [] = series (Some v) i.
Proof.
  intro H. unfold transpose.
  rewrite nth_indep with (d' := (fun j => map (fun step => nth j step NaN) (m_steps v)) 0%nat)
    by (rewrite map_length, seq_length; auto).
  rewrite (map_nth (fun j => map (fun step => nth j step NaN) (m_steps v))), seq_nth by auto. reflexivity.
Qed.

Lemma internal_mask {A} (d : A) types (l : list A) : length types = length l ->
  select (internal_edges types) l =
  map (fun k => nth k l d) (filter (fun k => Z.eqb (nth k types 0%Z) 1) (seq 0 (length types))).
Proof.
  intro H. unfold internal_edges. rewrite (select_seq d _ l 0) by (rewrite map_length; auto). rewrite <- H.
  rewrite (filter_ext_in (fun i => nth (i - 0) (map (fun t => Z.eqb t 1) types) false)
             (fun k => Z.eqb (nth k types 0%Z) 1)).
  - apply map_ext. intro i. rewrite Nat.sub_0_r. auto.
  - intros i I. apply in_seq in I. rewrite Nat.sub_0_r.
    rewrite nth_indep with (d' := (fun t => Z.eqb t 1) 0%Z) by (rewrite map_length; lia).
    apply (map_nth (fun t => Z.eqb t 1) types 0%Z).
Qed.

Lemma filter_mask_length types :
  length (filter (fun b : bool => b) (internal_edges types)) =
  length (filter (fun k => Z.eqb (nth k types 0%Z) 1) (seq 0 (length types))).
Proof.
  assert (E : forall m, length (filter (fun b : bool => b) m) = length (select m m)).
  { induction m as [|[|] m IH]; cbn; auto. }
  rewrite E.
  assert (L : length types = length (internal_edges types)) by (unfold internal_edges; rewrite map_length; auto).
  rewrite (internal_mask false types (internal_edges types) L), map_length. reflexivity.
Qed.

(** The tables hold what the file says. *)
Definition faces_hold (f : map_file) (nf : nat) (t : face_table) : Prop :=
  v_face_x f = Some (t_x t) /\ v_face_y f = Some (t_y t) /\ v_face_area f = Some (t_area t) /\
  v_face_bed f = Some (t_bed t) /\ length (t_region t) = nf /\ length (t_section t) = nf /\
  length (t_class t) = nf /\ length (t_islake t) = nf /\ Forall (eq false) (t_islake t).

Definition kept {A} (d : A) (f : map_file) (v : option (list A)) : option (list A) :=
  match v with Some l => Some (map (fun k => nth k l d) (internal_of f)) | None => None end.

Definition edges_hold (f : map_file) (l : edge_table) : Prop :=
  l_x l = kept 0%Q f (v_edge_x f) /\ l_y l = kept 0%Q f (v_edge_y f) /\ l_faces l = kept [] f (v_edge_faces f) /\
  length (l_class l) = length (internal_of f) /\ length (l_section l) = length (internal_of f) /\
  length (l_region l) = length (internal_of f).

Definition results_hold (f : map_file) (nf : nat) (td : results) : Prop :=
  d_depth td = map (series (v_waterdepth f)) (seq 0 nf) /\
  d_level td = map (series (v_s1 f)) (seq 0 nf) /\
  d_chezy_mean td = map (series (v_czs f)) (seq 0 nf) /\
  d_vx td = map (series (v_ucx f)) (seq 0 nf) /\ d_vy td = map (series (v_ucy f)) (seq 0 nf) /\
  d_chezy_edge td = map (series (chezy_of f)) (internal_of f).

Lemma import_frame_ok f v nf nt r : has_shape v nf nt -> import_frame f v = Ok r ->
  r = map (series v) (seq 0 nf).
Proof.
  intros S H. unfold import_frame in H. step H m Em. step H time Et. apply variable_ok in Em. subst v.
  destruct (S m eq_refl) as [P _]. unfold frame in H. destruct (Nat.eqb _ _); [|discriminate].
  injection H as <-. unfold transpose. rewrite P. reflexivity.
Qed.

Lemma edge_frame_ok f v ne nt r types : has_length (v_edge_type f) ne -> v_edge_type f = Some types ->
  has_shape v ne nt -> import_edge_frame f (internal_edges types) v = Ok r ->
  r = map (series v) (internal_of f).
Proof.
  intros L E S H. unfold import_edge_frame in H. step H m Em. step H rows Er. step H time Et.
  apply variable_ok in Em. subst v. destruct (S m eq_refl) as [P _].
  destruct (Nat.eqb _ _); [|discriminate]. injection H as ->.
  unfold mask_index in Er. destruct (Nat.eqb _ _) eqn:B; [|discriminate]. injection Er as <-.
  assert (T : length types = length (transpose m)) by (rewrite transpose_length, P; apply L; auto).
  rewrite (internal_mask [] types _ T). unfold internal_of. rewrite E.
  apply map_ext_in. intros k I. apply filter_In in I. destruct I as [I _]. apply in_seq in I.
  apply transpose_nth. rewrite <- transpose_length, <- T. lia.
Qed.

Lemma chezy_ok f ne nt r types : has_length (v_edge_type f) ne -> v_edge_type f = Some types ->
  has_shape (v_czu f) ne nt -> has_shape (v_cftrt f) ne nt -> (exists time, v_time f = Some time) ->
  import_chezy f (internal_edges types) = Ok r ->
  r = map (series (chezy_of f)) (internal_of f).
Proof.
  intros L E S1 S2 (time & Ht) H. unfold import_chezy in H. unfold chezy_of.
  destruct (v_czu f) as [m|] eqn:C.
  - destruct (import_edge_frame f (internal_edges types) (Some m)) as [r'|e] eqn:I.
    + injection H as <-. eapply edge_frame_ok; eauto.
    + exfalso. unfold import_edge_frame in I. cbn [variable of_option bind] in I.
      unfold mask_index in I.
      destruct (Nat.eqb (length (internal_edges types)) (length (transpose m))); cbn [bind] in I.
      2: { injection I as <-. discriminate. }
      rewrite Ht in I. cbn [variable of_option bind] in I.
      destruct (Nat.eqb _ _); [discriminate|]. injection I as <-. discriminate.
  - cbn [import_edge_frame variable of_option bind] in H. eapply edge_frame_ok; eauto.
Qed.

Lemma edge_column_ok {A} (d : A) f ne (v : option (list A)) types r :
  has_length (v_edge_type f) ne -> v_edge_type f = Some types ->
  edge_column (internal_edges types) v = Ok r -> r = kept d f v.
Proof.
  intros L E H. unfold edge_column in H. destruct v as [l|]; [|injection H as <-; reflexivity].
  step H l' El. injection H as <-. unfold mask_index in El. destruct (Nat.eqb _ _) eqn:B; [|discriminate].
  injection El as <-. cbn [kept]. f_equal. unfold internal_of. rewrite E.
  apply internal_mask. apply Nat.eqb_eq in B. unfold internal_edges in B. rewrite map_length in B. auto.
Qed.

Lemma import_ok f nf ne nn nt t l td : dims f nf ne nn nt -> import_dflow2d f = Ok (t, l, td) ->
  faces_hold f nf t /\ edges_hold f l /\ results_hold f nf td.
Proof.
  intros (Fx & Fy & Fa & Fb & Fn & Et & Ex & Ey & Ef & En & Nx & Ny & Ti & D & S1 & Cs & Ux & Uy & Cu & Cf & U) H.
  unfold import_dflow2d in H. step H t' Ht. step H types Hty. step H l' Hl. step H u Hn. step H td' Htd.
  injection H as -> -> ->. apply variable_ok in Hty.
  split; [|split].
  - unfold import_faces in Ht. step Ht x H1. step Ht y0 H2. step Ht y H3. step Ht a0 H4. step Ht area H5.
    step Ht b0 H6. step Ht bed H7.
    injection Ht as <-. apply variable_ok in H1, H2, H4, H6.
    apply column_ok in H3, H5, H7. destruct H3 as [-> ?], H5 as [-> ?], H7 as [-> ?].
    unfold faces_hold. cbn [t_x t_y t_area t_bed t_region t_section t_class t_islake].
    rewrite !map_length. rewrite (Fx x H1) in *. repeat split; auto; try congruence.
    apply Forall_forall. intros b Ib. apply in_map_iff in Ib. destruct Ib as (? & <- & _). reflexivity.
  - unfold import_edges in Hl. step Hl x H1. step Hl y H2. step Hl fc H3. step Hl no H4. injection Hl as <-.
    unfold edges_hold. cbn [l_x l_y l_faces l_class l_section l_region]. rewrite !map_length.
    assert (I : length (filter (fun b : bool => b) (internal_edges types)) = length (internal_of f)).
    { rewrite filter_mask_length. unfold internal_of. rewrite Hty. auto. }
    repeat split; auto; eapply edge_column_ok; eauto.
  - unfold import_results in Htd. step Htd de H1. step Htd lv H2. step Htd cz H3. step Htd ch H4. step Htd vx H5.
    step Htd vy H6. step Htd uu H7.
    injection Htd as <-. unfold results_hold. cbn [d_depth d_level d_chezy_mean d_chezy_edge d_vx d_vy].
    repeat split; try (eapply import_frame_ok; eassumption).
    eapply chezy_ok; try eassumption.
    unfold import_frame in H1. step H1 m Hm. step H1 time Htm. exists time. apply variable_ok; auto.
Qed.

Lemma map_res_len {A B} (g : A -> res B) l r : map_res g l = Ok r -> length r = length l.
Proof.
  revert r. induction l as [|x l IH]; intros r H; cbn in H.
  - injection H as <-. auto.
  - destruct (g x); [|discriminate]. destruct (map_res g l); [|discriminate]. injection H as <-.
    cbn. f_equal. auto.
Qed.

Lemma gridpoints_lengths inside u p ps f nf ne nn nt g fl el : dims f nf ne nn nt ->
  mesh_grid f = Ok g -> gridpoints inside u p ps g = Ok (fl, el) ->
  length fl = nf /\ length el = length (internal_of f).
Proof.
  intros (Fx & Fy & Fa & Fb & Fn & Et & Ex & Ey & Ef & En & _) Hg H.
  unfold mesh_grid in Hg. step Hg x H1. step Hg y H2. step Hg edges H3. step Hg faces H4. step Hg types H5.
  injection Hg as <-. apply variable_ok in H3, H4, H5.
  unfold gridpoints in H. step H fl' HF. step H el' HE. injection H as -> ->.
  unfold faces_in_polygon in HF. step HF lb HL. apply map_res_len in HF. cbn [g_faces] in HF.
  rewrite map_length, (Fn _ H4) in HF. split; auto.
  unfold edges_in_polygon in HE. step HE lb' HL'. step HE firsts HM. apply map_res_len in HE. rewrite HE.
  unfold mask_index in HM. destruct (Nat.eqb _ _); [|discriminate]. injection HM as <-.
  cbn [g_edge_type g_edges]. change (map (fun t => Z.eqb t 1) types) with (internal_edges types).
  rewrite (internal_mask 0%Z).
  2: { rewrite map_length, (En _ H3), (Et _ H5). auto. }
  rewrite map_length. unfold internal_of. rewrite H5. reflexivity.
Qed.

Lemma classify_grid_lengths inside c file mt f nf ne nn nt u p ps : dims f nf ne nn nt ->
  fits c nf (length (internal_of f)) ->
  fits (fst (classify_grid inside c file mt f u p ps)) nf (length (internal_of f)) /\
  forall fl el, snd (classify_grid inside c file mt f u p ps) = Ok (fl, el) ->
    length fl = nf /\ length el = length (internal_of f).
Proof.
  intros D F. unfold classify_grid.
  assert (G : forall fl el, (g <- mesh_grid f;; gridpoints inside u p ps g) = Ok (fl, el) ->
    length fl = nf /\ length el = length (internal_of f)).
  { intros fl el H. step H g Hg. eapply gridpoints_lengths; eauto. }
  destruct (g <- mesh_grid f;; gridpoints inside u p ps g) as [[fl0 el0]|e] eqn:E.
  - specialize (G fl0 el0 eq_refl).
    assert (P : forall c0 name, fits c0 nf (length (internal_of f)) ->
              fits (put_cache name (Whole mt fl0 el0) c0) nf (length (internal_of f))).
    { intros c0 name F0 n m fl el. unfold put_cache. destruct (teqb n name); [|apply F0].
      intro X. injection X as <- <- <-. auto. }
    unfold get_gridpoints. cbn [c_file c_prop c_force c_meta c_labels].
    destruct (c (cache_name file p)) as [[m fl1 el1|]|] eqn:C; cbn [fst snd].
    + destruct (meta_eqb mt m); cbn [fst snd].
      * split; auto. intros fl el X. injection X as <- <-. eapply F; eauto.
      * split; auto. intros fl el X. injection X as <- <-. auto.
    + split; [exact F|]. intros ? ? ?; discriminate.
    + split; auto. intros fl el X. injection X as <- <-. auto.
  - unfold get_gridpoints. cbn [c_file c_prop c_force c_meta c_labels].
    destruct (c (cache_name file p)) as [[m fl1 el1|]|] eqn:C; cbn [fst snd].
    + destruct (meta_eqb mt m); cbn [fst snd]; (split; [exact F|]); intros fl el X; [|discriminate].
      injection X as <- <-. eapply F; eauto.
    + split; [exact F|]. intros ? ? ?; discriminate.
    + split; [exact F|]. intros ? ? ?; discriminate.
Qed.

Lemma predict_len nearest xy ids pts r : predict nearest xy ids pts = Ok r -> length r = length pts.
Proof. unfold predict. destruct xy, pts; try discriminate. intro H. injection H as <-. cbn. rewrite map_length. auto. Qed.

Lemma regions_len nearest xy ids css_regions faces fr links er : forall rs st fc ec,
  fold_res (region_step nearest xy ids css_regions faces fr links er) rs st = Ok (fc, ec) ->
  length fc = length (fst st) /\ length ec = length (snd st).
Proof.
  induction rs as [|r rs IH]; intros st fc ec H; cbn [fold_res] in H.
  - injection H as ->. auto.
  - destruct (region_step _ _ _ _ _ _ _ _ st r) as [st'|] eqn:E; [|discriminate].
    destruct (IH _ _ _ H) as [-> ->]. unfold region_step in E.
    destruct (select _ ids) as [|i is]; [injection E as <-; auto|].
    step E a Ea. step E b Eb. injection E as <-. cbn [fst snd]. rewrite !put_where_length. auto.
Qed.

Lemma assign_classes_ok nearest within inside c file mt f nf ne nn nt xy ids dr ps t l : dims f nf ne nn nt ->
  fits c nf (length (internal_of f)) -> faces_hold f nf t -> edges_hold f l ->
  fits (fst (assign_classes nearest within inside c file mt f xy ids dr ps t l)) nf (length (internal_of f)) /\
  forall t1 l1, snd (assign_classes nearest within inside c file mt f xy ids dr ps t l) = Ok (t1, l1) ->
    faces_hold f nf t1 /\ edges_hold f l1 /\ t_section t1 = t_section t /\ l_section l1 = l_section l.
Proof.
  intros D F (Tx & Ty & Ta & Tb & Tr & Ts & Tc & Ti & Tl) (Lx & Ly & Lf & Lc & Ls & Lr).
  assert (NX : length (t_x t) = nf) by (destruct D as (Fx & _); auto).
  assert (NY : length (t_y t) = nf) by (destruct D as (_ & Fy & _); auto).
  destruct ps as [ps|]; cbn [assign_classes fst snd].
  - destruct (classify_grid_lengths inside c file mt f nf ne nn nt dr (T "region") ps D F) as [F' G].
    split; auto. intros t1 l1 H.
    destruct (classify_grid inside c file mt f dr (T "region") ps) as [c1 [[fl el]|e]]; cbn [fst snd] in *; [|discriminate].
    destruct (G fl el eq_refl) as [G1 G2]. cbn [bind fst snd] in H.
    step H fr Hfr. apply column_ok in Hfr. destruct Hfr as [-> Hfr].
    step H cl Hcl. step H x Hx. step H y Hy. step H cls Hc. injection H as <- <-.
    unfold classify_with_regions in Hc. destruct cls as [fc ec]. apply regions_len in Hc. cbn [fst snd] in Hc.
    rewrite map_length in Hc. destruct Hc as [C1 C2].
    unfold faces_hold, edges_hold.
    cbn [t_x t_y t_area t_bed t_region t_section t_class t_islake l_x l_y l_faces l_class l_section l_region fst snd].
    rewrite !map_length. repeat split; auto; congruence.
  - split; auto. intros t1 l1 H. step H x Hx. step H y Hy. step H cls Hc. injection H as <- <-.
    unfold classify_without_regions in Hc. step Hc a Ha. step Hc b Hb. injection Hc as <-.
    apply predict_len in Ha, Hb. apply variable_ok in Hx, Hy.
    unfold point in Ha, Hb. rewrite combine_length in Ha, Hb.
    assert (X : length x = length (internal_of f)).
    { rewrite Lx in Hx. destruct (v_edge_x f); [|discriminate]. cbn in Hx. injection Hx as <-. apply map_length. }
    assert (Y : length y = length (internal_of f)).
    { rewrite Ly in Hy. destruct (v_edge_y f); [|discriminate]. cbn in Hy. injection Hy as <-. apply map_length. }
    unfold faces_hold, edges_hold.
    cbn [t_x t_y t_area t_bed t_region t_section t_class t_islake l_x l_y l_faces l_class l_section l_region fst snd].
    repeat split; auto; try lia.
Qed.

Lemma variance_len {A} (one two : A) labels values r : length labels = length values ->
  classify_by_variance one two labels values = Ok r -> length r = length labels.
Proof.
  intros L H. unfold classify_by_variance in H. step H lo Hlo. step H hi Hhi. step H sc Hsc.
  destruct (Nat.ltb _ _).
  - injection H as <-. apply map_length.
  - destruct (nanargmin _) as [[k v]|]; [|discriminate]. injection H as <-.
    rewrite !map2_length. lia.
Qed.

Lemma assign_sections_ok inside c file mt f nf ne nn nt steps ds ps td t l : dims f nf ne nn nt ->
  fits c nf (length (internal_of f)) -> faces_hold f nf t -> edges_hold f l -> results_hold f nf td ->
  fits (fst (assign_sections inside c file mt f steps ds ps td t l)) nf (length (internal_of f)) /\
  forall t1 l1, snd (assign_sections inside c file mt f steps ds ps td t l) = Ok (t1, l1) ->
    faces_hold f nf t1 /\ edges_hold f l1 /\ t_class t1 = t_class t /\ l_class l1 = l_class l /\
    t_region t1 = t_region t.
Proof.
  intros D F (Tx & Ty & Ta & Tb & Tr & Ts & Tc & Ti & Tl) (Lx & Ly & Lf & Lc & Ls & Lr) (D1 & D2 & D3 & D4 & D5 & D6).
  assert (NX : length (t_x t) = nf) by (destruct D as (Fx & _); auto).
  destruct ps as [ps|]; cbn [assign_sections fst snd].
  - destruct (classify_grid_lengths inside c file mt f nf ne nn nt ds (T "section") ps D F) as [F' G].
    split; auto. intros t1 l1 H.
    destruct (classify_grid inside c file mt f ds (T "section") ps) as [c1 [[fl el]|e]]; cbn [fst snd] in *; [|discriminate].
    destruct (G fl el eq_refl) as [G1 G2]. cbn [bind fst snd] in H.
    step H fr Hfr. apply column_ok in Hfr. destruct Hfr as [-> Hfr]. injection H as <- <-.
    unfold faces_hold, edges_hold.
    cbn [t_x t_y t_area t_bed t_region t_section t_class t_islake l_x l_y l_faces l_class l_section l_region fst snd].
    rewrite !map_length. repeat split; auto; congruence.
  - split; auto. intros t1 l1 H. step H ev Hev. step H es Hes. step H fv Hfv. step H fs Hfs. injection H as <- <-.
    unfold end_values in Hev, Hfv. destruct steps; [discriminate|]. injection Hev as <-. injection Hfv as <-.
    apply variance_len in Hes; [|rewrite map_length, D6, map_length; auto].
    apply variance_len in Hfs; [|rewrite map_length, D3, map_length, seq_length; auto].
    unfold faces_hold, edges_hold.
    cbn [t_x t_y t_area t_bed t_region t_section t_class t_islake l_x l_y l_faces l_class l_section l_region fst snd].
    repeat split; auto; congruence.
Qed.

Section Whole.
  Variables (nearest : list point -> point -> nat) (within inside : ring -> point -> bool).

  (** What set_fm_model_data gives, in terms of its steps. *)
  Lemma set_data_inv c file mt f css dr ds regions sections c' m :
    set_fm_model_data nearest within inside c file mt f css dr ds regions sections = (c', Ok m) ->
    exists t l td d ro so,
      import_dflow2d f = Ok (t, l, td) /\ css = Ok d /\
      (regions = None /\ ro = None \/ exists ps, regions = Some (Ok ps) /\ ro = Some ps) /\
      (sections = None /\ so = None \/ exists ps, sections = Some (Ok ps) /\ so = Some ps) /\
      exists t1 l1 t2 l2,
        snd (assign_classes nearest within inside c file mt f (c_xy d) (c_id d) dr ro t l) = Ok (t1, l1) /\
        (let steps := match v_time f with Some time => length time | None => O end in
         let a := assign_classes nearest within inside c file mt f (c_xy d) (c_id d) dr ro t l in
         let s := assign_sections inside (fst a) file mt f steps ds so td t1 l1 in
         snd s = Ok (t2, l2) /\ c' = fst s) /\
        mesh_of t2 l2 td = Ok m.
  Proof.
    unfold set_fm_model_data. intro H.
    destruct (import_dflow2d f) as [[[t l] td]|e] eqn:EI; [|discriminate].
    destruct css as [d|e]; [|discriminate].
    assert (E : exists ro so,
      (regions = None /\ ro = None \/ exists ps, regions = Some (Ok ps) /\ ro = Some ps) /\
      (sections = None /\ so = None \/ exists ps, sections = Some (Ok ps) /\ so = Some ps) /\
      ro = match regions with Some (Ok ps) => Some ps | _ => None end /\
      so = match sections with Some (Ok ps) => Some ps | _ => None end).
    { destruct regions as [[ps|e]|], sections as [[ps'|e']|]; try discriminate;
        do 2 eexists; (split; [|split; [|split; reflexivity]]); eauto. }
    destruct E as (ro & so & R & S & Ero & Eso).
    exists t, l, td, d, ro, so. do 4 (split; [auto|]).
    assert (H' : (let a := assign_classes nearest within inside c file mt f (c_xy d) (c_id d) dr ro t l in
        match snd a with
        | Raise e => (fst a, Raise e)
        | Ok (t1, l1) =>
            let steps := match v_time f with Some time => length time | None => O end in
            let s := assign_sections inside (fst a) file mt f steps ds so td t1 l1 in
            (fst s, tl <- snd s ;; mesh_of (fst tl) (snd tl) td)
        end) = (c', Ok m)).
    { rewrite Ero, Eso. destruct regions as [[ps|e]|], sections as [[ps'|e']|]; try discriminate; exact H. }
    clear H. cbv zeta in H'.
    destruct (snd (assign_classes nearest within inside c file mt f (c_xy d) (c_id d) dr ro t l)) as [[t1 l1]|e] eqn:EA;
      [|discriminate].
    injection H' as Hc Hm.
    destruct (snd (assign_sections inside _ file mt f _ ds so td t1 l1)) as [[t2 l2]|e] eqn:ES; [|discriminate].
    exists t1, l1, t2, l2. split; [reflexivity|]. split; [cbv zeta; split; [exact ES|symmetry; exact Hc]|].
    exact Hm.
  Qed.

  Lemma reports_selection sqrt f nf ne nn nt t l td m id : dims f nf ne nn nt ->
    faces_hold f nf t -> edges_hold f l -> results_hold f nf td -> mesh_of t l td = Ok m ->
    exists s, get_selection sqrt m id = Ok s /\
      reports sqrt f s (members id (t_class t))
        (map (fun k => nth k (internal_of f) 0%nat) (members id (l_class l))) /\
      f_class m = t_class t /\ e_class m = l_class l.
  Proof.
    intros D (Tx & Ty & Ta & Tb & Tr & Ts & Tc & Ti & Tl) (Lx & Ly & Lf & Lc & Ls & Lr) (D1 & D2 & D3 & D4 & D5 & D6) H.
    destruct D as (Fx & Fy & Fa & Fb & _).
    unfold mesh_of in H. step H x Hx. step H y Hy. injection H as <-.
    apply variable_ok in Hx, Hy. rewrite Lx in Hx. rewrite Ly in Hy.
    destruct (v_edge_x f) as [vx|] eqn:Ex; [|discriminate]. destruct (v_edge_y f) as [vy|] eqn:Ey; [|discriminate].
    cbn [kept] in Hx, Hy. injection Hx as <-. injection Hy as <-.
    set (ni := length (internal_of f)) in *.
    match goal with |- exists s, get_selection sqrt ?mm id = Ok s /\ _ => set (m := mm) end.
    assert (W : well_shaped m nf ni).
    { unfold well_shaped, m.
      cbn [f_class f_x f_y f_area f_bed f_region f_islake f_section f_depth f_level f_vx f_vy
           e_class e_x e_y e_section e_chezy e_faces].
      rewrite ?D1, ?D2, ?D4, ?D5, ?D6, ?Lf, ?map_length, ?seq_length. repeat split; auto.
      intros ef. destruct (v_edge_faces f); cbn [kept]; [|discriminate]. intro X. injection X as <-.
      apply map_length. }
    destruct (C30_selection_is_the_control_volume sqrt m nf ni id W)
      as (s & Es & S1 & S2 & S3 & S4 & S5 & S6 & S7 & S8 & S9 & S10 & S11 & S12 & S13 & S14 & S15).
    exists s. split; [exact Es|]. split; [|split; reflexivity].
    assert (MI : forall i, In i (members id (t_class t)) -> (i < nf)%nat).
    { intros i I. unfold members in I. apply filter_In in I. destruct I as [I _]. apply in_seq in I. lia. }
    assert (ME : forall i, In i (members id (l_class l)) -> (i < ni)%nat).
    { intros i I. unfold members in I. apply filter_In in I. destruct I as [I _]. apply in_seq in I. lia. }
    assert (NS : forall (g : nat -> list num) i, (i < nf)%nat -> nth i (map g (seq 0 nf)) [] = g i).
    { intros g i Hi. rewrite nth_indep with (d' := g 0%nat) by (rewrite map_length, seq_length; auto).
      rewrite map_nth, seq_nth by auto. reflexivity. }
    assert (NI : forall A (g : nat -> A) dft i, (i < ni)%nat ->
              nth i (map g (internal_of f)) dft = g (nth i (internal_of f) 0%nat)).
    { intros A g dft i Hi. rewrite nth_indep with (d' := g 0%nat) by (rewrite map_length; auto). apply map_nth. }
    assert (NQ : forall l i, (i < length l)%nat -> nth i (map Fin l) NaN = Fin (nth i l 0%Q)).
    { intros l0 i Hi. rewrite nth_indep with (d' := Fin 0%Q) by (rewrite map_length; auto). apply map_nth. }
    unfold m in S1, S2, S3, S4, S5, S6, S7, S8, S9, S10, S11, S12, S13, S14, S15.
    cbn [f_class f_x f_y f_area f_bed f_region f_islake f_section f_depth f_level f_vx f_vy
           e_class e_x e_y e_section e_chezy e_faces] in *.
    unfold rows_at in *. unfold reports, coord_at, value_at.
    rewrite Tx, Ty, Ta, Tb, Ex, Ey.
    rewrite S1, S2, S3, S4, S5, S6, S7, S8, S9, S10, S11, S12, S13, S14, S15, D1, D2, D4, D5, D6, Lf.
    rewrite !map_length, !map_map.
    assert (NTx : length (t_x t) = nf) by auto. assert (NTy : length (t_y t) = nf) by auto.
    assert (EQ : forall A (g h : nat -> A), (forall i, (i < nf)%nat -> g i = h i) ->
              map g (members id (t_class t)) = map h (members id (t_class t))).
    { intros A g h E. apply map_ext_in. auto. }
    assert (EE : forall A (g h : nat -> A), (forall i, (i < ni)%nat -> g i = h i) ->
              map g (members id (l_class l)) = map h (members id (l_class l))).
    { intros A g h E. apply map_ext_in. auto. }
    split; [apply EQ; intros i I; rewrite NQ by lia; reflexivity|].
    split; [apply EQ; intros i I; rewrite NQ by lia; reflexivity|].
    split; [reflexivity|]. split; [reflexivity|].
    split; [apply EQ; intros i I; rewrite NS by assumption; reflexivity|].
    split; [apply EQ; intros i I; rewrite !NS by assumption; reflexivity|].
    split; [apply EQ; intros i I; rewrite !NS by assumption; reflexivity|].
    split; [reflexivity|]. split; [reflexivity|].
    split; [apply EQ; intros i I; rewrite Forall_forall in Tl; symmetry; apply Tl, nth_In; lia|].
    split; [apply EE; intros i I; rewrite NI by assumption; reflexivity|].
    split; [apply EE; intros i I; rewrite NI by assumption; reflexivity|].
    split; [apply EE; intros i I; rewrite NI by assumption; reflexivity|].
    split; [reflexivity|].
    destruct (v_edge_faces f) as [ef|]; cbn [kept option_map]; [|reflexivity]. f_equal. rewrite map_map.
    apply EE. intros i I. rewrite NI by assumption. reflexivity.
  Qed.
End Whole.

(** * C76 *)

(** Everything a cross-section gets is what the map file says about its faces
    and its internal links, each taken once; a face or a link is in the data of
    at most one cross-section. *)
Theorem C76_cross_sections_get_the_data_of_the_file :
  forall nearest within inside sqrt c file mt f css dr ds regions sections c' m nf ne nn nt,
    dims f nf ne nn nt -> fits c nf (length (internal_of f)) ->
    set_fm_model_data nearest within inside c file mt f css dr ds regions sections = (c', Ok m) ->
    exists fi ei : text -> list nat,
      (forall id, exists s, get_selection sqrt m id = Ok s /\ reports sqrt f s (fi id) (ei id)) /\
      (forall id, NoDup (fi id) /\ forall i, In i (fi id) -> (i < nf)%nat) /\
      (forall id, NoDup (ei id) /\ forall k, In k (ei id) -> In k (internal_of f)) /\
      (forall id id' i, In i (fi id) -> In i (fi id') -> id = id') /\
      (forall id id' k, In k (ei id) -> In k (ei id') -> id = id') /\
      fits c' nf (length (internal_of f)).
Proof.
  intros nearest within inside sqrt c file mt f css dr ds regions sections c' m nf ne nn nt D F H.
  apply set_data_inv in H. destruct H as (t & l & td & d & ro & so & EI & _ & _ & _ & t1 & l1 & t2 & l2 & EA & (ES & Ec) & EM).
  destruct (import_ok _ _ _ _ _ _ _ _ D EI) as (HF & HE & HR).
  destruct (assign_classes_ok nearest within inside c file mt f nf ne nn nt (c_xy d) (c_id d) dr ro t l D F HF HE) as [F1 A].
  destruct (A t1 l1 EA) as (HF1 & HE1 & _).
  match type of ES with snd (assign_sections inside ?cc file mt f ?st ds so td t1 l1) = _ =>
    destruct (assign_sections_ok inside cc file mt f nf ne nn nt st ds so td t1 l1 D F1 HF1 HE1 HR) as [F2 B] end.
  destruct (B t2 l2 ES) as (HF2 & HE2 & _).
  assert (ND : NoDup (internal_of f)).
  { unfold internal_of. destruct (v_edge_type f); [|constructor]. apply NoDup_filter, seq_NoDup. }
  exists (fun id => members id (t_class t2)),
         (fun id => map (fun k => nth k (internal_of f) 0%nat) (members id (l_class l2))).
  assert (ML : forall id k, In k (members id (l_class l2)) -> (k < length (internal_of f))%nat).
  { intros id k I. unfold members in I. apply filter_In in I. destruct I as [I _]. apply in_seq in I.
    destruct HE2 as (_ & _ & _ & L & _). lia. }
  split; [|split; [|split; [|split; [|split]]]].
  - intro id. destruct (reports_selection sqrt f nf ne nn nt t2 l2 td m id D HF2 HE2 HR EM)
      as (s & Es & R & _). exists s. auto.
  - intro id. split; [apply C30_members|]. intros i I. unfold members in I. apply filter_In in I.
    destruct I as [I _]. apply in_seq in I. destruct HF2 as (_ & _ & _ & _ & _ & _ & L & _). lia.
  - intro id. split.
    + pose proof (proj1 (C30_members id (l_class l2))) as N. pose proof (ML id) as M.
      induction (members id (l_class l2)) as [|k ks IH]; [constructor|].
      inversion N as [|? ? NK N']; subst. cbn [map]. constructor.
      * intro I. apply in_map_iff in I. destruct I as (k' & E & I). apply NK.
        assert (k' = k); [|congruence].
        eapply (proj1 (NoDup_nth (internal_of f) 0%nat) ND); auto; apply M; [right|left]; auto.
      * apply IH; auto. intros k' I. apply M. right; auto.
    + intros k I. apply in_map_iff in I. destruct I as (j & <- & I). apply nth_In. eapply ML; eauto.
  - intros id id' i I J. eapply (proj2 (proj2 (C30_members id (t_class t2)))); eauto.
  - intros id id' k I J. apply in_map_iff in I. apply in_map_iff in J.
    destruct I as (a & Ea & I), J as (b & Eb & J).
    assert (a = b).
    { eapply (proj1 (NoDup_nth (internal_of f) 0%nat) ND); try (eapply ML; eauto); congruence. }
    subst b. eapply (proj2 (proj2 (C30_members id (l_class l2)))); eauto.
  - rewrite Ec. exact F2.
Qed.
Print Assumptions C76_cross_sections_get_the_data_of_the_file.

(** The variables that have to be in the file. *)
Definition present {A} (v : option A) : bool := match v with Some _ => true | None => false end.
Definition required (f : map_file) : bool :=
  present (v_face_x f) && present (v_face_y f) && present (v_face_area f) && present (v_face_bed f) &&
  present (v_edge_type f) && present (v_node_x f) && present (v_node_y f) && present (v_time f) &&
  present (v_waterdepth f) && present (v_s1 f) && present (v_czs f) &&
  (present (v_czu f) || present (v_cftrt f)) &&
  present (v_ucx f) && present (v_ucy f) && present (v_u1 f).

Lemma frame_present f v nf nt time : v_time f = Some time -> length time = nt -> has_shape v nf nt ->
  present v = true -> exists r, import_frame f v = Ok r.
Proof.
  intros E L S P. destruct v as [m|]; [|discriminate]. destruct (S m eq_refl) as [_ S'].
  unfold import_frame, frame. rewrite E. cbn [variable of_option bind]. rewrite S', L, Nat.eqb_refl. eauto.
Qed.

Lemma column_same {A B} (rows : list A) (col : list B) : length col = length rows -> column rows col = Ok col.
Proof. intro H. unfold column. rewrite H, Nat.eqb_refl. auto. Qed.

(** A map file of the right dimensions is read if and only if nothing that is
    needed is missing, and anything missing is a KeyError. *)
Theorem C76_missing_variables_are_refused :
  forall f nf ne nn nt, dims f nf ne nn nt ->
    (required f = true -> exists r, import_dflow2d f = Ok r) /\
    (required f = false -> import_dflow2d f = Raise KeyError).
Proof.
  intros f nf ne nn nt
    (Fx & Fy & Fa & Fb & Fn & Et & Ex & Ey & Ef & En & Nx & Ny & Ti & D & S1 & Cs & Ux & Uy & Cu & Cf & U).
  unfold required, import_dflow2d, import_faces, import_nodes.
  destruct (v_face_x f) as [x|]; [|split; [discriminate|reflexivity]].
  destruct (v_face_y f) as [y|]; [|split; [discriminate|reflexivity]].
  cbn [variable of_option bind present andb]. rewrite (column_same x y) by (rewrite (Fx x eq_refl), (Fy y eq_refl); reflexivity). cbn [bind].
  destruct (v_face_area f) as [a|]; [|split; [discriminate|reflexivity]].
  cbn [variable of_option bind present andb]. rewrite (column_same x a) by (rewrite (Fx x eq_refl), (Fa a eq_refl); reflexivity). cbn [bind].
  destruct (v_face_bed f) as [b|]; [|split; [discriminate|reflexivity]].
  cbn [variable of_option bind present andb]. rewrite (column_same x b) by (rewrite (Fx x eq_refl), (Fb b eq_refl); reflexivity). cbn [bind].
  destruct (v_edge_type f) as [types|] eqn:Ety; [|split; [discriminate|reflexivity]].
  cbn [variable of_option bind present andb].
  assert (EC : forall A (v : option (list A)), has_length v ne ->
            exists r, edge_column (internal_edges types) v = Ok r).
  { intros A [v|] L; cbn [edge_column]; [|eauto]. unfold mask_index, internal_edges.
    rewrite map_length, (Et types eq_refl), (L v eq_refl), Nat.eqb_refl. cbn [bind]. eauto. }
  unfold import_edges.
  destruct (EC _ _ Ex) as [r1 ->]. destruct (EC _ _ Ey) as [r2 ->]. destruct (EC _ _ Ef) as [r3 ->].
  destruct (EC _ _ En) as [r4 ->]. cbn [bind].
  destruct (v_node_x f) as [nx|]; [|split; [discriminate|reflexivity]].
  destruct (v_node_y f) as [ny|]; [|split; [discriminate|reflexivity]].
  cbn [variable of_option bind present andb].
  rewrite (column_same nx ny) by (rewrite (Nx nx eq_refl), (Ny ny eq_refl); reflexivity). cbn [bind].
  unfold import_results, import_chezy.
  destruct (v_time f) as [time|] eqn:Etm.
  2: { cbn [present andb]. split; [discriminate|]. intros _. unfold import_frame at 1. rewrite Etm.
       destruct (v_waterdepth f); reflexivity. }
  cbn [present andb].
  assert (FR : forall v, has_shape v nf nt ->
            match v with Some _ => exists r, import_frame f v = Ok r | None => import_frame f v = Raise KeyError end).
  { intros [v|] S; [|reflexivity]. exact (frame_present f (Some v) _ nt time Etm (Ti time eq_refl) S eq_refl). }
  assert (FU : forall v, has_shape v ne nt ->
            match v with Some _ => exists r, import_frame f v = Ok r | None => import_frame f v = Raise KeyError end).
  { intros [v|] S; [|reflexivity]. exact (frame_present f (Some v) _ nt time Etm (Ti time eq_refl) S eq_refl). }
  assert (FE : forall v, has_shape v ne nt ->
            match v with Some _ => exists r, import_edge_frame f (internal_edges types) v = Ok r
                       | None => import_edge_frame f (internal_edges types) v = Raise KeyError end).
  { intros [v|] S; [|reflexivity]. destruct (S v eq_refl) as [P Q].
    unfold import_edge_frame, mask_index. cbn [variable of_option bind].
    unfold internal_edges. rewrite map_length, transpose_length, P, (Et types eq_refl), Nat.eqb_refl. cbn [bind].
    rewrite Etm. cbn [variable of_option bind]. rewrite Q, (Ti time eq_refl), Nat.eqb_refl. eauto. }
  pose proof (FR _ D) as G1. destruct (v_waterdepth f) as [m1|];
    [destruct G1 as [q1 ->]; cbn [bind present andb]|rewrite G1; split; [discriminate|reflexivity]].
  pose proof (FR _ S1) as G2. destruct (v_s1 f) as [m2|];
    [destruct G2 as [q2 ->]; cbn [bind present andb]|rewrite G2; split; [discriminate|reflexivity]].
  pose proof (FR _ Cs) as G3. destruct (v_czs f) as [m3|];
    [destruct G3 as [q3 ->]; cbn [bind present andb]|rewrite G3; split; [discriminate|reflexivity]].
  assert (G4 : if present (v_czu f) || present (v_cftrt f)
               then exists r, match import_edge_frame f (internal_edges types) (v_czu f) with
                              | Raise KeyError => import_edge_frame f (internal_edges types) (v_cftrt f)
                              | r => r end = Ok r
               else match import_edge_frame f (internal_edges types) (v_czu f) with
                              | Raise KeyError => import_edge_frame f (internal_edges types) (v_cftrt f)
                              | r => r end = Raise KeyError).
  { pose proof (FE _ Cu) as H1. pose proof (FE _ Cf) as H2.
    destruct (v_czu f) as [mu|]; cbn [present orb]; [destruct H1 as [r ->]; eauto|].
    rewrite H1. destruct (v_cftrt f) as [mf|]; cbn [present]; auto. }
  destruct (present (v_czu f) || present (v_cftrt f));
    [destruct G4 as [q4 ->]; cbn [bind andb]|rewrite G4; split; [discriminate|reflexivity]].
  pose proof (FR _ Ux) as G5. destruct (v_ucx f) as [m5|];
    [destruct G5 as [q5 ->]; cbn [bind present andb]|rewrite G5; split; [discriminate|reflexivity]].
  pose proof (FR _ Uy) as G6. destruct (v_ucy f) as [m6|];
    [destruct G6 as [q6 ->]; cbn [bind present andb]|rewrite G6; split; [discriminate|reflexivity]].
  pose proof (FU _ U) as G7. destruct (v_u1 f) as [m7|];
    [destruct G7 as [q7 ->]; cbn [bind present andb]|rewrite G7; split; [discriminate|reflexivity]].
  split; [eauto|discriminate].
Qed.
Print Assumptions C76_missing_variables_are_refused.

(** Without coordinates of the edges nothing can be assigned. *)
Theorem C76_missing_edge_coordinates_are_refused :
  forall nearest within inside c file mt f d dr ds sections nf ne nn nt,
    dims f nf ne nn nt -> required f = true -> present (v_edge_x f) && present (v_edge_y f) = false ->
    (forall e, sections <> Some (Raise e)) ->
    snd (set_fm_model_data nearest within inside c file mt f (Ok d) dr ds None sections) = Raise KeyError.
Proof.
  intros nearest within inside c file mt f d dr ds sections nf ne nn nt D R P S.
  destruct (proj1 (C76_missing_variables_are_refused f nf ne nn nt D) R) as [[[t l] td] E].
  unfold set_fm_model_data. rewrite E.
  destruct (import_ok _ _ _ _ _ _ _ _ D E) as (_ & (Lx & Ly & _) & _).
  assert (A : (x <- variable (l_x l) ;; y <- variable (l_y l) ;;
            classes <- classify_without_regions nearest (c_xy d) (c_id d) (combine (t_x t) (t_y t)) (combine x y) ;;
            Ok (mk_faces (t_x t) (t_y t) (t_area t) (t_bed t) (t_region t) (t_section t) (fst classes) (t_islake t),
                mk_edges (l_x l) (l_y l) (l_faces l) (l_nodes l) (snd classes) (l_section l) (l_region l)))
          = Raise KeyError).
  { rewrite Lx, Ly. destruct (v_edge_x f), (v_edge_y f); try discriminate; reflexivity. }
  destruct sections as [[ps|e]|]; [|exfalso; apply (S e); reflexivity|];
    cbn [assign_classes fst snd]; rewrite A; reflexivity.
Qed.
Print Assumptions C76_missing_edge_coordinates_are_refused.

(** * C77 *)

(** The point of a face and of an edge in the file. *)
Definition point_at (vx vy : option (list Q)) (i : nat) : point :=
  match vx, vy with Some x, Some y => (nth i x 0%Q, nth i y 0%Q) | _, _ => (0%Q, 0%Q) end.

Lemma Forall2_nth_point {A} (P : point -> A -> Prop) x y (l : list A) i c : length x = length y ->
  Forall2 P (combine x y) l -> nth_error l i = Some c -> P (nth i x 0%Q, nth i y 0%Q) c.
Proof.
  intros L F. revert x y i L F. induction l as [|a l IH]; intros x y i L F H; [destruct i; discriminate|].
  destruct x as [|p x], y as [|q y]; try discriminate; inversion F; subst.
  destruct i as [|i]; [injection H as <-; auto|]. cbn [nth]. eapply IH; eauto.
Qed.

(** C77 with the sum of any quantity per face. *)
Lemma cover_the_mesh_once :
  forall nearest within inside sqrt c file mt f d dr ds sections c' m nf ne nn nt,
    is_nearest nearest -> dims f nf ne nn nt -> fits c nf (length (internal_of f)) ->
    length (c_id d) = length (c_xy d) -> NoDup (c_id d) ->
    set_fm_model_data nearest within inside c file mt f (Ok d) dr ds None sections = (c', Ok m) ->
    exists fi ei : text -> list nat,
      (forall id, exists s, get_selection sqrt m id = Ok s /\ reports sqrt f s (fi id) (ei id)) /\
      (forall i, (i < nf)%nat -> exists! id, In id (c_id d) /\ In i (fi id)) /\
      (forall k, In k (internal_of f) -> exists! id, In id (c_id d) /\ In k (ei id)) /\
      (forall id i, In i (fi id) -> assigned (c_xy d) (c_id d) (point_at (v_face_x f) (v_face_y f) i) id) /\
      (forall id k, In k (ei id) -> assigned (c_xy d) (c_id d) (point_at (v_edge_x f) (v_edge_y f) k) id) /\
      (forall id i, In i (fi id) -> (i < nf)%nat) /\
      (forall areas, length areas = nf ->
         qsum (map (fun id => qsum (map (fun i => nth i areas 0) (fi id))) (c_id d)) == qsum areas)%Q.
Proof.
  intros nearest within inside sqrt c file mt f d dr ds sections c' m nf ne nn nt N D F L ND H.
  apply set_data_inv in H.
  destruct H as (t & l & td & d' & ro & so & EI & Ed & ER & _ & t1 & l1 & t2 & l2 & EA & (ES & Ec) & EM).
  injection Ed as <-. destruct ER as [[_ ->]|(ps & X & _)]; [|discriminate].
  destruct (import_ok _ _ _ _ _ _ _ _ D EI) as (HF & HE & HR).
  destruct (assign_classes_ok nearest within inside c file mt f nf ne nn nt (c_xy d) (c_id d) dr None t l D F HF HE) as [F1 A].
  destruct (A t1 l1 EA) as (HF1 & HE1 & _).
  match type of ES with snd (assign_sections inside ?cc file mt f ?st ds so td t1 l1) = _ =>
    destruct (assign_sections_ok inside cc file mt f nf ne nn nt st ds so td t1 l1 D F1 HF1 HE1 HR) as [F2 B] end.
  destruct (B t2 l2 ES) as (HF2 & HE2 & C1 & C2 & _).
  cbn [assign_classes snd] in EA. step EA x Hx. step EA y Hy. step EA cls Hc. injection EA as <- <-.
  cbn [t_class l_class] in C1, C2. destruct cls as [fc ec]. cbn [fst snd] in C1, C2.
  apply variable_ok in Hx, Hy.
  pose proof HF as HF0. destruct HF as (Tx & Ty & Ta & _). destruct HE as (Lx & Ly & _).
  rewrite Lx in Hx. rewrite Ly in Hy.
  destruct (v_edge_x f) as [vx|] eqn:Ex; [|discriminate]. destruct (v_edge_y f) as [vy|] eqn:Ey; [|discriminate].
  cbn [kept] in Hx, Hy. injection Hx as <-. injection Hy as <-.
  set (ni := length (internal_of f)) in *.
  assert (NX : length (t_x t) = nf) by (destruct D as (Fx & _); auto).
  assert (NY : length (t_y t) = nf) by (destruct D as (_ & Fy & _); auto).
  set (faces := combine (t_x t) (t_y t)) in *.
  set (links := combine (map (fun k => nth k vx 0%Q) (internal_of f)) (map (fun k => nth k vy 0%Q) (internal_of f))) in *.
  assert (LF : @length point faces = nf) by (unfold faces, point; rewrite combine_length; lia).
  assert (LL : @length point links = ni) by (unfold links, point; rewrite combine_length, !map_length; unfold ni; lia).
  assert (XY : c_xy d <> []) by (intro X; rewrite C32_empty_input_is_refused in Hc by auto; discriminate).
  assert (FN : faces <> []) by (intro X; rewrite C32_empty_input_is_refused in Hc by auto; discriminate).
  assert (KN : links <> []) by (intro X; rewrite C32_empty_input_is_refused in Hc by auto; discriminate).
  destruct (C32_every_point_is_assigned_to_a_nearest_cross_section nearest (c_xy d) (c_id d) faces links N XY L FN KN)
    as (fc' & ec' & E & PF & PE).
  rewrite E in Hc. injection Hc as -> ->.
  destruct (C32_control_volumes_partition_the_mesh nearest (c_xy d) (c_id d) faces links (map (fun _ => 0%Q) faces) fc ec
              N L ND (map_length _ _) E) as (P1 & P2 & P3 & _).
  assert (NDI : NoDup (internal_of f)).
  { unfold internal_of. destruct (v_edge_type f); [|constructor]. apply NoDup_filter, seq_NoDup. }
  rewrite LF in P1. rewrite LL in P2.
  assert (LE : length ec = ni) by (rewrite <- LL; clear - PE; induction PE; cbn; congruence).
  assert (ME : forall id k, In k (members id ec) -> (k < ni)%nat).
  { intros id k I. unfold members in I. apply filter_In in I. destruct I as [I _]. apply in_seq in I. lia. }
  exists (fun id => members id fc), (fun id => map (fun k => nth k (internal_of f) 0%nat) (members id ec)).
  split; [|split; [|split; [|split; [|split; [|split]]]]].
  - intro id. destruct (reports_selection sqrt f nf ne nn nt t2 l2 td m id D HF2 HE2 HR EM)
      as (s & Es & R & _). rewrite C1, C2 in R. exists s. auto.
  - exact P1.
  - intros k I. apply In_nth with (d := 0%nat) in I. destruct I as (j & Hj & <-).
    destruct (P2 j Hj) as (id & (I1 & I2) & U). exists id. split.
    + split; auto. apply in_map_iff. eauto.
    + intros id' (J1 & J2). apply U. split; auto. apply in_map_iff in J2. destruct J2 as (j' & Ej & J2).
      assert (j' = j); [|congruence].
      eapply (proj1 (NoDup_nth (internal_of f) 0%nat) NDI); auto. apply (ME id'); auto.
  - intros id i I. apply (proj1 (proj2 (C30_members id fc))) in I. unfold point_at. rewrite Tx, Ty.
    eapply Forall2_nth_point with (l := fc); eauto. congruence.
  - intros id k I. apply in_map_iff in I. destruct I as (j & <- & I). pose proof (ME id j I) as Hj.
    apply (proj1 (proj2 (C30_members id ec))) in I. unfold point_at.
    pose proof (Forall2_nth_point _ _ _ ec j id (eq_trans (map_length _ _) (eq_sym (map_length _ _))) PE I) as AQ.
    assert (NI : forall (v : list Q), nth j (map (fun k => nth k v 0%Q) (internal_of f)) 0%Q
                   = nth (nth j (internal_of f) 0%nat) v 0%Q).
    { intro v. rewrite nth_indep with (d' := (fun k => nth k v 0%Q) 0%nat) by (rewrite map_length; auto).
      apply (map_nth (fun k => nth k v 0%Q)). }
    rewrite !NI in AQ. exact AQ.
  - intros id i I. unfold members in I. apply filter_In in I. destruct I as [I _]. apply in_seq in I.
    assert (LC : length fc = nf) by (rewrite <- LF; clear - PF; induction PF; cbn; congruence). lia.
  - intros areas Ea.
    assert (LA : length areas = @length point faces) by (rewrite LF; exact Ea).
    destruct (C32_control_volumes_partition_the_mesh nearest (c_xy d) (c_id d) faces links areas fc ec N L ND LA E)
      as (_ & _ & _ & P4). exact P4.
Qed.
(** Without region polygons and with distinct ids: every face and every internal
    link of the file is in the data of exactly one cross-section, to which none
    is nearer, and the areas add up to that of the mesh. *)
Theorem C77_control_volumes_cover_the_mesh_once :
  forall nearest within inside sqrt c file mt f d dr ds sections c' m nf ne nn nt,
    is_nearest nearest -> dims f nf ne nn nt -> fits c nf (length (internal_of f)) ->
    length (c_id d) = length (c_xy d) -> NoDup (c_id d) ->
    set_fm_model_data nearest within inside c file mt f (Ok d) dr ds None sections = (c', Ok m) ->
    exists fi ei : text -> list nat,
      (forall id, exists s, get_selection sqrt m id = Ok s /\ reports sqrt f s (fi id) (ei id)) /\
      (forall i, (i < nf)%nat -> exists! id, In id (c_id d) /\ In i (fi id)) /\
      (forall k, In k (internal_of f) -> exists! id, In id (c_id d) /\ In k (ei id)) /\
      (forall id i, In i (fi id) -> assigned (c_xy d) (c_id d) (point_at (v_face_x f) (v_face_y f) i) id) /\
      (forall id k, In k (ei id) -> assigned (c_xy d) (c_id d) (point_at (v_edge_x f) (v_edge_y f) k) id) /\
      (forall areas, v_face_area f = Some (map Fin areas) ->
         qsum (map (fun id => qsum (map (fun i => nth i areas 0) (fi id))) (c_id d)) == qsum areas)%Q.
Proof.
  intros nearest within inside sqrt c file mt f d dr ds sections c' m nf ne nn nt N D F L ND H.
  destruct (cover_the_mesh_once nearest within inside sqrt c file mt f d dr ds sections c' m nf ne nn nt N D F L ND H)
    as (fi & ei & P1 & P2 & P3 & P4 & P5 & _ & P6).
  exists fi, ei. do 5 (split; [assumption|]). intros areas Ea. apply P6.
  destruct D as (_ & _ & Fa & _). specialize (Fa _ Ea). rewrite map_length in Fa. auto.
Qed.
Print Assumptions C77_control_volumes_cover_the_mesh_once.

(** * C33 in a whole run *)

Lemma polygon_labels_length within dr prop ps pts r :
  get_points_in_polygon within dr prop ps pts = Ok r -> length r = length pts.
Proof.
  unfold get_points_in_polygon. intro H.
  destruct ps; [destruct pts; [|discriminate]|]; injection H as <-; [reflexivity|apply map_length].
Qed.

Lemma import_no_class f t l td : import_dflow2d f = Ok (t, l, td) -> forall c : text, In c (l_class l) -> c = [].
Proof.
  unfold import_dflow2d. intro H. step H t0 Ht. step H types Hty. step H l0 Hl. step H n0 Hn. step H td0 Htd.
  injection H as <- <- <-. unfold import_edges in Hl.
  step Hl a Ha. step Hl b Hb. step Hl e He. step Hl g Hg. injection Hl as <-. cbn [l_class].
  intros c I. apply in_map_iff in I. destruct I as (? & <- & _). reflexivity.
Qed.

(** With region polygons, whatever the labels: a face or link in the data of a
    cross-section whose id is not also the name of a region lies in the region of
    that cross-section, and no cross-section of that region is nearer. *)
Theorem C33_run_keeps_to_the_regions_partial :
  forall nearest within inside sqrt c file mt f d dr ds ps sections c' m nf ne nn nt,
    is_nearest nearest -> dims f nf ne nn nt -> fits c nf (length (internal_of f)) ->
    length (c_id d) = length (c_xy d) ->
    (forall id : text, In id (c_id d) -> (length id <= 99)%nat /\ id <> []) ->
    set_fm_model_data nearest within inside c file mt f (Ok d) dr ds (Some (Ok ps)) sections = (c', Ok m) ->
    exists (fi ei : text -> list nat) f_labels e_labels css_labels,
      (forall id, exists s, get_selection sqrt m id = Ok s /\ reports sqrt f s (fi id) (ei id)) /\
      snd (classify_grid inside c file mt f dr (T "region") ps) = Ok (f_labels, e_labels) /\
      get_points_in_polygon within dr (T "region") ps (c_xy d) = Ok css_labels /\
      f_region m = map text_of f_labels /\
      (forall id i, In id (c_id d) -> In i (fi id) -> ~ In id (map text_of f_labels) ->
         exists r, nth_error (map text_of f_labels) i = Some r /\
           nearest_of_region (c_xy d) (c_id d) (map text_of css_labels) r (point_at (v_face_x f) (v_face_y f) i) id) /\
      (forall id k, In id (c_id d) -> In k (ei id) ->
         exists j r, nth_error (internal_of f) j = Some k /\ nth_error (map text_of e_labels) j = Some r /\
           nearest_of_region (c_xy d) (c_id d) (map text_of css_labels) r (point_at (v_edge_x f) (v_edge_y f) k) id).
Proof.
  intros nearest within inside sqrt c file mt f d dr ds ps sections c' m nf ne nn nt N D F L ID H.
  apply set_data_inv in H.
  destruct H as (t & l & td & d' & ro & so & EI & Ed & ER & _ & t1 & l1 & t2 & l2 & EA & (ES & Ec) & EM).
  injection Ed as <-. destruct ER as [[X _]|(ps' & X & ->)]; [discriminate|]. injection X as <-.
  destruct (import_ok _ _ _ _ _ _ _ _ D EI) as (HF & HE & HR).
  destruct (assign_classes_ok nearest within inside c file mt f nf ne nn nt (c_xy d) (c_id d) dr (Some ps) t l D F HF HE) as [F1 A].
  destruct (A t1 l1 EA) as (HF1 & HE1 & _).
  match type of ES with snd (assign_sections inside ?cc file mt f ?st ds so td t1 l1) = _ =>
    destruct (assign_sections_ok inside cc file mt f nf ne nn nt st ds so td t1 l1 D F1 HF1 HE1 HR) as [F2 B] end.
  destruct (B t2 l2 ES) as (HF2 & HE2 & C1 & C2 & C3).
  cbn [assign_classes fst snd] in EA.
  destruct (classify_grid_lengths inside c file mt f nf ne nn nt dr (T "region") ps D F) as [_ G].
  destruct (classify_grid inside c file mt f dr (T "region") ps) as [c1 [[fl el]|e]]; cbn [fst snd] in *; [|discriminate].
  destruct (G fl el eq_refl) as [G1 G2]. cbn [bind fst snd] in EA.
  step EA fr Hfr. apply column_ok in Hfr. destruct Hfr as [-> _].
  step EA cl Hcl. step EA x Hx. step EA y Hy. step EA cls Hc. injection EA as <- <-.
  cbn [t_class l_class t_region] in C1, C2, C3. destruct cls as [fc ec]. cbn [fst snd] in C1, C2.
  apply variable_ok in Hx, Hy.
  pose proof HF as HF0. destruct HF as (Tx & Ty & Ta & _). destruct HE as (Lx & Ly & _ & Lcl & _).
  rewrite Lx in Hx. rewrite Ly in Hy.
  destruct (v_edge_x f) as [vx|] eqn:Ex; [|discriminate]. destruct (v_edge_y f) as [vy|] eqn:Ey; [|discriminate].
  cbn [kept] in Hx, Hy. injection Hx as <-. injection Hy as <-.
  set (ni := length (internal_of f)) in *.
  assert (NX : length (t_x t) = nf) by (destruct D as (Fx & _); auto).
  assert (NY : length (t_y t) = nf) by (destruct D as (_ & Fy & _); auto).
  set (faces := combine (t_x t) (t_y t)) in *.
  set (links := combine (map (fun k => nth k vx 0%Q) (internal_of f)) (map (fun k => nth k vy 0%Q) (internal_of f))) in *.
  assert (LF : @length point faces = length (map text_of fl))
    by (unfold faces, point; rewrite combine_length, map_length; lia).
  assert (LL : @length point links = length (map text_of el))
    by (unfold links, point; rewrite combine_length, !map_length; fold ni; lia).
  assert (LC : length (l_class l) = length (map text_of el)) by (rewrite map_length; congruence).
  assert (LR : length (map text_of cl) = length (c_xy d))
    by (rewrite map_length; eapply polygon_labels_length; eauto).
  assert (LX : length (c_xy d) = length (c_id d)) by congruence.
  destruct (classify_with_regions_spec nearest (c_xy d) (c_id d) (map text_of cl) faces (map text_of fl) links (map text_of el)
              LX LF LL (l_class l) LC) as [SP1 SP2].
  assert (HY : forall r, In r (map text_of fl) -> has_css (c_id d) (map text_of cl) r = true -> In r (map text_of el)).
  { intros r I J. destruct (in_dec (list_eq_dec ascii_dec) r (map text_of el)) as [K|K]; auto.
    rewrite SP2 in Hc by eauto. discriminate. }
  destruct (SP1 HY) as (fc' & ec' & E & LFC & LEC & PF & PE). rewrite E in Hc. injection Hc as -> ->.
  rewrite map_length in LF, LL.
  assert (MI : forall id i, In i (members id fc) -> nth_error fc i = Some id /\ (i < nf)%nat).
  { intros id i I. unfold members in I. apply filter_In in I. destruct I as [I J]. apply in_seq in I.
    apply teqb_eq in J. split; [|lia]. rewrite <- J. apply nth_error_nth'. lia. }
  assert (ME : forall id i, In i (members id ec) -> nth_error ec i = Some id /\ (i < ni)%nat).
  { intros id i I. unfold members in I. apply filter_In in I. destruct I as [I J]. apply in_seq in I.
    apply teqb_eq in J. split; [|lia]. rewrite <- J. apply nth_error_nth'. lia. }
  exists (fun id => members id fc), (fun id => map (fun k => nth k (internal_of f) 0%nat) (members id ec)), fl, el, cl.
  split; [|split; [reflexivity|split; [exact Hcl|split; [|split]]]].
  - intro id. destruct (reports_selection sqrt f nf ne nn nt t2 l2 td m id D HF2 HE2 HR EM)
      as (s & Es & R & _). rewrite C1, C2 in R. exists s. auto.
  - unfold mesh_of in EM. step EM x0 Hx0. step EM y0 Hy0. injection EM as <-. cbn [f_region]. exact C3.
  - intros id i I J K. destruct (MI id i J) as [Ei Hi].
    destruct (nth_error (map text_of fl) i) as [r|] eqn:Er.
    2: { apply nth_error_None in Er. rewrite map_length in Er. lia. }
    exists r. split; auto.
    assert (Ep : nth_error faces i = Some (point_at (v_face_x f) (v_face_y f) i)).
    { unfold point_at. rewrite Tx, Ty. unfold faces. rewrite <- combine_nth by congruence. apply nth_error_nth'.
      rewrite combine_length; lia. }
    pose proof (PF i r _ Er Ep) as P. rewrite Ei in P. injection P as P.
    destruct (has_css (c_id d) (map text_of cl) r) eqn:B0.
    + rewrite P. apply region_class_assigned; auto.
    + exfalso. apply K. rewrite P. eapply nth_error_In; eauto.
  - intros id k I J. apply in_map_iff in J. destruct J as (j & <- & J). destruct (ME id j J) as [Ei Hi].
    destruct (nth_error (map text_of el) j) as [r|] eqn:Er.
    2: { apply nth_error_None in Er. rewrite map_length in Er. lia. }
    exists j, r. split; [apply nth_error_nth'; exact Hi|]. split; auto.
    assert (Ep : nth_error links j = Some (point_at (Some vx) (Some vy) (nth j (internal_of f) 0%nat))).
    { unfold point_at, links. rewrite <- (map_nth (fun k => nth k vx 0%Q)), <- (map_nth (fun k => nth k vy 0%Q)).
      rewrite (nth_indep (map (fun k => nth k vx 0%Q) _) _ 0%Q) by (rewrite map_length; exact Hi).
      rewrite (nth_indep (map (fun k => nth k vy 0%Q) _) _ 0%Q) by (rewrite map_length; exact Hi).
      rewrite <- combine_nth by (rewrite !map_length; reflexivity). apply nth_error_nth'. rewrite combine_length, !map_length. fold ni. lia. }
    pose proof (PE j r _ Er Ep) as P. rewrite Ei in P.
    destruct (existsb (teqb r) (map text_of fl) && has_css (c_id d) (map text_of cl) r) eqn:B0.
    + apply andb_prop in B0. destruct B0 as [_ B0].
      destruct (region_class_assigned nearest (c_xy d) (c_id d) (map text_of cl) LX r
                  (point_at (Some vx) (Some vy) (nth j (internal_of f) 0%nat)) N B0 LR) as (k0 & s & K).
      assert (Hu : u99 (region_class nearest (c_xy d) (c_id d) (map text_of cl) r
                (point_at (Some vx) (Some vy) (nth j (internal_of f) 0%nat))) =
              region_class nearest (c_xy d) (c_id d) (map text_of cl) r
                (point_at (Some vx) (Some vy) (nth j (internal_of f) 0%nat))).
      { unfold u99. apply firstn_all2. apply ID. eapply nth_error_In. apply K. }
      rewrite Hu in P. injection P as P. rewrite P. exists k0, s. exact K.
    + exfalso. symmetry in P. apply nth_error_In in P. apply (import_no_class _ _ _ _ EI) in P.
      destruct (ID id I) as [_ X]. contradiction.
Qed.
Print Assumptions C33_run_keeps_to_the_regions_partial.

(** * C78 *)

(** The same file as an older version of D-Flow FM writes it. *)
Definition older (f : map_file) : map_file :=
  mk_map_file (v_face_x f) (v_face_y f) (v_face_area f) (v_face_bed f) (v_face_nodes f)
    (v_edge_type f) (v_edge_x f) (v_edge_y f) (v_edge_faces f) (v_edge_nodes f) (v_node_x f) (v_node_y f)
    (v_time f) (v_waterdepth f) (v_s1 f) (v_czs f) None (v_czu f) (v_ucx f) (v_ucy f) (v_u1 f).

(** The version of the file makes no difference. *)
Theorem C78_older_files_give_the_same_data :
  forall nearest within inside c file mt f css dr ds regions sections,
    v_cftrt f = None ->
    set_fm_model_data nearest within inside c file mt (older f) css dr ds regions sections =
    set_fm_model_data nearest within inside c file mt f css dr ds regions sections.
Proof.
  intros nearest within inside c file mt f css dr ds regions sections N.
  assert (I : import_dflow2d (older f) = import_dflow2d f).
  { unfold import_dflow2d.
    change (import_faces (older f)) with (import_faces f).
    change (v_edge_type (older f)) with (v_edge_type f).
    change (import_nodes (older f)) with (import_nodes f).
    assert (C : forall mask, import_chezy (older f) mask = import_chezy f mask).
    { intro mask. unfold import_chezy. rewrite N.
      change (import_edge_frame (older f) mask (v_czu (older f))) with (Raise (A := list (list num)) KeyError).
      change (import_edge_frame (older f) mask (v_cftrt (older f))) with (import_edge_frame f mask (v_czu f)).
      cbv iota. destruct (import_edge_frame f mask (v_czu f)) as [|[]]; reflexivity. }
    assert (R : forall mask, import_results (older f) mask = import_results f mask).
    { intro mask. unfold import_results. rewrite C. reflexivity. }
    destruct (import_faces f) as [t|]; [|reflexivity]. cbn [bind].
    destruct (v_edge_type f) as [types|]; [|reflexivity]. cbn [variable of_option bind].
    change (import_edges (older f)) with (import_edges f).
    destruct (import_edges f (internal_edges types)); [|reflexivity]. cbn [bind].
    destruct (import_nodes f); [|reflexivity]. cbn [bind]. rewrite R. reflexivity. }
  unfold set_fm_model_data. rewrite I. reflexivity.
Qed.
Print Assumptions C78_older_files_give_the_same_data.

(** If both variables are there mesh2d_czu is used. *)
Theorem C78_chezy_of_the_links :
  forall f nf ne nn nt t l td, dims f nf ne nn nt -> import_dflow2d f = Ok (t, l, td) ->
    length (d_chezy_edge td) = length (internal_of f) /\
    forall j k, nth_error (internal_of f) j = Some k ->
      (exists types, v_edge_type f = Some types /\ nth_error types k = Some 1%Z) /\
      (forall cz, v_czu f = Some cz -> nth_error (d_chezy_edge td) j = Some (series (Some cz) k)) /\
      (forall cf, v_czu f = None -> v_cftrt f = Some cf -> nth_error (d_chezy_edge td) j = Some (series (Some cf) k)).
Proof.
  intros f nf ne nn nt t l td D H. destruct (import_ok _ _ _ _ _ _ _ _ D H) as (_ & _ & (_ & _ & _ & _ & _ & E)).
  rewrite E. split; [apply map_length|]. intros j k Hj. rewrite nth_error_map, Hj. cbn [option_map].
  split; [|split].
  - apply nth_error_In in Hj. unfold internal_of in Hj. destruct (v_edge_type f) as [types|]; [|destruct Hj].
    exists types. split; auto. apply filter_In in Hj. destruct Hj as [I B]. apply in_seq in I. apply Z.eqb_eq in B.
    rewrite <- B. apply nth_error_nth'. lia.
  - intros cz Hc. unfold chezy_of. rewrite Hc. auto.
  - intros cf Hc Hf. unfold chezy_of. rewrite Hc, Hf. auto.
Qed.
Print Assumptions C78_chezy_of_the_links.

(** Every edge of type 1 is one of the internal edges. *)
Theorem C78_internal_edges :
  forall f types k, v_edge_type f = Some types ->
    (In k (internal_of f) <-> nth_error types k = Some 1%Z) /\ NoDup (internal_of f).
Proof.
  intros f types k E. unfold internal_of. rewrite E. split; [|apply NoDup_filter, seq_NoDup].
  rewrite filter_In, in_seq, Z.eqb_eq. split.
  - intros [I <-]. apply nth_error_nth'. lia.
  - intro H. split.
    + split; [lia|]. apply nth_error_Some. congruence.
    + apply nth_error_nth. exact H.
Qed.
Print Assumptions C78_internal_edges.

(** * A case *)

Definition matrix_of (n : nat) (v : num) : option matrix := Some (mk_matrix n [repeat v n; repeat (Fin 2) n]).

(** Three faces, four edges of which the second is on the boundary, two time
    steps. *)
Definition small_file : map_file :=
  mk_map_file (Some [0; 1; 9]%Q) (Some [0; 0; 0]%Q) (Some [Fin 10; Fin 20; Fin 30]) (Some [Fin (-1); Fin (-2); Fin (-3)])
    (Some [(1, [2; 3]); (2, [3; 4]); (3, [4; 1])])%Z (Some [1; 3; 1; 1])%Z
    (Some [0; 5; 1; 9]%Q) (Some [1; 1; 1; 1]%Q) (Some [[1; 2]; [1; 0]; [2; 3]; [3; 1]])%nat
    (Some [(1, 2); (2, 3); (3, 4); (4, 1)])%Z (Some [0; 1; 9; 10]%Q) (Some [0; 0; 0; 0]%Q) (Some [Fin 0; Fin 60])
    (matrix_of 3 (Fin 0)) (matrix_of 3 (Fin 1)) (matrix_of 3 (Fin 40))
    (Some (mk_matrix 4 [[Fin 31; Fin 32; Fin 33; Fin 34]; [Fin 41; Fin 42; Fin 43; Fin 50]])) None
    (matrix_of 3 (Fin 3)) (matrix_of 3 (Fin 4)) (matrix_of 4 (Fin 1)).

Definition two_sections : columns Q :=
  mk_columns [(0, 0); (10, 0)]%Q [T "a"; T "b"] [T "r"; T "r"] [1; 1]%Q [0; 10]%Q.

Definition small_mesh : mesh :=
  match snd (set_fm_model_data first_nearest (fun _ _ => false) (fun _ _ => false) (fun _ => None) (T "map.nc") (0, 0)%Z
               small_file (Ok two_sections) VNull VNull None None) with
  | Ok m => m
  | Raise _ => mk_mesh [] [] [] [] [] [] [] [] [] [] [] [] [] [] [] [] None []
  end.

Example C76_case :
  dims small_file 3 4 4 2 /\ fits (fun _ => None) 3 (length (internal_of small_file)) /\
  required small_file = true /\
  (exists c', set_fm_model_data first_nearest (fun _ _ => false) (fun _ _ => false) (fun _ => None) (T "map.nc") (0, 0)%Z
               small_file (Ok two_sections) VNull VNull None None = (c', Ok small_mesh)) /\
  internal_of small_file = [0; 2; 3]%nat /\
  f_class small_mesh = [T "a"; T "a"; T "b"] /\ e_class small_mesh = [T "a"; T "a"; T "b"] /\
  match get_selection (fun x => x) small_mesh (T "a") with
  | Ok s => s_area s = [Fin 10; Fin 20] /\ s_chezy s = [[Fin 31; Fin 41]; [Fin 33; Fin 43]] /\
            s_level s = [[NaN; Fin 2]; [NaN; Fin 2]]
  | Raise _ => False
  end.
Proof.
  split; [|split; [|split; [|split]]].
  - unfold dims, small_file, has_length, has_shape, matrix_of; cbn -[repeat].
    repeat split; intros; repeat match goal with H : Some _ = Some _ |- _ => injection H as <- end;
      try discriminate; try reflexivity; try (split; reflexivity).
  - intros n m fl el H. discriminate.
  - reflexivity.
  - eexists. unfold small_mesh.
    match goal with |- ?x = _ => rewrite (surjective_pairing x) at 1 end. f_equal.
  - vm_compute. repeat split; reflexivity.
Qed.

(** * C34 in a run *)

Lemma last_as_nth {A} (l : list A) d : last l d = nth (length l - 1) l d.
Proof.
  induction l as [|x [|y l] IH]; [reflexivity|reflexivity|].
  change (last (x :: y :: l) d) with (last (y :: l) d). rewrite IH. cbn [length].
  replace (S (S (length l)) - 1)%nat with (S (S (length l) - 1)) by lia. reflexivity.
Qed.

(** Without a file of section polygons the faces and the internal links are
    classified by their Chezy values at the last time step of the file. *)
Theorem C34_run_classifies_by_the_last_time_step :
  forall nearest within inside c file mt f css dr ds regions c' m nf ne nn nt,
    dims f nf ne nn nt -> fits c nf (length (internal_of f)) ->
    set_fm_model_data nearest within inside c file mt f css dr ds regions None = (c', Ok m) ->
    (0 < nt)%nat /\
    exists fl el, length fl = nf /\ length el = length (internal_of f) /\
      classify_by_variance (LInt 1) (LInt 2) fl
        (map (fun i => nth (nt - 1) (series (v_czs f) i) NaN) (seq 0 nf)) = Ok (f_section m) /\
      classify_by_variance (T "1") (T "2") el
        (map (fun k => nth (nt - 1) (series (chezy_of f) k) NaN) (internal_of f)) = Ok (e_section m).
Proof.
  intros nearest within inside c file mt f css dr ds regions c' m nf ne nn nt D F H.
  apply set_data_inv in H. destruct H as (t & l & td & d & ro & so & EI & _ & _ & S & t1 & l1 & t2 & l2 & EA & (ES & Ec) & EM).
  destruct S as [(_ & ->)|(ps & X & _)]; [|discriminate].
  destruct (import_ok _ _ _ _ _ _ _ _ D EI) as (HF & HE & HR).
  destruct (assign_classes_ok nearest within inside c file mt f nf ne nn nt (c_xy d) (c_id d) dr ro t l D F HF HE) as [F1 A].
  destruct (A t1 l1 EA) as (HF1 & HE1 & _).
  destruct HR as (_ & _ & R3 & _ & _ & R6).
  cbn [assign_sections snd] in ES. step ES ev Hev. step ES es Hes. step ES fv Hfv. step ES fs Hfs. injection ES as <- <-.
  unfold mesh_of in EM. step EM x Hx. step EM y Hy. injection EM as <-.
  cbn [f_section e_section t_section l_section].
  destruct (v_time f) as [time|] eqn:ET; [|discriminate].
  assert (NT : length time = nt) by (destruct D as (_ & _ & _ & _ & _ & _ & _ & _ & _ & _ & _ & _ & D13 & _); apply D13; exact ET).
  rewrite NT in Hev, Hfv. unfold end_values in Hev, Hfv. destruct nt as [|nt']; [discriminate|].
  split; [lia|]. injection Hev as <-. injection Hfv as <-.
  exists (t_section t1), (l_section l1).
  destruct HF1 as (_ & _ & _ & _ & _ & L1 & _). destruct HE1 as (_ & _ & _ & _ & L2 & _).
  split; [exact L1|]. split; [exact L2|].
  assert (SL : forall v n i, has_shape v n (S nt') -> last (series v i) NaN = nth (S nt' - 1) (series v i) NaN).
  { intros [v|] n i Hs; [|cbn [series]; destruct (S nt' - 1)%nat; reflexivity].
    rewrite last_as_nth. f_equal. cbn [series]. rewrite map_length. destruct (Hs v eq_refl) as [_ ->]. reflexivity. }
  destruct D as (_ & _ & _ & _ & _ & _ & _ & _ & _ & _ & _ & _ & _ & _ & _ & S3 & _ & _ & S6 & S7 & _).
  rewrite R3, map_map in Hfs. rewrite R6, map_map in Hes. split.
  - rewrite <- Hfs. f_equal. apply map_ext. intro i. symmetry. eapply SL. exact S3.
  - rewrite <- Hes. f_equal. apply map_ext. intro i. symmetry. apply (SL _ ne).
    unfold chezy_of. destruct (v_czu f); auto.
Qed.
Print Assumptions C34_run_classifies_by_the_last_time_step.
