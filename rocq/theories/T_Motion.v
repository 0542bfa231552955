(** Theorems for C106: the coordinate system does not matter. *)
From Coq Require Import String List Ascii ZArith QArith Bool Lia Lqa.
From Verif Require Import Spec PyBase Num Text L_Text L_List M_Import T_Select M_Classify T_Neighbour
  M_Polygon M_Geometry M_Cli M_Data T_Data M_Pipeline T_Pipeline Spec_Same L_Same T_Same T_Order.
Import ListNotations.
Local Open Scope Q_scope.

(** ** Motions of the plane *)

(** A rotation, with or without a reflection, and a translation. *)
Record motion := mk_motion { o_cos : Q; o_sin : Q; o_mirror : bool; o_x : Q; o_y : Q }.
Definition proper (g : motion) : Prop := o_cos g * o_cos g + o_sin g * o_sin g == 1.
Definition hand (g : motion) : Q := if o_mirror g then - (1) else 1.
Definition turn (g : motion) (p : Q * Q) : Q * Q :=
  (o_cos g * fst p - hand g * o_sin g * snd p, o_sin g * fst p + hand g * o_cos g * snd p).
Definition move (g : motion) (p : point) : point := (fst (turn g p) + o_x g, snd (turn g p) + o_y g).

Lemma hand_square g : hand g * hand g == 1.
Proof. unfold hand. destruct (o_mirror g); reflexivity. Qed.

Lemma turn_length g p : proper g -> fst (turn g p) * fst (turn g p) + snd (turn g p) * snd (turn g p) == fst p * fst p + snd p * snd p.
Proof.
  intros P. pose proof (hand_square g) as H. unfold proper in P. unfold turn. cbn [fst snd].
  set (a := o_cos g) in *. set (b := o_sin g) in *. set (h := hand g) in *. set (x := fst p). set (y := snd p).
  assert (E : (a * x - h * b * y) * (a * x - h * b * y) + (b * x + h * a * y) * (b * x + h * a * y) ==
    (a * a + b * b) * (x * x + (h * h) * (y * y))) by ring.
  rewrite E, P, H. ring.
Qed.

Lemma move_distance g p q : proper g -> sq_dist (move g p) (move g q) == sq_dist p q.
Proof.
  intros P. pose proof (turn_length g (fst p - fst q, snd p - snd q) P) as H. unfold sq_dist. cbn [fst snd] in H.
  rewrite <- H. unfold move, turn. cbn [fst snd]. ring.
Qed.

(** ** The same river in another coordinate system *)

Definition move_x (g : motion) (x y : list Q) : list Q := map (fun p => fst (move g p)) (combine x y).
Definition move_y (g : motion) (x y : list Q) : list Q := map (fun p => snd (move g p)) (combine x y).
Definition move_x_column (g : motion) (x y : option (list Q)) : option (list Q) :=
  match x, y with Some x', Some y' => Some (move_x g x' y') | _, _ => x end.
Definition move_y_column (g : motion) (x y : option (list Q)) : option (list Q) :=
  match x, y with Some x', Some y' => Some (move_y g x' y') | _, _ => y end.

(** A velocity; one that is no number stays what it is. *)
Definition turn_x (g : motion) (x y : num) : num :=
  match x, y with Fin a, Fin b => Fin (fst (turn g (a, b))) | _, _ => x end.
Definition turn_y (g : motion) (x y : num) : num :=
  match x, y with Fin a, Fin b => Fin (snd (turn g (a, b))) | _, _ => y end.
Definition turn_matrix (t : num -> num -> num) (mx my : matrix) : matrix :=
  mk_matrix (m_points mx)
    (map2 (fun sx sy => map (fun i => t (nth i sx NaN) (nth i sy NaN)) (seq 0 (m_points mx))) (m_steps mx) (m_steps my)).
Definition turn_x_variable (g : motion) (x y : option matrix) : option matrix :=
  match x, y with Some mx, Some my => Some (turn_matrix (turn_x g) mx my) | _, _ => x end.
Definition turn_y_variable (g : motion) (x y : option matrix) : option matrix :=
  match x, y with Some mx, Some my => Some (turn_matrix (turn_y g) mx my) | _, _ => y end.

(** The map file in the other coordinate system. *)
Definition moved_file (g : motion) (f : map_file) : map_file :=
  mk_map_file (move_x_column g (v_face_x f) (v_face_y f)) (move_y_column g (v_face_x f) (v_face_y f))
    (v_face_area f) (v_face_bed f) (v_face_nodes f) (v_edge_type f)
    (move_x_column g (v_edge_x f) (v_edge_y f)) (move_y_column g (v_edge_x f) (v_edge_y f))
    (v_edge_faces f) (v_edge_nodes f)
    (move_x_column g (v_node_x f) (v_node_y f)) (move_y_column g (v_node_x f) (v_node_y f))
    (v_time f) (v_waterdepth f) (v_s1 f) (v_czs f) (v_czu f) (v_cftrt f)
    (turn_x_variable g (v_ucx f) (v_ucy f)) (turn_y_variable g (v_ucx f) (v_ucy f)) (v_u1 f).
Definition moved_polygon (g : motion) (p : polygon) : polygon := mk_polygon (map (move g) (p_ring p)) (p_props p).
Definition moved_polygons (g : motion) (o : option (res (list polygon))) : option (res (list polygon)) :=
  match o with Some (Ok ps) => Some (Ok (map (moved_polygon g) ps)) | o' => o' end.
Definition moved_locations (g : motion) (d : columns Q) : columns Q :=
  mk_columns (map (move g) (c_xy d)) (c_id d) (c_branch d) (c_length d) (c_chainage d).
Definition move_row (g : motion) (r : point * text) : point * text := (move g (fst r), snd r).

(** What is assumed of the tests for a point in a polygon. *)
Definition of_the_plane (g : motion) (within : ring -> point -> bool) : Prop :=
  forall r p, within (map (move g) r) (move g p) = within r p.

(** The tables of the importer in the other coordinate system. *)
Definition moved_faces (g : motion) (t : face_table) : face_table :=
  mk_faces (move_x g (t_x t) (t_y t)) (move_y g (t_x t) (t_y t)) (t_area t) (t_bed t) (t_region t) (t_section t) (t_class t) (t_islake t).
Definition moved_edges (g : motion) (l : edge_table) : edge_table :=
  mk_edges (move_x_column g (l_x l) (l_y l)) (move_y_column g (l_x l) (l_y l)) (l_faces l) (l_nodes l) (l_class l) (l_section l) (l_region l).
Definition turned_results (g : motion) (td : results) : results :=
  mk_results (d_depth td) (d_level td) (d_chezy_mean td) (d_chezy_edge td)
    (map2 (map2 (turn_x g)) (d_vx td) (d_vy td)) (map2 (map2 (turn_y g)) (d_vx td) (d_vy td)) (d_u td).

(** ** Columns *)

Lemma zip_length (x y : list Q) : @length point (combine x y) = Nat.min (length x) (length y).
Proof. exact (combine_length x y). Qed.
Lemma move_x_length g x y : length y = length x -> length (move_x g x y) = length x.
Proof. intros L. unfold move_x. rewrite map_length, zip_length. lia. Qed.
Lemma move_y_length g x y : length y = length x -> length (move_y g x y) = length x.
Proof. intros L. unfold move_y. rewrite map_length, zip_length. lia. Qed.

Lemma combine_moved g x y : combine (move_x g x y) (move_y g x y) = map (move g) (combine x y).
Proof.
  unfold move_x, move_y. induction (combine x y) as [|p l IH]; [reflexivity|]. cbn [map combine]. rewrite IH.
  destruct (move g p). reflexivity.
Qed.

Lemma select_move {A} (f : point -> A) m : forall x y, length y = length x ->
  select m (map f (combine x y)) = map f (combine (select m x) (select m y)).
Proof.
  induction m as [|b m IH]; intros [|a x] [|c y] L; try discriminate L; try reflexivity; cbn [combine map select].
  - destruct b; reflexivity.
  - cbn in L. destruct b; cbn [combine map]; rewrite IH by lia; reflexivity.
Qed.

Lemma map_const {A B C} (c : C) (l : list A) (m : list B) : length l = length m -> map (fun _ => c) l = map (fun _ => c) m.
Proof. revert m. induction l as [|a l IH]; intros [|b m] L; try discriminate L; [reflexivity|]. cbn. f_equal. apply IH. cbn in L. lia. Qed.

Lemma import_faces_moved g f nf ne nn nt : dims f nf ne nn nt ->
  import_faces (moved_file g f) = res_map (moved_faces g) (import_faces f).
Proof.
  intros (Dx & Dy & Da & Db & _). unfold import_faces, moved_file. cbn [v_face_x v_face_y v_face_area v_face_bed].
  unfold variable, move_x_column, move_y_column.
  destruct (v_face_x f) as [x|] eqn:Ex; [|reflexivity]. destruct (v_face_y f) as [y|] eqn:Ey; [|reflexivity]. cbn [of_option bind].
  specialize (Dx x eq_refl). specialize (Dy y eq_refl). assert (L : length y = length x) by lia.
  assert (C : forall A (c : list A), M_Data.column (move_x g x y) c = M_Data.column x c).
  { intros A c. unfold M_Data.column. rewrite move_x_length by exact L. reflexivity. }
  rewrite C. unfold M_Data.column at 1. rewrite move_y_length by exact L. rewrite Nat.eqb_refl. cbn [bind].
  unfold M_Data.column at 3. rewrite L, Nat.eqb_refl. cbn [bind].
  destruct (of_option KeyError (v_face_area f)) as [a|]; cbn [bind]; [|reflexivity]. rewrite C.
  destruct (M_Data.column x a) as [a'|]; cbn [bind]; [|reflexivity].
  destruct (of_option KeyError (v_face_bed f)) as [b|]; cbn [bind]; [|reflexivity]. rewrite C.
  destruct (M_Data.column x b) as [b'|]; cbn [bind]; [|reflexivity].
  cbn [res_map]. unfold moved_faces. cbn [t_x t_y t_area t_bed t_region t_section t_class t_islake].
  assert (Ly : length (move_y g x y) = length y) by (rewrite move_y_length; lia).
  rewrite !(map_const _ _ _ Ly). reflexivity.
Qed.

Lemma edge_column_x g mask x y : (forall x' y', x = Some x' -> y = Some y' -> length y' = length x') ->
  forall cx cy, edge_column mask x = Ok cx -> edge_column mask y = Ok cy ->
  edge_column mask (move_x_column g x y) = Ok (move_x_column g cx cy) /\
  edge_column mask (move_y_column g x y) = Ok (move_y_column g cx cy) /\
  (forall x' y', cx = Some x' -> cy = Some y' -> length y' = length x').
Proof.
  intros L cx cy Ex Ey. destruct x as [x|]; destruct y as [y|]; cbn [edge_column move_x_column move_y_column] in *;
    try (injection Ex as <-); try (injection Ey as <-);
    try (destruct (mask_index mask x) as [sx|] eqn:Mx; cbn [bind] in Ex; [injection Ex as <-|discriminate Ex]);
    try (destruct (mask_index mask y) as [sy|] eqn:My; cbn [bind] in Ey; [injection Ey as <-|discriminate Ey]);
    cbn [move_x_column move_y_column]; try (repeat split; discriminate).
  specialize (L x y eq_refl eq_refl). unfold mask_index in *.
  destruct (Nat.eqb_spec (length mask) (length x)) as [Lx|]; [|discriminate Mx]. injection Mx as <-.
  rewrite L, Lx, Nat.eqb_refl in My. injection My as <-.
  rewrite move_x_length, move_y_length by exact L. rewrite Lx, Nat.eqb_refl. cbn [bind].
  unfold move_x, move_y. rewrite !select_move by exact L. split; [reflexivity|]. split; [reflexivity|].
  intros x' y' [= <-] [= <-]. clear Lx. revert x y L. induction mask as [|b mask IH]; intros [|a x] [|c y] L; try discriminate L; try reflexivity.
  cbn [select]. cbn in L. destruct b; cbn [length]; rewrite (IH x y) by lia; reflexivity.
Qed.

Lemma edge_column_raise {A} mask (x : option (list A)) e : edge_column mask x = Raise e -> e = IndexError /\ exists l, x = Some l /\ length mask <> length l.
Proof.
  destruct x as [l|]; cbn [edge_column]; [|discriminate]. unfold mask_index. destruct (Nat.eqb_spec (length mask) (length l)); [discriminate|].
  intros [= <-]. eauto.
Qed.

(** The columns of the links have one length. *)
Definition even_edges (l : edge_table) : Prop := forall x y, l_x l = Some x -> l_y l = Some y -> length y = length x.
Definition even_faces (t : face_table) : Prop := length (t_y t) = length (t_x t).

Lemma import_edges_moved g f mask nf ne nn nt : dims f nf ne nn nt ->
  import_edges (moved_file g f) mask = res_map (moved_edges g) (import_edges f mask) /\
  forall l, import_edges f mask = Ok l -> even_edges l.
Proof.
  intros (_ & _ & _ & _ & _ & _ & Dx & Dy & _).
  assert (L : forall x' y', v_edge_x f = Some x' -> v_edge_y f = Some y' -> length y' = length x').
  { intros x' y' Ex Ey. rewrite (Dx x' Ex), (Dy y' Ey). reflexivity. }
  unfold import_edges, moved_file. cbn [v_edge_x v_edge_y v_edge_faces v_edge_nodes].
  destruct (edge_column mask (v_edge_x f)) as [cx|e] eqn:Ex.
  - destruct (edge_column mask (v_edge_y f)) as [cy|e] eqn:Ey.
    + destruct (edge_column_x g mask _ _ L cx cy Ex Ey) as (-> & -> & Ev). cbn [bind].
      destruct (edge_column mask (v_edge_faces f)) as [ef|]; cbn [bind]; [|split; [reflexivity|discriminate]].
      destruct (edge_column mask (v_edge_nodes f)) as [en|]; cbn [bind]; [|split; [reflexivity|discriminate]].
      split; [reflexivity|]. intros l [= <-]. exact Ev.
    + cbn [bind res_map]. split; [|discriminate]. destruct (edge_column_raise _ _ _ Ey) as (-> & y & Hy & Ny).
      unfold move_x_column, move_y_column. rewrite Hy in *. destruct (v_edge_x f) as [x|] eqn:Hx.
      * exfalso. specialize (L x y eq_refl eq_refl). cbn [edge_column] in Ex. unfold mask_index in Ex.
        destruct (Nat.eqb_spec (length mask) (length x)); [|discriminate Ex]. lia.
      * cbn [edge_column bind]. unfold mask_index. destruct (Nat.eqb_spec (length mask) (length y)); [congruence|]. reflexivity.
  - cbn [bind res_map]. split; [|discriminate]. destruct (edge_column_raise _ _ _ Ex) as (-> & x & Hx & Nx).
    unfold move_x_column. rewrite Hx in *. destruct (v_edge_y f) as [y|] eqn:Hy; cbn [edge_column]; unfold mask_index.
    + rewrite move_x_length by (apply L; reflexivity). destruct (Nat.eqb_spec (length mask) (length x)); [congruence|]. reflexivity.
    + destruct (Nat.eqb_spec (length mask) (length x)); [congruence|]. reflexivity.
Qed.

Lemma import_nodes_moved g f nf ne nn nt : dims f nf ne nn nt -> import_nodes (moved_file g f) = import_nodes f.
Proof.
  intros D. assert (L : forall x' y', v_node_x f = Some x' -> v_node_y f = Some y' -> length y' = length x').
  { intros x' y' Ex Ey. destruct D as (_ & _ & _ & _ & _ & _ & _ & _ & _ & _ & Dx & Dy & _). rewrite (Dx x' Ex), (Dy y' Ey). reflexivity. }
  unfold import_nodes, moved_file, variable, move_x_column, move_y_column. cbn [v_node_x v_node_y].
  destruct (v_node_x f) as [x|], (v_node_y f) as [y|]; try reflexivity. cbn [of_option bind]. unfold M_Data.column.
  specialize (L x y eq_refl eq_refl). rewrite move_x_length, move_y_length, L by exact L. rewrite !Nat.eqb_refl. reflexivity.
Qed.

(** ** Velocities *)

Lemma map2_nth {A B C} (f : A -> B -> C) : forall l m i da db dc, (i < length l)%nat -> length m = length l ->
  nth i (map2 f l m) dc = f (nth i l da) (nth i m db).
Proof.
  induction l as [|a l IH]; intros [|b m] [|i] da db dc Hi L; cbn in *; try lia; [reflexivity|]. apply IH; lia.
Qed.

Lemma turned_length t mx my : length (m_steps my) = length (m_steps mx) -> length (m_steps (turn_matrix t mx my)) = length (m_steps mx).
Proof.
  intros L. unfold turn_matrix. cbn [m_steps]. revert L. generalize (m_steps my). induction (m_steps mx) as [|s l IH]; intros [|s' m] L; try discriminate L; [reflexivity|].
  cbn [map2 length]. f_equal. apply IH. cbn in L. lia.
Qed.

Lemma transpose_turned t mx my : m_points my = m_points mx -> length (m_steps my) = length (m_steps mx) ->
  transpose (turn_matrix t mx my) = map2 (map2 t) (transpose mx) (transpose my).
Proof.
  intros P L. unfold transpose, turn_matrix. cbn [m_points m_steps]. rewrite P. set (n := m_points mx).
  assert (G : forall is, (forall i, In i is -> (i < n)%nat) ->
    map (fun i => map (fun step => nth i step NaN) (map2 (fun sx sy => map (fun i => t (nth i sx NaN) (nth i sy NaN)) (seq 0 n)) (m_steps mx) (m_steps my))) is =
    map2 (map2 t) (map (fun i => map (fun step => nth i step NaN) (m_steps mx)) is) (map (fun i => map (fun step => nth i step NaN) (m_steps my)) is)).
  { induction is as [|i is IH]; intros B; [reflexivity|]. cbn [map map2]. f_equal; [|apply IH; intros j Ij; apply B; right; exact Ij].
    specialize (B i (or_introl eq_refl)). clear - B L. revert L. generalize (m_steps my). induction (m_steps mx) as [|sx lx IHl]; intros [|sy ly] L; try discriminate L; [reflexivity|].
    cbn [map2 map]. f_equal; [|apply IHl; cbn in L; lia].
    rewrite (nth_indep _ NaN (t (nth 0 sx NaN) (nth 0 sy NaN))) by (rewrite map_length, seq_length; exact B).
    change (t (nth 0 sx NaN) (nth 0 sy NaN)) with ((fun i => t (nth i sx NaN) (nth i sy NaN)) 0%nat). rewrite map_nth, seq_nth by exact B. reflexivity. }
  apply G. intros i I. apply in_seq in I. lia.
Qed.

Lemma import_results_turned g f mask nf ne nn nt : dims f nf ne nn nt ->
  import_results (moved_file g f) mask = res_map (turned_results g) (import_results f mask).
Proof.
  intros D. unfold import_results.
  assert (F : forall v, import_frame (moved_file g f) v = import_frame f v) by reflexivity.
  assert (Ch : import_chezy (moved_file g f) mask = import_chezy f mask) by reflexivity.
  rewrite !F, Ch. cbn [v_waterdepth v_s1 v_czs v_ucx v_ucy v_u1 moved_file].
  destruct (import_frame f (v_waterdepth f)) as [d|]; cbn [bind]; [|reflexivity].
  destruct (import_frame f (v_s1 f)) as [s1|]; cbn [bind]; [|reflexivity].
  destruct (import_frame f (v_czs f)) as [cz|]; cbn [bind]; [|reflexivity].
  destruct (import_chezy f mask) as [ce|]; cbn [bind]; [|reflexivity].
  unfold turn_x_variable, turn_y_variable. destruct (v_ucx f) as [mx|] eqn:Ex; [|reflexivity].
  destruct (v_ucy f) as [my|] eqn:Ey.
  2:{ destruct (import_frame f (Some mx)); reflexivity. }
  assert (S : m_points my = m_points mx /\ length (m_steps my) = length (m_steps mx)).
  { destruct D as (_ & _ & _ & _ & _ & _ & _ & _ & _ & _ & _ & _ & _ & _ & _ & _ & Sx & Sy & _).
    destruct (Sx mx Ex) as [-> ->]. destruct (Sy my Ey) as [-> ->]. auto. }
  destruct S as [S1 S2]. unfold import_frame, variable. cbn [of_option bind].
  destruct (of_option KeyError (v_time f)) as [time|]; cbn [bind]; [|reflexivity]. unfold frame.
  rewrite !turned_length, S2 by exact S2. destruct (Nat.eqb (length (m_steps mx)) (length time)); cbn [bind]; [|reflexivity].
  destruct (m <- of_option KeyError (v_u1 f) ;; _) as [u|]; cbn [bind res_map]; [|reflexivity].
  unfold turned_results. cbn [d_depth d_level d_chezy_mean d_chezy_edge d_vx d_vy d_u]. rewrite !transpose_turned by assumption. reflexivity.
Qed.

Lemma import_moved g f nf ne nn nt : dims f nf ne nn nt ->
  import_dflow2d (moved_file g f) = res_map (fun r => (moved_faces g (fst (fst r)), moved_edges g (snd (fst r)), turned_results g (snd r))) (import_dflow2d f) /\
  forall t l td, import_dflow2d f = Ok (t, l, td) -> even_faces t /\ even_edges l.
Proof.
  intros D. unfold import_dflow2d. rewrite (import_faces_moved g f nf ne nn nt D).
  destruct (import_faces f) as [t|] eqn:Et; cbn [bind res_map]; [|split; [reflexivity|discriminate]].
  assert (Ev : even_faces t).
  { unfold import_faces in Et. unfold variable in Et. destruct D as (Dx & Dy & _).
    destruct (v_face_x f) as [x|] eqn:Ex; [|discriminate Et]. destruct (v_face_y f) as [y|] eqn:Ey; [|discriminate Et]. cbn [of_option bind] in Et.
    destruct (M_Data.column x y) as [y'|] eqn:Cy; cbn [bind] in Et; [|discriminate Et].
    destruct (of_option KeyError (v_face_area f)) as [a|]; cbn [bind] in Et; [|discriminate Et].
    destruct (M_Data.column x a) as [a'|]; cbn [bind] in Et; [|discriminate Et].
    destruct (of_option KeyError (v_face_bed f)) as [b|]; cbn [bind] in Et; [|discriminate Et].
    destruct (M_Data.column x b) as [b'|]; cbn [bind] in Et; [|discriminate Et]. injection Et as <-. unfold even_faces. cbn [t_x t_y].
    unfold M_Data.column in Cy. destruct (Nat.eqb_spec (length y) (length x)); [|discriminate Cy]. injection Cy as <-. assumption. }
  change (v_edge_type (moved_file g f)) with (v_edge_type f).
  destruct (variable (v_edge_type f)) as [types|]; cbn [bind]; [|split; [reflexivity|discriminate]].
  destruct (import_edges_moved g f (internal_edges types) nf ne nn nt D) as [Ee He]. rewrite Ee.
  destruct (import_edges f (internal_edges types)) as [l|]; cbn [bind res_map]; [|split; [reflexivity|discriminate]].
  rewrite (import_nodes_moved g f nf ne nn nt D). destruct (import_nodes f); cbn [bind]; [|split; [reflexivity|discriminate]].
  rewrite (import_results_turned g f _ nf ne nn nt D). destruct (import_results f (internal_edges types)) as [td|]; cbn [bind res_map]; [|split; [reflexivity|discriminate]].
  split; [reflexivity|]. intros t' l' td' [= <- <- <-]. split; [exact Ev|]. apply He. reflexivity.
Qed.

(** ** Polygons *)

Lemma point_label_moved g within dr prop ps p : of_the_plane g within ->
  point_label within dr prop (map (moved_polygon g) ps) (move g p) = point_label within dr prop ps p.
Proof. intros W. induction ps as [|q ps IH]; [reflexivity|]. cbn [map point_label moved_polygon p_ring]. rewrite W, IH. reflexivity. Qed.

Lemma points_in_polygon_moved g within dr prop ps pts : of_the_plane g within ->
  get_points_in_polygon within dr prop (map (moved_polygon g) ps) (map (move g) pts) = get_points_in_polygon within dr prop ps pts.
Proof.
  intros W. unfold get_points_in_polygon.
  assert (E : map (point_label within dr prop (map (moved_polygon g) ps)) (map (move g) pts) = map (point_label within dr prop ps) pts).
  { rewrite map_map. apply map_ext. intros p. apply point_label_moved. exact W. }
  rewrite E. destruct ps, pts; reflexivity.
Qed.

Definition moved_grid (g : motion) (m : grid) : grid := mk_grid (map (move g) (g_nodes m)) (g_faces m) (g_edges m) (g_edge_type m).

Lemma node_labels_moved g inside dr prop ps nodes : of_the_plane g inside ->
  node_labels inside dr prop (map (moved_polygon g) ps) (map (move g) nodes) = node_labels inside dr prop ps nodes.
Proof.
  intros W. assert (P : forall labels p, paint inside prop (map (move g) nodes) labels (moved_polygon g p) = paint inside prop nodes labels p).
  { intros labels p. unfold paint. cbn [moved_polygon p_ring]. revert labels. induction nodes as [|n nodes IH]; intros [|l labels]; try reflexivity.
    cbn [map map2]. rewrite W, IH. reflexivity. }
  assert (F : forall qs labels, fold_left (paint inside prop (map (move g) nodes)) (map (moved_polygon g) qs) labels = fold_left (paint inside prop nodes) qs labels).
  { induction qs as [|q qs IH]; intros labels; [reflexivity|]. cbn [map fold_left]. rewrite P. apply IH. }
  unfold node_labels. rewrite F, map_map. destruct ps; reflexivity.
Qed.

Lemma gridpoints_moved g inside dr prop ps m : of_the_plane g inside ->
  gridpoints inside dr prop (map (moved_polygon g) ps) (moved_grid g m) = gridpoints inside dr prop ps m.
Proof.
  intros W. unfold gridpoints, faces_in_polygon, edges_in_polygon. cbn [moved_grid g_nodes g_faces g_edges g_edge_type].
  rewrite node_labels_moved by exact W. reflexivity.
Qed.

Lemma mesh_grid_moved g f : mesh_grid (moved_file g f) = res_map (moved_grid g) (mesh_grid f).
Proof.
  unfold mesh_grid, moved_file, variable, move_x_column, move_y_column. cbn [v_node_x v_node_y v_edge_nodes v_face_nodes v_edge_type].
  destruct (v_node_x f) as [x|]; [|reflexivity]. destruct (v_node_y f) as [y|]; [|reflexivity]. cbn [of_option bind].
  destruct (v_edge_nodes f); [|reflexivity]. destruct (v_face_nodes f); [|reflexivity]. destruct (v_edge_type f); [|reflexivity].
  cbn [of_option bind res_map]. rewrite combine_moved. reflexivity.
Qed.

Lemma classify_grid_moved g inside c file mt f dr prop ps : of_the_plane g inside ->
  classify_grid inside c file mt (moved_file g f) dr prop (map (moved_polygon g) ps) = classify_grid inside c file mt f dr prop ps.
Proof.
  intros W. unfold classify_grid. rewrite mesh_grid_moved. destruct (mesh_grid f) as [m|]; cbn [res_map bind]; [|reflexivity].
  rewrite gridpoints_moved by exact W. reflexivity.
Qed.

(** ** The nearest location *)

Lemma goes_to_moved g rows p c : proper g -> goes_to (map (move_row g) rows) (move g p) c -> goes_to rows p c.
Proof.
  intros P (s' & I & M). apply in_map_iff in I. destruct I as ([s c0] & E & I). injection E as <- <-. exists s. split; [exact I|].
  intros q Iq. specialize (M _ (in_map (move_row g) rows q Iq)). cbn [move_row fst] in M. rewrite !move_distance in M by exact P. exact M.
Qed.

Lemma predict_moved g nearest rows pts : proper g -> is_nearest nearest -> (forall p, In p pts -> decided rows p) ->
  predict nearest (map fst (map (move_row g) rows)) (map snd (map (move_row g) rows)) (map (move g) pts) =
  predict nearest (map fst rows) (map snd rows) pts.
Proof.
  intros P N D. destruct rows as [|r rows]; [reflexivity|]. destruct pts as [|p pts]; [reflexivity|].
  rewrite !predict_ok by discriminate. f_equal. rewrite map_map. apply map_ext_in. intros q Iq.
  apply (D q Iq); [|apply nearest_goes_to; [exact N|discriminate]].
  apply (goes_to_moved g); [exact P|]. apply nearest_goes_to; [exact N|discriminate].
Qed.

Lemma classify_moved g nearest rows faces links : proper g -> is_nearest nearest ->
  (forall p, In p faces \/ In p links -> decided rows p) ->
  classify_without_regions nearest (map fst (map (move_row g) rows)) (map snd (map (move_row g) rows)) (map (move g) faces) (map (move g) links) =
  classify_without_regions nearest (map fst rows) (map snd rows) faces links.
Proof.
  intros P N D. unfold classify_without_regions. rewrite !predict_moved; auto.
Qed.

Lemma filter_moved g region_of region_of' region rows : (forall p, region_of' (move g p) = region_of p) ->
  filter (in_label region_of' region) (map (move_row g) rows) = map (move_row g) (filter (in_label region_of region) rows).
Proof.
  intros E. induction rows as [|r rows IH]; [reflexivity|]. cbn [map filter].
  assert (L : in_label region_of' region (move_row g r) = in_label region_of region r) by (unfold in_label; cbn [move_row fst]; rewrite E; reflexivity).
  rewrite L, IH. destruct (in_label region_of region r); reflexivity.
Qed.

Lemma select_map {A B} (f : A -> B) m : forall l, select m (map f l) = map f (select m l).
Proof. induction m as [|b m IH]; intros [|a l]; try (destruct b); try reflexivity; cbn [map select]; rewrite IH; reflexivity. Qed.
Definition select_moved g m (l : list point) : select m (map (move g) l) = map (move g) (select m l) := select_map (move g) m l.

Lemma regions_moved g nearest region_of region_of' rows faces fr links er e_class : proper g -> is_nearest nearest ->
  (forall p, region_of' (move g p) = region_of p) ->
  (forall p, In p faces \/ In p links -> forall region, decided (filter (in_label region_of region) rows) p) ->
  classify_with_regions nearest (map fst (map (move_row g) rows)) (map snd (map (move_row g) rows))
    (map region_of' (map fst (map (move_row g) rows))) (map (move g) faces) fr (map (move g) links) er e_class =
  classify_with_regions nearest (map fst rows) (map snd rows) (map region_of (map fst rows)) faces fr links er e_class.
Proof.
  intros P N R D. unfold classify_with_regions. generalize (unique fr) as regions. intros regions. generalize (fr, e_class). intros st. revert st.
  induction regions as [|region regions IH]; intros st; [reflexivity|]. cbn [fold_res].
  assert (E : region_step nearest (map fst (map (move_row g) rows)) (map snd (map (move_row g) rows)) (map region_of' (map fst (map (move_row g) rows)))
      (map (move g) faces) fr (map (move g) links) er st region =
    region_step nearest (map fst rows) (map snd rows) (map region_of (map fst rows)) faces fr links er st region).
  { rewrite !region_step_rows, (filter_moved g region_of) by exact R. rewrite !select_moved.
    pose proof (predict_moved g nearest (filter (in_label region_of region) rows) (select (in_region region fr) faces) P N) as E1.
    pose proof (predict_moved g nearest (filter (in_label region_of region) rows) (select (in_region region er) links) P N) as E2.
    destruct (filter (in_label region_of region) rows) as [|r0 grp] eqn:Ef; [reflexivity|]. cbn [map]. cbv zeta. cbn [map] in E1, E2. rewrite E1, E2.
    - reflexivity.
    - intros p I. rewrite <- Ef. apply D. right. exact (select_incl _ _ _ I).
    - intros p I. rewrite <- Ef. apply D. left. exact (select_incl _ _ _ I). }
  rewrite E. destruct (region_step nearest (map fst rows) _ _ _ _ _ _ _ _) as [st'|]; [apply IH|reflexivity].
Qed.

(** ** The whole import *)

Definition moved_tables (g : motion) (tl : face_table * edge_table) : face_table * edge_table := (moved_faces g (fst tl), moved_edges g (snd tl)).
Definition moved_regions (g : motion) (o : option (list polygon)) : option (list polygon) := option_map (map (moved_polygon g)) o.

Lemma column_moved {A} g x y (c : list A) : length y = length x -> M_Data.column (move_x g x y) c = M_Data.column x c.
Proof. intros L. unfold M_Data.column. rewrite move_x_length by exact L. reflexivity. Qed.

Lemma rows_xy g rows : map fst (map (move_row g) rows) = map (move g) (map fst rows).
Proof. rewrite !map_map. reflexivity. Qed.
Lemma rows_id g rows : map snd (map (move_row g) rows) = map snd rows.
Proof. rewrite map_map. reflexivity. Qed.

Lemma assign_classes_moved g nearest within inside c file mt f rows dr regions t l :
  proper g -> is_nearest nearest -> of_the_plane g within -> of_the_plane g inside -> even_faces t ->
  (forall p, mesh_point t l p -> no_ties within dr regions rows p) ->
  assign_classes nearest within inside c file mt (moved_file g f) (map (move g) (map fst rows)) (map snd rows) dr (moved_regions g regions)
    (moved_faces g t) (moved_edges g l) =
  (fst (assign_classes nearest within inside c file mt f (map fst rows) (map snd rows) dr regions t l),
   res_map (moved_tables g) (snd (assign_classes nearest within inside c file mt f (map fst rows) (map snd rows) dr regions t l))).
Proof.
  intros P N W I Ev D. unfold assign_classes, variable. destruct regions as [ps|]; cbn [moved_regions option_map].
  - rewrite classify_grid_moved by exact I. cbn [fst snd]. f_equal.
    destruct (snd (classify_grid inside c file mt f dr (T "region") ps)) as [labels|]; cbn [bind res_map]; [|reflexivity].
    cbn [moved_faces t_x t_y t_area t_bed t_region t_section t_class t_islake]. rewrite column_moved by exact Ev.
    destruct (M_Data.column (t_x t) (map text_of (fst labels))) as [fr|]; cbn [bind res_map]; [|reflexivity].
    rewrite points_in_polygon_moved by exact W.
    destruct (get_points_in_polygon within dr (T "region") ps (map fst rows)) as [cl|] eqn:Ec; cbn [bind res_map]; [|reflexivity].
    assert (Cl : cl = map (point_label within dr (T "region") ps) (map fst rows)).
    { unfold get_points_in_polygon in Ec. destruct ps, (map fst rows); try discriminate Ec; injection Ec as <-; reflexivity. }
    subst cl. cbn [moved_edges l_x l_y l_faces l_nodes l_class l_section l_region]. unfold move_x_column, move_y_column.
    destruct (l_x l) as [x|] eqn:Lx; [|reflexivity]. destruct (l_y l) as [y|] eqn:Ly; [|reflexivity]. cbn [of_option bind].
    rewrite !combine_moved.
    pose proof (regions_moved g nearest (fun q => text_of (point_label within dr (T "region") ps q))
      (fun q => text_of (point_label within dr (T "region") (map (moved_polygon g) ps) q)) rows (combine (t_x t) (t_y t)) fr (combine x y)
      (map text_of (snd labels)) (l_class l) P N) as E.
    rewrite rows_xy, rows_id in E. rewrite (map_map (move g)) in E.
    assert (Lab : map (fun p => text_of (point_label within dr (T "region") (map (moved_polygon g) ps) (move g p))) (map fst rows) =
      map text_of (map (point_label within dr (T "region") ps) (map fst rows))).
    { rewrite (map_map _ text_of). apply map_ext. intros p. rewrite point_label_moved by exact W. reflexivity. }
    rewrite Lab in E. rewrite E.
    + rewrite (map_map (point_label within dr (T "region") ps) text_of).
      destruct (classify_with_regions nearest (map fst rows) (map snd rows) _ _ _ _ _ _) as [cls|]; cbn [bind res_map]; [|reflexivity].
      unfold moved_tables, moved_faces, moved_edges. cbn. rewrite ?Lx, ?Ly. reflexivity.
    + intros p. rewrite point_label_moved by exact W. reflexivity.
    + intros p Hp. apply (D p). destruct Hp as [Hp|Hp]; [left; exact Hp|right]. exists x, y. auto.
  - cbn [fst snd]. f_equal. cbn [moved_edges l_x l_y l_faces l_nodes l_class l_section l_region]. unfold move_x_column, move_y_column.
    destruct (l_x l) as [x|] eqn:Lx; [|reflexivity]. destruct (l_y l) as [y|] eqn:Ly; [|reflexivity]. cbn [of_option bind].
    cbn [moved_faces t_x t_y]. rewrite !combine_moved.
    pose proof (classify_moved g nearest rows (combine (t_x t) (t_y t)) (combine x y) P N) as E. rewrite rows_xy, rows_id in E. rewrite E.
    + destruct (classify_without_regions nearest (map fst rows) (map snd rows) _ _) as [cls|]; cbn [bind res_map]; [|reflexivity].
      unfold moved_tables, moved_faces, moved_edges. cbn. rewrite ?Lx, ?Ly. reflexivity.
    + intros p Hp. apply (D p). destruct Hp as [Hp|Hp]; [left; exact Hp|right]. exists x, y. auto.
Qed.

Lemma assign_sections_moved g inside c file mt f steps ds sections td t l : of_the_plane g inside -> even_faces t ->
  assign_sections inside c file mt (moved_file g f) steps ds (moved_regions g sections) (turned_results g td) (moved_faces g t) (moved_edges g l) =
  (fst (assign_sections inside c file mt f steps ds sections td t l),
   res_map (moved_tables g) (snd (assign_sections inside c file mt f steps ds sections td t l))).
Proof.
  intros I Ev. unfold assign_sections. destruct sections as [ps|]; cbn [moved_regions option_map].
  - rewrite classify_grid_moved by exact I. cbn [fst snd]. f_equal.
    destruct (snd (classify_grid inside c file mt f ds (T "section") ps)) as [labels|]; cbn [bind res_map]; [|reflexivity].
    cbn [moved_faces t_x]. rewrite column_moved by exact Ev.
    destruct (M_Data.column (t_x t) (map section_label (fst labels))) as [fs|]; cbn [bind res_map]; reflexivity.
  - cbn [fst snd]. f_equal. cbn [turned_results d_chezy_edge d_chezy_mean moved_edges moved_faces l_section t_section].
    destruct (end_values steps (d_chezy_edge td)) as [ev|]; cbn [bind res_map]; [|reflexivity].
    destruct (classify_by_variance (T "1") (T "2") (l_section l) ev) as [es|]; cbn [bind res_map]; [|reflexivity].
    destruct (end_values steps (d_chezy_mean td)) as [fv|]; cbn [bind res_map]; [|reflexivity].
    destruct (classify_by_variance _ _ (t_section t) fv) as [fs|]; cbn [bind res_map]; reflexivity.
Qed.

(** Coordinates of the mesh. *)
Definition nmove_x (g : motion) (x y : num) : num := match x, y with Fin a, Fin b => Fin (fst (move g (a, b))) | _, _ => x end.
Definition nmove_y (g : motion) (x y : num) : num := match x, y with Fin a, Fin b => Fin (snd (move g (a, b))) | _, _ => y end.
Definition moved_mesh (g : motion) (m : mesh) : mesh :=
  mk_mesh (map2 (nmove_x g) (f_x m) (f_y m)) (map2 (nmove_y g) (f_x m) (f_y m)) (f_area m) (f_bed m)
    (f_region m) (f_islake m) (f_section m) (f_class m) (f_depth m) (f_level m)
    (map2 (map2 (turn_x g)) (f_vx m) (f_vy m)) (map2 (map2 (turn_y g)) (f_vx m) (f_vy m))
    (map2 (nmove_x g) (e_x m) (e_y m)) (map2 (nmove_y g) (e_x m) (e_y m)) (e_section m) (e_class m) (e_faces m) (e_chezy m).

Lemma nmove_columns g x y : map Fin (move_x g x y) = map2 (nmove_x g) (map Fin x) (map Fin y) /\ map Fin (move_y g x y) = map2 (nmove_y g) (map Fin x) (map Fin y).
Proof.
  unfold move_x, move_y. revert y. induction x as [|a x IH]; intros [|b y]; try (split; reflexivity).
  cbn [combine map map2]. destruct (IH y) as [-> ->]. split; reflexivity.
Qed.

Lemma mesh_of_moved g t l td : mesh_of (moved_faces g t) (moved_edges g l) (turned_results g td) = res_map (moved_mesh g) (mesh_of t l td).
Proof.
  unfold mesh_of, variable. cbn [moved_edges moved_faces turned_results l_x l_y l_faces l_nodes l_class l_section l_region
    t_x t_y t_area t_bed t_region t_section t_class t_islake d_depth d_level d_chezy_mean d_chezy_edge d_vx d_vy d_u]. unfold move_x_column, move_y_column.
  destruct (l_x l) as [x|]; [|reflexivity]. destruct (l_y l) as [y|]; [|reflexivity]. cbn [of_option bind res_map].
  unfold moved_mesh. cbn [f_x f_y f_area f_bed f_region f_islake f_section f_class f_depth f_level f_vx f_vy e_x e_y e_section e_class e_faces e_chezy].
  destruct (nmove_columns g (t_x t) (t_y t)) as [-> ->]. destruct (nmove_columns g x y) as [-> ->]. reflexivity.
Qed.

Lemma assign_classes_even nearest within inside c file mt f xy ids dr regions t l t1 l1 :
  snd (assign_classes nearest within inside c file mt f xy ids dr regions t l) = Ok (t1, l1) ->
  t_x t1 = t_x t /\ t_y t1 = t_y t /\ l_x l1 = l_x l /\ l_y l1 = l_y l.
Proof.
  unfold assign_classes, variable. destruct regions as [ps|]; cbn [snd]; intros H.
  - destruct (snd (classify_grid inside c file mt f dr (T "region") ps)) as [labels|]; cbn [bind] in H; [|discriminate H].
    destruct (M_Data.column _ _) as [fr|]; cbn [bind] in H; [|discriminate H].
    destruct (get_points_in_polygon _ _ _ _ _) as [cl|]; cbn [bind] in H; [|discriminate H].
    destruct (of_option KeyError (l_x l)); cbn [bind] in H; [|discriminate H]. destruct (of_option KeyError (l_y l)); cbn [bind] in H; [|discriminate H].
    destruct (classify_with_regions _ _ _ _ _ _ _ _ _); cbn [bind] in H; [|discriminate H]. injection H as <- <-. cbn. auto.
  - destruct (of_option KeyError (l_x l)); cbn [bind] in H; [|discriminate H]. destruct (of_option KeyError (l_y l)); cbn [bind] in H; [|discriminate H].
    destruct (classify_without_regions _ _ _ _ _); cbn [bind] in H; [|discriminate H]. injection H as <- <-. cbn. auto.
Qed.

(** The model data in another coordinate system are the moved model data: every
    face and every link has the same control volume, region and section. *)
Theorem C106_model_data :
  forall g nearest within inside c file mt f rows d dr ds regions sections nf ne nn nt,
    proper g -> is_nearest nearest -> of_the_plane g within -> of_the_plane g inside ->
    dims f nf ne nn nt -> located rows d ->
    (forall t l td, import_dflow2d f = Ok (t, l, td) -> forall p, mesh_point t l p ->
       no_ties within dr (match regions with Some (Ok ps) => Some ps | _ => None end) rows p) ->
    set_fm_model_data nearest within inside c file mt (moved_file g f) (Ok (moved_locations g d)) dr ds
      (moved_polygons g regions) (moved_polygons g sections) =
    (fst (set_fm_model_data nearest within inside c file mt f (Ok d) dr ds regions sections),
     res_map (moved_mesh g) (snd (set_fm_model_data nearest within inside c file mt f (Ok d) dr ds regions sections))).
Proof.
  intros g nearest within inside c file mt f rows d dr ds regions sections nf ne nn nt P N W I Dm [X Id] D.
  unfold set_fm_model_data. destruct (import_moved g f nf ne nn nt Dm) as [E Ev]. rewrite E.
  destruct (import_dflow2d f) as [[[t l] td]|e]; cbn [res_map fst snd]; [|reflexivity].
  destruct (Ev t l td eq_refl) as [Ef _]. specialize (D t l td eq_refl).
  cbn [moved_locations c_xy c_id]. rewrite X, Id.
  set (R := match regions with Some (Ok ps) => Some ps | _ => None end) in *.
  set (S := match sections with Some (Ok ps) => Some ps | _ => None end).
  assert (R' : match moved_polygons g regions with Some (Ok ps) => Some ps | _ => None end = moved_regions g R) by (destruct regions as [[|]|]; reflexivity).
  assert (S' : match moved_polygons g sections with Some (Ok ps) => Some ps | _ => None end = moved_regions g S) by (destruct sections as [[|]|]; reflexivity).
  cbv zeta. rewrite R', S'.
  pose proof (assign_classes_moved g nearest within inside c file mt f rows dr R t l P N W I Ef D) as A.
  pose proof (assign_classes_even nearest within inside c file mt f (map fst rows) (map snd rows) dr R t l) as Ae.
  set (a := assign_classes nearest within inside c file mt f (map fst rows) (map snd rows) dr R t l) in *.
  change (v_time (moved_file g f)) with (v_time f). rewrite A. cbn [fst snd].
  assert (B : match res_map (moved_tables g) (snd a) with
    | Raise e => (fst a, Raise e)
    | Ok (t1, l1) =>
        (fst (assign_sections inside (fst a) file mt (moved_file g f) match v_time f with Some time => length time | None => 0%nat end ds (moved_regions g S) (turned_results g td) t1 l1),
         tl <- snd (assign_sections inside (fst a) file mt (moved_file g f) match v_time f with Some time => length time | None => 0%nat end ds (moved_regions g S) (turned_results g td) t1 l1) ;;
         mesh_of (fst tl) (snd tl) (turned_results g td))
    end =
    (fst match snd a with
     | Raise e => (fst a, Raise e)
     | Ok (t1, l1) =>
        (fst (assign_sections inside (fst a) file mt f match v_time f with Some time => length time | None => 0%nat end ds S td t1 l1),
         tl <- snd (assign_sections inside (fst a) file mt f match v_time f with Some time => length time | None => 0%nat end ds S td t1 l1) ;;
         mesh_of (fst tl) (snd tl) td)
     end,
     res_map (moved_mesh g) (snd match snd a with
     | Raise e => (fst a, Raise e)
     | Ok (t1, l1) =>
        (fst (assign_sections inside (fst a) file mt f match v_time f with Some time => length time | None => 0%nat end ds S td t1 l1),
         tl <- snd (assign_sections inside (fst a) file mt f match v_time f with Some time => length time | None => 0%nat end ds S td t1 l1) ;;
         mesh_of (fst tl) (snd tl) td)
     end))).
  { destruct (snd a) as [[t1 l1]|e]; cbn [res_map moved_tables fst snd]; [|reflexivity].
    destruct (Ae t1 l1 eq_refl) as (X1 & Y1 & _ & _).
    rewrite assign_sections_moved; [|exact I|unfold even_faces; rewrite X1, Y1; exact Ef]. cbn [fst snd].
    f_equal. destruct (snd (assign_sections inside (fst a) file mt f _ ds S td t1 l1)) as [tl|]; cbn [res_map bind]; [|reflexivity].
    cbn [moved_tables fst snd]. apply mesh_of_moved. }
  destruct regions as [[ps|e]|], sections as [[qs|e']|]; cbn [moved_polygons]; first [exact B|reflexivity].
Qed.
Print Assumptions C106_model_data.

(** ** The control volume of a cross-section *)

Definition moved_selection (g : motion) (s : selection) : selection :=
  mk_selection (map2 (nmove_x g) (s_x s) (s_y s)) (map2 (nmove_y g) (s_x s) (s_y s)) (s_area s) (s_bed s)
    (s_depth s) (s_level s) (s_vel s) (s_section s) (s_chezy s) (s_region s) (s_islake s) (s_edge_faces s)
    (map2 (nmove_x g) (s_edge_x s) (s_edge_y s)) (map2 (nmove_y g) (s_edge_x s) (s_edge_y s)) (s_edge_section s).
(** The two columns of coordinates and the two velocities have one length. *)
Definition even_mesh (m : mesh) : Prop :=
  length (f_y m) = length (f_x m) /\ length (f_vy m) = length (f_vx m) /\ length (e_y m) = length (e_x m).
(** The square root of a number depends on its value. *)
Definition root_by_value (sqrt : num -> num) : Prop := forall a b, a == b -> sqrt (Fin a) = sqrt (Fin b).

Lemma map2_length {A B C} (f : A -> B -> C) : forall l m, length m = length l -> length (map2 f l m) = length l.
Proof. induction l as [|a l IH]; intros [|b m] L; try discriminate L; [reflexivity|]. cbn [map2 length]. f_equal. apply IH. cbn in L. lia. Qed.

Lemma select_map2 {A B C} (f : A -> B -> C) k : forall l m, length m = length l -> select k (map2 f l m) = map2 f (select k l) (select k m).
Proof.
  induction k as [|b k IH]; intros [|a l] [|c m] L; try discriminate L; try (destruct b); try reflexivity; cbn [map2 select]; rewrite IH by (cbn in L; lia); reflexivity.
Qed.

Lemma magnitude_turned g sqrt vx vy : proper g -> root_by_value sqrt ->
  magnitude sqrt (map2 (turn_x g) vx vy) (map2 (turn_y g) vx vy) = magnitude sqrt vx vy.
Proof.
  intros P R. unfold magnitude. revert vy. induction vx as [|a vx IH]; intros [|b vy]; try reflexivity. cbn [map2]. rewrite IH. f_equal.
  destruct a as [a| | |], b as [b| | |]; try reflexivity. cbn [turn_x turn_y nmul nadd]. apply R. exact (turn_length g (a, b) P).
Qed.

Lemma speeds_turned g sqrt : forall vx vy, proper g -> root_by_value sqrt ->
  map2 (magnitude sqrt) (map2 (map2 (turn_x g)) vx vy) (map2 (map2 (turn_y g)) vx vy) = map2 (magnitude sqrt) vx vy.
Proof.
  intros vx vy P R. revert vy. induction vx as [|a vx IH]; intros [|b vy]; try reflexivity. cbn [map2]. rewrite IH, magnitude_turned by assumption. reflexivity.
Qed.

Lemma mask_index_map2 {A B C} (f : A -> B -> C) k l m : length m = length l ->
  mask_index k (map2 f l m) = (l' <- mask_index k l ;; m' <- mask_index k m ;; Ok (map2 f l' m')).
Proof.
  intros L. unfold mask_index. rewrite map2_length, L by exact L. destruct (Nat.eqb (length k) (length l)); [|reflexivity].
  cbn [bind]. rewrite select_map2 by exact L. reflexivity.
Qed.

Lemma mask_index_both {A B} (k : list bool) (l : list A) (m : list B) : length m = length l ->
  match mask_index k l with Ok _ => exists m', mask_index k m = Ok m' | Raise e => mask_index k m = Raise e end.
Proof. intros L. unfold mask_index. rewrite L. destruct (Nat.eqb (length k) (length l)); [eexists; reflexivity|reflexivity]. Qed.

Theorem C106_control_volume :
  forall g sqrt m name, proper g -> root_by_value sqrt -> even_mesh m ->
    get_selection sqrt (moved_mesh g m) name = res_map (moved_selection g) (get_selection sqrt m name).
Proof.
  intros g sqrt m name P R (L1 & L2 & L3). unfold get_selection. cbv zeta.
  cbn [moved_mesh f_x f_y f_area f_bed f_region f_islake f_section f_class f_depth f_level f_vx f_vy e_x e_y e_section e_class e_faces e_chezy].
  set (fm := map (fun c => teqb c name) (f_class m)). set (em := map (fun c => teqb c name) (e_class m)).
  rewrite !(mask_index_map2 _ fm) by assumption. rewrite !(mask_index_map2 _ em) by assumption.
  pose proof (mask_index_both fm (f_x m) (f_y m) L1) as B1. destruct (mask_index fm (f_x m)) as [x|]; [destruct B1 as [y Ey]; rewrite Ey|reflexivity]. cbn [bind].
  destruct (mask_index fm (f_area m)) as [a|]; [|reflexivity]. cbn [bind].
  destruct (mask_index fm (f_region m)) as [rg|]; [|reflexivity]. cbn [bind].
  destruct (mask_index fm (f_islake m)) as [il|]; [|reflexivity]. cbn [bind].
  destruct (mask_index fm (f_depth m)) as [dp|]; [|reflexivity]. cbn [bind].
  destruct (mask_index fm (f_level m)) as [lv|]; [|reflexivity]. cbn [bind].
  pose proof (mask_index_both fm (f_vx m) (f_vy m) L2) as B2. destruct (mask_index fm (f_vx m)) as [vx|]; [destruct B2 as [vy Evy]; rewrite Evy|reflexivity]. cbn [bind].
  destruct (mask_index fm (f_section m)) as [sc|]; [|reflexivity]. cbn [bind].
  destruct (mask_index em (e_chezy m)) as [cz|]; [|reflexivity]. cbn [bind].
  destruct (match e_faces m with Some ef => _ | None => _ end) as [ef|]; [|reflexivity]. cbn [bind].
  pose proof (mask_index_both em (e_x m) (e_y m) L3) as B3. destruct (mask_index em (e_x m)) as [ex|]; [destruct B3 as [ey Eey]; rewrite Eey|reflexivity]. cbn [bind].
  destruct (mask_index em (e_section m)) as [es|]; [|reflexivity]. cbn [bind].
  destruct (mask_index fm (f_bed m)) as [bd|]; [|reflexivity]. cbn [bind res_map].
  unfold moved_selection. cbn [s_x s_y s_area s_bed s_depth s_level s_vel s_section s_chezy s_region s_islake s_edge_faces s_edge_x s_edge_y s_edge_section].
  rewrite speeds_turned by assumption. reflexivity.
Qed.
Print Assumptions C106_control_volume.

(** ** The cross-section *)

(** A cross-section with other points in the output files. *)
Definition with_points (fl : list (mask_point num face_props)) (ll : list (mask_point num link_props)) (c : css) : css :=
  mk_css (s_name c) (s_z c) (s_tw c) (s_fw c) (s_css_z c) (s_css_tw c) (s_css_fw c) (s_crest c) (s_extra_total c) (s_extra_flow c)
    (s_tables c) (s_widths c) (s_base c) fl ll.
(** Two lists of points with the same properties. *)
Definition same_props {P} (l l' : list (mask_point num P)) : Prop := map m_props l' = map m_props l.

Lemma points_until_props {P} (make make' : nat -> res (mask_point num P)) is :
  (forall i, In i is -> res_map m_props (make' i) = res_map m_props (make i)) ->
  same_props (points_until make is) (points_until make' is).
Proof.
  unfold same_props. induction is as [|i is IH]; intros H; [reflexivity|]. cbn [points_until].
  pose proof (H i (or_introl eq_refl)) as E. destruct (make i) as [p|], (make' i) as [p'|]; cbn [res_map] in E; try discriminate E; [|reflexivity].
  injection E as E. cbn [map]. rewrite E, IH; [reflexivity|]. intros j I. apply H. right. exact I.
Qed.

Lemma face_points_moved g clean name s : length (s_y s) = length (s_x s) ->
  same_props (face_output_list clean name s) (face_output_list clean name (moved_selection g s)).
Proof.
  intros L. unfold face_output_list. cbn [moved_selection s_x s_y s_islake s_bed s_region s_section]. rewrite map2_length by exact L.
  apply points_until_props. intros i I. apply in_seq in I.
  destruct (item (s_islake s) i); [|reflexivity]. destruct (item (s_bed s) i); [|reflexivity].
  destruct (item (s_region s) i); [|reflexivity]. destruct (item (s_section s) i); [|reflexivity]. cbn [bind].
  rewrite !(item_nth _ i NaN) by (rewrite ?map2_length; lia). reflexivity.
Qed.
Lemma edge_points_moved g clean name s : length (s_edge_y s) = length (s_edge_x s) ->
  same_props (edge_output_list clean name s) (edge_output_list clean name (moved_selection g s)).
Proof.
  intros L. unfold edge_output_list. cbn [moved_selection s_edge_x s_edge_y s_edge_section]. rewrite map2_length by exact L.
  apply points_until_props. intros i I. apply in_seq in I.
  destruct (item (s_edge_section s) i); [|reflexivity]. cbn [bind].
  rewrite !(item_nth _ i NaN) by (rewrite ?map2_length; lia). reflexivity.
Qed.

(** The cross-section is the same but for the coordinates of its points: with
    every configuration and every search for the summer dike. *)
Theorem C106_cross_section :
  forall g smooth mean correction clean st name len centre nt s,
    length (s_y s) = length (s_x s) -> length (s_edge_y s) = length (s_edge_x s) ->
    generate_cross_section smooth mean correction clean st name len centre nt (moved_selection g s) =
    res_map (option_map (with_points (face_output_list clean name (moved_selection g s)) (edge_output_list clean name (moved_selection g s))))
      (generate_cross_section smooth mean correction clean st name len centre nt s) /\
    same_props (face_output_list clean name s) (face_output_list clean name (moved_selection g s)) /\
    same_props (edge_output_list clean name s) (edge_output_list clean name (moved_selection g s)).
Proof.
  intros g smooth mean correction clean st name len centre nt s L L'. split; [|split; [apply face_points_moved|apply edge_points_moved]; assumption].
  unfold generate_cross_section.
  assert (Lx : length (s_x (moved_selection g s)) = length (s_x s)) by (cbn [moved_selection s_x]; apply map2_length; exact L).
  rewrite Lx. destruct (Nat.ltb (length (s_x s)) 10); [reflexivity|].
  change (M_Pipeline.cells_of (moved_selection g s)) with (M_Pipeline.cells_of s).
  change (links_of nt (moved_selection g s)) with (links_of nt s).
  change (s_section (moved_selection g s)) with (s_section s). change (s_area (moved_selection g s)) with (s_area s).
  change (s_bed (moved_selection g s)) with (s_bed s).
  destruct (build_cross_section_geometry smooth mean correction st len centre (M_Pipeline.cells_of s)) as [[[[geo [[crest total] flow]] [[z tw] fw]] [[z' tw'] fw']]|]; cbn [bind]; [|reflexivity].
  destruct (M_Friction.build_roughness_tables _ _ _ _) as [tb|]; cbn [bind]; [|reflexivity]. cbv zeta.
  destruct (nsection_widths _ _ _ _ _) as [wd|]; cbn [bind]; [|reflexivity].
  destruct (M_Sections.compute_floodplain_base _ _ _ _) as [bs|]; cbn [bind]; reflexivity.
Qed.
Print Assumptions C106_cross_section.

(** The face in the centre of a control volume: the nearest face to the
    location, if it is the only one. *)
Theorem C106_centre :
  forall g nearest (faces : list point) (p : point) i, proper g -> is_nearest nearest ->
    (forall k (q : point), nth_error faces k = Some q -> k <> i -> exists c, nth_error faces i = Some c /\ sq_dist p c < sq_dist p q) ->
    (i < length faces)%nat ->
    nearest faces p = i /\ nearest (map (move g) faces) (move g p) = i.
Proof.
  intros g nearest faces p i P N U H. destruct (nth_error faces i) as [c|] eqn:Ec; [|apply nth_error_None in Ec; lia].
  assert (Ic : In c faces) by (eapply nth_error_In; eauto). split.
  - destruct (N faces p) as (s & Es & M); [destruct faces; [cbn in H; lia|discriminate]|].
    destruct (Nat.eq_dec (nearest faces p) i) as [E|E]; [exact E|exfalso]. destruct (U _ _ Es E) as (c' & [= <-] & Lt).
    apply (Qlt_not_le _ _ Lt). apply M. exact Ic.
  - destruct (N (map (move g) faces) (move g p)) as (s & Es & M); [destruct faces; [cbn in H; lia|discriminate]|].
    set (k := nearest (map (move g) faces) (move g p)) in *. rewrite nth_error_map in Es. destruct (nth_error faces k) as [q|] eqn:Ek; cbn [option_map] in Es; [|discriminate Es].
    injection Es as <-. destruct (Nat.eq_dec k i) as [E|E]; [exact E|exfalso]. destruct (U _ _ Ek E) as (c' & [= <-] & Lt).
    specialize (M (move g c) (in_map _ _ _ Ic)). rewrite !move_distance in M by exact P. apply (Qlt_not_le _ _ Lt). exact M.
Qed.
Print Assumptions C106_centre.

(** ** A test for a point in a polygon *)

(** On which side of a segment a point is. *)
Definition side (a b p : point) : Q := (fst b - fst a) * (snd p - snd a) - (snd b - snd a) * (fst p - fst a).
Fixpoint sides (a : point) (r : ring) (p : point) : list Q :=
  match r with
  | b :: (c :: _) as r' => side b c p :: sides a r' p
  | [b] => [side b a p]
  | [] => []
  end.
(** A convex polygon contains the points on one side of all its segments. *)
Definition convex_within (r : ring) (p : point) : bool :=
  match r with
  | a :: _ => let l := sides a r p in (forallb (fun q => Qltb 0 q) l || forallb (fun q => Qltb q 0) l)%bool
  | [] => false
  end.

Lemma side_moved g a b p : proper g -> side (move g a) (move g b) (move g p) == hand g * side a b p.
Proof.
  intros P. unfold proper in P. unfold side, move, turn. cbn [fst snd].
  set (co := o_cos g) in *. set (si := o_sin g) in *. set (h := hand g).
  assert (E : (co * fst b - h * si * snd b + o_x g - (co * fst a - h * si * snd a + o_x g)) * (si * fst p + h * co * snd p + o_y g - (si * fst a + h * co * snd a + o_y g)) -
    (si * fst b + h * co * snd b + o_y g - (si * fst a + h * co * snd a + o_y g)) * (co * fst p - h * si * snd p + o_x g - (co * fst a - h * si * snd a + o_x g)) ==
    (co * co + si * si) * (h * ((fst b - fst a) * (snd p - snd a) - (snd b - snd a) * (fst p - fst a)))) by ring.
  rewrite E, P. ring.
Qed.

Lemma sides_moved g a r p : proper g -> Forall2 (fun x y => y == hand g * x) (sides a r p) (sides (move g a) (map (move g) r) (move g p)).
Proof.
  intros P. induction r as [|b r IH]; [constructor|]. destruct r as [|c r]; [constructor; [apply side_moved; exact P|constructor]|].
  cbn [map sides] in *. constructor; [apply side_moved; exact P|exact IH].
Qed.

Theorem C106_convex_polygons : forall g, proper g -> of_the_plane g convex_within.
Proof.
  intros g P [|a r] p; [reflexivity|]. unfold convex_within. cbn [map]. cbv zeta.
  pose proof (sides_moved g a (a :: r) p P) as F. cbn [map] in F. revert F. generalize (sides a (a :: r) p). generalize (sides (move g a) (move g a :: map (move g) r) (move g p)).
  intros l' l F.
  assert (G : if o_mirror g then forallb (fun q => Qltb 0 q) l' = forallb (fun q => Qltb q 0) l /\ forallb (fun q => Qltb q 0) l' = forallb (fun q => Qltb 0 q) l
              else forallb (fun q => Qltb 0 q) l' = forallb (fun q => Qltb 0 q) l /\ forallb (fun q => Qltb q 0) l' = forallb (fun q => Qltb q 0) l).
  { unfold hand in F. induction F as [|x y l l' E F IH]; [destruct (o_mirror g); split; reflexivity|].
    destruct (o_mirror g); destruct IH as [I1 I2]; cbn [forallb]; rewrite I1, I2; split; f_equal;
      match goal with |- Qltb ?a ?b = Qltb ?c ?d => destruct (Qltb a b) eqn:A, (Qltb c d) eqn:B; try reflexivity end;
      try apply L_Num.Qltb_true in A; try apply L_Num.Qltb_false in A; try apply L_Num.Qltb_true in B; try apply L_Num.Qltb_false in B; lra. }
  destruct (o_mirror g); destruct G as [-> ->]; [apply orb_comm|reflexivity].
Qed.
Print Assumptions C106_convex_polygons.

(** ** A run *)

Lemma assign_sections_even inside c file mt f steps ds sections td t l t1 l1 :
  snd (assign_sections inside c file mt f steps ds sections td t l) = Ok (t1, l1) ->
  t_x t1 = t_x t /\ t_y t1 = t_y t /\ l_x l1 = l_x l /\ l_y l1 = l_y l.
Proof.
  unfold assign_sections. destruct sections as [ps|]; cbn [snd]; intros H.
  - destruct (snd (classify_grid inside c file mt f ds (T "section") ps)) as [labels|]; cbn [bind] in H; [|discriminate H].
    destruct (M_Data.column _ _) as [fr|]; cbn [bind] in H; [|discriminate H]. injection H as <- <-. cbn. auto.
  - destruct (end_values steps (d_chezy_edge td)) as [ev|]; cbn [bind] in H; [|discriminate H].
    destruct (classify_by_variance _ _ _ ev) as [es|]; cbn [bind] in H; [|discriminate H].
    destruct (end_values steps (d_chezy_mean td)) as [fv|]; cbn [bind] in H; [|discriminate H].
    destruct (classify_by_variance _ _ _ fv) as [fs|]; cbn [bind] in H; [|discriminate H]. injection H as <- <-. cbn. auto.
Qed.

Lemma import_speeds f nf ne nn nt t l td : dims f nf ne nn nt -> import_dflow2d f = Ok (t, l, td) -> length (d_vy td) = length (d_vx td).
Proof.
  intros D E. destruct (import_ok _ _ _ _ _ _ _ _ D E) as (_ & _ & H). destruct H as (_ & _ & _ & -> & -> & _).
  rewrite !map_length. reflexivity.
Qed.

Lemma model_data_even nearest within inside c file mt f css dr ds regions sections c' m nf ne nn nt : dims f nf ne nn nt ->
  set_fm_model_data nearest within inside c file mt f css dr ds regions sections = (c', Ok m) -> even_mesh m.
Proof.
  intros D H. apply set_data_inv in H. destruct H as (t & l & td & d & ro & so & EI & _ & _ & _ & t1 & l1 & t2 & l2 & EA & (ES & _) & EM).
  destruct (import_moved (mk_motion 1 0 false 0 0) f nf ne nn nt D) as [_ Ev]. destruct (Ev t l td EI) as [Ef El].
  destruct (assign_classes_even _ _ _ _ _ _ _ _ _ _ _ _ _ _ _ EA) as (X1 & Y1 & P1 & Q1).
  destruct (assign_sections_even _ _ _ _ _ _ _ _ _ _ _ _ _ ES) as (X2 & Y2 & P2 & Q2).
  unfold mesh_of, variable in EM. rewrite P2, P1, Q2, Q1 in EM. destruct (l_x l) as [x|] eqn:Lx; [|discriminate EM]. destruct (l_y l) as [y|] eqn:Ly; [|discriminate EM].
  cbn [of_option bind] in EM. injection EM as <-. unfold even_mesh. cbn [f_x f_y f_vx f_vy e_x e_y]. rewrite !map_length, X2, X1, Y2, Y1.
  split; [exact Ef|]. split; [eapply import_speeds; eauto|]. exact (El x y Lx Ly).
Qed.

Lemma selection_even sqrt m name s : even_mesh m -> get_selection sqrt m name = Ok s ->
  length (s_y s) = length (s_x s) /\ length (s_edge_y s) = length (s_edge_x s).
Proof.
  intros (L1 & _ & L3) H. unfold get_selection in H. cbv zeta in H.
  assert (B : forall A (k : list bool) (l m' r r' : list A), length m' = length l -> mask_index k l = Ok r -> mask_index k m' = Ok r' -> length r' = length r).
  { clear. intros A k l m r r' L E E'. unfold mask_index in *. rewrite L in E'. destruct (Nat.eqb (length k) (length l)); [|discriminate E].
    injection E as <-. injection E' as <-. revert l m L. induction k as [|b k IH]; intros [|a l] [|c m] L; try discriminate L; try (destruct b); try reflexivity; cbn [select length]; rewrite (IH l m) by (cbn in L; lia); reflexivity. }
  destruct (mask_index _ (f_x m)) as [x|] eqn:Ex; [|discriminate H]. cbn [bind] in H.
  destruct (mask_index _ (f_y m)) as [y|] eqn:Ey; [|discriminate H]. cbn [bind] in H.
  do 9 (match type of H with (bind (mask_index ?k ?l) _ = _) => destruct (mask_index k l); [|discriminate H] end; cbn [bind] in H).
  destruct (match e_faces m with Some ef => _ | None => _ end) as [ef|]; [|discriminate H]. cbn [bind] in H.
  destruct (mask_index _ (e_x m)) as [ex|] eqn:Eex; [|discriminate H]. cbn [bind] in H.
  destruct (mask_index _ (e_y m)) as [ey|] eqn:Eey; [|discriminate H]. cbn [bind] in H.
  do 2 (match type of H with (bind (mask_index ?k ?l) _ = _) => destruct (mask_index k l); [|discriminate H] end; cbn [bind] in H).
  injection H as <-. cbn [s_x s_y s_edge_x s_edge_y]. split; [exact (B _ _ _ _ _ _ L1 Ex Ey)|exact (B _ _ _ _ _ _ L3 Eex Eey)].
Qed.

(** The same river in another coordinate system gives the same cross-sections:
    from the map file, the locations and the polygons to the tables. *)
Theorem C106_coordinate_system :
  forall g nearest within inside sqrt smooth mean correction clean c file mt f rows d dr ds regions sections nf ne nn nt c' m,
    proper g -> is_nearest nearest -> of_the_plane g within -> of_the_plane g inside -> root_by_value sqrt ->
    dims f nf ne nn nt -> located rows d ->
    (forall t l td, import_dflow2d f = Ok (t, l, td) -> forall p, mesh_point t l p ->
       no_ties within dr (match regions with Some (Ok ps) => Some ps | _ => None end) rows p) ->
    set_fm_model_data nearest within inside c file mt f (Ok d) dr ds regions sections = (c', Ok m) ->
    exists m',
      set_fm_model_data nearest within inside c file mt (moved_file g f) (Ok (moved_locations g d)) dr ds
        (moved_polygons g regions) (moved_polygons g sections) = (c', Ok m') /\
      forall name s, get_selection sqrt m name = Ok s ->
        exists s', get_selection sqrt m' name = Ok s' /\
          forall st len centre steps, exists fl ll,
            generate_cross_section smooth mean correction clean st name len centre steps s' =
            res_map (option_map (with_points fl ll)) (generate_cross_section smooth mean correction clean st name len centre steps s) /\
            same_props (face_output_list clean name s) fl /\ same_props (edge_output_list clean name s) ll.
Proof.
  intros g nearest within inside sqrt smooth mean correction clean c file mt f rows d dr ds regions sections nf ne nn nt c' m P N W I R D L Ties E.
  exists (moved_mesh g m). split.
  - rewrite (C106_model_data g nearest within inside c file mt f rows d dr ds regions sections nf ne nn nt P N W I D L Ties), E. reflexivity.
  - pose proof (model_data_even _ _ _ _ _ _ _ _ _ _ _ _ _ _ _ _ _ _ D E) as Ev. intros name s Es.
    exists (moved_selection g s). split; [rewrite C106_control_volume by assumption; rewrite Es; reflexivity|].
    destruct (selection_even _ _ _ _ Ev Es) as [L1 L2]. intros st len centre steps. eexists. eexists. apply C106_cross_section; assumption.
Qed.
Print Assumptions C106_coordinate_system.

(** ** A case *)

(** A rotation over an angle with cosine 3/5, with a reflection, and a
    translation. *)
Definition case_motion : motion := mk_motion (3 # 5) (4 # 5) true 100 (-7).
Definition case_region : list polygon := [mk_polygon [(-1, -1); (2, -1); (2, 2); (-1, 2)] [(T "region", VStr (T "river"))]].
Definition case_data (m : map_file) (d : columns Q) (ps : list polygon) : res mesh :=
  snd (set_fm_model_data first_nearest convex_within convex_within (fun _ => None) (T "map.nc") (0, 0)%Z m (Ok d) (VStr (T "undefined")) VNull (Some (Ok ps)) None).

Theorem C106_case :
  proper case_motion /\
  match case_data small_file two_sections case_region,
        case_data (moved_file case_motion small_file) (moved_locations case_motion two_sections) (map (moved_polygon case_motion) case_region) with
  | Ok m, Ok m' =>
      f_region m = [T "river"; T "river"; T "undefined"] /\ f_class m = [T "a"; T "a"; T "b"] /\
      f_class m' = f_class m /\ f_region m' = f_region m /\ e_class m' = e_class m /\
      nth 0 (f_x m') NaN <> nth 0 (f_x m) NaN
  | _, _ => False
  end.
Proof. split; [vm_compute; reflexivity|]. vm_compute. repeat (split; [reflexivity|]). discriminate. Qed.
Print Assumptions C106_case.
