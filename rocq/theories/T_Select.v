(** Theorems for C29, C30, C31: transposition of the location columns, the
    selection of a control volume, and missing values. *)
From Coq Require Import String List Ascii ZArith QArith Qabs Bool Lia Lqa.
From Verif Require Import PyBase Num Spec L_Num Text L_Text M_Geometry M_Import L_Profile L_Cells T_Profile T_Cells.
Import ListNotations.

(** * C29 *)

Lemma column_values {K V} (d : list (K * list V)) idx :
  (forall k col, In (k, col) d -> (idx < length col)%nat) ->
  Forall2 (fun kc kv => fst kc = fst kv /\ nth_error (snd kc) idx = Some (snd kv)) d
    (combine (map fst d)
       (flat_map (fun kv => match nth_error (snd kv) idx with Some v => [v] | None => [] end) d)).
Proof.
  intro H. induction d as [|[k col] d IH]; cbn [map flat_map combine]; auto.
  destruct (nth_error col idx) as [v|] eqn:E.
  - cbn [snd fst]. rewrite E. cbn [app combine]. constructor; auto.
    apply IH. intros k' col' I. apply (H k' col'). right; auto.
  - apply nth_error_None in E. pose proof (H k col (or_introl eq_refl)). lia.
Qed.

Theorem C29_transposition_keeps_every_value :
  forall K V (d : list (K * list V)) n,
    d <> [] -> (forall k col, In (k, col) d -> length col = n) ->
    length (get_ordered_css_list d) = n /\
    forall idx, (idx < n)%nat ->
      exists rec,
        nth_error (get_ordered_css_list d) idx = Some rec /\
        Forall2 (fun kc kv => fst kc = fst kv /\ nth_error (snd kc) idx = Some (snd kv)) d rec.
Proof.
  intros K V d n Hd Hl. destruct d as [|[k0 first] d'] eqn:E; [congruence|].
  unfold get_ordered_css_list. rewrite (Hl k0 first (or_introl eq_refl)).
  split; [rewrite map_length, seq_length; auto|].
  intros idx Hi. eexists. split.
  - rewrite nth_error_map, (nth_error_nth' _ 0%nat) by (rewrite seq_length; auto).
    rewrite seq_nth by auto. reflexivity.
  - apply column_values. intros k col I. rewrite (Hl k col I). auto.
Qed.
Print Assumptions C29_transposition_keeps_every_value.

(** Reading a record by name. *)
Theorem C29_records_by_name :
  forall K V (d : list (K * list V)) n,
    d <> [] -> NoDup (map fst d) -> (forall k col, In (k, col) d -> length col = n) ->
    forall idx rec, nth_error (get_ordered_css_list d) idx = Some rec ->
      map fst rec = map fst d /\ NoDup (map fst rec) /\
      forall k col v, In (k, col) d -> nth_error col idx = Some v -> In (k, v) rec.
Proof.
  intros K V d n Hd Hk Hl idx rec H.
  destruct (C29_transposition_keeps_every_value K V d n Hd Hl) as [L R].
  assert (Hi : (idx < n)%nat) by (rewrite <- L; apply nth_error_Some; congruence).
  destruct (R idx Hi) as (rec' & H' & F). rewrite H in H'. injection H' as <-.
  assert (E : map fst rec = map fst d).
  { clear - F. induction F as [|[] [] ? ? [] _]; cbn in *; congruence. }
  split; auto. split; [rewrite E; auto|]. intros k col v I Hv. clear - F I Hv.
  induction F as [|[k' c'] [k'' v'] ? ? [E1 E2] _ IH]; [destruct I|]. cbn in *. subst k''.
  destruct I as [X|I]; [injection X as -> ->; left; congruence|right; auto].
Qed.
Print Assumptions C29_records_by_name.

(** Columns of different length: a missing value is not noticed, and later
    values come under the wrong name. *)
Theorem C29_ragged_columns_refuted :
  exists (d : list (string * list Z)),
    nth_error (get_ordered_css_list d) 1 = Some [("xy", 2); ("id", 20)]%string%Z /\
    In ("length"%string, [10; 20]%Z) d /\ In ("id"%string, [7]%Z) d.
Proof.
  exists [("xy", [1; 2]); ("id", [7]); ("length", [10; 20])]%string%Z.
  vm_compute. repeat split; auto.
Qed.
Print Assumptions C29_ragged_columns_refuted.

(** * C30 *)

Lemma select_seq {A} (d : A) mask : forall (l : list A) k, length mask = length l ->
  select mask l = map (fun i => nth (i - k) l d) (filter (fun i => nth (i - k) mask false) (seq k (length l))).
Proof.
  induction mask as [|b mask IH]; intros [|x l] k H; try discriminate; auto.
  cbn [length] in H. cbn [select length seq filter]. rewrite Nat.sub_diag. cbn [nth].
  assert (E : select mask l =
    map (fun i => nth (i - k) (x :: l) d) (filter (fun i => nth (i - k) (b :: mask) false) (seq (S k) (length l)))).
  { rewrite (IH l (S k)) by lia.
    rewrite (filter_ext_in (fun i => nth (i - k) (b :: mask) false) (fun i => nth (i - S k) mask false)).
    - apply map_ext_in. intros i I. apply filter_In in I. destruct I as [I _].
      apply in_seq in I. replace (i - k)%nat with (S (i - S k)) by lia. reflexivity.
    - intros i I. apply in_seq in I. replace (i - k)%nat with (S (i - S k)) by lia. reflexivity. }
  destruct b; cbn [map]; rewrite ?Nat.sub_diag, E; reflexivity.
Qed.

(** The indices whose class is [name], in order. *)
Definition members (name : text) (classes : list text) : list nat :=
  filter (fun i => teqb (nth i classes []) name) (seq 0 (length classes)).

(** Rows of a column at the given indices. *)
Definition rows_at {A} (d : A) (idx : list nat) (l : list A) : list A := map (fun i => nth i l d) idx.

Lemma mask_members {A} (d : A) name classes (l : list A) : length l = length classes -> forall e,
  (if Nat.eqb (length (map (fun c => teqb c name) classes)) (length l)
   then Ok (select (map (fun c => teqb c name) classes) l) else Raise e) = Ok (rows_at d (members name classes) l).
Proof.
  intros H e. rewrite map_length, H, Nat.eqb_refl. f_equal.
  rewrite (select_seq d _ l 0) by (rewrite map_length; auto).
  unfold rows_at, members. rewrite H.
  rewrite (filter_ext_in (fun i => nth (i - 0) (map (fun c => teqb c name) classes) false)
             (fun i => teqb (nth i classes []) name)).
  - apply map_ext. intro i. rewrite Nat.sub_0_r. auto.
  - intros i I. apply in_seq in I. rewrite Nat.sub_0_r.
    rewrite nth_indep with (d' := (fun c => teqb c name) []) by (rewrite map_length; lia).
    apply (map_nth (fun c => teqb c name) classes []).
Qed.

(** All face columns have one row per face, all link columns one per link. *)
Definition well_shaped (m : mesh) (nf ne : nat) : Prop :=
  length (f_class m) = nf /\ length (f_x m) = nf /\ length (f_y m) = nf /\ length (f_area m) = nf /\
  length (f_bed m) = nf /\ length (f_region m) = nf /\ length (f_islake m) = nf /\
  length (f_section m) = nf /\ length (f_depth m) = nf /\ length (f_level m) = nf /\
  length (f_vx m) = nf /\ length (f_vy m) = nf /\
  length (e_class m) = ne /\ length (e_x m) = ne /\ length (e_y m) = ne /\
  length (e_section m) = ne /\ length (e_chezy m) = ne /\
  (forall ef, e_faces m = Some ef -> length ef = ne).

Theorem C30_selection_is_the_control_volume :
  forall sqrt m nf ne name, well_shaped m nf ne ->
    let fi := members name (f_class m) in
    let ei := members name (e_class m) in
    exists s,
      get_selection sqrt m name = Ok s /\
      s_x s = rows_at NaN fi (f_x m) /\ s_y s = rows_at NaN fi (f_y m) /\
      s_area s = rows_at NaN fi (f_area m) /\ s_bed s = rows_at NaN fi (f_bed m) /\
      s_region s = rows_at [] fi (f_region m) /\ s_islake s = rows_at false fi (f_islake m) /\
      s_section s = rows_at (LInt 0) fi (f_section m) /\
      s_depth s = rows_at [] fi (f_depth m) /\
      s_level s = map (fun i => dry_levels (nth i (f_depth m) []) (nth i (f_level m) [])) fi /\
      s_vel s = map (fun i => magnitude sqrt (nth i (f_vx m) []) (nth i (f_vy m) [])) fi /\
      s_chezy s = rows_at [] ei (e_chezy m) /\
      s_edge_x s = rows_at NaN ei (e_x m) /\ s_edge_y s = rows_at NaN ei (e_y m) /\
      s_edge_section s = rows_at [] ei (e_section m) /\
      s_edge_faces s = option_map (rows_at [] ei) (e_faces m).
Proof.
  intros sqrt m nf ne name W fi ei.
  destruct W as (C & X & Y & A & B & R & I & S & D & L & VX & VY & EC & EX & EY & ES & CH & EF).
  unfold get_selection, mask_index.
  rewrite (mask_members NaN name (f_class m) (f_x m)) by congruence; cbn [bind].
  rewrite (mask_members NaN name (f_class m) (f_y m)) by congruence; cbn [bind].
  rewrite (mask_members NaN name (f_class m) (f_area m)) by congruence; cbn [bind].
  rewrite (mask_members ([] : text) name (f_class m) (f_region m)) by congruence; cbn [bind].
  rewrite (mask_members false name (f_class m) (f_islake m)) by congruence; cbn [bind].
  rewrite (mask_members [] name (f_class m) (f_depth m)) by congruence; cbn [bind].
  rewrite (mask_members [] name (f_class m) (f_level m)) by congruence; cbn [bind].
  rewrite (mask_members [] name (f_class m) (f_vx m)) by congruence; cbn [bind].
  rewrite (mask_members [] name (f_class m) (f_vy m)) by congruence; cbn [bind].
  rewrite (mask_members (LInt 0) name (f_class m) (f_section m)) by congruence; cbn [bind].
  rewrite (mask_members [] name (e_class m) (e_chezy m)) by congruence; cbn [bind].
  assert (M2 : forall (f : list num -> list num -> list num) l l',
    map2 f (rows_at [] fi l) (rows_at [] fi l') = map (fun i => f (nth i l []) (nth i l' [])) fi).
  { intros f l l'. clearbody fi. clear. induction fi; cbn; auto. f_equal. auto. }
  assert (FA : match e_faces m with
               | None => Ok None
               | Some ef =>
                   bind (if (length (map (fun c => teqb c name) (e_class m)) =? length ef)%nat
                         then Ok (select (map (fun c => teqb c name) (e_class m)) ef) else Raise IndexError)
                        (fun ef' => Ok (Some ef'))
               end = Ok (option_map (rows_at [] ei) (e_faces m))).
  { destruct (e_faces m) as [ef|]; auto.
    rewrite (mask_members [] name (e_class m) ef) by (rewrite (EF ef eq_refl); congruence). reflexivity. }
  rewrite FA; cbn [bind].
  rewrite (mask_members NaN name (e_class m) (e_x m)) by congruence; cbn [bind].
  rewrite (mask_members NaN name (e_class m) (e_y m)) by congruence; cbn [bind].
  rewrite (mask_members ([] : text) name (e_class m) (e_section m)) by congruence; cbn [bind].
  rewrite (mask_members NaN name (f_class m) (f_bed m)) by congruence; cbn [bind].
  fold fi ei. eexists. split; [reflexivity|].
  cbn [s_x s_y s_area s_bed s_region s_islake s_section s_depth s_level s_vel s_chezy s_edge_x
       s_edge_y s_edge_section s_edge_faces]. rewrite !M2. repeat (split; [reflexivity|]). reflexivity.
Qed.
Print Assumptions C30_selection_is_the_control_volume.

(** The velocity of a face at a time step is the length of the velocity vector
    at that step. *)
Theorem C30_velocity_magnitude :
  forall sqrt vx vy t x y,
    (nth_error (magnitude sqrt vx vy) t = None <-> nth_error vx t = None \/ nth_error vy t = None) /\
    (nth_error vx t = Some (Fin x) -> nth_error vy t = Some (Fin y) ->
     exists q, nth_error (magnitude sqrt vx vy) t = Some (sqrt (Fin q)) /\ (q == x * x + y * y)%Q).
Proof.
  intros sqrt vx. induction vx as [|a vx IH]; intros vy t x y.
  - destruct t; cbn; (split; [split; auto|discriminate]).
  - destruct vy as [|b vy]; [destruct t; cbn; (split; [split; auto|discriminate])|].
    destruct t as [|t]; [|exact (IH vy t x y)]. cbn [magnitude map2 nth_error]. split.
    + split; [discriminate|intros [H|H]; discriminate].
    + intros Ha Hb. injection Ha as ->. injection Hb as ->. exists (x * x + y * y)%Q. split; reflexivity.
Qed.
Print Assumptions C30_velocity_magnitude.

(** Exactly the faces of that class, each once, in mesh order; every face is in
    the selection of its own class and in no other. *)
Theorem C30_members :
  forall name classes,
    NoDup (members name classes) /\
    (forall i, In i (members name classes) <-> nth_error classes i = Some name) /\
    (forall name' i, In i (members name classes) -> In i (members name' classes) -> name = name').
Proof.
  intros name classes.
  assert (H : forall name i, In i (members name classes) <-> nth_error classes i = Some name).
  { intros n i. unfold members. rewrite filter_In, in_seq. split.
    - intros [I E]. apply teqb_eq in E. rewrite <- E. apply nth_error_nth'. lia.
    - intro E. split.
      + split; [lia|]. apply nth_error_Some. congruence.
      + apply nth_error_nth with (d := []) in E. rewrite E. apply teqb_refl. }
  split; [apply NoDup_filter, seq_NoDup|]. split; auto.
  intros name' i H1 H2. apply H in H1. apply H in H2. congruence.
Qed.
Print Assumptions C30_members.

(** The water level of a selected face is missing exactly where its depth is
    zero or where it was missing. *)
Theorem C30_dry_levels :
  forall depth level t, length depth = length level -> (t < length level)%nat ->
    length (dry_levels depth level) = length level /\
    (nth t (dry_levels depth level) NaN = NaN <->
       neqb (nth t depth NaN) (Fin 0) = true \/ nth t level NaN = NaN) /\
    (neqb (nth t depth NaN) (Fin 0) = false ->
       nth t (dry_levels depth level) NaN = nth t level NaN).
Proof.
  intros depth level t H Ht. unfold dry_levels.
  split; [rewrite map2_length; lia|].
  assert (E : nth t (map2 (fun d l => if neqb d (Fin 0) then NaN else l) depth level) NaN =
              if neqb (nth t depth NaN) (Fin 0) then NaN else nth t level NaN).
  { revert level t H Ht. induction depth as [|d depth IH]; intros [|l level] [|t] H Ht; cbn in *; try lia; auto.
    apply IH; lia. }
  rewrite E. destruct (neqb (nth t depth NaN) (Fin 0)); split; intuition discriminate.
Qed.
Print Assumptions C30_dry_levels.

Example C30_case :
  exists s, get_selection (fun x => x)
    (mk_mesh [Fin 1; Fin 2; Fin 3] [Fin 1; Fin 2; Fin 3] [Fin 4; Fin 5; Fin 6] [Fin 0; Fin 0; Fin 0]
       [T "r"; T "r"; T "s"] [false; false; false] [LInt 1; LInt 1; LInt 2] [T "a"; T "b"; T "a"]
       [[Fin 0; Fin 1]; [Fin 1; Fin 1]; [Fin 2; Fin 0]] [[Fin 7; Fin 8]; [Fin 7; Fin 8]; [Fin 7; Fin 8]]
       [[Fin 1; Fin 1]; [Fin 1; Fin 1]; [Fin 1; Fin 1]] [[Fin 0; Fin 0]; [Fin 0; Fin 0]; [Fin 0; Fin 0]]
       [Fin 1] [Fin 2] [T "main"] [T "b"] None [[Fin 40; Fin 40]]) (T "a") = Ok s /\
    s_x s = [Fin 1; Fin 3] /\ s_level s = [[NaN; Fin 8]; [Fin 7; NaN]] /\ s_chezy s = [].
Proof. eexists. split; [vm_compute; reflexivity|]. vm_compute. auto. Qed.

(** * C31 *)

(** The no-data value -999 made explicit as missing. *)
Definition nodata_missing (v : num) : num := if neqb v NODATA then NaN else v.
Definition cell_missing (c : cell) : cell :=
  mkCell (c_area c) (c_bed c) (map nodata_missing (c_depth c)) (map nodata_missing (c_level c))
         (map nodata_missing (c_vel c)) (c_section c).

Lemma slice_from_map {A B} (f : A -> B) k l : slice_from k (map f l) = map f (slice_from k l).
Proof. unfold slice_from. rewrite map_length, skipn_map. auto. Qed.

Lemma timeseries_missing skip row : get_timeseries skip (map nodata_missing row) = get_timeseries skip row.
Proof.
  unfold get_timeseries. rewrite slice_from_map, map_map. apply map_ext.
  intro v. unfold nodata_missing. destruct (neqb v NODATA) eqn:E; auto. rewrite E. auto.
Qed.

(** Depths, levels and velocities equal to -999 count as missing when the
    geometry is built. *)
Theorem C31_no_data_is_missing_in_the_geometry :
  forall smooth mean p len centre cells,
    build_geometry smooth mean p len centre (map cell_missing cells) =
    build_geometry smooth mean p len centre cells.
Proof.
  intros smooth mean p len centre cells.
  assert (L : map (fun c => get_timeseries (gp_skip p) (c_level c)) (map cell_missing cells) =
              map (fun c => get_timeseries (gp_skip p) (c_level c)) cells).
  { rewrite map_map. apply map_ext. intro c. apply timeseries_missing. }
  assert (D : map (fun c => get_timeseries (gp_skip p) (c_depth c)) (map cell_missing cells) =
              map (fun c => get_timeseries (gp_skip p) (c_depth c)) cells).
  { rewrite map_map. apply map_ext. intro c. apply timeseries_missing. }
  assert (V : map (fun c => get_timeseries (gp_skip p) (c_vel c)) (map cell_missing cells) =
              map (fun c => get_timeseries (gp_skip p) (c_vel c)) cells).
  { rewrite map_map. apply map_ext. intro c. apply timeseries_missing. }
  assert (MA : forall mk t, masked_area (map cell_missing cells) mk t = masked_area cells mk t).
  { intros mk t. unfold masked_area. clear. f_equal. revert mk.
    induction cells as [|c cells IH]; intros [|b mk]; cbn; auto. f_equal. auto. }
  assert (MV : forall ds mk t, masked_volume (map cell_missing cells) ds mk t = masked_volume cells ds mk t).
  { intros ds mk t. unfold masked_volume. clear. f_equal.
    revert ds mk. induction cells as [|c cells IH]; intros ds mk; destruct ds, mk; cbn; auto.
    f_equal. apply IH. }
  assert (WB : forall lv wm dz,
    wet_area_below (combine (combine (map cell_missing cells) lv) wm) dz =
    wet_area_below (combine (combine cells lv) wm) dz).
  { intros lv wm dz. unfold wet_area_below. clear. f_equal.
    revert lv wm. induction cells as [|c cells IH]; intros [|l lv] [|b wm]; auto.
    cbn [map combine filter fst snd].
    change (depth_at_t0 (cell_missing c) l) with (depth_at_t0 c l).
    destruct (_ && b)%bool; cbn [map fst]; [f_equal|]; apply IH. }
  assert (EX : forall e l a d lv wm k,
    extend_css_below_z0 e l a d (combine (combine (map cell_missing cells) lv) wm) k =
    extend_css_below_z0 e l a d (combine (combine cells lv) wm) k).
  { intros e l a d lv wm k. unfold extend_css_below_z0. cbv zeta.
    generalize (linspace10 (nsub a (nsub a d))). intro steps.
    generalize (hd NaN (k_flow k)). intro fa. revert k.
    induction steps as [|x steps IH]; intro k; [reflexivity|]. cbn [fold_left].
    unfold below_z0_step at 2 4. rewrite WB. apply IH. }
  unfold build_geometry. rewrite L, D, V. cbv zeta.
  destruct (fill_centre_level _ _); [|reflexivity]. cbn [bind].
  destruct (identify_lakes _ _) as [[[lk wm] cr]|]; [|reflexivity]. cbn [bind].
  rewrite (map_ext _ _ (MA wm)), (map_ext _ _ (MV _ wm)).
  match goal with |- context [masked_volume (map cell_missing cells) ?d ?f] =>
    rewrite (map_ext _ _ (MV d f)), (map_ext _ _ (MA f)) end.
  repeat (match goal with |- (bind ?m _) = _ => destruct m; [|reflexivity] end; cbn [bind]).
  rewrite EX. reflexivity.
Qed.
Print Assumptions C31_no_data_is_missing_in_the_geometry.

(** The velocity magnitude is taken before missing values are looked for: two
    missing components give a large number, and a wet cell without velocity
    data conveys.  The square root only needs to be roughly right. *)
Theorem C31_velocity_no_data_refuted :
  forall (sqrt : num -> num) smooth mean,
    (forall q, (0 <= q)%Q -> exists r, sqrt (Fin q) = Fin r /\ (0 <= r)%Q /\ (Qabs (r * r - q) <= 1)%Q) ->
    let vel := get_timeseries 0 (magnitude sqrt [NODATA] [NODATA]) in
    ~ In NaN vel /\
    distinguish_conveyance smooth mean 1 (Fin (1 # 10)) (Fin (15 # 100)) 1 [[Fin 1]] [vel] = [[true]] /\
    distinguish_conveyance smooth mean 1 (Fin (1 # 10)) (Fin (15 # 100)) 1 [[Fin 1]] [[NaN]] = [[false]].
Proof.
  intros sqrt smooth mean H vel.
  destruct (H (((-999) * (-999) + (-999) * (-999))%Q)) as (r & E & R0 & R1).
  { vm_compute. discriminate. }
  apply Qabs_Qle_condition in R1. destruct R1 as [R1 _].
  assert (R : (1 < r)%Q).
  { destruct (Qlt_le_dec 1 r); auto. exfalso.
    assert (r * r <= 1 * 1)%Q.
    { apply Qle_trans with (1 * r)%Q; [apply Qmult_le_compat_r; auto|].
      rewrite !Qmult_1_l. auto. }
    assert (1 < (-999) * (-999) + (-999) * (-999) - 1)%Q by reflexivity. lra. }
  assert (V : vel = [Fin r]).
  { unfold vel, magnitude. cbn [map2]. unfold NODATA at 1 2 3 4. cbn [nmul nadd]. rewrite E.
    unfold get_timeseries, slice_from. cbn [length slice_bound skipn]. 
    change (slice_bound 1 0) with 0%nat. cbn [skipn map neqb NODATA].
    destruct (Qeq_bool r (-999)) eqn:Q; auto. apply Qeq_bool_true in Q. lra. }
  rewrite V. split; [intros [X|[]]; discriminate|]. split; [|vm_compute; reflexivity].
  unfold distinguish_conveyance. cbn [Z.eqb]. unfold max_velocity_method. cbn [map2 map seq nth].
  unfold conveys. cbn [nltb]. replace (Qltb (1 # 10) r) with true.
  - rewrite orb_true_r. reflexivity.
  - symmetry. apply Qltb_true. lra.
Qed.
Print Assumptions C31_velocity_no_data_refuted.
