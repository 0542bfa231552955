(** C124: the volumes of all cross-sections together are the water of the 2D
    mesh. *)
From Coq Require Import String List Ascii ZArith QArith Qminmax Bool Lia Lqa.
From Verif Require Import PyBase Num Text L_Text L_List L_Num M_Log M_Run M_Geometry M_Sections M_Friction M_Simplify M_Import M_Classify M_Polygon M_Cli
  M_Pipeline M_Data T_Pipeline T_Select T_Neighbour T_Data T_Whole T_Skip T_Parts T_Balance.
Import ListNotations.
Local Open Scope Q_scope.

(** ** Specification *)

(** The depth of a face at step [t]. *)
Definition depth_of (p : geom_params) (depth : list num) (t : nat) : Q := value (nth t (get_timeseries (gp_skip p) depth) NaN).
(** The depths of a face that is no lake, is not deeper at the start than [c0]
    and has a depth at all steps. *)
Definition plain_depths (p : geom_params) (c0 : Q) (depth : list num) : Prop :=
  exists ds, get_timeseries (gp_skip p) depth = map Fin ds /\ Forall (fun d => 0 <= d) ds /\
    is_lake (gp_lake p) (map Fin ds) = Ok false /\ hd 0 ds <= c0.
(** The 2D volume in the row of step [t]. *)
Definition volume_at (g : M_Geometry.geometry) (t : nat) : option Q :=
  match step_row g t with
  | Some j => match nth_error (k_tvol (g_cols g)) j with Some (Fin v) => Some v | _ => None end
  | None => None
  end.

(** ** One cross-section *)

Lemma below_volume ex len c0 fa cells l : forall k,
  exists pre, length pre = length l /\ k_tvol (fold_left (below_z0_step ex len c0 fa cells) l k) = pre ++ k_tvol k.
Proof.
  induction l as [|dz l IH]; intro k; [exists []; auto|]. cbn [fold_left].
  destruct (IH (below_z0_step ex len c0 fa cells k dz)) as (pre & L & E). rewrite E. cbn [below_z0_step k_tvol].
  exists (pre ++ [NaN]). split; [rewrite app_length; cbn [length]; lia|]. rewrite <- app_assoc. reflexivity.
Qed.
Lemma finish_tvol ex len c0 cells cl0 k0 j : nth_error (k_tvol (g_cols (finish ex len c0 cells cl0 k0))) (10 + j) = nth_error (k_tvol k0) j.
Proof.
  unfold finish, extend_css_below_z0. cbn [g_cols].
  destruct (below_volume ex len (hd NaN (k_z k0)) (hd NaN (k_flow k0)) cells (linspace10 (nsub (hd NaN (k_z k0)) (nsub (hd NaN (k_z k0)) c0))) k0) as (pre & L & E).
  rewrite E. assert (T10 : length pre = 10%nat) by (rewrite L; unfold linspace10; rewrite map_length; apply seq_length).
  rewrite nth_error_app2 by lia. f_equal. lia.
Qed.

(** The corrections leave such depths as they are. *)
Lemma plain_corrected c0 ds : Forall (fun d => 0 <= d) ds -> hd 0 ds <= c0 -> forall t,
  nth t (wet_not_lake false (map Fin ds)) false = true ->
  exists e, nth t (pool_correction (Fin c0) (corrected_depth (map Fin ds) (lake_depth_correction false (map Fin ds)))) NaN = Fin e /\
    e == value (nth t (map Fin ds) NaN).
Proof.
  intros P HC t W.
  assert (TL : (t < length ds)%nat).
  { destruct (Nat.ltb_spec t (length ds)) as [|B]; [assumption|]. exfalso. unfold wet_not_lake in W.
    assert (NL : forall (l : list num) (m : list bool) u, (length l <= u)%nat -> nth u (map2 (fun d m => nltb (Fin 0) d && negb m) l m) false = false).
    { clear. induction l as [|x l IH]; intros [|y m] u U; cbn [map2]; try (destruct u; reflexivity). destruct u as [|u]; cbn [length] in U; [lia|].
      cbn [nth]. apply IH. lia. }
    rewrite NL in W by (rewrite map_length; exact B). discriminate. }
  assert (CD : corrected_depth (map Fin ds) (lake_depth_correction false (map Fin ds)) = map (fun d => Fin (d + 0)) ds).
  { unfold corrected_depth, lake_depth_correction. clear - P. induction P as [|d ds D P IH]; [reflexivity|]. cbn [map map2 nadd nleb].
    assert (E : Qle_bool 0 (d + 0) = true) by (apply Qle_bool_iff; lra). rewrite E. f_equal. exact IH. }
  rewrite CD. unfold pool_correction.
  assert (NP : nltb (Fin c0) (hd NaN (map (fun d => Fin (d + 0)) ds)) = false).
  { destruct ds as [|d ds]; [reflexivity|]. cbn [map hd nltb] in *. destruct (Qltb c0 (d + 0)) eqn:E; [qb; lra|reflexivity]. }
  rewrite NP. exists (nth t ds 0 + 0). split.
  - rewrite nth_indep with (d' := Fin (0 + 0)) by (rewrite map_length; exact TL). apply (map_nth (fun d => Fin (d + 0))).
  - rewrite nth_indep with (d' := Fin 0) by (rewrite map_length; exact TL). rewrite (map_nth Fin). cbn [value]. lra.
Qed.

(** What a face adds. *)
Definition water (p : geom_params) (depth : list num) (area : Q) (t : nat) : Q :=
  if active p depth t then area * depth_of p depth t else 0.
Lemma volume_sum p c0 cells : Forall (fun c => exists a, c_area c = Fin a) cells -> Forall (fun c => plain_depths p c0 (c_depth c)) cells -> forall lakes t,
  let depth := map (fun c => get_timeseries (gp_skip p) (c_depth c)) cells in
  map_res (is_lake (gp_lake p)) depth = Ok lakes ->
  exists a, masked_volume cells (map (pool_correction (Fin c0)) (map2 corrected_depth depth (map2 lake_depth_correction lakes depth)))
      (map2 wet_not_lake lakes depth) t = Fin a /\
    a == qsum (map (fun c => water p (c_depth c) (value (c_area c)) t) cells).
Proof.
  cbv zeta. intros F P lakes t H. unfold masked_volume, nansum.
  assert (G : forall acc, exists a, fold_left nadd (filter (fun x => negb (isnan x))
    (map2 (fun cd (m : list bool) => if nth t m false then nmul (c_area (fst cd)) (nth t (snd cd) NaN) else NaN)
       (combine cells (map (pool_correction (Fin c0)) (map2 corrected_depth (map (fun c => get_timeseries (gp_skip p) (c_depth c)) cells)
          (map2 lake_depth_correction lakes (map (fun c => get_timeseries (gp_skip p) (c_depth c)) cells)))))
       (map2 wet_not_lake lakes (map (fun c => get_timeseries (gp_skip p) (c_depth c)) cells)))) (Fin acc) = Fin a /\
    a == acc + qsum (map (fun c => water p (c_depth c) (value (c_area c)) t) cells)).
  { revert lakes H. induction F as [|c cells (q & Q) F IH]; intros lakes H acc; cbn [map map_res] in H.
    - injection H as <-. exists acc. split; [reflexivity|]. cbn. lra.
    - inversion P as [|? ? (ds & DE & DP & DL & DC) P']; subst. specialize (IH P').
      assert (AC : water p (c_depth c) (value (c_area c)) t = if nth t (wet_not_lake false (map Fin ds)) false then q * value (nth t (map Fin ds) NaN) else 0).
      { unfold water, active, depth_of. cbv zeta. rewrite DE, DL, Q. reflexivity. }
      rewrite DE, DL in H. cbn [bind] in H.
      destruct (map_res _ _) as [rest|]; [|discriminate]. cbn [bind] in H. injection H as <-. specialize (IH rest eq_refl).
      cbn [map map2 combine fst snd]. rewrite AC, DE, Q.
      pose proof (plain_corrected c0 ds DP DC t) as PC. destruct (nth t (wet_not_lake false (map Fin ds)) false).
      + destruct (PC eq_refl) as (e & -> & EE). cbn [nmul filter isnan negb fold_left nadd].
        destruct (IH (acc + q * e)) as (a & A1 & A2). exists a. split; [exact A1|]. rewrite A2. unfold qsum. cbn [fold_right]. rewrite EE. lra.
      + cbn [filter isnan negb]. destruct (IH acc) as (a & A1 & A2). exists a. split; [exact A1|]. rewrite A2. unfold qsum. cbn [fold_right]. lra. }
  destruct (G 0) as (a & A1 & A2). exists a. split; [exact A1|]. rewrite A2. lra.
Qed.

Definition holds_water (p : geom_params) (cells : list cell) (g : M_Geometry.geometry) : Prop :=
  forall t, step_row g t <> None -> exists v, volume_at g t = Some v /\
    v == qsum (map (fun c => water p (c_depth c) (value (c_area c)) t) cells).
Lemma finish_water p ex len c0 cells cells0 cl0 w fl tv fv :
  (forall t, nth t (check_monotonicity cl0) false = true ->
     exists a, nth_error tv (count (firstn t (check_monotonicity cl0))) = Some (Fin a) /\
       a == qsum (map (fun c => water p (c_depth c) (value (c_area c)) t) cells)) ->
  forall cl, holds_water p cells (finish ex len c0 cells0 cl0 (compute_css_above_z0 len cl w fl tv fv)).
Proof.
  intros W cl t N. unfold volume_at. unfold step_row in *. cbn [finish g_z_roughness] in *.
  destruct (nth t (check_monotonicity cl0) false) eqn:M; [|contradiction N; reflexivity]. destruct (W t M) as (a & A1 & A2).
  rewrite finish_tvol. cbn [compute_css_above_z0 k_tvol]. rewrite A1. exists a. split; [reflexivity|exact A2].
Qed.
Lemma geometry_water smooth mean p len c0 centre cells g : Forall (fun c => exists a, c_area c = Fin a) cells ->
  Forall (fun c => plain_depths p c0 (c_depth c)) cells ->
  hd NaN (nth centre (map (fun c => get_timeseries (gp_skip p) (c_depth c)) cells) []) = Fin c0 ->
  build_geometry smooth mean p len centre cells = Ok g -> holds_water p cells g.
Proof.
  intros F PD HC. pose proof (volume_sum p c0 cells F PD) as AS. cbv zeta in AS.
  assert (GOAL : match build_geometry smooth mean p len centre cells with Ok g => holds_water p cells g | Raise _ => True end);
    [|intro H; rewrite H in GOAL; exact GOAL].
  unfold build_geometry.
  set (level := map (fun c => get_timeseries (gp_skip p) (c_level c)) cells).
  set (depth := map (fun c => get_timeseries (gp_skip p) (c_depth c)) cells) in *.
  set (vel := map (fun c => get_timeseries (gp_skip p) (c_vel c)) cells). clearbody level depth vel. cbv zeta.
  rewrite HC. set (cd := nth centre depth []) in *.
  destruct (fill_centre_level _ _) as [cl0|]; [|exact Logic.I]. cbn [bind]. unfold identify_lakes.
  destruct (map_res _ depth) as [lakes|]; [|exact Logic.I]. cbn [bind]. specialize (fun t => AS lakes t eq_refl).
  set (wet := map2 wet_not_lake lakes depth) in *. clearbody wet. set (corr := map2 lake_depth_correction lakes depth) in *. clearbody corr.
  set (depth2 := map (pool_correction (Fin c0)) (map2 corrected_depth depth corr)) in *. clearbody depth2. clearbody cd.
  destruct (mask_index _ cl0) as [cl|]; [|exact Logic.I]. cbn [bind].
  destruct (mask_index _ (map (masked_volume cells depth2 wet) _)) as [tv|] eqn:EV; [|exact Logic.I]. cbn [bind].
  match goal with |- context [bind (mask_index ?a ?b) _] => destruct (mask_index a b) as [fv|] end; [|exact Logic.I]. cbn [bind].
  match goal with |- context [bind (mask_index ?a ?b) _] => destruct (mask_index a b) as [w|] end; [|exact Logic.I]. cbn [bind].
  match goal with |- context [bind (mask_index ?a ?b) _] => destruct (mask_index a b) as [fl|] end; [|exact Logic.I]. cbn [bind].
  refine (finish_water p _ len _ cells _ _ w fl tv fv _ cl).
  intros t M.
  unfold mask_index in EV. rewrite map_length, seq_length in EV. destruct (Nat.eqb_spec (length (check_monotonicity cl0)) (length cd)) as [L|]; [|discriminate].
  injection EV as <-. rewrite nth_select; [|rewrite map_length, seq_length; exact L|exact M].
  assert (TL : (t < length cd)%nat).
  { rewrite <- L. destruct (Nat.ltb_spec t (length (check_monotonicity cl0))); [assumption|]. rewrite nth_overflow in M by lia. discriminate. }
  destruct (AS t) as (a & A1 & A2). exists a. split; [|exact A2].
  rewrite nth_error_map. rewrite (nth_error_nth' _ 0%nat) by (rewrite seq_length; exact TL). rewrite seq_nth by exact TL. cbn [option_map Nat.add]. rewrite A1. reflexivity.
Qed.

(** ** All of them *)

Lemma water_plain p c0 depth a t : plain_depths p c0 depth -> water p depth a t == a * depth_of p depth t.
Proof.
  intros (ds & DE & DP & DL & _). unfold water, active, depth_of. cbv zeta. rewrite DE, DL.
  destruct (nth t (wet_not_lake false (map Fin ds)) false) eqn:W; [apply Qeq_refl|].
  assert (Z : value (nth t (map Fin ds) NaN) == 0); [|rewrite Z; lra].
  assert (LM : forall (l : list num) prev, lake_mask_from false prev l = map (fun _ => false) l).
  { induction l as [|x l IH]; intro prev; [reflexivity|]. cbn [lake_mask_from map]. rewrite andb_false_r. f_equal. apply IH. }
  assert (WL : wet_not_lake false (map Fin ds) = map (fun d => Qltb 0 d) ds).
  { unfold wet_not_lake, lake_mask_time. destruct ds as [|d ds]; [reflexivity|]. cbn [map map2 nltb]. rewrite LM. f_equal; [apply andb_true_r|].
    clear. induction ds as [|d ds IH]; [reflexivity|]. cbn [map map2 nltb]. f_equal; [apply andb_true_r|exact IH]. }
  rewrite WL in W. clear - W DP. revert t W. induction DP as [|d ds D DP IH]; intros t W; [destruct t; reflexivity|].
  destruct t as [|t]; cbn [map nth] in *; [|apply IH; exact W]. cbn [value]. qb. lra.
Qed.
Lemma qsum_ext {A} (h k : A -> Q) l : Forall (fun x => h x == k x) l -> qsum (map h l) == qsum (map k l).
Proof. intro F. unfold qsum. induction F as [|x l E F IH]; cbn [map fold_right]; [apply Qeq_refl|]. rewrite E, IH. apply Qeq_refl. Qed.

(** C124: without lakes and without faces that are deeper at the start than the
    face at the location of their cross-section, at a step in which the level of
    every cross-section is higher than before, the 2D volumes of the
    cross-sections add up to the water in the mesh. *)
Theorem C124_volumes_add_up_to_the_mesh_partial :
  forall nearest within inside sqrt c file mt f d dr ds sections c' m nf ne nn nt areas,
    is_nearest nearest -> dims f nf ne nn nt -> fits c nf (length (internal_of f)) ->
    length (c_id d) = length (c_xy d) -> NoDup (c_id d) -> v_face_area f = Some (map Fin areas) ->
    set_fm_model_data nearest within inside c file mt f (Ok d) dr ds None sections = (c', Ok m) ->
    forall smooth mean p (len : text -> num) (c0 : text -> Q) (centre : text -> nat) (g : text -> M_Geometry.geometry) t,
      (forall id, In id (c_id d) -> step_row (g id) t <> None /\
         exists s, get_selection sqrt m id = Ok s /\ Forall (plain_depths p (c0 id)) (s_depth s) /\
           hd NaN (get_timeseries (gp_skip p) (nth (centre id) (s_depth s) [])) = Fin (c0 id) /\
           build_geometry smooth mean p (len id) (centre id) (M_Pipeline.cells_of s) = Ok (g id)) ->
      exists v : text -> Q, (forall id, In id (c_id d) -> volume_at (g id) t = Some (v id)) /\
        qsum (map v (c_id d)) == qsum (map (fun i => nth i areas 0 * depth_of p (series (v_waterdepth f) i) t) (seq 0 nf)).
Proof.
  intros nearest within inside sqrt c file mt f d dr ds sections c' m nf ne nn nt areas N D F L ND VA H smooth mean p len c0 centre g t A.
  destruct (cover_the_mesh_once nearest within inside sqrt c file mt f d dr ds sections c' m nf ne nn nt N D F L ND H)
    as (fi & ei & P1 & _ & _ & _ & _ & P5 & P6).
  assert (LA : length areas = nf).
  { destruct D as (_ & _ & Fa & _). specialize (Fa _ VA). rewrite map_length in Fa. auto. }
  set (h := fun i => nth i areas 0 * depth_of p (series (v_waterdepth f) i) t).
  assert (ONE : forall id, In id (c_id d) -> exists v, volume_at (g id) t = Some v /\ v == qsum (map h (fi id))).
  { intros id I. destruct (A id I) as (SR & s & GS & PD & HC & BG). destruct (P1 id) as (s' & GS' & R). rewrite GS in GS'. injection GS' as <-.
    destruct (cells_of_faces sqrt f s (fi id) (ei id) areas (fun d a => a * depth_of p d t) R VA) as [FA SUM]; [intros i Ii; rewrite LA; exact (P5 id i Ii)|].
    assert (LS : length (s_area s) = length (s_depth s)).
    { destruct R as (_ & _ & EA & _ & ED & _). rewrite EA, ED, !map_length. reflexivity. }
    assert (PC : Forall (fun c => plain_depths p (c0 id) (c_depth c)) (M_Pipeline.cells_of s)).
    { apply Forall_forall. intros x X. unfold M_Pipeline.cells_of in X. apply in_map_iff in X. destruct X as (k & <- & X). apply in_seq in X.
      cbn [c_depth]. rewrite Forall_forall in PD. apply PD, nth_In. lia. }
    assert (HC' : hd NaN (nth (centre id) (map (fun c => get_timeseries (gp_skip p) (c_depth c)) (M_Pipeline.cells_of s)) []) = Fin (c0 id)).
    { unfold M_Pipeline.cells_of. rewrite map_map. cbn [c_depth]. rewrite LS. destruct (Nat.ltb_spec (centre id) (length (s_depth s))) as [B|B].
      - rewrite nth_indep with (d' := get_timeseries (gp_skip p) (nth 0 (s_depth s) [])) by (rewrite map_length, seq_length; exact B).
        rewrite (map_nth (fun i => get_timeseries (gp_skip p) (nth i (s_depth s) []))), seq_nth by exact B. exact HC.
      - rewrite (nth_overflow (s_depth s)) in HC by exact B. unfold get_timeseries, slice_from in HC. rewrite skipn_nil in HC. discriminate HC. }
    destruct (geometry_water smooth mean p (len id) (c0 id) (centre id) _ (g id) FA PC HC' BG t SR) as (v & V1 & V2). exists v. split; [exact V1|].
    rewrite V2. unfold h. rewrite <- SUM. apply qsum_ext. eapply Forall_impl; [|exact PC]. intros x X. cbv beta. apply (water_plain _ _ _ _ _ X). }
  exists (fun id => match volume_at (g id) t with Some v => v | None => 0 end). split.
  - intros id I. destruct (ONE id I) as (v & -> & _). reflexivity.
  - specialize (P6 (map h (seq 0 nf)) ltac:(rewrite map_length, seq_length; reflexivity)). rewrite <- P6. clear P6.
    assert (HH : forall id, map (fun i => nth i (map h (seq 0 nf)) 0) (fi id) = map h (fi id)).
    { intro id. apply map_ext_in. intros i I. pose proof (P5 id i I) as B. rewrite nth_indep with (d' := h 0%nat) by (rewrite map_length, seq_length; exact B).
      rewrite (map_nth h), seq_nth by exact B. reflexivity. }
    clear - ONE HH. revert ONE. generalize (c_id d). intro ids. induction ids as [|id ids IH]; intro ONE; [apply Qeq_refl|].
    cbn [map]. unfold qsum in *. cbn [fold_right]. rewrite IH by (intros; apply ONE; right; assumption). rewrite HH.
    destruct (ONE id (or_introl eq_refl)) as (v & -> & E). rewrite E. apply Qeq_refl.
Qed.
Print Assumptions C124_volumes_add_up_to_the_mesh_partial.

(** ** A case *)

Definition row_volume (n : nat) (id : text) (centre t : nat) : option Q :=
  match row_selection n id with
  | Ok s => match build_geometry (fun x => x) (fun _ _ => Fin 0) (st_geometry example_settings) (Fin 10) centre (M_Pipeline.cells_of s) with
            | Ok g => volume_at g t | Raise _ => None end
  | Raise _ => None
  end.
Definition mesh_water (n t : nat) : Q :=
  qsum (map (fun i => nth i (repeat 20 10 ++ repeat 30 n) 0 * depth_of (st_geometry example_settings) (series (v_waterdepth (two_rows n)) i) t)
         (seq 0 (10 + n))).
(** A decision for the assumption. *)
Fixpoint fins (l : list num) : option (list Q) :=
  match l with
  | [] => Some []
  | Fin q :: l' => option_map (cons q) (fins l')
  | _ => None
  end.
Lemma fins_sound l : forall ds, fins l = Some ds -> l = map Fin ds.
Proof.
  induction l as [|x l IH]; intros ds H; [injection H as <-; reflexivity|]. destruct x; try discriminate. cbn [fins] in H.
  destruct (fins l); [|discriminate]. injection H as <-. cbn [map]. f_equal. apply IH. reflexivity.
Qed.
Definition plainb (p : geom_params) (c0 : Q) (depth : list num) : bool :=
  match fins (get_timeseries (gp_skip p) depth) with
  | Some ds => forallb (Qle_bool 0) ds && Qle_bool (hd 0 ds) c0 && match is_lake (gp_lake p) (map Fin ds) with Ok b => negb b | Raise _ => false end
  | None => false
  end.
Lemma plainb_sound p c0 l : forallb (plainb p c0) l = true -> Forall (plain_depths p c0) l.
Proof.
  intro H. apply Forall_forall. intros depth I. rewrite forallb_forall in H. specialize (H depth I). unfold plainb in H.
  destruct (fins _) as [ds|] eqn:E; [|discriminate]. apply andb_true_iff in H. destruct H as [H1 H3]. apply andb_true_iff in H1. destruct H1 as [H1 H2].
  exists ds. split; [apply fins_sound, E|]. split.
  - apply Forall_forall. intros d D. rewrite forallb_forall in H1. apply Qle_bool_iff, H1, D.
  - split; [|apply Qle_bool_iff, H2]. destruct (is_lake _ _) as [[]|]; try discriminate. reflexivity.
Qed.
Definition checked (p : geom_params) (c0 : Q) (centre : nat) (r : res selection) : bool :=
  match r with
  | Ok s => forallb (plainb p c0) (s_depth s) && neqb (hd NaN (get_timeseries (gp_skip p) (nth centre (s_depth s) []))) (Fin c0)
  | Raise _ => false
  end.
(** The assumptions hold for both locations, and the last step has 2250 m3. *)
Theorem C124_case :
  checked (st_geometry example_settings) 1 0 (row_selection 10 (T "a")) = true /\
  checked (st_geometry example_settings) 1 0 (row_selection 10 (T "b")) = true /\
  qopt (row_volume 10 (T "a") 0 2) == 900 /\ qopt (row_volume 10 (T "b") 0 2) == 1350 /\ mesh_water 10 2 == 900 + 1350.
Proof. repeat split; vm_compute; reflexivity. Qed.
Print Assumptions C124_case.

(** Where the face at the location is dry at the start and another one has a
    metre of water, that metre is left out for good: 880 and 1320 m3. *)
Theorem C124_deeper_faces_refuted :
  qopt (row_volume 10 (T "a") 5 2) == 880 /\ qopt (row_volume 10 (T "b") 5 2) == 1320 /\ mesh_water 10 2 == 2250.
Proof. repeat split; vm_compute; reflexivity. Qed.
Print Assumptions C124_deeper_faces_refuted.
