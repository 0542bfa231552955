(** Theorems for C04, C05, C06, C07: the columns of a cross-section profile. *)
From Coq Require Import String List ZArith QArith Qabs Bool Lia Lqa Qfield.
From Verif Require Import PyBase Num Spec L_Num M_Geometry L_Require L_Profile.
Import ListNotations.
Local Open Scope Q_scope.

(** C04.  Above the initial water level the flow width is the greatest
    non-decreasing sequence below the raw flow width. *)
Theorem C04_flow_width_is_greatest_envelope :
  forall (len : Q) (level wet tvol fvol : list num) (flow : list Q),
    ~ len == 0 ->
    let raw := map (fun a => a / len) flow in
    let k := compute_css_above_z0 (Fin len) level wet (map Fin flow) tvol fvol in
    exists w : list Q,
      k_fw k = map Fin w /\
      nondecreasing w /\
      rowwise Qle w raw /\
      last w 0 = last raw 0 /\
      (forall s, nondecreasing s -> rowwise Qle s raw -> rowwise Qle s w) /\
      k_flow k = map Fin flow /\ k_wet k = wet /\
      (forall i a, nth_error wet i = Some (Fin a) -> nth_error (k_tw k) i = Some (Fin (a / len))).
Proof.
  intros len level wet tvol fvol flow Hlen raw k. exists (qenv raw).
  split; [|split; [|split; [|split; [|split; [|split; [|split]]]]]].
  - unfold k, compute_css_above_z0; cbn [k_fw]. rewrite map_ndiv_fin by auto. apply envelope_fin.
  - apply sorted_nondec, qenv_sorted.
  - apply qenv_le.
  - apply qenv_last.
  - intros s Hs Hle. apply qenv_greatest; auto. apply nondec_sorted; auto.
  - reflexivity.
  - reflexivity.
  - intros i a Hi. unfold k, compute_css_above_z0; cbn [k_tw]. rewrite nth_error_map, Hi. simpl.
    destruct (Qeq_bool len 0) eqn:E; qb; [contradiction|auto].
Qed.
Print Assumptions C04_flow_width_is_greatest_envelope.

Example C04_case :
  k_fw (compute_css_above_z0 (Fin 2) (map Fin [1; 2; 3; 4]) (map Fin [8; 8; 8; 8])
          (map Fin [6; 4; 8; 6]) [] [])
  = map Fin [4 / 2; 4 / 2; 6 / 2; 6 / 2].
Proof. vm_compute. reflexivity. Qed.

(** C04, the missing-level step: levels without a value are set to the lowest
    level present, all other levels are kept. *)
Lemma fold_npmin_le l : forall a, exists m,
  fold_left npmin (map Fin l) (Fin a) = Fin m /\ m <= a /\ Forall (fun q => m <= q) l /\
  (m = a \/ In m l).
Proof.
  induction l as [|x l IH]; intros a; simpl.
  - exists a. repeat split; auto. lra.
  - rewrite npmin_fin. destruct (IH (Qmin2 a x)) as (m & Hm & Hle & Hall & Hin).
    exists m. split; auto. pose proof (Qmin2_le_l a x). pose proof (Qmin2_le_r a x).
    split; [lra|]. split; [constructor; auto; lra|].
    destruct Hin as [->|Hin]; auto. unfold Qmin2. destruct (Qltb x a); auto.
Qed.

(** C05.  Ten rows are put in front of every column. *)
Theorem C05_extension_below_initial_level :
  forall (extrapolate : bool) (len c0 d0 : Q)
         (cells : list (cell * num * bool)) (specs : list (Q * Q * bool))
         (z tw fw wet fa fvol tvol : list num) (fa0 : Q),
    0 < len -> 0 <= d0 -> 0 <= fa0 ->
    Forall2 cell0_is cells specs ->
    Forall (fun s => 0 <= fst (fst s)) specs ->
    exists zs ts fs ws qs : list Q,
      extend_css_below_z0 extrapolate (Fin len) (Fin c0) (Fin d0) cells
        (mkCols z tw fw wet (Fin fa0 :: fa) fvol tvol)
      = mkCols (map Fin zs ++ z) (map Fin ts ++ tw) (map Fin fs ++ fw)
               (map Fin ws ++ wet) (map Fin qs ++ Fin fa0 :: fa)
               (repeat NaN 10 ++ fvol) (repeat NaN 10 ++ tvol) /\
      length zs = 10%nat /\ length ts = 10%nat /\ length fs = 10%nat /\
      length ws = 10%nat /\ length qs = 10%nat /\
      (* levels *)
      (forall j x, nth_error zs j = Some x -> x == c0 - d0 * inject_Z (9 - Z.of_nat j) / 9) /\
      nondecreasing zs /\
      (* widths *)
      nondecreasing ts /\ nondecreasing fs /\
      rowwise Qle fs ts /\ Forall (fun w => 0 <= w) fs /\
      (* exact areas: active cells reaching (up to 1 mm) below the level *)
      (forall j x a, nth_error zs j = Some x -> nth_error ws j = Some a ->
         a == Qsum_if (fun s => fst (fst s))
                (fun s => Qltb (c0 - x - (1 # 1000)) (snd (fst s)) && snd s) specs) /\
      (forall j a q t f, nth_error ws j = Some a -> nth_error qs j = Some q ->
         nth_error ts j = Some t -> nth_error fs j = Some f ->
         t == a / len /\ f == q / len /\
         (extrapolate = false -> q == a) /\
         (extrapolate = true -> q <= a /\ q <= fa0 /\ (q == a \/ q == fa0))).
Proof.
  intros ex len c0 d0 cells specs z tw fw wet fa fvol tvol fa0 Hlen Hd0 Hfa0 Hcells Hpos.
  set (h := c0 + - (c0 + - d0)).
  assert (Hh : h == d0) by (unfold h; ring).
  set (dzs := map (fun k => h * (inject_Z (Z.of_nat k) / 9)) (seq 0 10)).
  set (wq := fun dz => match wet_area_below cells (Fin dz) with Fin s => s | _ => 0 end).
  assert (Hwq : forall dz, wet_area_below cells (Fin dz) = Fin (wq dz)).
  { intros dz. unfold wq. destruct (wet_area_below_spec _ _ Hcells dz) as (s & -> & _). auto. }
  assert (Hws : forall dz, wq dz == Qsum_if (fun x => fst (fst x))
           (fun x => Qltb (dz - (1 # 1000)) (snd (fst x)) && snd x) specs).
  { intros dz. destruct (wet_area_below_spec _ _ Hcells dz) as (s & Hs & He).
    rewrite Hwq in Hs. inversion Hs; subst. auto. }
  assert (Hp : forall x, In x specs -> 0 <= fst (fst x)) by (apply Forall_forall; auto).
  assert (Hw0 : forall dz, 0 <= wq dz).
  { intros dz. rewrite Hws. apply Qsum_if_nonneg; auto. }
  assert (Hwa : forall d1 d2, d1 <= d2 -> wq d2 <= wq d1).
  { intros d1 d2 H. rewrite (Hws d1), (Hws d2). apply Qsum_if_le; auto.
    intros [[a d] act] _ Hb. simpl in *. apply andb_true_iff in Hb. destruct Hb as [Hb ->].
    rewrite andb_true_r. qb. lra. }
  set (fq := fun dz => if ex then Qmin2 (wq dz) fa0 else wq dz).
  assert (Hfq : forall dz, below_flow ex (Fin fa0) cells (Fin dz) = Fin (fq dz)).
  { intros dz. unfold below_flow, fq. rewrite Hwq. destruct ex; simpl; auto. apply npmin_fin. }
  assert (Hfa : forall d1 d2, d1 <= d2 -> fq d2 <= fq d1).
  { intros d1 d2 H. pose proof (Hwa _ _ H). unfold fq. destruct ex; auto.
    apply Qmin2_glb; [|apply Qmin2_le_r]. eapply Qle_trans; [apply Qmin2_le_l|auto]. }
  assert (Hfw : forall dz, fq dz <= wq dz).
  { intros. unfold fq. destruct ex; [apply Qmin2_le_l|lra]. }
  assert (Hf0 : forall dz, 0 <= fq dz).
  { intros. unfold fq. destruct ex; auto. apply Qmin2_glb; auto. }
  assert (Hdiv : forall a, ndiv (Fin a) (Fin len) = Fin (a / len)).
  { intros a. simpl. destruct (Qeq_bool len 0) eqn:E; qb; [lra|auto]. }
  assert (Hdivle : forall a b, a <= b -> a / len <= b / len).
  { intros a b H. unfold Qdiv. apply Qmult_le_compat_r; auto. apply Qinv_le_0_compat; lra. }
  assert (Hlin : linspace10 (nsub (Fin c0) (nsub (Fin c0) (Fin d0))) = map Fin dzs).
  { unfold dzs. rewrite map_map. reflexivity. }
  assert (Hdz : forall i, h * (inject_Z (Z.of_nat i) / 9) <= h * (inject_Z (Z.of_nat (S i)) / 9)).
  { intros i. rewrite !(Qmult_comm h). apply Qmult_le_compat_r; [|lra].
    unfold Qdiv. apply Qmult_le_compat_r; [|discriminate].
    rewrite <- Zle_Qle. lia. }
  (* any antitone function gives a non-decreasing column *)
  assert (Hmono : forall f : Q -> Q, (forall a b, a <= b -> f b <= f a) ->
            nondecreasing (rev (map f dzs))).
  { intros f Hf. apply sorted_nondec. unfold dzs. cbn [seq map rev app sorted chain].
    repeat split; apply Hf; apply Hdz. }
  exists (rev (map (fun dz => c0 + - dz) dzs)), (rev (map (fun dz => wq dz / len) dzs)),
         (rev (map (fun dz => fq dz / len) dzs)), (rev (map wq dzs)), (rev (map fq dzs)).
  split.
  { unfold extend_css_below_z0. rewrite Hlin. cbn [k_flow hd]. rewrite below_fold.
    cbn [k_z k_tw k_fw k_wet k_flow k_fvol k_tvol].
    rewrite !map_rev, !map_map. f_equal.
    - f_equal. f_equal. apply map_ext. intros a. rewrite Hwq. apply Hdiv.
    - f_equal. f_equal. apply map_ext. intros a. rewrite Hfq. apply Hdiv.
    - f_equal. f_equal. apply map_ext. intros a. apply Hwq.
    - f_equal. f_equal. apply map_ext. intros a. apply Hfq. }
  split; [reflexivity|]. split; [reflexivity|]. split; [reflexivity|].
  split; [reflexivity|]. split; [reflexivity|].
  assert (Hnth : forall (f : Q -> Q) j x, nth_error (rev (map f dzs)) j = Some x ->
            exists k, (k + j = 9)%nat /\ x = f (h * (inject_Z (Z.of_nat k) / 9))).
  { intros f j x Hj. unfold dzs in Hj. cbn [seq map rev app] in Hj.
    do 10 (destruct j as [|j]; [simpl in Hj; inversion Hj; subst x; clear Hj;
       match goal with |- exists k, (k + ?n = 9)%nat /\ _ => exists (9 - n)%nat end;
       split; [lia | reflexivity] |]).
    simpl in Hj. destruct j; discriminate. }
  split.
  { intros j x Hj. apply Hnth in Hj. destruct Hj as (k & Hk & ->).
    replace (9 - Z.of_nat j)%Z with (Z.of_nat k) by lia. rewrite Hh. field. }
  split; [apply Hmono; intros; lra|].
  split; [apply Hmono; intros; apply Hdivle; auto|].
  split; [apply Hmono; intros; apply Hdivle; auto|].
  assert (Hsame : forall (f g : Q -> Q) j x y,
     nth_error (rev (map f dzs)) j = Some x -> nth_error (rev (map g dzs)) j = Some y ->
     exists dz, x = f dz /\ y = g dz).
  { intros f g j x y Hx Hy. apply Hnth in Hx. apply Hnth in Hy.
    destruct Hx as (k & Hk & ->), Hy as (k' & Hk' & ->). assert (k = k') by lia. subst. eauto. }
  split.
  { apply Forall2_nth. split; [reflexivity|]. intros i a b Ha Hb.
    destruct (Hsame _ _ _ _ _ Ha Hb) as (dz & -> & ->). apply Hdivle; auto. }
  split.
  { apply Forall_forall. intros x Hx. apply in_rev, in_map_iff in Hx. destruct Hx as (dz & <- & _).
    unfold Qdiv. apply Qmult_le_0_compat; auto. apply Qinv_le_0_compat; lra. }
  split.
  { intros j x a Hx Ha. destruct (Hsame _ _ _ _ _ Hx Ha) as (dz & -> & ->). rewrite Hws.
    unfold Qsum_if.
    replace (filter (fun x => Qltb (dz - (1 # 1000)) (snd (fst x)) && snd x) specs)
      with (filter (fun s => Qltb (c0 - (c0 + - dz) - (1 # 1000)) (snd (fst s)) && snd s) specs);
      [reflexivity|].
    apply filter_ext. intros s. f_equal.
    destruct (Qltb (c0 - (c0 + - dz) - (1 # 1000)) (snd (fst s))) eqn:E1,
             (Qltb (dz - (1 # 1000)) (snd (fst s))) eqn:E2; auto; qb; lra. }
  { intros j a q t f Ha Hq Ht Hf.
    apply Hnth in Ha. apply Hnth in Hq. apply Hnth in Ht. apply Hnth in Hf.
    destruct Ha as (k1 & K1 & ->), Hq as (k2 & K2 & ->), Ht as (k3 & K3 & ->), Hf as (k4 & K4 & ->).
    assert (k2 = k1) by lia. assert (k3 = k1) by lia. assert (k4 = k1) by lia. subst.
    split; [reflexivity|]. split; [reflexivity|]. unfold fq. split; intros ->; [reflexivity|].
    split; [apply Qmin2_le_l|]. split; [apply Qmin2_le_r|].
    unfold Qmin2. destruct (Qltb fa0 _); [right|left]; reflexivity. }
Qed.
Print Assumptions C05_extension_below_initial_level.

Definition C05_cells : list (cell * num * bool) :=
  [ (mkCell (Fin 10) (Fin 0) [] [] [] (LInt 1), Fin 3, true);
    (mkCell (Fin 20) (Fin 1) [] [] [] (LInt 1), Fin 3, true);
    (mkCell (Fin 40) (Fin 2) [] [] [] (LInt 1), NaN, true);
    (mkCell (Fin 80) (Fin 0) [] [] [] (LInt 1), Fin 3, false) ].
Example C05_case_hypotheses :
  Forall2 cell0_is C05_cells [(10, 3, true); (20, 2, true); (40, 0, true); (80, 3, false)].
Proof.
  repeat apply Forall2_cons; try apply Forall2_nil;
    (split; [reflexivity|split; [reflexivity|]]).
  - left; eexists _, _; repeat split; reflexivity.
  - left; eexists _, _; repeat split; reflexivity.
  - right. split; [auto | reflexivity].
  - left; eexists _, _; repeat split; reflexivity.
Qed.
Example C05_case :
  let k := extend_css_below_z0 true (Fin 10) (Fin 3) (Fin 3) C05_cells
             (mkCols [Fin 3] [Fin 7] [Fin 2] [Fin 70] [Fin 25] [Fin 0] [Fin 0]) in
  length (k_z k) = 11%nat /\
  map (fun x => match x with Fin q => Qred q | _ => -1 end) (k_tw k)
    = [1; 1; 1; 3; 3; 3; 3; 3; 3; 7; 7] /\
  map (fun x => match x with Fin q => Qred q | _ => -1 end) (k_fw k)
    = [1; 1; 1; 5 # 2; 5 # 2; 5 # 2; 5 # 2; 5 # 2; 5 # 2; 5 # 2; 2].
Proof. vm_compute. repeat split. Qed.

(** ** C06 *)
Lemma extend_lengths ex len c0 d0 cells k :
  let k' := extend_css_below_z0 ex len c0 d0 cells k in
  length (k_z k') = (10 + length (k_z k))%nat /\
  length (k_tw k') = (10 + length (k_tw k))%nat /\
  length (k_fw k') = (10 + length (k_fw k))%nat /\
  length (k_wet k') = (10 + length (k_wet k))%nat /\
  length (k_flow k') = (10 + length (k_flow k))%nat /\
  length (k_fvol k') = (10 + length (k_fvol k))%nat /\
  length (k_tvol k') = (10 + length (k_tvol k))%nat.
Proof.
  unfold extend_css_below_z0. rewrite below_fold. cbv zeta.
  set (h := linspace10 _). assert (Hh : length h = 10%nat) by reflexivity. clearbody h.
  cbn [k_z k_tw k_fw k_wet k_flow k_fvol k_tvol].
  rewrite !app_length, !rev_length, !map_length, Hh. repeat split.
Qed.

Lemma envelope_length l : length (flow_width_envelope l) = length l.
Proof. induction l as [|x l IH]; simpl; auto. destruct (flow_width_envelope l); simpl in *; lia. Qed.

Lemma cumtrapz_length y : forall x acc,
  length y = length x -> length (cumtrapz_from acc y x) = pred (length y).
Proof.
  induction y as [|y0 y IH]; intros x acc Hl; simpl; auto.
  destruct y as [|y1 y]; auto. destruct x as [|x0 [|x1 x]]; try discriminate.
  cbn [length pred]. f_equal. rewrite IH; auto.
Qed.

Lemma css_volume_length len w z :
  length w = length z -> (0 < length w)%nat -> length (css_volume len w z) = length w.
Proof.
  intros Hl H0. unfold css_volume, cumulative_trapezoid. cbn [length].
  rewrite map_length, cumtrapz_length by auto. lia.
Qed.

(** C06.  All exported columns have the same number of rows, for every input on
    which the geometry is built at all. *)
Theorem C06_columns_aligned :
  forall smooth mean p len centre cells g,
    build_geometry smooth mean p len centre cells = Ok g ->
    exists n, (10 <= n)%nat /\
      length (k_z (g_cols g)) = n /\ length (k_tw (g_cols g)) = n /\
      length (k_fw (g_cols g)) = n /\ length (k_wet (g_cols g)) = n /\
      length (k_flow (g_cols g)) = n /\ length (k_fvol (g_cols g)) = n /\
      length (k_tvol (g_cols g)) = n /\
      length (g_tvol1d g) = n /\ length (g_fvol1d g) = n.
Proof.
  intros smooth mean p len centre cells g H. unfold build_geometry in H.
  destruct (fill_centre_level _ _) as [clv|] eqn:Ec; [|discriminate]. cbn [bind] in H.
  destruct (identify_lakes _ _) as [[[lakes wm] corr]|] eqn:El; [|discriminate]. cbn [bind] in H.
  set (nt := length _) in H.
  unfold mask_index in H.
  destruct (Nat.eqb (length (check_monotonicity clv)) (length clv)) eqn:E1; [|discriminate].
  cbn [bind] in H.
  rewrite !map_length, seq_length in H.
  destruct (Nat.eqb (length (check_monotonicity clv)) nt) eqn:E2; [|discriminate].
  cbn [bind] in H. apply Nat.eqb_eq in E1, E2.
  match type of H with Ok ?a = Ok g => assert (Hg : g = a) by congruence end. subst g. clear H.
  set (m := check_monotonicity clv) in *.
  set (sel := length (filter (fun b : bool => b) m)).
  assert (Hn : forall (l : list num), length l = nt -> length (select m l) = sel).
  { intros l Hl. apply select_length. congruence. }
  assert (Hseq : forall f : nat -> num, length (select m (map f (seq 0 nt))) = sel).
  { intros. apply Hn. rewrite map_length, seq_length. auto. }
  assert (Hcl : length (select m clv) = sel) by (apply Hn; congruence).
  cbn [g_cols g_tvol1d g_fvol1d].
  match goal with |- context [extend_css_below_z0 ?a ?b ?c ?d ?e ?f] =>
    pose proof (extend_lengths a b c d e f) as HL; cbv zeta in HL;
    set (k1 := extend_css_below_z0 a b c d e f) in * end.
  unfold compute_css_above_z0, fill_nan_levels in HL.
  cbn [k_z k_tw k_fw k_wet k_flow k_fvol k_tvol] in HL.
  rewrite envelope_length, !map_length, !Hseq, Hcl in HL.
  destruct HL as (Hz & Ht & Hf & Hw & Hfl & Hfv & Htv).
  exists (10 + sel)%nat. split; [lia|].
  repeat (split; [assumption|]).
  split; (rewrite css_volume_length; [assumption | lia | lia]).
Qed.
Print Assumptions C06_columns_aligned.

Lemma monotonicity_length arr : arr <> [] -> length (check_monotonicity arr) = length arr.
Proof.
  intros H. unfold check_monotonicity.
  assert (G : forall l m, length (fold_left (monotonicity_step arr) l m) = (length m + length l)%nat).
  { induction l as [|i l IH]; intros m; simpl; [lia|]. rewrite IH.
    unfold monotonicity_step. destruct (nltb _ _); rewrite app_length; simpl; lia. }
  rewrite G, seq_length. destruct arr; [congruence|]. simpl. lia.
Qed.

Lemma map_res_Ok {A B} (f : A -> res B) l :
  (forall x, In x l -> exists y, f x = Ok y) -> exists ys, map_res f l = Ok ys.
Proof.
  induction l as [|x l IH]; intros H; simpl; [eauto|].
  destruct (H x) as [y Hy]; [simpl; auto|]. rewrite Hy.
  destruct IH as [ys Hys]; [intros; apply H; simpl; auto|]. rewrite Hys. eauto.
Qed.

Lemma py_index_Ok {A} (l : list A) k :
  (0 <= k < Z.of_nat (length l))%Z -> exists a, py_index l k = Ok a /\ nth_error l (Z.to_nat k) = Some a.
Proof.
  intros H. unfold py_index. destruct (k <? 0)%Z eqn:E1; [apply Z.ltb_lt in E1; lia|].
  rewrite E1. destruct (nth_error l (Z.to_nat k)) eqn:E; [eauto|].
  apply nth_error_None in E. lia.
Qed.

Lemma get_timeseries_length skip row :
  (0 <= skip)%Z -> length (get_timeseries skip row) = (length row - Z.to_nat skip)%nat.
Proof.
  intros H. unfold get_timeseries, slice_from, slice_bound. rewrite map_length, skipn_length.
  destruct (skip <? 0)%Z eqn:E; [apply Z.ltb_lt in E; lia|]. lia.
Qed.

(** C06.  The geometry is built without an exception whenever at least one time
    step remains and the lake time step lies inside the remaining ones; the
    roughness levels keep one entry per remaining time step. *)
Theorem C06_geometry_is_built :
  forall smooth mean p len centre cells (nt : nat),
    (centre < length cells)%nat ->
    (forall c, In c cells -> length (c_depth c) = nt /\ length (c_level c) = nt) ->
    (0 <= gp_skip p < Z.of_nat nt)%Z ->
    (0 <= gp_lake p < Z.of_nat nt - gp_skip p)%Z ->
    exists g, build_geometry smooth mean p len centre cells = Ok g /\
      length (g_z_roughness g) = (nt - Z.to_nat (gp_skip p))%nat.
Proof.
  intros smooth mean p len centre cells nt Hc Hrow Hskip Hlake. unfold build_geometry.
  assert (Hts : forall f, (forall c, In c cells -> length (f c) = nt) ->
     length (nth centre (map (fun c : cell => get_timeseries (gp_skip p) (f c)) cells) [])
     = (nt - Z.to_nat (gp_skip p))%nat).
  { intros f Hf. rewrite nth_indep with (d' := get_timeseries (gp_skip p) (f (mkCell NaN NaN [] [] [] (LInt 0))))
      by (rewrite map_length; auto).
    rewrite (map_nth (fun c => get_timeseries (gp_skip p) (f c))).
    rewrite get_timeseries_length by lia. rewrite Hf; auto. apply nth_In; auto. }
  pose proof (Hts c_depth (fun c H => proj1 (Hrow c H))) as Hd.
  pose proof (Hts c_level (fun c H => proj2 (Hrow c H))) as Hl.
  set (cd := nth centre _ []) in Hd |- *. set (cl := nth centre _ []) in Hl |- *.
  assert (Hcl : exists v, fill_centre_level cd cl = Ok v /\ length v = length cl).
  { unfold fill_centre_level. destruct cl; [simpl in Hl; lia|].
    eexists. split; [reflexivity|]. rewrite map_length. auto. }
  destruct Hcl as (v & Hv & Hlv). rewrite Hv. cbn [bind].
  assert (Hid : exists r, identify_lakes (gp_lake p)
      (map (fun c : cell => get_timeseries (gp_skip p) (c_depth c)) cells) = Ok r).
  { unfold identify_lakes.
    destruct (map_res_Ok (is_lake (gp_lake p))
      (map (fun c : cell => get_timeseries (gp_skip p) (c_depth c)) cells)) as [ys Hys].
    - intros row Hin. apply in_map_iff in Hin. destruct Hin as (c & <- & Hin).
      assert (Hlen : length (get_timeseries (gp_skip p) (c_depth c)) = (nt - Z.to_nat (gp_skip p))%nat).
      { rewrite get_timeseries_length by lia. rewrite (proj1 (Hrow c Hin)). auto. }
      unfold is_lake.
      destruct (py_index_Ok (get_timeseries (gp_skip p) (c_depth c)) (gp_lake p)) as (a & -> & _); [lia|].
      destruct (py_index_Ok (get_timeseries (gp_skip p) (c_depth c)) 0) as (b & -> & _); [lia|].
      cbn [bind]. eauto.
    - rewrite Hys. cbn [bind]. eauto. }
  destruct Hid as ([[lk wm] corr] & ->). cbn [bind].
  assert (Hm : length (check_monotonicity v) = length cd).
  { rewrite monotonicity_length; [congruence|]. intros ->. simpl in *. lia. }
  unfold mask_index. rewrite !map_length, seq_length, Hm, Nat.eqb_refl.
  replace (length v) with (length cd) by congruence. rewrite Nat.eqb_refl. cbn [bind].
  eexists. split; [reflexivity|]. cbn [g_z_roughness]. congruence.
Qed.
Print Assumptions C06_geometry_is_built.

Definition C06_cells : list cell :=
  [ mkCell (Fin 10) (Fin 0) (map Fin [1; 2; 1]) (map Fin [1; 2; 1]) (map Fin [1; 1; 1]) (LInt 1);
    mkCell (Fin 20) (Fin 1) (map Fin [0; 1; 0]) [NaN; Fin 2; NaN] (map Fin [0; 1; 0]) (LInt 2) ].
Example C06_case :
  exists g, build_geometry (fun v => v) (fun _ _ => Fin 0)
    (mkParams 0 1 1 (Fin (1 # 10)) (Fin (15 # 100)) true) (Fin 10) 0 C06_cells = Ok g /\
  length (k_z (g_cols g)) = 12%nat.
Proof. eexists. split; [reflexivity|]. vm_compute. reflexivity. Qed.

(** C06, edge: a lake time step beyond the data aborts the cross-section with
    an IndexError (any cell, any data). *)
Theorem C06_lake_step_outside_data_raises :
  forall smooth mean p len centre cells (nt : nat),
    (centre < length cells)%nat ->
    (forall c, In c cells -> length (c_depth c) = nt /\ length (c_level c) = nt) ->
    (0 <= gp_skip p < Z.of_nat nt)%Z ->
    (Z.of_nat nt - gp_skip p <= gp_lake p)%Z ->
    build_geometry smooth mean p len centre cells = Raise IndexError.
Proof.
  intros smooth mean p len centre cells nt Hc Hrow Hskip Hlake. unfold build_geometry.
  set (cd := nth centre _ []). set (cl := nth centre _ []).
  assert (Hl : length cl = (nt - Z.to_nat (gp_skip p))%nat).
  { unfold cl. rewrite nth_indep with (d' := get_timeseries (gp_skip p) (c_level (mkCell NaN NaN [] [] [] (LInt 0))))
      by (rewrite map_length; auto).
    rewrite (map_nth (fun c => get_timeseries (gp_skip p) (c_level c))).
    rewrite get_timeseries_length by lia. rewrite (proj2 (Hrow _ (nth_In _ _ Hc))). auto. }
  unfold fill_centre_level. destruct cl as [|a cl']; [simpl in Hl; lia|]. cbn [bind].
  unfold identify_lakes. destruct cells as [|c cells]; [simpl in Hc; lia|]. cbn [map map_res].
  assert (Hrow0 : is_lake (gp_lake p) (get_timeseries (gp_skip p) (c_depth c)) = Raise IndexError).
  { unfold is_lake, py_index.
    destruct (gp_lake p <? 0)%Z eqn:E; [apply Z.ltb_lt in E; lia|]. rewrite E.
    replace (nth_error _ (Z.to_nat (gp_lake p))) with (@None num); auto. symmetry.
    apply nth_error_None. rewrite get_timeseries_length by lia.
    rewrite (proj1 (Hrow c (or_introl eq_refl))). lia. }
  rewrite Hrow0. reflexivity.
Qed.
Print Assumptions C06_lake_step_outside_data_raises.

(** C07.  The 1D volume column. *)
Theorem C07_volume_is_trapezoidal_integral :
  forall (len : Q) (width z : list Q),
    length width = length z -> width <> [] ->
    exists vol : list Q,
      css_volume (Fin len) (map Fin width) (map Fin z) = map Fin vol /\
      length vol = length z /\
      hd_error vol = Some 0 /\
      (forall i v z0 z1 w0 w1 v',
         nth_error vol i = Some v -> nth_error vol (S i) = Some v' ->
         nth_error z i = Some z0 -> nth_error z (S i) = Some z1 ->
         nth_error width i = Some w0 -> nth_error width (S i) = Some w1 ->
         v' == v + len * ((z1 - z0) * ((w0 + w1) / 2))) /\
      (0 <= len -> nondecreasing z -> Forall (fun w => 0 <= w) width ->
         nondecreasing vol /\ Forall (fun v => 0 <= v) vol).
Proof.
  intros len width z Hl Hne. exists (qvolume len width z).
  assert (Hlen : length (qvolume len width z) = length z).
  { unfold qvolume. cbn [length]. rewrite map_length, qtrapz_length by auto.
    destruct width; [congruence|]. simpl in *. lia. }
  split; [apply css_volume_fin|]. split; [auto|]. split; [reflexivity|]. split.
  - intros i v z0 z1 w0 w1 v' Hv Hv' Hz0 Hz1 Hw0 Hw1.
    apply qvolume_nth in Hv. apply qvolume_nth in Hv'. rewrite Hv, Hv'.
    assert (G : forall i w z z0 z1 w0 w1, nth_error z i = Some z0 -> nth_error z (S i) = Some z1 ->
       nth_error w i = Some w0 -> nth_error w (S i) = Some w1 ->
       trapezoids (S i) w z == trapezoids i w z + (z1 - z0) * ((w0 + w1) / 2)).
    { clear. induction i as [|i IH]; intros w z z0 z1 w0 w1 H0 H1 H2 H3.
      - destruct z as [|? [|? z]]; try discriminate. destruct w as [|? [|? w]]; try discriminate.
        simpl in *. inversion H0; inversion H1; inversion H2; inversion H3; subst. field.
      - destruct z as [|za [|zb z]]; [discriminate H1 | discriminate H1 |].
        destruct w as [|wa [|wb w]]; [discriminate H3 | discriminate H3 |].
        change (trapezoids (S (S i)) (wa :: wb :: w) (za :: zb :: z))
          with ((zb - za) * (wa + wb) * (1 # 2) + trapezoids (S i) (wb :: w) (zb :: z)).
        change (trapezoids (S i) (wa :: wb :: w) (za :: zb :: z))
          with ((zb - za) * (wa + wb) * (1 # 2) + trapezoids i (wb :: w) (zb :: z)).
        rewrite (IH (wb :: w) (zb :: z) z0 z1 w0 w1) by auto. ring. }
    rewrite (G i width z z0 z1 w0 w1) by auto. ring.
  - intros Hlen0 Hz Hw. apply nondec_sorted in Hz.
    assert (Hm : forall i j a b, (i <= j)%nat -> nth_error (qvolume len width z) i = Some a ->
              nth_error (qvolume len width z) j = Some b -> a <= b).
    { intros i j a b Hij Ha Hb. apply qvolume_nth in Ha. apply qvolume_nth in Hb. rewrite Ha, Hb.
      rewrite !(Qmult_comm len). apply Qmult_le_compat_r; auto. apply trapezoids_mono; auto. }
    split; [exact Hm|].
    apply Forall_forall. intros v Hv. apply In_nth_error in Hv. destruct Hv as [i Hi].
    apply (Hm 0%nat i); [lia | reflexivity | exact Hi].
Qed.
Print Assumptions C07_volume_is_trapezoidal_integral.

(** C07.  Flow volume never exceeds total volume. *)
Theorem C07_flow_volume_within_total_volume :
  forall (len : Q) (tw fw z : list Q),
    0 <= len -> nondecreasing z -> rowwise Qle fw tw ->
    exists vt vf : list Q,
      css_volume (Fin len) (map Fin tw) (map Fin z) = map Fin vt /\
      css_volume (Fin len) (map Fin fw) (map Fin z) = map Fin vf /\
      forall i a b, nth_error vf i = Some a -> nth_error vt i = Some b -> a <= b.
Proof.
  intros len tw fw z Hlen Hz Hle. exists (qvolume len tw z), (qvolume len fw z).
  split; [apply css_volume_fin|]. split; [apply css_volume_fin|].
  intros i a b Ha Hb. apply qvolume_nth in Ha. apply qvolume_nth in Hb. rewrite Ha, Hb.
  rewrite !(Qmult_comm len). apply Qmult_le_compat_r; auto. apply trapezoids_le; auto.
  apply nondec_sorted; auto.
Qed.
Print Assumptions C07_flow_volume_within_total_volume.

Example C07_case :
  map (fun x => match x with Fin q => Qred q | _ => -1 end)
    (css_volume (Fin 10) (map Fin [2; 4; 4]) (map Fin [0; 1; 3])) = [0; 30; 110].
Proof. vm_compute. reflexivity. Qed.
