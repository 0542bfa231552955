(** Theorems for C08, C09, C10: 2D volumes, lakes and conveyance. *)
From Coq Require Import String List ZArith QArith Qabs Bool Lia Lqa Qfield Permutation.
From Verif Require Import PyBase Num Spec L_Num M_Geometry L_Profile L_Cells T_Profile.
Import ListNotations.
Local Open Scope Q_scope.

(** * C09 *)
Theorem C09_lake_detection_and_activation :
  forall (L : Z) (depth : list (list Q)) (nt : nat),
    (forall row, In row depth -> length row = nt) ->
    (0 <= L < Z.of_nat nt)%Z ->
    exists lakes wet corr,
      identify_lakes L (map (map Fin) depth) = Ok (lakes, wet, corr) /\
      length lakes = length depth /\ length wet = length depth /\ length corr = length depth /\
      forall i row lake w c,
        nth_error depth i = Some row -> nth_error lakes i = Some lake ->
        nth_error wet i = Some w -> nth_error corr i = Some c ->
        (* detection *)
        (lake = true <->
           0 < nth (Z.to_nat L) row 0 /\
           Qabs (nth (Z.to_nat L) row 0 - nth 0 row 0) <= 1 # 100) /\
        (* left out at t: dry, or a lake that has not risen more than 1 mm in
           any step so far *)
        length w = nt /\
        (forall t, (t < nt)%nat ->
           (nth t w false = true <->
              0 < nth t row 0 /\
              ~ (lake = true /\
                 forall s, (s < t)%nat -> nth (S s) row 0 - nth s row 0 <= 1 # 1000))) /\
        (* once active, only drying leaves it out again *)
        (forall t t', (t <= t' < nt)%nat -> nth t w false = true -> 0 < nth t' row 0 ->
           nth t' w false = true) /\
        (* depth correction *)
        c = repeat (if lake then Fin (- nth 0 row 0) else Fin 0) nt.
Proof.
  intros L depth nt Hrow HL.
  destruct (map_res_Ok (is_lake L) (map (map Fin) depth)) as [lakes Hl].
  { intros r Hr. apply in_map_iff in Hr. destruct Hr as (row & <- & Hr).
    unfold is_lake.
    destruct (py_index_Ok (map Fin row) L) as (a & -> & _).
    { rewrite map_length, (Hrow _ Hr). lia. }
    destruct (py_index_Ok (map Fin row) 0) as (b & -> & _).
    { rewrite map_length, (Hrow _ Hr). lia. }
    cbn [bind]. eauto. }
  destruct (map_res_nth _ _ _ Hl) as [Hlen Hnth]. rewrite map_length in Hlen.
  exists lakes, (map2 wet_not_lake lakes (map (map Fin) depth)),
         (map2 lake_depth_correction lakes (map (map Fin) depth)).
  split; [unfold identify_lakes; rewrite Hl; reflexivity|].
  split; [auto|]. rewrite !map2_length, map_length, Hlen.
  split; [lia|]. split; [lia|].
  intros i row lake w c Hi Hlk Hw Hc.
  assert (Hr : length row = nt) by (apply Hrow; eapply nth_error_In; eauto).
  assert (Hi' : nth_error (map (map Fin) depth) i = Some (map Fin row)).
  { rewrite nth_error_map, Hi. auto. }
  destruct (Hnth _ _ Hi') as (y & Hy & Hlake). rewrite Hlk in Hy. inversion Hy; subst y; clear Hy.
  rewrite nth_error_map2, Hlk, Hi' in Hw. rewrite nth_error_map2, Hlk, Hi' in Hc.
  assert (Ew : w = wet_not_lake lake (map Fin row)) by congruence.
  assert (Ec : c = lake_depth_correction lake (map Fin row)) by congruence.
  clear Hw Hc.
  assert (Hw : forall t, (t < nt)%nat ->
           (nth t w false = true <->
              0 < nth t row 0 /\
              ~ (lake = true /\
                 forall s, (s < t)%nat -> nth (S s) row 0 - nth s row 0 <= 1 # 1000))).
  { intros t Ht. subst w. unfold wet_not_lake.
    assert (Hlm : exists b, nth_error (lake_mask_time lake (map Fin row)) t = Some b).
    { destruct (nth_error (lake_mask_time lake (map Fin row)) t) eqn:E; [eauto|].
      apply nth_error_None in E. rewrite lake_mask_time_length, map_length in E. lia. }
    destruct Hlm as [b Hb].
    rewrite (nth_error_nth (map2 _ _ _) t _ (x := nltb (Fin 0) (Fin (nth t row 0)) && negb b)).
    2: { rewrite nth_error_map2, Hb, nth_error_map.
         rewrite (nth_error_nth' row 0) by lia. reflexivity. }
    apply lake_mask_time_spec in Hb. rewrite andb_true_iff, negb_true_iff, <- Hb.
    change (nltb (Fin 0) (Fin (nth t row 0))) with (Qltb 0 (nth t row 0)). rewrite Qltb_true.
    destruct b; intuition congruence. }
  split; [|split; [|split; [exact Hw|split]]].
  - unfold is_lake, py_index in Hlake.
    destruct (L <? 0)%Z eqn:E; [apply Z.ltb_lt in E; lia|]. rewrite E in Hlake.
    change (0 <? 0)%Z with false in Hlake. cbv iota in Hlake. change (Z.to_nat 0) with 0%nat in Hlake.
    rewrite !nth_error_map, (nth_error_nth' row 0), (nth_error_nth' row 0) in Hlake by lia.
    cbn [option_map bind] in Hlake.
    assert (El : Qltb 0 (nth (Z.to_nat L) row 0)
                 && Qle_bool (Qabs (nth (Z.to_nat L) row 0 + - nth 0 row 0)) (1 # 100) = lake)
      by (injection Hlake; intros X; exact X).
    rewrite <- El, andb_true_iff, Qltb_true, Qle_bool_true. reflexivity.
  - subst w. unfold wet_not_lake. rewrite map2_length, lake_mask_time_length, map_length. lia.
  - intros t t' Ht Hon Hpos. apply Hw in Hon; [|lia]. apply Hw; [lia|]. split; auto.
    intros [Hlk' Hall]. apply Hon. split; auto. intros s Hs. apply Hall. lia.
  - subst c. unfold lake_depth_correction.
    assert (G : forall (v : num) (l : list Q), map (fun _ => v) (map Fin l) = repeat v (length l)).
    { intros v l. induction l; simpl; congruence. }
    rewrite G, Hr. destruct row as [|r0 row]; [simpl in Hr; lia|].
    destruct lake; reflexivity.
Qed.
Print Assumptions C09_lake_detection_and_activation.

(** Series with unknown depths: the mask at a time step holds exactly as long as
    every rise so far is known and at most 1 mm.  A single unknown depth makes a
    resting lake count from then on (where its depth is known and positive). *)
Lemma lake_mask_from_known rest : forall m prev t b,
  nth_error (lake_mask_from m prev rest) t = Some b ->
  (b = true <-> m = true /\
     forall s, (s <= t)%nat -> nleb (nsub (nth s rest NaN) (nth s (prev :: rest) NaN)) (Fin (1 # 1000)) = true).
Proof.
  induction rest as [|d rest IH]; intros m prev t b H; cbn [lake_mask_from] in H; [destruct t; discriminate|].
  cbv zeta in H. destruct t as [|t]; cbn [nth_error] in H.
  - injection H as <-. rewrite andb_true_iff. split.
    + intros [A B]. split; [exact B|]. intros s L. assert (s = 0)%nat as -> by lia. exact A.
    + intros [A B]. split; [apply (B 0%nat); lia|exact A].
  - rewrite (IH _ _ _ _ H), andb_true_iff. split.
    + intros [[A B] C]. split; [exact B|]. intros [|s] L; [exact A|]. apply (C s). lia.
    + intros [A B]. split; [split; [apply (B 0%nat); lia|exact A]|]. intros s L. apply (B (S s)). lia.
Qed.
Theorem C09_unknown_depths :
  forall (lake : bool) (row : list num) (t : nat) (w : bool),
    nth_error (wet_not_lake lake row) t = Some w ->
    (w = true <->
       nltb (Fin 0) (nth t row NaN) = true /\
       ~ (lake = true /\
          forall s, (s < t)%nat -> nleb (nsub (nth (S s) row NaN) (nth s row NaN)) (Fin (1 # 1000)) = true)) /\
    (forall s, (s < t)%nat -> nth s row NaN = NaN -> w = nltb (Fin 0) (nth t row NaN)).
Proof.
  intros lake row t w H. unfold wet_not_lake in H. rewrite nth_error_map2 in H.
  destruct (nth_error row t) as [d|] eqn:Ed; [|discriminate].
  destruct (nth_error (lake_mask_time lake row) t) as [b|] eqn:Eb; [|discriminate].
  assert (Ew : w = nltb (Fin 0) d && negb b) by congruence. clear H. rewrite (nth_error_nth row t NaN Ed).
  assert (B : b = true <-> lake = true /\
     forall s, (s < t)%nat -> nleb (nsub (nth (S s) row NaN) (nth s row NaN)) (Fin (1 # 1000)) = true).
  { clear - Eb. destruct row as [|d0 rest]; cbn [lake_mask_time] in Eb; [destruct t; discriminate|].
    destruct t as [|t]; cbn [nth_error] in Eb.
    - injection Eb as <-. split; [intro; split; [assumption|intros; lia]|tauto].
    - rewrite (lake_mask_from_known _ _ _ _ _ Eb). cbn [nth].
      split; intros [X Y]; split; auto; intros s L; specialize (Y s ltac:(lia)); exact Y. }
  split.
  - rewrite <- B, Ew, andb_true_iff, negb_true_iff. destruct b; intuition congruence.
  - intros s L N. assert (b = false) as ->.
    { destruct b; [|reflexivity]. exfalso. destruct (proj1 B eq_refl) as [_ K]. specialize (K s L). rewrite N in K.
      destruct (nth (S s) row NaN); discriminate. }
    rewrite Ew. apply andb_true_r.
Qed.
Print Assumptions C09_unknown_depths.

Example C09_case :
  identify_lakes 2 (map (map Fin) [[2; 2; 2; 3; 3]; [0; 1; 2; 0; 3]])
  = Ok ([true; false],
        [[false; false; false; true; true]; [false; true; true; false; true]],
        [[Fin (-2); Fin (-2); Fin (-2); Fin (-2); Fin (-2)]; [Fin 0; Fin 0; Fin 0; Fin 0; Fin 0]]).
Proof. vm_compute. reflexivity. Qed.

(** A lake that has been activated is left out again when it falls dry, although
    its depth has risen by more than 1 mm. *)
Theorem C09_dried_lake_refuted :
  exists wet corr,
    identify_lakes 1 (map (map Fin) [[2; 2; 3; 0]]) = Ok ([true], [wet], corr) /\
    nth_error wet 2 = Some true /\ nth_error wet 3 = Some false.
Proof. do 2 eexists. split; [vm_compute; reflexivity|]. split; reflexivity. Qed.
Print Assumptions C09_dried_lake_refuted.

(** * C10 *)

(** A strictly positive (possibly infinite) value. *)
Definition positive (x : num) : Prop :=
  match x with Fin q => 0 < q | PInf => True | _ => False end.

Lemma positive_nltb x : nltb (Fin 0) x = true <-> positive x.
Proof. destruct x; simpl; rewrite ?Qltb_true; intuition discriminate. Qed.

(** The decision rule of every method except 0: wet and faster than the
    absolute threshold or than the relative threshold times the mean [top] of
    the (at most) three highest velocities of the time step. *)
Theorem C10_default_method_decision_rule :
  forall smooth mean (abs_thr rel_thr : Q) (nt t : nat)
         (depth : list (list num)) (vel : list (list Q)),
    vel <> [] -> (forall r, In r vel -> length r = nt) -> (t < nt)%nat ->
    exists hi lo,
      Permutation (map (fun r => nth t r 0) vel) (lo ++ hi) /\
      length hi = Nat.min 3 (length vel) /\
      (forall a b, In a lo -> In b hi -> a <= b) /\
      let top := Qsum hi / inject_Z (Z.of_nat (length hi)) in
      forall method i drow vrow, method <> 0%Z ->
        nth_error depth i = Some drow -> nth_error vel i = Some vrow ->
        exists row,
          nth_error (distinguish_conveyance smooth mean method (Fin abs_thr) (Fin rel_thr) nt
                       depth (map (map Fin) vel)) i = Some row /\
          length row = nt /\
          (nth t row false = true <->
             positive (nth t drow NaN) /\
             (top * rel_thr < nth t vrow 0 \/ abs_thr < nth t vrow 0)).
Proof.
  intros smooth mean abs_thr rel_thr nt t depth vel Hne Hrow Ht.
  destruct (top3_mean_fin (map (fun r => nth t r 0) vel)) as (hi & lo & m & Hm & Hp & Hl & Ho & He).
  { destruct vel; simpl; congruence. }
  rewrite map_length in Hl.
  exists hi, lo. split; auto. split; auto. split; auto.
  intros top method i drow vrow Hmeth Hd Hv.
  assert (Hmm : distinguish_conveyance smooth mean method (Fin abs_thr) (Fin rel_thr) nt depth (map (map Fin) vel)
              = max_velocity_method (Fin abs_thr) (Fin rel_thr) nt depth (map (map Fin) vel)).
  { unfold distinguish_conveyance. destruct (method =? 0)%Z eqn:E; [apply Z.eqb_eq in E; lia|].
    destruct (method =? 1)%Z; auto. }
  rewrite Hmm.
  destruct (max_method_entry (Fin abs_thr) (Fin rel_thr) nt depth (map (map Fin) vel) i t drow (map Fin vrow))
    as (row & Hr & Hlr & Hc); auto.
  { rewrite nth_error_map, Hv. auto. }
  exists row. split; auto. split; auto. rewrite Hc.
  rewrite column_fin by (intros r Hr'; rewrite Hrow; auto). rewrite Hm.
  rewrite nth_map_Fin by (rewrite (Hrow vrow); auto; eapply nth_error_In; eauto).
  unfold conveys. rewrite andb_true_iff, orb_true_iff, positive_nltb.
  simpl nltb. rewrite !Qltb_true. unfold top. rewrite He. reflexivity.
Qed.
Print Assumptions C10_default_method_decision_rule.

(** Unknown methods behave as method 1. *)
Theorem C10_unknown_method_is_default :
  forall smooth mean m m' abs_thr rel_thr nt depth vel,
    m <> 0%Z -> m' <> 0%Z ->
    distinguish_conveyance smooth mean m abs_thr rel_thr nt depth vel =
    distinguish_conveyance smooth mean m' abs_thr rel_thr nt depth vel.
Proof.
  intros. unfold distinguish_conveyance.
  destruct (m =? 0)%Z eqn:E; [apply Z.eqb_eq in E; lia|].
  destruct (m' =? 0)%Z eqn:E'; [apply Z.eqb_eq in E'; lia|].
  destruct (m =? 1)%Z, (m' =? 1)%Z; auto.
Qed.
Print Assumptions C10_unknown_method_is_default.

(** No dry or missing cell conveys, for both methods and any data. *)
Theorem C10_dry_cells_never_convey :
  forall smooth mean method abs_thr rel_thr nt depth vel i row drow t,
    nth_error (distinguish_conveyance smooth mean method abs_thr rel_thr nt depth vel) i = Some row ->
    nth_error depth i = Some drow -> nth t row false = true -> positive (nth t drow NaN).
Proof.
  intros smooth mean method a r nt depth vel i row drow t Hrow Hd Ht.
  assert (Hin : forall f, row = map f (seq 0 nt) -> exists k, nth k (seq 0 nt) 0%nat = t /\ f t = true).
  { intros f ->. destruct (Nat.lt_ge_cases t nt) as [Hlt|Hge].
    - exists t. rewrite seq_nth by auto. split; auto.
      rewrite nth_indep with (d' := f 0%nat) in Ht by (rewrite map_length, seq_length; auto).
      rewrite (map_nth f), seq_nth in Ht by auto. auto.
    - rewrite nth_overflow in Ht by (rewrite map_length, seq_length; auto). discriminate. }
  unfold distinguish_conveyance in Hrow.
  destruct (method =? 0)%Z; [|destruct (method =? 1)%Z];
    unfold mean_velocity_method, max_velocity_method in Hrow; rewrite nth_error_map2, Hd in Hrow;
    match type of Hrow with context [nth_error ?v i] => destruct (nth_error v i) as [vrow|]; [|discriminate] end;
    (match type of Hrow with Some (map ?f _) = Some row =>
       destruct (Hin f) as (k & _ & Hk); [congruence|] end);
    apply positive_nltb; unfold conveys in Hk; apply andb_true_iff in Hk; destruct Hk as [Hk _]; auto;
    apply andb_true_iff in Hk; tauto.
Qed.
Print Assumptions C10_dry_cells_never_convey.

(** Raising thresholds never adds conveying cells. *)
Theorem C10_higher_thresholds_convey_less :
  forall smooth mean method (a a' r r' : Q) nt depth (vel : list (list Q)) i t row row',
    method <> 0%Z ->
    (forall v, In v vel -> length v = nt /\ Forall (fun x => 0 <= x) v) ->
    a <= a' -> r <= r' -> (t < nt)%nat ->
    nth_error (distinguish_conveyance smooth mean method (Fin a) (Fin r) nt depth (map (map Fin) vel)) i = Some row ->
    nth_error (distinguish_conveyance smooth mean method (Fin a') (Fin r') nt depth (map (map Fin) vel)) i = Some row' ->
    nth t row' false = true -> nth t row false = true.
Proof.
  intros smooth mean method a a' r r' nt depth vel i t row row' Hm Hv Ha Hr Ht H H' Hon.
  assert (Hdv : exists drow vrow, nth_error depth i = Some drow /\ nth_error vel i = Some vrow).
  { unfold distinguish_conveyance in H. destruct (method =? 0)%Z eqn:E; [apply Z.eqb_eq in E; lia|].
    destruct (method =? 1)%Z; unfold max_velocity_method in H; rewrite nth_error_map2, nth_error_map in H;
    (destruct (nth_error depth i) as [drow|]; [|discriminate]);
    (destruct (nth_error vel i) as [vrow|]; [|discriminate]); eauto. }
  destruct Hdv as (drow & vrow & Hd & Hvr).
  assert (Hne : vel <> []) by (intros ->; destruct i; discriminate).
  assert (Hlen : forall v, In v vel -> length v = nt) by (intros; apply Hv; auto).
  destruct (top3_mean_fin (map (fun r => nth t r 0) vel)) as (hi & lo & m & Htop & Hp & Hl & Ho & He).
  { destruct vel; simpl; congruence. }
  assert (Hm0 : 0 <= m).
  { rewrite He. apply Qmean_ge_min.
    - intros ->. rewrite map_length in Hl. destruct vel; [congruence|]. simpl in Hl. lia.
    - intros x Hx. assert (Hx' : In x (map (fun r => nth t r 0) vel)).
      { eapply Permutation_in; [apply Permutation_sym; eauto|]. apply in_or_app; auto. }
      apply in_map_iff in Hx'. destruct Hx' as (v & <- & Hin). destruct (Hv _ Hin) as [Hvl Hpos].
      apply (proj1 (Forall_forall _ _) Hpos). apply nth_In. lia. }
  unfold distinguish_conveyance in H, H'. destruct (method =? 0)%Z eqn:E; [apply Z.eqb_eq in E; lia|].
  assert (Hvr' : nth_error (map (map Fin) vel) i = Some (map Fin vrow)) by (rewrite nth_error_map, Hvr; auto).
  assert (HH : nth_error (max_velocity_method (Fin a) (Fin r) nt depth (map (map Fin) vel)) i = Some row)
    by (destruct (method =? 1)%Z; auto).
  assert (HH' : nth_error (max_velocity_method (Fin a') (Fin r') nt depth (map (map Fin) vel)) i = Some row')
    by (destruct (method =? 1)%Z; auto).
  destruct (max_method_entry (Fin a) (Fin r) nt depth _ i t drow _ Hd Hvr' Ht) as (w & Hw & _ & Hc).
  destruct (max_method_entry (Fin a') (Fin r') nt depth _ i t drow _ Hd Hvr' Ht) as (w' & Hw' & _ & Hc').
  assert (w = row) by congruence. assert (w' = row') by congruence. subst.
  rewrite Hc. rewrite Hc' in Hon. clear Hc Hc'.
  rewrite column_fin in * by (intros x Hx; rewrite Hlen; auto). rewrite Htop in *.
  rewrite nth_map_Fin in * by (rewrite (Hlen vrow); auto; eapply nth_error_In; eauto).
  unfold conveys in *. rewrite andb_true_iff, orb_true_iff in *.
  destruct Hon as [Hwet Hon]. split; auto. simpl in *. rewrite !Qltb_true in *.
  assert (m * r <= m * r').
  { rewrite !(Qmult_comm m). apply Qmult_le_compat_r; auto. }
  destruct Hon; [left|right]; lra.
Qed.
Print Assumptions C10_higher_thresholds_convey_less.

(** A cell that is wet, moving and not slower than any other cell conveys when
    the relative threshold is below one. *)
Theorem C10_fastest_wet_cell_conveys :
  forall smooth mean method (a r : Q) nt depth (vel : list (list Q)) i t drow vrow,
    method <> 0%Z -> r < 1 -> (t < nt)%nat ->
    (forall v, In v vel -> length v = nt /\ Forall (fun x => 0 <= x) v) ->
    nth_error depth i = Some drow -> nth_error vel i = Some vrow ->
    positive (nth t drow NaN) -> 0 < nth t vrow 0 ->
    (forall v, In v vel -> nth t v 0 <= nth t vrow 0) ->
    exists row,
      nth_error (distinguish_conveyance smooth mean method (Fin a) (Fin r) nt depth (map (map Fin) vel)) i
        = Some row /\ nth t row false = true.
Proof.
  intros smooth mean method a r nt depth vel i t drow vrow Hm Hr1 Ht Hv Hd Hvr Hwet Hmov Hmax.
  assert (Hne : vel <> []) by (intros ->; destruct i; discriminate).
  destruct (C10_default_method_decision_rule smooth mean a r nt t depth vel Hne) as (hi & lo & Hp & Hl & Ho & Hrule);
    [intros; apply Hv; auto | auto |].
  destruct (Hrule method i drow vrow Hm Hd Hvr) as (row & Hrow & _ & Hiff).
  exists row. split; auto. apply Hiff. split; auto. left.
  set (top := Qsum hi / inject_Z (Z.of_nat (length hi))).
  assert (Hhi : hi <> []).
  { intros ->. destruct vel; [congruence|]. simpl in Hl. lia. }
  assert (Hin : forall x, In x hi -> exists v, In v vel /\ x = nth t v 0).
  { intros x Hx. assert (Hx' : In x (map (fun r => nth t r 0) vel)).
    { eapply Permutation_in; [apply Permutation_sym; eauto|]. apply in_or_app; auto. }
    apply in_map_iff in Hx'. destruct Hx' as (v & <- & Hv'). eauto. }
  assert (Hle : top <= nth t vrow 0).
  { apply Qmean_le_max; auto. intros x Hx. destruct (Hin _ Hx) as (v & Hv' & ->). auto. }
  assert (H0 : 0 <= top).
  { apply Qmean_ge_min; auto. intros x Hx. destruct (Hin _ Hx) as (v & Hv' & ->).
    destruct (Hv _ Hv') as [Hvl Hpos]. apply (proj1 (Forall_forall _ _) Hpos). apply nth_In. lia. }
  destruct (Qlt_le_dec 0 top) as [Hpos|Hz].
  - assert (top * r < top * 1).
    { rewrite !(Qmult_comm top). apply Qmult_lt_compat_r; auto. }
    lra.
  - assert (Ht0 : top == 0) by lra. rewrite Ht0. lra.
Qed.
Print Assumptions C10_fastest_wet_cell_conveys.

Example C10_case :
  distinguish_conveyance (fun v => v) (fun _ _ => NaN) 1 (Fin (1 # 10)) (Fin (15 # 100)) 2
    (map (map Fin) [[1; 1]; [2; 0]; [1; 1]; [1; 1]])
    (map (map Fin) [[1; 1 # 50]; [2; 1]; [1 # 20; 1 # 50]; [3; 1 # 100]])
  = [[true; false]; [true; false]; [false; false]; [true; false]].
Proof. vm_compute. reflexivity. Qed.

(** Missing velocities take part in the choice of the three highest: with three
    of them no cell can pass the relative test, however fast it is. *)
Theorem C10_missing_velocities_refuted :
  exists (depth vel : list (list num)) (a r : Q),
    r < 1 /\
    nth_error depth 0 = Some [Fin 1] /\ nth_error vel 0 = Some [Fin (1 # 20)] /\
    (forall v, In v vel -> v = [NaN] \/ exists q, v = [Fin q] /\ q <= 1 # 20) /\
    nth_error (distinguish_conveyance (fun v => v) (fun _ _ => NaN) 1 (Fin a) (Fin r) 1 depth vel) 0
      = Some [false].
Proof.
  exists [[Fin 1]; [NaN]; [NaN]; [NaN]], [[Fin (1 # 20)]; [NaN]; [NaN]; [NaN]], (1 # 10), (15 # 100).
  split; [reflexivity|]. split; [reflexivity|]. split; [reflexivity|]. split; [|reflexivity].
  intros v [<-|[<-|[<-|[<-|[]]]]]; auto. right. eexists. split; [reflexivity|]. lra.
Qed.
Print Assumptions C10_missing_velocities_refuted.

(** * C08 *)

(** Depth of a cell that counts for volume at [t]: a lake counts only above its
    initial depth; a pool deeper than the centre [c0] at the start counts only
    above that depth difference. *)
Definition effective_depth (lake : bool) (c0 : Q) (row : list Q) (t : nat) : option Q :=
  let above s := nth s row 0 - (if lake then nth 0 row 0 else 0) in
  if Qltb (above t) 0 then None
  else Some (above t - (if Qltb c0 (above 0%nat) then above 0%nat - c0 else 0)).

Record vcell := mkV { v_cell : cell; v_area : Q; v_row : list Q; v_lake : bool; v_mask : list bool }.

Definition contribution (c0 : Q) (t : nat) (v : vcell) : Q :=
  if nth t (v_mask v) false then
    match effective_depth (v_lake v) c0 (v_row v) t with Some d => v_area v * d | None => 0 end
  else 0.

(** The volume that build_geometry computes for the cells [vs]. *)
Definition model_volume (c0 : Q) (vs : list vcell) (t : nat) : num :=
  let depth := map (fun v => map Fin (v_row v)) vs in
  let corr := map2 lake_depth_correction (map v_lake vs) depth in
  masked_volume (map v_cell vs) (map (pool_correction (Fin c0)) (map2 corrected_depth depth corr))
    (map v_mask vs) t.

Lemma model_depth_entry lake c0 row t :
  Forall (fun d => 0 <= d) row -> (t < length row)%nat ->
  match effective_depth lake c0 row t with
  | Some d => exists d', nth t (pool_correction (Fin c0)
           (corrected_depth (map Fin row) (lake_depth_correction lake (map Fin row)))) NaN = Fin d' /\ d' == d
  | None => nth t (pool_correction (Fin c0)
           (corrected_depth (map Fin row) (lake_depth_correction lake (map Fin row)))) NaN = NaN
  end.
Proof.
  intros Hpos Ht.
  destruct row as [|r0 row]; [simpl in Ht; lia|].
  assert (Hr0 : 0 <= r0) by (inversion Hpos; auto).
  set (k := if lake then - r0 else 0).
  set (e := fun d : Q => if Qle_bool 0 (d + k) then Fin (d + k) else NaN).
  assert (Hcd : corrected_depth (map Fin (r0 :: row)) (lake_depth_correction lake (map Fin (r0 :: row)))
              = map e (r0 :: row)).
  { unfold lake_depth_correction. change (hd NaN (map Fin (r0 :: row))) with (Fin r0).
    replace (if lake then nneg (Fin r0) else Fin 0) with (Fin k) by (unfold k; destruct lake; auto).
    unfold corrected_depth. generalize (r0 :: row) as l. induction l as [|d l IH]; simpl; auto.
    f_equal. exact IH. }
  rewrite Hcd. clear Hcd.
  assert (He0 : exists e0, e r0 = Fin e0 /\ e0 == r0 - (if lake then r0 else 0)).
  { unfold e, k. destruct lake.
    - destruct (Qle_bool 0 (r0 + - r0)) eqn:E; qb; [|lra]. eexists; split; [reflexivity|]. ring.
    - destruct (Qle_bool 0 (r0 + 0)) eqn:E; qb; [|lra]. eexists; split; [reflexivity|]. ring. }
  destruct He0 as (e0 & He0 & Hq0).
  unfold pool_correction. change (hd NaN (map e (r0 :: row))) with (e r0). rewrite He0.
  assert (Hent : nth t (map e (r0 :: row)) NaN = e (nth t (r0 :: row) 0)).
  { rewrite nth_indep with (d' := e 0) by (rewrite map_length; auto). apply map_nth. }
  unfold effective_depth. cbn [nth].
  set (d := nth t (r0 :: row) 0) in *.
  change (match t with O => r0 | S m => nth m row 0 end) with d.
  assert (Hb0 : nltb (Fin c0) (Fin e0) = Qltb c0 (r0 - (if lake then r0 else 0))).
  { simpl. destruct (Qltb c0 e0) eqn:E1, (Qltb c0 (r0 - (if lake then r0 else 0))) eqn:E2; auto; qb; lra. }
  rewrite Hb0.
  assert (Hkk : k == - (if lake then r0 else 0)) by (unfold k; destruct lake; lra).
  destruct (Qltb (d - (if lake then r0 else 0)) 0) eqn:Eneg; qb.
  - assert (Hed : e d = NaN).
    { unfold e. destruct (Qle_bool 0 (d + k)) eqn:E; auto. qb. lra. }
    destruct (Qltb c0 (r0 - (if lake then r0 else 0))) eqn:E.
    + rewrite nth_indep with (d' := nsub NaN (nsub (Fin e0) (Fin c0)))
        by (rewrite !map_length; auto).
      rewrite (map_nth (fun d => nsub d (nsub (Fin e0) (Fin c0)))). rewrite Hent, Hed. reflexivity.
    + rewrite Hent, Hed. reflexivity.
  - assert (Hed : e d = Fin (d + k)).
    { unfold e. destruct (Qle_bool 0 (d + k)) eqn:E; auto. qb. lra. }
    destruct (Qltb c0 (r0 - (if lake then r0 else 0))) eqn:E.
    + rewrite nth_indep with (d' := nsub NaN (nsub (Fin e0) (Fin c0)))
        by (rewrite !map_length; auto).
      rewrite (map_nth (fun d => nsub d (nsub (Fin e0) (Fin c0)))). rewrite Hent, Hed. simpl.
      eexists. split; [reflexivity|]. rewrite Hkk, Hq0. ring.
    + rewrite Hent, Hed.
      eexists. split; [reflexivity|]. rewrite Hkk. ring.
Qed.

Lemma fold_nadd_optional (xs : list num) (qs : list Q) :
  Forall2 (fun x q => (x = NaN /\ q == 0) \/ exists x', x = Fin x' /\ x' == q) xs qs ->
  exists s, nansum xs = Fin s /\ s == Qsum qs.
Proof.
  unfold nansum. intros H.
  assert (G : forall a, exists s,
    fold_left nadd (filter (fun x => negb (isnan x)) xs) (Fin a) = Fin s /\ s == a + Qsum qs).
  { induction H as [|x q xs qs Hx _ IH]; intros a; simpl.
    - exists a. split; auto. lra.
    - destruct Hx as [[-> Hq] | (x' & -> & Hx')]; simpl.
      + destruct (IH a) as (s & Hs & He). exists s. split; auto. lra.
      + destruct (IH (a + x')) as (s & Hs & He). exists s. split; auto. lra. }
  destruct (G 0) as (s & Hs & He). exists s. split; auto. lra.
Qed.

(** The 2D volume is the sum over the masked cells of area times effective
    depth. *)
Theorem C08_volume_is_sum_over_cells :
  forall (c0 : Q) (vs : list vcell) (t : nat),
    Forall (fun v => c_area (v_cell v) = Fin (v_area v) /\ (t < length (v_row v))%nat /\
                     Forall (fun d => 0 <= d) (v_row v)) vs ->
    exists s, model_volume c0 vs t = Fin s /\ s == Qsum (map (contribution c0 t) vs).
Proof.
  intros c0 vs t H. unfold model_volume, masked_volume. apply fold_nadd_optional.
  induction H as [|v vs (Ha & Ht & Hpos) _ IH]; simpl; [constructor|]. constructor; auto.
  unfold contribution. destruct (nth t (v_mask v) false); [|left; split; [auto|reflexivity]].
  pose proof (model_depth_entry (v_lake v) c0 (v_row v) t Hpos Ht) as Hd.
  destruct (effective_depth (v_lake v) c0 (v_row v) t) as [d|].
  - destruct Hd as (d' & Hd & Hq). rewrite Hd, Ha. right. eexists. split; [reflexivity|]. rewrite Hq. reflexivity.
  - rewrite Hd, Ha. left. split; [reflexivity | reflexivity].
Qed.
Print Assumptions C08_volume_is_sum_over_cells.

(** Missing for the full property: non-negativity for pools that lose more than
    the centre's initial depth (see the refutation below).  When no counted
    cell does, volumes are non-negative and grow with the set of cells. *)
Theorem C08_volume_nonnegative_and_monotone_partial :
  forall (c0 : Q) (vs : list vcell) (more : list (list bool)) (t : nat),
    0 <= c0 -> length more = length vs ->
    Forall (fun v => c_area (v_cell v) = Fin (v_area v) /\ 0 <= v_area v /\ (t < length (v_row v))%nat /\
                     Forall (fun d => 0 <= d) (v_row v) /\
                     nth 0 (v_row v) 0 <= nth t (v_row v) 0 + c0) vs ->
    Forall2 (fun v (m : list bool) => nth t (v_mask v) false = true -> nth t m false = true) vs more ->
    exists s s',
      model_volume c0 vs t = Fin s /\
      model_volume c0 (map2 (fun v m => mkV (v_cell v) (v_area v) (v_row v) (v_lake v) m) vs more) t = Fin s' /\
      0 <= s /\ s <= s'.
Proof.
  intros c0 vs more t Hc0 Hlen H Hm.
  set (vs' := map2 (fun v m => mkV (v_cell v) (v_area v) (v_row v) (v_lake v) m) vs more).
  assert (Hcontr : forall v, 0 <= v_area v -> Forall (fun d => 0 <= d) (v_row v) ->
     nth 0 (v_row v) 0 <= nth t (v_row v) 0 + c0 -> 0 <= contribution c0 t v).
  { intros v Ha Hpos Hd. unfold contribution. destruct (nth t (v_mask v) false); [|lra].
    unfold effective_depth. set (off := if v_lake v then nth 0 (v_row v) 0 else 0).
    destruct (Qltb (nth t (v_row v) 0 - off) 0) eqn:E; [lra|]. qb.
    apply Qmult_le_0_compat; auto. destruct (Qltb c0 (nth 0 (v_row v) 0 - off)) eqn:E2; qb; lra. }
  destruct (C08_volume_is_sum_over_cells c0 vs t) as (s & Hs & He).
  { eapply Forall_impl; [|exact H]. simpl. tauto. }
  destruct (C08_volume_is_sum_over_cells c0 vs' t) as (s' & Hs' & He').
  { unfold vs'. clear -H Hm. induction Hm as [|v m vs more Hvm _ IH]; simpl; [constructor|].
    inversion H; subst. constructor; [simpl; tauto | auto]. }
  exists s, s'. split; auto. split; auto. rewrite He, He'. split.
  - apply Qsum_nonneg. apply Forall_map. eapply Forall_impl; [|exact H]. simpl. intros v Hv. apply Hcontr; tauto.
  - unfold vs'. clear -H Hm Hcontr. induction Hm as [|v m vs more Hvm _ IH]; simpl; [lra|].
    inversion H as [|? ? Hv Hrest]; subst. specialize (IH Hrest).
    assert (contribution c0 t v <= contribution c0 t (mkV (v_cell v) (v_area v) (v_row v) (v_lake v) m)).
    { assert (Hc := Hcontr (mkV (v_cell v) (v_area v) (v_row v) (v_lake v) m)). simpl in Hc.
      unfold contribution at 1. destruct (nth t (v_mask v) false) eqn:Em.
      - unfold contribution. simpl. rewrite Hvm by auto. lra.
      - apply Hc; tauto. }
    lra.
Qed.
Print Assumptions C08_volume_nonnegative_and_monotone_partial.

(** A pool that is deeper than the centre at the start and then dries gives a
    negative 2D total volume, through the whole of build_geometry. *)
Definition C08_pool : list cell :=
  [ mkCell (Fin 10) (Fin 0) (map Fin [1; 2]) (map Fin [1; 2]) (map Fin [1; 1]) (LInt 1);
    mkCell (Fin 10) (Fin (-4)) (map Fin [5; 1]) (map Fin [1; -3]) (map Fin [1; 1]) (LInt 1) ].
Theorem C08_volume_nonnegative_refuted :
  exists p len cells g v,
    Forall (fun c => exists a, c_area c = Fin a /\ 0 < a) cells /\
    Forall (fun c => Forall (fun d => nleb (Fin 0) d = true) (c_depth c)) cells /\
    build_geometry (fun x => x) (fun _ _ => NaN) p len 0 cells = Ok g /\
    In (Fin v) (k_tvol (g_cols g)) /\ v < 0.
Proof.
  exists (mkParams 0 1 1 (Fin (1 # 10)) (Fin (15 # 100)) true), (Fin 10), C08_pool.
  eexists. exists (-10).
  split; [repeat constructor; eexists; (split; [reflexivity|]); reflexivity|].
  split; [repeat constructor|].
  split; [reflexivity|]. split; [|reflexivity].
  vm_compute. tauto.
Qed.
Print Assumptions C08_volume_nonnegative_refuted.

Example C08_case :
  let vs := [ mkV (hd (mkCell NaN NaN [] [] [] (LInt 0)) C08_pool) 10 [1; 2] false [true; true];
              mkV (hd (mkCell NaN NaN [] [] [] (LInt 0)) C08_pool) 10 [3; 4] true [false; true] ] in
  map (contribution 1 1) vs = [20; 10] /\
  exists s, model_volume 1 vs 1 = Fin s /\ s == 30.
Proof. split; [vm_compute; reflexivity|]. eexists. split; [vm_compute; reflexivity|]. reflexivity. Qed.
