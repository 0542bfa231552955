(** Theorems for C16, C17, C18: section widths and floodplain base level. *)
From Coq Require Import String List ZArith QArith Qround Qabs Bool Lia Lqa.
From Verif Require Import PyBase Num Spec L_Num L_List M_Sections.
Import ListNotations.
Local Open Scope Q_scope.

Definition total (w : widths) : Q := w_main w + w_fp1 w + w_fp2 w.

(** The two checks in the order of _compute_section_widths. *)
Definition section_checks (fw cfw : list Q) (w : widths) : res widths :=
  w1 <- check_flow_width fw w ;; check_minimum_width cfw w1.

Lemma py_index_last {A} (l : list A) x : py_index (l ++ [x]) (-1) = Ok x.
Proof.
  unfold py_index. cbv zeta. change (-1 <? 0)%Z with true. cbv iota. rewrite app_length. simpl length.
  replace (-1 + Z.of_nat (length l + 1))%Z with (Z.of_nat (length l)) by lia.
  destruct (Z.ltb_spec (Z.of_nat (length l)) 0); [lia|].
  rewrite Nat2Z.id, nth_error_app2, Nat.sub_diag by lia. reflexivity.
Qed.

(** What the checks do, for any widths. *)
Lemma section_checks_spec fw last_fw first_fw cfw w :
  exists w', section_checks (fw ++ [last_fw]) (first_fw :: cfw) w = Ok w' /\
  let m1 := w_main w + (if Qltb (total w) last_fw then last_fw - total w else 0) in
  (first_fw + (1 # 10) <= m1 -> w_main w' == m1 /\ w_fp1 w' == w_fp1 w) /\
  (m1 < first_fw + (1 # 10) ->
     first_fw + (1 # 10) <= w_main w' < first_fw + (11 # 100) /\
     w_main w' + w_fp1 w' == m1 + w_fp1 w) /\
  w_fp2 w' == w_fp2 w.
Proof.
  unfold section_checks, check_flow_width. rewrite py_index_last. cbn [bind].
  set (m1 := w_main w + (if Qltb (total w) last_fw then last_fw - total w else 0)).
  set (w1 := if Qltb 0 (last_fw - (0 + w_main w + w_fp1 w + w_fp2 w)) then
       {| w_main := w_main w + (last_fw - (0 + w_main w + w_fp1 w + w_fp2 w));
          w_fp1 := w_fp1 w; w_fp2 := w_fp2 w |} else w).
  assert (Hw1 : w_main w1 == m1 /\ w_fp1 w1 == w_fp1 w /\ w_fp2 w1 == w_fp2 w).
  { subst w1 m1. unfold total.
    destruct (Qltb 0 _) eqn:E1; destruct (Qltb _ last_fw) eqn:E2; qb; cbn; repeat split; lra. }
  replace (if Qltb 0 (last_fw - (0 + w_main w + w_fp1 w + w_fp2 w)) then _ else _) with (Ok w1)
    by (subst w1; destruct (Qltb 0 _); reflexivity).
  clearbody w1. cbn [bind]. unfold check_minimum_width. cbn [bind].
  change (py_index (first_fw :: cfw) 0) with (@Ok Q first_fw). cbn [bind].
  set (x := (w_main w1 - first_fw) * 100).
  assert (F1 := Qfloor_le x). assert (F2 := Qlt_floor x).
  rewrite inject_Z_plus in F2. change (inject_Z 1) with 1 in F2.
  set (f := inject_Z (Qfloor x)) in *.
  assert (Hdiv : f / 100 == f * (1 # 100)) by (unfold Qdiv; reflexivity).
  destruct Hw1 as (A1 & A2 & A3).
  destruct (Qltb (f / 100 - (1 # 10)) 0) eqn:E; qb.
  - eexists. split; [reflexivity|]. cbn [w_main w_fp1 w_fp2].
    assert (Hsh : w_main w1 < first_fw + (1 # 10)).
    { destruct (Qlt_le_dec (w_main w1) (first_fw + (1 # 10))) as [|Hge]; auto. exfalso.
      assert (H10 : 10 <= x) by (subst x; lra).
      assert (Hf : (10 <= Qfloor x)%Z).
      { rewrite <- (Qfloor_Z 10). apply Qfloor_resp_le. exact H10. }
      assert (10 <= f) by (subst f; rewrite Zle_Qle in Hf; exact Hf). lra. }
    subst x. split; [intros; lra|]. split; [intros; split; [split|]; lra|]. lra.
  - eexists. split; [reflexivity|]. subst x. split; [intros; split; lra|]. split; [intros; exfalso; lra|]. lra.
Qed.

(** C16.  For every assignment of widths and every flow width column. *)
Theorem C16_section_widths_add_up :
  forall fw last_fw first_fw cfw w,
    exists w', section_checks (fw ++ [last_fw]) (first_fw :: cfw) w = Ok w' /\
      (* the sum is the old sum or the largest flow width, whichever is larger *)
      (total w' == total w \/ total w' == last_fw) /\
      last_fw <= total w' /\ total w <= total w' /\
      (* the main channel is wider than the narrowest flow width *)
      first_fw + (1 # 10) <= w_main w' /\ w_main w <= w_main w' /\
      (* floodplain 1 only gives, at most what the main channel lacked plus 1 cm *)
      w_fp1 w' <= w_fp1 w /\
      (0 <= w_fp1 w -> first_fw + (11 # 100) <= w_main w + w_fp1 w -> 0 <= w_fp1 w') /\
      w_fp2 w' == w_fp2 w /\
      (* nothing happens if all is well *)
      (last_fw <= total w -> first_fw + (1 # 10) <= w_main w ->
         w_main w' == w_main w /\ w_fp1 w' == w_fp1 w).
Proof.
  intros. destruct (section_checks_spec fw last_fw first_fw cfw w) as (w' & H & A & B & C).
  exists w'. split; auto. unfold total in *.
  destruct (Qltb _ last_fw) eqn:E; qb;
  (destruct (Qlt_le_dec (w_main w + (last_fw - (w_main w + w_fp1 w + w_fp2 w))) (first_fw + (1 # 10)));
   destruct (Qlt_le_dec (w_main w + 0) (first_fw + (1 # 10)))).
  all: repeat match goal with
       | H : ?P -> _, H' : ?P |- _ => specialize (H H') 
       end.
  all: repeat split; intros; try lra.
  all: try (left; lra); try (right; lra).
Qed.
Print Assumptions C16_section_widths_add_up.

Example C16_case :
  exists w', section_checks [2; 4] [2; 4] {| w_main := 1; w_fp1 := 1; w_fp2 := 1 |} = Ok w' /\
    w_main w' == 21 # 10 /\ w_fp1 w' == 9 # 10 /\ total w' == 4.
Proof. eexists. split; [vm_compute; reflexivity|]. repeat split; reflexivity. Qed.

(** C16, refuted: a width can become negative.  One cell of the main channel
    as wide as the flow: floodplain 1 gets -0.1. *)
Theorem C16_no_negative_width_refuted :
  exists len area section fw w,
    0 < len /\ Forall (fun a => 0 < a) area /\ strictly_increasing fw /\ Forall (fun a => 0 < a) fw /\
    compute_section_widths len area section fw fw = Ok w /\ w_fp1 w < 0.
Proof.
  exists 1, [1], [LInt 1], [1; 1001 # 1000]. eexists.
  split; [reflexivity|]. split; [repeat constructor|].
  split. { intros [|[|i]] [|[|j]] a b Hij Ha Hb; simpl in *; try lia; inversion Ha; inversion Hb; subst; try lra;
           try (destruct j; discriminate). }
  split; [repeat constructor|]. split; [vm_compute; reflexivity|]. reflexivity.
Qed.
Print Assumptions C16_no_negative_width_refuted.

(** ** C17 *)

Definition area_of (k : Z) (area : list Q) (section : list label) : Q :=
  Qsum (map fst (filter (fun p => label_is k (snd p)) (combine area section))).

Lemma sumQ_Qsum l : sumQ l == Qsum l.
Proof.
  unfold sumQ, Qsum. rewrite <- fold_left_rev_right.
  assert (G : forall l acc, fold_left Qplus l acc == acc + fold_right Qplus 0 l).
  { clear. induction l; intros acc; simpl; [lra|]. rewrite IHl. lra. }
  rewrite fold_left_rev_right. rewrite G. lra.
Qed.

Lemma section_area_spec k area section : length section = length area ->
  exists a, section_area k area section = Ok a /\ a == area_of k area section.
Proof.
  intros L. unfold section_area, mask_index. rewrite map_length, L, Nat.eqb_refl. cbn [res_map].
  eexists. split; [reflexivity|]. rewrite sumQ_Qsum. unfold area_of. revert section L.
  induction area as [|a area IH]; intros [|s section] L; simpl in *; try discriminate; [lra|].
  destruct (label_is k s); simpl; rewrite IH by lia; lra.
Qed.

(** The labels the widths are computed from. *)
Definition known_label (l : label) : Prop :=
  l = LInt 1 \/ l = LInt 2 \/ l = LInt 3 \/ l = LInt NODATA.

Lemma area_partition area : forall section, length section = length area ->
  Forall known_label section ->
  area_of 1 area section + area_of NODATA area section + area_of 2 area section + area_of 3 area section
  == Qsum area.
Proof.
  unfold area_of. induction area as [|a area IH]; intros [|s section] L H; simpl in *; try discriminate; [lra|].
  inversion H; subst. specialize (IH section ltac:(lia) H3).
  destruct H2 as [->|[->|[->| ->]]]; cbn [label_is Z.eqb Pos.eqb NODATA filter snd map fst Qsum fold_right];
    simpl; unfold Qsum in *; simpl; lra.
Qed.

(** C17 for integer labels (variance classification). *)
Theorem C17_section_widths_follow_cells :
  forall len area section fw last_fw first_fw cfw,
    0 < len -> length section = length area -> Forall known_label section ->
    exists w, compute_section_widths len area section (fw ++ [last_fw]) (first_fw :: cfw) = Ok w /\
      (* the sections together are as wide as the cells, or as the flow if that is wider *)
      (last_fw <= Qsum area / len -> total w == Qsum area / len) /\
      (Qsum area / len <= last_fw -> total w == last_fw) /\
      w_fp2 w == area_of 3 area section / len /\
      (* no adjustment needed: width = area / length *)
      (last_fw <= Qsum area / len ->
       first_fw + (1 # 10) <= (area_of 1 area section + area_of NODATA area section) / len ->
       w_main w == (area_of 1 area section + area_of NODATA area section) / len /\
       w_fp1 w == area_of 2 area section / len).
Proof.
  intros len area section fw lf ff cfw Hlen L Hk.
  pose proof (area_partition area section L Hk) as Hpart.
  unfold compute_section_widths.
  destruct (section_area_spec NODATA area section L) as (a0 & -> & E0).
  destruct (section_area_spec 1 area section L) as (a1 & -> & E1).
  destruct (section_area_spec 2 area section L) as (a2 & -> & E2).
  destruct (section_area_spec 3 area section L) as (a3 & -> & E3). cbn [bind].
  set (w0 := {| w_main := (a1 + a0) / len; w_fp1 := a2 / len; w_fp2 := a3 / len |}).
  destruct (section_checks_spec fw lf ff cfw w0) as (w & H & A & B & C).
  unfold section_checks in H. exists w. split; [exact H|].
  assert (Ht : total w0 == Qsum area / len).
  { unfold total, w0. cbn. rewrite <- Hpart, E0, E1, E2, E3. unfold Qdiv. lra. }
  assert (M0 : w_main w0 == (area_of 1 area section + area_of NODATA area section) / len).
  { unfold w0. cbn. rewrite E0, E1. reflexivity. }
  assert (M1 : w_fp1 w0 == area_of 2 area section / len).
  { unfold w0. cbn. rewrite E2. reflexivity. }
  assert (M2 : w_fp2 w0 == area_of 3 area section / len).
  { unfold w0. cbn. rewrite E3. reflexivity. }
  clearbody w0.
  unfold total in *.
  assert (S : w_main w + w_fp1 w + w_fp2 w ==
              w_main w0 + (if Qltb (w_main w0 + w_fp1 w0 + w_fp2 w0) lf then lf - (w_main w0 + w_fp1 w0 + w_fp2 w0) else 0)
              + w_fp1 w0 + w_fp2 w0).
  { destruct (Qlt_le_dec (w_main w0 + (if Qltb (w_main w0 + w_fp1 w0 + w_fp2 w0) lf then lf - (w_main w0 + w_fp1 w0 + w_fp2 w0) else 0)) (ff + (1 # 10))) as [q|q].
    - destruct (B q). lra.
    - destruct (A q). lra. }
  split; [|split; [|split]].
  - intros Hle. destruct (Qltb _ lf) eqn:E in S; qb; lra.
  - intros Hle. destruct (Qltb _ lf) eqn:E in S; qb; lra.
  - lra.
  - intros H1 H2. destruct (Qltb _ lf) eqn:E in A; qb; [lra|]. destruct A as [A1 A2]; [lra|]. split; lra.
Qed.
Print Assumptions C17_section_widths_follow_cells.

Example C17_case : exists w,
  compute_section_widths 10 [30; 20; 10] [LInt 1; LInt 2; LInt NODATA] [1; 6] [1; 2; 6] = Ok w /\
  w_main w == 4 /\ w_fp1 w == 2 /\ w_fp2 w == 0.
Proof. eexists. split; [vm_compute; reflexivity|]. repeat split; reflexivity. Qed.

(** C17 for polygon labels, refuted: names never equal 1, 2 or 3, so whatever
    the polygons say, the main channel gets the whole flow width. *)
Lemma area_of_names k area names : area_of k area (map LStr names) == 0.
Proof.
  unfold area_of. revert names; induction area; intros [|n names]; simpl; try reflexivity. apply IHarea.
Qed.

Theorem C17_polygon_sections_ignored :
  forall len area names fw last_fw first_fw cfw,
    0 < len -> length names = length area -> 0 < last_fw -> first_fw + (1 # 10) <= last_fw ->
    exists w, compute_section_widths len area (map LStr names) (fw ++ [last_fw]) (first_fw :: cfw) = Ok w /\
      w_main w == last_fw /\ w_fp1 w == 0 /\ w_fp2 w == 0.
Proof.
  intros len area names fw lf ff cfw Hlen L Hp Hf.
  assert (L' : length (map LStr names) = length area) by (rewrite map_length; auto).
  unfold compute_section_widths.
  destruct (section_area_spec NODATA area _ L') as (a0 & -> & E0).
  destruct (section_area_spec 1 area _ L') as (a1 & -> & E1).
  destruct (section_area_spec 2 area _ L') as (a2 & -> & E2).
  destruct (section_area_spec 3 area _ L') as (a3 & -> & E3). cbn [bind].
  rewrite area_of_names in E0, E1, E2, E3.
  set (w0 := {| w_main := (a1 + a0) / len; w_fp1 := a2 / len; w_fp2 := a3 / len |}).
  destruct (section_checks_spec fw lf ff cfw w0) as (w & H & A & B & C).
  unfold section_checks in H. exists w. split; [exact H|].
  assert (M0 : w_main w0 == 0) by (unfold w0; cbn; rewrite E0, E1; unfold Qdiv; lra).
  assert (M1 : w_fp1 w0 == 0) by (unfold w0; cbn; rewrite E2; unfold Qdiv; lra).
  assert (M2 : w_fp2 w0 == 0) by (unfold w0; cbn; rewrite E3; unfold Qdiv; lra).
  clearbody w0. unfold total in *. destruct (Qltb _ lf) eqn:E; qb; [|lra].
  destruct A as [A1 A2]; [lra|]. repeat split; lra.
Qed.
Print Assumptions C17_polygon_sections_ignored.

Theorem C17_polygon_labels_refuted :
  exists len area section fw w,
    section = map LStr ["floodplain1"; "floodplain1"; "main"]%string /\ 0 < len /\
    compute_section_widths len area section fw fw = Ok w /\
    (* two of three equal cells are floodplain *)
    area = [10; 10; 10] /\ w_fp1 w == 0 /\ w_main w == 3.
Proof.
  exists 10, [10; 10; 10], (map LStr ["floodplain1"; "floodplain1"; "main"]%string), [1; 3].
  eexists. split; [reflexivity|]. split; [reflexivity|]. split; [vm_compute; reflexivity|].
  repeat split; reflexivity.
Qed.
Print Assumptions C17_polygon_labels_refuted.

(** ** C18 *)

Definition Qmean (l : list Q) : Q := Qsum l / inject_Z (Z.of_nat (length l)).

(** Bed levels of the cells with label 2 (floodplain). *)
Definition floodplain_beds (bed : list Q) (section : list label) : list Q :=
  map fst (filter (fun p => label_is 2 (snd p)) (combine bed section)).

Lemma npsum_fin l : exists s, npsum (map Fin l) = Fin s /\ s == Qsum l.
Proof.
  unfold npsum. assert (G : forall l acc, exists s, fold_left nadd (map Fin l) (Fin acc) = Fin s /\ s == acc + Qsum l).
  { clear. induction l; intros acc; simpl; [exists acc; split; auto; lra|].
    destruct (IHl (acc + a)) as (s & -> & E). exists s. split; auto. rewrite E. unfold Qsum; simpl. lra. }
  destruct (G l 0) as (s & H & E). exists s. split; auto. lra.
Qed.

Lemma filter_nonnan_fin l : filter (fun x => negb (isnan x)) (map Fin l) = map Fin l.
Proof. induction l; simpl; congruence. Qed.

Lemma nanmean_fin l : l <> [] -> exists m, nanmean (map Fin l) = Fin m /\ m == Qmean l.
Proof.
  intros Hl. unfold nanmean. rewrite filter_nonnan_fin.
  destruct (npsum_fin l) as (s & Hs & E). destruct l as [|a l]; [congruence|].
  cbn [map]. change (Fin a :: map Fin l) with (map Fin (a :: l)). rewrite Hs.
  unfold nofnat. rewrite map_length. cbn [ndiv].
  destruct (Qeq_bool (inject_Z (Z.of_nat (length (a :: l)))) 0) eqn:E0.
  - apply Qeq_bool_iff in E0. exfalso. revert E0. unfold inject_Z, Qeq. simpl. lia.
  - eexists. split; [reflexivity|]. unfold Qmean. rewrite E. reflexivity.
Qed.

Theorem C18_floodplain_base_below_crest :
  forall (crest tol : Q) (bed : list Q) (section : list label),
    length section = length bed ->
    exists base, compute_floodplain_base (Fin crest) (Fin tol) (map Fin bed) section = Ok (Fin base) /\
      base <= crest - tol /\
      (floodplain_beds bed section = [] -> base == crest - tol) /\
      (floodplain_beds bed section <> [] ->
         base <= Qmean (floodplain_beds bed section) /\
         (Qmean (floodplain_beds bed section) <= crest - tol -> base == Qmean (floodplain_beds bed section)) /\
         (crest - tol <= Qmean (floodplain_beds bed section) -> base == crest - tol)).
Proof.
  intros crest tol bed section L. unfold compute_floodplain_base, mask_index.
  rewrite !map_length, L, Nat.eqb_refl. cbn [bind].
  assert (Hsel : select (map (label_is 2) section) (map Fin bed) = map Fin (floodplain_beds bed section)).
  { unfold floodplain_beds. revert section L. induction bed; intros [|s section] L; simpl in *; try discriminate; auto.
    destruct (label_is 2 s); simpl; rewrite IHbed by lia; auto. }
  assert (Hex : existsb (fun b => b) (map (label_is 2) section) = true <-> floodplain_beds bed section <> []).
  { clear Hsel. unfold floodplain_beds. revert section L. induction bed; intros [|s section] L; simpl in *; try discriminate.
    - split; [discriminate | congruence].
    - destruct (label_is 2 s); simpl; [split; auto; discriminate | apply IHbed; lia]. }
  rewrite Hsel. unfold nsub. cbn [nneg nadd].
  destruct (existsb (fun b => b) (map (label_is 2) section)) eqn:E.
  - assert (Hne : floodplain_beds bed section <> []) by (apply Hex; auto).
    destruct (nanmean_fin _ Hne) as (m & -> & Em). cbn [nltb].
    destruct (Qltb (crest + - tol) m) eqn:E2; qb; eexists; (split; [reflexivity|]);
      (split; [lra|]); (split; [congruence|]); intros _; repeat split; intros; lra.
  - assert (Hn : floodplain_beds bed section = []).
    { destruct (floodplain_beds bed section); auto. exfalso.
      assert (false = true) by (apply Hex; discriminate). discriminate. }
    eexists. split; [reflexivity|]. split; [lra|]. split; [intros; lra|]. congruence.
Qed.
Print Assumptions C18_floodplain_base_below_crest.

Example C18_case : exists b,
  compute_floodplain_base (Fin 5) (Fin (1 # 2)) (map Fin [1; 3; 9]) [LInt 2; LInt 2; LInt 1] = Ok (Fin b) /\ b == 2.
Proof. eexists. split; [vm_compute; reflexivity|]. reflexivity. Qed.

(** Missing bed levels in the whole floodplain give a missing base level
    (numpy warns and returns NaN): the bound then does not hold. *)
Theorem C18_missing_bed_levels_refuted :
  exists bed section, compute_floodplain_base (Fin 5) (Fin (1 # 2)) bed section = Ok NaN /\
    section = [LInt 2; LInt 1] /\ bed = [NaN; Fin 3].
Proof. exists [NaN; Fin 3], [LInt 2; LInt 1]. split; [vm_compute; reflexivity|auto]. Qed.
Print Assumptions C18_missing_bed_levels_refuted.

(** With polygon sections (names) the floodplain is never found. *)
Theorem C18_polygon_sections_use_crest :
  forall crest tol bed names,
    compute_floodplain_base crest tol bed (map LStr names) = Ok (nsub crest tol).
Proof.
  intros. unfold compute_floodplain_base.
  assert (H : existsb (fun b => b) (map (label_is 2) (map LStr names)) = false).
  { induction names; simpl; auto. }
  rewrite H. reflexivity.
Qed.
Print Assumptions C18_polygon_sections_use_crest.
