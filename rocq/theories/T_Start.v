(** Theorems for C74 (starting point of the summer dike search) and C63 (joint
    fit of method 2). *)
From Coq Require Import List ZArith Bool Reals Lra Lia.
From Verif Require Import PyBase Spec_Real M_Correction T_Correction.
Import ListNotations.
Local Open Scope R_scope.

(** An optimiser that gives up at once and returns its starting point. *)
Definition idle (opt : optimiser) : Prop :=
  (forall f x, min1 opt f x = x) /\ (forall f x, min2 opt f x = x) /\ (forall f x, min3 opt f x = x).

(** Row [k] is the first row with the largest shortage of 1D volume, among the
    rows with a known 2D volume. *)
Definition first_largest_shortage (volume : list R) (measured : list (option R)) (k : nat) : Prop :=
  exists v m, nth_error volume k = Some v /\ nth_error measured k = Some (Some m) /\
    forall i v' m', nth_error volume i = Some v' -> nth_error measured i = Some (Some m') ->
      m' - v' <= m - v /\ ((i < k)%nat -> m' - v' < m - v).

Lemma nanargmin_from_spec l : forall k b j,
  nanargmin_from k b l = Some j ->
  (exists x, nth_error l (j - k) = Some (Some x) /\ (k <= j)%nat /\
     (forall i y, nth_error l i = Some (Some y) -> x <= y /\ ((i < j - k)%nat -> x < y)) /\
     (forall i y, b = Some (i, y) -> x < y)) \/
  (exists y, b = Some (j, y) /\ forall i z, nth_error l i = Some (Some z) -> y <= z).
Proof.
  induction l as [|[x|] l IH]; intros k b j H; cbn [nanargmin_from] in H.
  - destruct b as [[i y]|]; [|discriminate]. injection H as <-. right. exists y. split; auto.
    intros [|i'] z; discriminate.
  - assert (Hcase : (exists i y, b = Some (i, y) /\ y <= x /\ nanargmin_from (S k) b l = Some j) \/
                    ((forall i y, b = Some (i, y) -> x < y) /\ nanargmin_from (S k) (Some (k, x)) l = Some j)).
    { destruct b as [[i y]|]; [|right; split; [discriminate|auto]].
      destruct (Rlt_dec x y) as [Hl|Hl].
      - right. split; auto. intros ? ? [= <- <-]. auto.
      - left. exists i, y. split; auto. split; [lra|auto]. }
    destruct Hcase as [(i & y & -> & Hyx & G)|[Hb G]].
    + apply IH in G. destruct G as [(w & G1 & G2 & G3 & G4)|(w & [= <- <-] & G2)].
      * left. exists w. specialize (G4 i y eq_refl).
        replace (j - k)%nat with (S (j - S k)) by lia. split; auto. split; [lia|]. split; [|intros ? ? [= <- <-]; auto].
        intros [|i'] z Hz; cbn in Hz.
        -- injection Hz as <-. split; intros; lra.
        -- destruct (G3 i' z Hz) as [A B]. split; auto. intros Hi. apply B. lia.
      * right. exists y. split; auto. intros [|i'] z Hz; cbn in Hz; [injection Hz as <-; auto|eauto].
    + apply IH in G. destruct G as [(w & G1 & G2 & G3 & G4)|(w & [= <- <-] & G2)].
      * left. exists w. specialize (G4 k x eq_refl).
        replace (j - k)%nat with (S (j - S k)) by lia. split; auto. split; [lia|].
        split; [|intros i y Hy; specialize (Hb i y Hy); lra].
        intros [|i'] z Hz; cbn in Hz.
        -- injection Hz as <-. split; intros; lra.
        -- destruct (G3 i' z Hz) as [A B]. split; auto. intros Hi. apply B. lia.
      * left. exists x. rewrite Nat.sub_diag. split; auto. split; [lia|]. split; auto.
        intros [|i'] z Hz; cbn in Hz; [injection Hz as <-; split; [lra|lia]|]. split; [eauto|lia].
  - apply IH in H. destruct H as [(w & G1 & G2 & G3 & G4)|(w & -> & G2)].
    + left. exists w. replace (j - k)%nat with (S (j - S k)) by lia. split; auto. split; [lia|]. split; auto.
      intros [|i'] z Hz; cbn in Hz; [discriminate|]. destruct (G3 i' z Hz) as [A B]. split; auto. intros. apply B. lia.
    + right. exists w. split; auto. intros [|i'] z Hz; cbn in Hz; [discriminate|eauto].
Qed.

Lemma error_nth v : forall m i x, nth_error (map2 error_row v m) i = Some (Some x) <->
  exists a b, nth_error v i = Some a /\ nth_error m i = Some (Some b) /\ x = a - b.
Proof.
  induction v as [|a v IH]; intros m i x.
  - cbn. split; [destruct i; discriminate|]. intros (? & ? & H & _). destruct i; discriminate.
  - destruct m as [|b m]; cbn [map2].
    + split; [destruct i; discriminate|]. intros (? & ? & _ & H & _). destruct i; discriminate.
    + destruct i as [|i]; cbn [nth_error]; [|apply IH]. destruct b as [b|]; cbn.
      * split; [intros [= <-]; eauto|]. intros (? & ? & [= <-] & [= <-] & ->). auto.
      * split; [discriminate|]. intros (? & ? & _ & H & _). discriminate.
Qed.

Lemma error_last v : forall m a b, length m = length v -> last v 0 = a -> last m None = Some b -> v <> [] ->
  last (map2 error_row v m) None = Some (a - b).
Proof.
  induction v as [|x v IH]; intros [|y m] a b L Ha Hb Hn; try discriminate; try congruence.
  destruct v as [|x' v]; destruct m as [|y' m]; try discriminate.
  - cbn in *. subst. reflexivity.
  - change (map2 error_row (x :: x' :: v) (y :: y' :: m)) with
      (error_row x y :: error_row x' y' :: map2 error_row v m).
    change (last (map2 error_row (x' :: v) (y' :: m)) None = Some (a - b)).
    apply IH; auto. discriminate.
Qed.

(** C74.  The search starts at the level of the row with the largest shortage,
    with the mismatch of the last row as extra volume: this is what a search
    that does not move returns. *)
Theorem C74_search_starts_at_largest_shortage :
  forall opt nan_start method tau len c k mt mf,
    idle opt -> css_z c <> [] ->
    length (css_tv c) = length (css_z c) -> length (css_fv c) = length (css_z c) ->
    length (fm_tv c) = length (css_z c) -> length (fm_fv c) = length (css_z c) ->
    last (fm_tv c) None = Some mt -> last (fm_fv c) None = Some mf ->
    calculate_correction opt nan_start method tau len c = Ok k ->
    (exists row, first_largest_shortage (css_tv c) (fm_tv c) row /\
                 nth_error (css_z c) row = Some (crest_level k)) /\
    (method <> 1%Z ->
       extra_total_volume k = Rabs (last (css_tv c) 0 - mt) /\
       extra_flow_volume k = Rmin (Rabs (last (css_fv c) 0 - mf)) (extra_total_volume k)) /\
    (* method 1 starts the flow volume from the mismatch of the total volume
       and the other way round *)
    (method = 1%Z ->
       extra_flow_volume k = Rabs (last (css_tv c) 0 - mt) /\
       extra_total_volume k = Rmax (Rabs (last (css_fv c) 0 - mf)) (extra_flow_volume k)).
Proof.
  intros opt ns method tau len c k mt mf (I1 & I2 & I3) Hz L1 L2 L3 L4 Ht Hf H.
  assert (Et : last (map2 error_row (css_tv c) (fm_tv c)) None = Some (last (css_tv c) 0 - mt)).
  { apply error_last; auto; [lia|]. intros E. rewrite E in L1. destruct (css_z c); [congruence|discriminate]. }
  assert (Ef : last (map2 error_row (css_fv c) (fm_fv c)) None = Some (last (css_fv c) 0 - mf)).
  { apply error_last; auto; [lia|]. intros E. rewrite E in L2. destruct (css_z c); [congruence|discriminate]. }
  unfold calculate_correction in H. cbv zeta in H. rewrite Et, Ef in H.
  destruct (nanargmin _) as [j|] eqn:Ej; [|discriminate].
  destruct (nth_error (css_z c) j) as [z0|] eqn:Ez; [|discriminate].
  set (a := last (css_tv c) 0 - mt) in *. set (b := last (css_fv c) 0 - mf) in *.
  assert (Hj : first_largest_shortage (css_tv c) (fm_tv c) j).
  { unfold nanargmin in Ej. apply nanargmin_from_spec in Ej.
    destruct Ej as [(x & G1 & _ & G3 & _)|(y & [=] & _)]. rewrite Nat.sub_0_r in *.
    apply error_nth in G1. destruct G1 as (v & m & V & M & ->). exists v, m. split; auto. split; auto.
    intros i v' m' V' M'. destruct (G3 i (v' - m')) as [A B]; [apply error_nth; eauto|].
    split; [lra|]. intros Hi. specialize (B Hi). lra. }
  pose proof (Rabs_pos a) as Pa. pose proof (Rabs_pos b) as Pb.
  assert (E : optimize_sd_storage opt method tau c z0 (Rabs a) (Rabs b) =
              if Z.eqb method 1 then (z0, Rmax (Rabs b) (Rabs a), Rabs a)
              else (z0, Rabs a, Rmin (Rabs b) (Rabs a))).
  { unfold optimize_sd_storage. destruct (Z.eqb_spec method 1) as [->|N1].
    - cbn [Z.eqb orb]. rewrite I2, I1. cbn [fst snd]. rewrite (Rmax_left (Rabs a) 0), (Rmax_left (Rabs b) 0) by lra. reflexivity.
    - destruct (Z.eqb_spec method 2) as [->|N2].
      + cbn [Z.eqb orb]. rewrite I3. cbn [fst snd]. rewrite (Rmax_left (Rabs a) 0), (Rmax_left (Rabs b) 0) by lra. reflexivity.
      + rewrite !orb_false_r. destruct (Z.eqb_spec method 0) as [->|N0]; cbn [Z.eqb];
          rewrite I2, I1; cbn [fst snd]; rewrite (Rmax_left (Rabs a) 0), (Rmax_left (Rabs b) 0) by lra; reflexivity. }
  rewrite E in H. clear E.
  destruct (map2 error_row (css_tv c) (fm_tv c)); [discriminate|].
  destruct (map2 error_row (css_fv c) (fm_fv c)); [discriminate|].
  destruct (Z.eqb_spec method 1) as [E1|N1];
    match type of H with Ok ?r = Ok _ => assert (Hk : k = r) by congruence end; subst k;
    cbn [crest_level extra_total_volume extra_flow_volume]; (split; [eauto|]); split; intros; try congruence; split; reflexivity.
Qed.
Print Assumptions C74_search_starts_at_largest_shortage.

Definition idle_opt : optimiser := {| min1 := fun _ x => x; min2 := fun _ x => x; min3 := fun _ x => x |}.
Example C74_case : exists k,
  calculate_correction idle_opt 0 0 (1 / 2) 10 example_css = Ok k /\ crest_level k = 2 /\ extra_total_volume k = 2.
Proof.
  destruct (C14_correction_is_defined idle_opt 0 0 (1 / 2) 10 example_css) as [k Hk]; auto.
  { exists 2. cbn. auto. }
  exists k. split; auto.
  destruct (C74_search_starts_at_largest_shortage idle_opt 0 0 (1 / 2) 10 example_css k 5 3)
    as ((row & (v & m & V & M & B) & Hrow) & H2 & _); auto; try discriminate.
  { repeat split. }
  split.
  - destruct (B 2%nat 3 5 eq_refl eq_refl) as [B1 B2].
    destruct row as [|[|[|[|row]]]]; cbn in V, M, Hrow; try discriminate.
    + assert (v = 1) by congruence. assert (m = 2) by congruence. lra.
    + congruence.
  - destruct H2 as [-> _]; [lia|]. cbn. rewrite Rabs_left; lra.
Qed.

(** The mismatch of total and flow volume together: over the rows in which both
    2D volumes are known, the squares of the difference of the sums, divided by
    the sum of the 2D volumes (or by 1 if that is smaller). *)
Fixpoint joint_mismatch (tv fv : list R) (tm fm : list (option R)) : R :=
  match tv, fv, tm, fm with
  | t :: tv', f :: fv', Some a :: tm', Some b :: fm' =>
      ((t + f - (a + b)) / Rmax (a + b) 1) ^ 2 + joint_mismatch tv' fv' tm' fm'
  | _ :: tv', _ :: fv', _ :: tm', _ :: fm' => joint_mismatch tv' fv' tm' fm'
  | _, _, _, _ => 0
  end.
Lemma joint_mismatch_spec tv : forall fv tm fm,
  volume_error (map2 Rplus tv fv) (map2 add_missing tm fm) = joint_mismatch tv fv tm fm.
Proof.
  induction tv as [|t tv IH]; intros [|f fv] [|[a|] tm] [|[b|] fm]; try reflexivity; cbn [map2 joint_mismatch];
    rewrite <- IH; unfold volume_error; cbn [map2 Rsum fold_right add_missing row_error]; unfold Rsum; lra.
Qed.

(** C63.  Method 2: total and flow volume together are a best fit to the sum of
    the 2D volumes, if the optimiser is exact and its result is admissible. *)
Theorem C63_joint_fit_is_optimal_partial :
  forall opt nan_start tau len c k,
    exact opt ->
    calculate_correction opt nan_start 2 tau len c = Ok k ->
    (exists x, is_minimum (cost_combined tau c) x) ->
    (forall f x0, 0 <= snd (min3 opt f x0) <= snd (fst (min3 opt f x0))) ->
    forall crest et ef,
      joint_mismatch (tv_corrected k) (fv_corrected k) (fm_tv c) (fm_fv c) <=
      joint_mismatch (add_extra tau (css_z c) (css_tv c) crest et) (add_extra tau (css_z c) (css_fv c) crest ef)
                     (fm_tv c) (fm_fv c).
Proof.
  intros opt ns tau len c k (_ & _ & Ho) H Hex Hpos crest et ef. rewrite <- !joint_mismatch_spec. unfold calculate_correction in H.
  destruct (nanargmin _) as [j|]; [|discriminate].
  destruct (nth_error (css_z c) j) as [z0|]; [|discriminate].
  set (te := map2 error_row (css_tv c) (fm_tv c)) in *.
  set (fe := map2 error_row (css_fv c) (fm_fv c)) in *.
  set (t0 := match last te None with Some x => Rabs x | None => ns end) in *.
  set (f0 := match last fe None with Some x => Rabs x | None => ns end) in *.
  unfold optimize_sd_storage in H. cbn [Z.eqb Pos.eqb orb] in H.
  set (x := min3 opt (cost_combined tau c) (z0, t0, f0)) in *.
  assert (Hx := Ho (cost_combined tau c) (z0, t0, f0) Hex (crest, et, ef)).
  assert (Hp := Hpos (cost_combined tau c) (z0, t0, f0)).
  fold x in Hx, Hp.
  assert (Hk : tv_corrected k = add_extra tau (css_z c) (css_tv c) (fst (fst x)) (Rmax (snd (fst x)) 0) /\
               fv_corrected k = add_extra tau (css_z c) (css_fv c) (fst (fst x)) (Rmin (Rmax (snd x) 0) (Rmax (snd (fst x)) 0))).
  { destruct te; [discriminate|]. destruct fe; [discriminate|].
    match type of H with Ok ?a = Ok _ => assert (Hg : k = a) by congruence end. subst k. split; reflexivity. }
  destruct Hk as [-> ->]. rewrite (Rmax_left (snd x)), (Rmax_left (snd (fst x))), Rmin_left by lra.
  clearbody x. destruct x as [[x1 x2] x3]. exact Hx.
Qed.
Print Assumptions C63_joint_fit_is_optimal_partial.
