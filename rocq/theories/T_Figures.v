(** C110 (heat maps), C111 (figure of a station) and C112 (figure of the
    discharge distribution) of the comparison of 1D and 2D results. *)
From Coq Require Import String List Ascii ZArith QArith Bool Lia Lqa.
From Verif Require Import PyBase Num Spec Text L_Text L_Num M_Compare T_Window T_Route T_Stats M_Longitudinal M_Figures.
Import ListNotations.
Local Open Scope nat_scope.

(** * Tables *)

Lemma column_map (g : list num -> list num) cols s :
  column (map (fun c => (fst c, g (snd c))) cols) s =
    match column cols s with Ok c => Ok (g c) | Raise e => Raise e end.
Proof.
  induction cols as [|[n c] cols IH]; [reflexivity|]. cbn [map column fst snd].
  destruct (teqb n s); [reflexivity|exact IH].
Qed.

Lemma column_of_names (g : text -> list num) names s :
  column (map (fun n => (n, g n)) names) s = if existsb (teqb s) names then Ok (g s) else Raise KeyError.
Proof.
  induction names as [|n names IH]; [reflexivity|]. cbn [map column existsb]. rewrite (teqb_sym s n).
  destruct (teqb n s) eqn:E; [|exact IH]. apply teqb_eq in E. subst n. reflexivity.
Qed.

Lemma column_known t s : known t s = match column (w_cols t) s with Ok _ => true | Raise _ => false end.
Proof.
  unfold known. destruct t as [ts cols]. cbn [w_cols]. induction cols as [|[n c] cols IH]; [reflexivity|].
  cbn [map fst existsb column]. rewrite (teqb_sym s n). destruct (teqb n s); [reflexivity|exact IH].
Qed.

Lemma names_known a b s : existsb (teqb s) (names_of a b) = known a s || known b s.
Proof.
  unfold names_of. rewrite existsb_app. fold (known a s). destruct (known a s) eqn:E; [reflexivity|].
  cbn [orb]. unfold known at 2. induction (map fst (w_cols b)) as [|n l IH]; [reflexivity|]. cbn [filter existsb].
  destruct (negb (known a n)) eqn:F; cbn [existsb]; rewrite IH; [reflexivity|].
  destruct (teqb s n) eqn:G; [|reflexivity]. apply teqb_eq in G. subst n. rewrite E in F. discriminate.
Qed.

Lemma select_index {A B} (f : A -> B) (g : A -> bool) l : forall (p : nat -> bool) k,
  (forall i x, nth_error l i = Some x -> p (k + i) = g x) ->
  select (map p (seq k (length l))) (map f l) = map f (filter g l).
Proof.
  induction l as [|x l IH]; intros p k H; [reflexivity|]. cbn [length seq map filter].
  rewrite <- (H 0 x eq_refl), Nat.add_0_r. cbn [select].
  assert (R : select (map p (seq (S k) (length l))) (map f l) = map f (filter g l)).
  { apply IH. intros i y Y. rewrite <- (H (S i) y Y). f_equal. lia. }
  destruct (p k); cbn [map]; rewrite R; reflexivity.
Qed.

(** * C110 *)

(** The 1D level minus the 2D level of a station at a moment, missing if one of
    them is. *)
Definition level_difference (h1 h2 : wtable) (s : text) (t : Z) : num :=
  nsub (at_time (series_of h1 s) t) (at_time (series_of h2 s) t).

(** A moment at which some station has both levels. *)
Definition shown_at (h1 h2 : wtable) (t : Z) : bool :=
  existsb (fun s => negb (isnan (level_difference h1 h2 s t))) (names_of h1 h2).

Lemma dropped_difference h1 h2 :
  let ts := filter (shown_at h1 h2) (union_index (w_times h1) (w_times h2)) in
  dropna_all (frame_difference h1 h2) =
    mk_wtable ts (map (fun s => (s, map (level_difference h1 h2 s) ts)) (names_of h1 h2)).
Proof.
  intro ts. unfold dropna_all, frame_difference. cbn [w_times w_cols]. fold (level_difference h1 h2).
  set (index := union_index (w_times h1) (w_times h2)).
  assert (P : forall i x, nth_error index i = Some x ->
    has_value (map (fun s => (s, map (level_difference h1 h2 s) index)) (names_of h1 h2)) (0 + i) = shown_at h1 h2 x).
  { intros i x X. unfold has_value, shown_at. rewrite Nat.add_0_l. induction (names_of h1 h2) as [|n l IH]; [reflexivity|].
    cbn [map existsb snd]. rewrite IH. f_equal. f_equal. f_equal.
    rewrite (nth_indep _ NaN (level_difference h1 h2 n 0%Z)).
    - rewrite map_nth. f_equal. apply nth_error_nth. exact X.
    - rewrite map_length. apply nth_error_Some. congruence. }
  f_equal.
  - pose proof (select_index (fun x : Z => x) (shown_at h1 h2) index _ 0 P) as Q. rewrite !map_id in Q. exact Q.
  - rewrite map_map. apply map_ext. intro s. cbn [fst snd]. f_equal.
    apply (select_index (level_difference h1 h2 s) (shown_at h1 h2)). exact P.
Qed.

(** What the heat map holds: at the moments at which some station has both
    levels, for each station of the route its differences, without the rows
    that equal an earlier one; a station that is in no table is an error. *)
Theorem C110_rows_and_moments :
  forall h1 h2 stations rkms,
    heatmap h1 h2 stations rkms =
      if forallb (fun s => known h1 s || known h2 s) stations then
        let ts := filter (shown_at h1 h2) (union_index (w_times h1) (w_times h2)) in
        Ok (ts, drop_duplicates [] (combine rkms (map (fun s => map (level_difference h1 h2 s) ts) stations)))
      else Raise KeyError.
Proof.
  intros h1 h2 stations rkms. unfold heatmap. rewrite dropped_difference. cbn [w_times w_cols].
  set (ts := filter (shown_at h1 h2) (union_index (w_times h1) (w_times h2))). unfold get_data_along_route.
  assert (E : map_res (column (map (fun s => (s, map (level_difference h1 h2 s) ts)) (names_of h1 h2))) stations =
    if forallb (fun s => known h1 s || known h2 s) stations
    then Ok (map (fun s => map (level_difference h1 h2 s) ts) stations) else Raise KeyError).
  { induction stations as [|s stations IH]; [reflexivity|]. cbn [map_res forallb map].
    rewrite (column_of_names (fun s => map (level_difference h1 h2 s) ts)), names_known, IH.
    destruct (known h1 s || known h2 s); cbn [andb]; [|reflexivity].
    destruct (forallb (fun s => known h1 s || known h2 s) stations); reflexivity. }
  rewrite E. destruct (forallb _ stations); reflexivity.
Qed.
Print Assumptions C110_rows_and_moments.

(** The moments are those at which some station has a 1D and a 2D level. *)
Definition finite_table (t : wtable) : Prop := Forall (fun c => no_inf (snd c)) (w_cols t).

Lemma column_in cols s c : column cols s = Ok c -> In (s, c) cols.
Proof.
  induction cols as [|[n d] cols IH]; cbn [column]; intro H; [discriminate|].
  destruct (teqb n s) eqn:E; [|right; auto]. apply teqb_eq in E. injection H as <-. subst. left. reflexivity.
Qed.

Lemma in_combine_snd {A B} (l : list A) (m : list B) : incl (map snd (combine l m)) m.
Proof. intros x I. apply in_map_iff in I. destruct I as ([a b] & <- & I). apply in_combine_r in I. exact I. Qed.

Lemma series_finite t s : finite_table t -> no_inf (map snd (series_of t s)).
Proof.
  intro H. unfold series_of. destruct (column (w_cols t) s) as [c|] eqn:E; [|constructor].
  apply column_in in E. unfold finite_table in H. rewrite Forall_forall in H. specialize (H _ E). cbn [snd] in H.
  unfold no_inf in *. rewrite Forall_forall in *. intros x I. apply H. eapply in_combine_snd; eauto.
Qed.

Theorem C110_moments :
  forall h1 h2 stations rkms ts rows, finite_table h1 -> finite_table h2 ->
    heatmap h1 h2 stations rkms = Ok (ts, rows) ->
    forall t, In t ts <->
      exists s a b, In (t, Fin a) (series_of h1 s) /\ at_time (series_of h1 s) t = Fin a /\
        at_time (series_of h2 s) t = Fin b /\ level_difference h1 h2 s t = Fin (a - b).
Proof.
  intros h1 h2 stations rkms ts rows F1 F2 H t. rewrite C110_rows_and_moments in H.
  destruct (forallb _ stations); [|discriminate]. cbv zeta in H. injection H as <- _.
  rewrite filter_In, union_index_in. unfold shown_at. rewrite existsb_exists. split.
  - intros [_ (s & _ & N)]. exists s. unfold level_difference in *.
    pose proof (at_time_no_inf (series_of h1 s) t (series_finite _ _ F1)) as [A1 A2].
    pose proof (at_time_no_inf (series_of h2 s) t (series_finite _ _ F2)) as [B1 B2].
    destruct (at_time (series_of h1 s) t) as [a| | |] eqn:EA; try congruence; [|discriminate].
    destruct (at_time (series_of h2 s) t) as [b| | |] eqn:EB; try congruence; [|discriminate].
    exists a, b. apply at_time_in in EA. repeat split; auto.
  - intros (s & a & b & I & EA & EB & D). split.
    + left. unfold series_of in I. destruct (column (w_cols h1) s); [|destruct I]. apply in_combine_l in I. exact I.
    + exists s. split; [|rewrite D; reflexivity].
      assert (K : existsb (teqb s) (names_of h1 h2) = true).
      { rewrite names_known, column_known. unfold series_of in I. destruct (column (w_cols h1) s); [reflexivity|destruct I]. }
      apply existsb_exists in K. destruct K as (n & I' & E). apply teqb_eq in E. subst n. exact I'.
Qed.
Print Assumptions C110_moments.

(** Every row is of a station of the route at its river kilometre; the
    differences of each station are in the heat map. *)
Theorem C110_stations :
  forall h1 h2 stations rkms ts rows,
    length rkms = length stations ->
    heatmap h1 h2 stations rkms = Ok (ts, rows) ->
    (forall k r, In (k, r) rows ->
       exists s, In (k, s) (combine rkms stations) /\ r = map (level_difference h1 h2 s) ts) /\
    (forall k s, In (k, s) (combine rkms stations) ->
       exists k' r, In (k', r) rows /\ same_row (map (level_difference h1 h2 s) ts) r = true).
Proof.
  intros h1 h2 stations rkms ts rows L H. rewrite C110_rows_and_moments in H.
  destruct (forallb _ stations); [|discriminate]. cbv zeta in H. injection H as <- <-.
  set (ts := filter _ _).
  assert (C : combine rkms (map (fun s => map (level_difference h1 h2 s) ts) stations) =
              map (fun p => (fst p, map (level_difference h1 h2 (snd p)) ts)) (combine rkms stations)).
  { clear L. revert stations. induction rkms as [|k rkms IH]; intros [|s stations]; try reflexivity.
    cbn [map combine fst snd]. f_equal. apply IH. }
  rewrite C. split.
  - intros k r I. apply drop_incl in I. apply in_map_iff in I. destruct I as ([k' s] & E & I).
    cbn [fst snd] in E. injection E as <- <-. exists s. auto.
  - intros k s I.
    destruct (drop_complete [] _ k (map (level_difference h1 h2 s) ts)
                (in_map (fun p => (fst p, map (level_difference h1 h2 (snd p)) ts)) _ (k, s) I)) as [D|D]; [discriminate|exact D].
Qed.
Print Assumptions C110_stations.

(** A row for each station, if no two stations have the same differences. *)
Theorem C110_row_for_each_station_partial :
  forall h1 h2 stations rkms,
    length rkms = length stations ->
    Forall (fun s => known h1 s || known h2 s = true) stations ->
    let ts := filter (shown_at h1 h2) (union_index (w_times h1) (w_times h2)) in
    ForallOrdPairs (fun a b => same_row (map (level_difference h1 h2 b) ts) (map (level_difference h1 h2 a) ts) = false)
      stations ->
    heatmap h1 h2 stations rkms =
      Ok (ts, combine rkms (map (fun s => map (level_difference h1 h2 s) ts) stations)).
Proof.
  intros h1 h2 stations rkms L K ts D. rewrite C110_rows_and_moments. fold ts.
  replace (forallb _ stations) with true by (symmetry; apply forallb_forall, Forall_forall; exact K).
  cbv zeta. fold ts. f_equal. f_equal. apply drop_distinct; [reflexivity|]. clear K. revert rkms L.
  induction D as [|s stations D1 D2 IH]; intros [|k rkms] L; cbn [map combine]; try constructor; try discriminate.
  - cbn [length] in L. injection L as L. clear - D1 L. revert rkms L.
    induction D1 as [|s' stations D D1 IH]; intros [|k' rkms] L; cbn [map combine]; constructor; try discriminate.
    + cbn [snd]. exact D.
    + injection L as L. apply IH. exact L.
  - apply IH. injection L as L. exact L.
Qed.
Print Assumptions C110_row_for_each_station_partial.

(** The window is not used: moments outside it are shown. *)
Definition day_table (v : list num) : wtable := mk_wtable [0; 60; 120]%Z [(T "A_1.00", v)].
Definition three_moments : comparison :=
  mk_comparison (mk_window (Some 60%Z) (Some 120%Z))
    (day_table [Fin 9; Fin 2; Fin 3]) (day_table [Fin 1; Fin 1; Fin 1])
    (day_table []) (day_table []) (day_table []) (day_table []) None.
Theorem C110_window_refuted :
  heatmap_time three_moments [T "A_1.00"] [Fin 1] = Ok ([0; 60; 120]%Z, [(Fin 1, [Fin 8; Fin 1; Fin 2])]) /\
  (exists t, In t [0; 60; 120]%Z /\ w_start (c_window three_moments) = Some 60%Z /\ (t < 60)%Z) /\
  (* the tables of the window give the moments of the window *)
  exists h1 h2, snd (data c_1d_h three_moments) = Ok h1 /\ snd (data c_2d_h three_moments) = Ok h2 /\
    heatmap h1 h2 [T "A_1.00"] [Fin 1] = Ok ([60; 120]%Z, [(Fin 1, [Fin 1; Fin 2])]).
Proof.
  split; [reflexivity|]. split; [exists 0%Z; cbn; repeat split; auto; lia|].
  eexists. eexists. split; [reflexivity|]. split; [reflexivity|]. reflexivity.
Qed.
Print Assumptions C110_window_refuted.

(** Where the two models agree the stations after the first are lost. *)
Theorem C110_agreement_refuted :
  forall s1 s2 k1 k2 t (a b : Q), teqb s1 s2 = false -> teqb s2 s1 = false ->
    let h := mk_wtable [t] [(s1, [Fin a]); (s2, [Fin b])] in
    exists r, heatmap h h [s1; s2] [k1; k2] = Ok ([t], [(k1, r)]).
Proof.
  intros s1 s2 k1 k2 t a b N N' h. rewrite C110_rows_and_moments.
  assert (U : union_index (w_times h) (w_times h) = [t]).
  { unfold union_index. destruct (list_eq_dec Z.eq_dec (w_times h) (w_times h)); [reflexivity|congruence]. }
  assert (S1 : series_of h s1 = [(t, Fin a)]). { unfold series_of, h. cbn [w_cols column w_times]. rewrite teqb_refl. reflexivity. }
  assert (S2 : series_of h s2 = [(t, Fin b)]). { unfold series_of, h. cbn [w_cols column w_times]. rewrite N, teqb_refl. reflexivity. }
  assert (D1 : level_difference h h s1 t = Fin (a - a)). { unfold level_difference. rewrite S1. cbn [at_time]. rewrite Z.eqb_refl. reflexivity. }
  assert (D2 : level_difference h h s2 t = Fin (b - b)). { unfold level_difference. rewrite S2. cbn [at_time]. rewrite Z.eqb_refl. reflexivity. }
  assert (K1 : known h s1 = true). { rewrite column_known. unfold h. cbn [w_cols column]. rewrite teqb_refl. reflexivity. }
  assert (K2 : known h s2 = true). { rewrite column_known. unfold h. cbn [w_cols column]. rewrite N, teqb_refl. reflexivity. }
  assert (W : shown_at h h t = true).
  { unfold shown_at. apply existsb_exists. exists s1. split; [|rewrite D1; reflexivity].
    unfold names_of, h. cbn [w_cols map fst]. left. reflexivity. }
  rewrite U. cbn [filter]. rewrite W. cbn [forallb]. rewrite K1, K2. cbn [orb andb map]. rewrite D1, D2.
  exists [Fin (a - a)]. cbn [combine drop_duplicates existsb same_row]. unfold same_value. cbn [neqb].
  replace (Qeq_bool (b - b) (a - a)) with true by (symmetry; apply Qeq_bool_iff; ring). reflexivity.
Qed.
Print Assumptions C110_agreement_refuted.

(** Two stations, three moments of which one has no 2D level. *)
Theorem C110_case :
  heatmap (mk_wtable [0; 60; 120]%Z [(T "A_1.00", [Fin 3; Fin 4; NaN]); (T "B_2.00", [Fin 1; Fin 1; NaN])])
          (mk_wtable [0; 60]%Z [(T "A_1.00", [Fin 1; NaN]); (T "B_2.00", [Fin 1; Fin 2])])
          [T "A_1.00"; T "B_2.00"] [Fin 1; Fin 2] =
    Ok ([0; 60]%Z, [(Fin 1, [Fin 2; NaN]); (Fin 2, [Fin 0; Fin (-1)])]).
Proof. reflexivity. Qed.
Print Assumptions C110_case.

(** * C111 *)

(** Every column has a value at each label. *)
Definition regular (t : wtable) : Prop := Forall (fun c => length (snd c) = length (w_times t)) (w_cols t).

Lemma rows_of_column a b (ts : list Z) : forall (c pre : list num), length c = length ts ->
  let rows := within a b (combine ts (seq (length pre) (length ts))) in
  combine (map fst rows) (map (fun p => nth (snd p) (pre ++ c) NaN) rows) = within a b (combine ts c).
Proof.
  induction ts as [|t ts IH]; intros [|x c] pre L; try discriminate; [reflexivity|]. cbv zeta.
  cbn [length seq combine]. unfold within. cbn [filter fst]. fold (within a b (combine ts (seq (S (length pre)) (length ts)))).
  fold (within a b (combine ts c)).
  assert (R : combine (map fst (within a b (combine ts (seq (S (length pre)) (length ts)))))
                (map (fun p : Z * nat => nth (snd p) (pre ++ x :: c) NaN) (within a b (combine ts (seq (S (length pre)) (length ts))))) =
              within a b (combine ts c)).
  { injection L as L. specialize (IH c (pre ++ [x]) L). cbv zeta in IH. rewrite app_length in IH. cbn [length] in IH.
    rewrite Nat.add_1_r in IH. rewrite <- app_assoc in IH. exact IH. }
  destruct ((a <=? t)%Z && (t <=? b)%Z); [|exact R]. cbn [map combine fst snd]. rewrite R. f_equal. f_equal.
  rewrite app_nth2, Nat.sub_diag; [reflexivity|lia].
Qed.

(** The table in the window has the records of the window. *)
Lemma window_table_series w t w' t' : regular t -> window_table w t = (w', Ok t') ->
  exists a b, w' = mk_window (Some a) (Some b) /\
    (forall x, w_start w = Some x -> a = x) /\ (forall x, w_stop w = Some x -> b = x) /\
    (forall s, series_of t' s = within a b (series_of t s)) /\
    (forall s, known t' s = known t s) /\
    (forall s, column (w_cols t') s = match column (w_cols t) s with Ok c => Ok (map snd (within a b (combine (w_times t) c))) | Raise e => Raise e end) /\
    regular t'.
Proof.
  intros Rg H. unfold window_table in H.
  destruct (apply_startstop_time w (combine (w_times t) (seq 0 (length (w_times t))))) as [w1 r] eqn:E.
  destruct r as [rows|e]; cbn [bind] in H; [|discriminate]. injection H as <- <-.
  pose proof (C54_rows_in_the_closed_interval _ _ _ _ _ E) as (a & b & Ha & Hb & _ & Sa & Sb & Out & _).
  fold (within a b (combine (w_times t) (seq 0 (length (w_times t))))) in Out.
  assert (Col : forall s c, column (w_cols t) s = Ok c -> length c = length (w_times t)).
  { intros s c C. apply column_in in C. unfold regular in Rg. rewrite Forall_forall in Rg. exact (Rg _ C). }
  exists a, b. split; [destruct w1 as [u v]; cbn [w_start w_stop] in Ha, Hb; rewrite Ha, Hb; reflexivity|]. split; [exact Sa|]. split; [exact Sb|].
  assert (Ser : forall s c, column (w_cols t) s = Ok c ->
    combine (map fst rows) (map (fun p : Z * nat => nth (snd p) c NaN) rows) = within a b (combine (w_times t) c)).
  { intros s c C. subst rows. exact (rows_of_column a b (w_times t) c [] (Col _ _ C)). }
  split; [|split; [|split]].
  - intro s. unfold series_of. cbn [w_cols w_times].
    rewrite (column_map (fun c => map (fun p : Z * nat => nth (snd p) c NaN) rows)).
    destruct (column (w_cols t) s) as [c|] eqn:C; [|reflexivity]. exact (Ser _ _ C).
  - intro s. rewrite !column_known. cbn [w_cols].
    rewrite (column_map (fun c => map (fun p : Z * nat => nth (snd p) c NaN) rows)). destruct (column (w_cols t) s); reflexivity.
  - intro s. cbn [w_cols]. rewrite (column_map (fun c => map (fun p : Z * nat => nth (snd p) c NaN) rows)).
    destruct (column (w_cols t) s) as [c|] eqn:C; [|reflexivity]. f_equal. rewrite <- (Ser _ _ C).
    generalize (fun p : Z * nat => nth (snd p) c NaN). intro f. clear. induction rows as [|p rows IH]; [reflexivity|].
    cbn [map combine snd]. f_equal. exact IH.
  - unfold regular. cbn [w_cols w_times]. apply Forall_map. apply Forall_forall. intros c _. cbn [snd]. rewrite !map_length. reflexivity.
Qed.

Lemma data_series f o o' t : data f o = (o', Ok t) -> regular (f o) ->
  exists a b, o' = set_window o (mk_window (Some a) (Some b)) /\
    (forall x, w_start (c_window o) = Some x -> a = x) /\ (forall x, w_stop (c_window o) = Some x -> b = x) /\
    (forall s, series_of t s = within a b (series_of (f o) s)) /\ (forall s, known t s = known (f o) s) /\
    (forall s l, pick t s = Ok l -> l = series_of t s) /\ (forall s l, pick t s = Ok l -> known t s = true) /\ regular t.
Proof.
  intros H Rg. unfold data in H. destruct (window_table (c_window o) (f o)) as [w r] eqn:E. injection H as <- ->.
  destruct (window_table_series _ _ _ _ Rg E) as (a & b & -> & Sa & Sb & S & K & _ & R).
  exists a, b. repeat split; auto.
  - intros s l P. unfold pick in P. unfold series_of. destruct (column (w_cols t) s); [injection P as <-; reflexivity|discriminate].
  - intros s l P. unfold pick in P. rewrite column_known. destruct (column (w_cols t) s); [reflexivity|discriminate].
Qed.

Lemma locate_names (F : text -> statistics) names s :
  locate (map (fun n => (n, F n)) names) s = if existsb (teqb s) names then Ok (F s) else Raise KeyError.
Proof.
  induction names as [|n names IH]; [reflexivity|]. cbn [map locate existsb]. rewrite (teqb_sym s n).
  destruct (teqb n s) eqn:E; [|exact IH]. apply teqb_eq in E. subst n. reflexivity.
Qed.

Lemma set_window_twice o v w : set_window (set_window o v) w = set_window o w.
Proof. reflexivity. Qed.

(** The statistics that are computed are those of the data in the window. *)
Lemma object_statistics_spec o o' l : object_statistics o = (o', Ok l) -> regular (c_1d_h o) -> regular (c_2d_h o) ->
  exists a b, o' = set_window o (mk_window (Some a) (Some b)) /\
    (forall x, w_start (c_window o) = Some x -> a = x) /\ (forall x, w_stop (c_window o) = Some x -> b = x) /\
    forall s, locate l s =
      if known (c_1d_h o) s || known (c_2d_h o) s
      then Ok (compute_statistics (within a b (series_of (c_1d_h o) s)) (within a b (series_of (c_2d_h o) s)))
      else Raise KeyError.
Proof.
  intros H R1 R2. unfold object_statistics in H. destruct (data c_1d_h o) as [o1 [h1|e]] eqn:E1; [|discriminate].
  destruct (data_series c_1d_h _ _ _ E1 R1) as (a & b & -> & Sa & Sb & S1 & K1 & _).
  destruct (data c_2d_h _) as [o2 [h2|e]] eqn:E2; [|discriminate]. injection H as <- <-.
  destruct (data_series c_2d_h _ _ _ E2 R2) as (a' & b' & -> & Sa' & Sb' & S2 & K2 & _).
  cbn [set_window c_window w_start w_stop c_2d_h] in *.
  pose proof (Sa' a eq_refl) as ->. pose proof (Sb' b eq_refl) as ->.
  exists a, b. repeat split; auto. intro s.
  rewrite (locate_names (fun s => compute_statistics (series_of h1 s) (series_of h2 s))), names_known, K1, K2, S1, S2.
  reflexivity.
Qed.

(** The figure of a station shows the records of the window, their differences,
    and the statistics of those records if none were computed before. *)
Theorem C111_statistics_of_the_lines_partial :
  forall o s o' f, regular (c_1d_h o) -> regular (c_2d_h o) -> c_statistics o = None ->
    figure_at_station o s = (o', Ok f) ->
    sf_statistics f = compute_statistics (sf_1d f) (sf_2d f).
Proof.
  intros o s o' f R1 R2 N H. unfold figure_at_station in H.
  destruct (data c_2d_h o) as [o1 [h2|e]] eqn:E2; [|discriminate]. cbn [bind] in H.
  destruct (data_series c_2d_h _ _ _ E2 R2) as (a & b & -> & Sa & Sb & S2 & K2 & P2 & _).
  destruct (pick h2 s) as [s2|e] eqn:Q2; [|discriminate].
  destruct (data c_1d_h _) as [o2 [h1|e]] eqn:E1; [|discriminate]. cbn [bind] in H.
  destruct (data_series c_1d_h _ _ _ E1 R1) as (a' & b' & -> & Sa' & Sb' & S1 & K1 & P1 & Kn1 & _).
  destruct (pick h1 s) as [s1|e] eqn:Q1; [|discriminate]. rewrite set_window_twice in H.
  cbn [set_window c_window w_start w_stop c_1d_h] in *.
  pose proof (Sa' a eq_refl) as ->. pose proof (Sb' b eq_refl) as ->.
  unfold get_statistics, statistics_to_file in H. cbn [set_window c_statistics] in H. rewrite N in H.
  destruct (object_statistics _) as [o3 [l|e]] eqn:E3; cbn [bind] in H; [|discriminate].
  destruct (object_statistics_spec _ _ _ E3 R1 R2) as (a'' & b'' & -> & Sa'' & Sb'' & L).
  cbn [c_window w_start w_stop c_1d_h c_2d_h] in *.
  pose proof (Sa'' a eq_refl) as ->. pose proof (Sb'' b eq_refl) as ->.
  rewrite L in H. rewrite <- K1, (Kn1 _ _ Q1) in H. cbn [orb bind] in H. injection H as _ <-.
  cbn [sf_statistics sf_1d sf_2d]. rewrite (P1 _ _ Q1), (P2 _ _ Q2), S1, S2. reflexivity.
Qed.
Print Assumptions C111_statistics_of_the_lines_partial.

(** The lines are always of the window. *)
Theorem C111_lines :
  forall o s o' f, regular (c_1d_h o) -> regular (c_2d_h o) ->
    figure_at_station o s = (o', Ok f) ->
    exists a b, c_window o' = mk_window (Some a) (Some b) /\
      (forall x, w_start (c_window o) = Some x -> a = x) /\ (forall x, w_stop (c_window o) = Some x -> b = x) /\
      sf_1d f = within a b (series_of (c_1d_h o) s) /\ sf_2d f = within a b (series_of (c_2d_h o) s) /\
      sf_error f = difference (sf_1d f) (sf_2d f).
Proof.
  intros o s o' f R1 R2 H. unfold figure_at_station in H.
  destruct (data c_2d_h o) as [o1 [h2|e]] eqn:E2; [|discriminate]. cbn [bind] in H.
  destruct (data_series c_2d_h _ _ _ E2 R2) as (a & b & -> & Sa & Sb & S2 & K2 & P2 & _).
  destruct (pick h2 s) as [s2|e] eqn:Q2; [|discriminate].
  destruct (data c_1d_h _) as [o2 [h1|e]] eqn:E1; [|discriminate]. cbn [bind] in H.
  destruct (data_series c_1d_h _ _ _ E1 R1) as (a' & b' & -> & Sa' & Sb' & S1 & K1 & P1 & _).
  destruct (pick h1 s) as [s1|e] eqn:Q1; [|discriminate]. rewrite set_window_twice in H.
  cbn [set_window c_window w_start w_stop c_1d_h] in *.
  pose proof (Sa' a eq_refl) as ->. pose proof (Sb' b eq_refl) as ->.
  destruct (get_statistics _ s) as [o3 [st|e]] eqn:G; cbn [bind] in H; [|discriminate]. injection H as <- <-.
  cbn [sf_1d sf_2d sf_error]. exists a, b. split.
  - unfold get_statistics in G. cbn [set_window c_statistics] in G. destruct (c_statistics o) as [l|]; [injection G as <- _; reflexivity|].
    unfold statistics_to_file in G. destruct (object_statistics _) as [o4 [l|e]] eqn:E3; cbn [bind] in G; [|discriminate].
    injection G as <- _. destruct (object_statistics_spec _ _ _ E3 R1 R2) as (a'' & b'' & -> & Sa'' & Sb'' & _).
    cbn [c_window w_start w_stop set_window set_statistics] in *.
    rewrite (Sa'' a eq_refl), (Sb'' b eq_refl). reflexivity.
  - repeat split; auto; [rewrite (P1 _ _ Q1); apply S1|rewrite (P2 _ _ Q2); apply S2].
Qed.
Print Assumptions C111_lines.

(** After the first figure the statistics of a station do not change, whatever
    window is set. *)
Theorem C111_statistics_stay :
  forall o s o1 f1 w s' o2 f2, regular (c_1d_h o) -> regular (c_2d_h o) -> c_statistics o = None ->
    figure_at_station o s = (o1, Ok f1) ->
    figure_at_station (set_window o1 w) s' = (o2, Ok f2) ->
    c_statistics o1 <> None /\ c_statistics o2 = c_statistics o1 /\
    exists a b, c_window o1 = mk_window (Some a) (Some b) /\
      sf_statistics f2 =
        compute_statistics (within a b (series_of (c_1d_h o) s')) (within a b (series_of (c_2d_h o) s')).
Proof.
  intros o s o1 f1 w s' o2 f2 R1 R2 N H1 H2.
  assert (F : exists a b l, o1 = set_statistics (set_window o (mk_window (Some a) (Some b))) l /\
    forall s, locate l s =
      if known (c_1d_h o) s || known (c_2d_h o) s
      then Ok (compute_statistics (within a b (series_of (c_1d_h o) s)) (within a b (series_of (c_2d_h o) s)))
      else Raise KeyError).
  { clear H2. unfold figure_at_station in H1.
    destruct (data c_2d_h o) as [q1 [h2|e]] eqn:E2; [|discriminate]. cbn [bind] in H1.
    destruct (data_series c_2d_h _ _ _ E2 R2) as (a & b & -> & _).
    destruct (pick h2 s) as [s2|e]; [|discriminate].
    destruct (data c_1d_h _) as [q2 [h1|e]] eqn:E1; [|discriminate]. cbn [bind] in H1.
    destruct (data_series c_1d_h _ _ _ E1 R1) as (a' & b' & -> & _).
    destruct (pick h1 s) as [s1|e]; [|discriminate].
    unfold get_statistics, statistics_to_file in H1. cbn [set_window c_statistics] in H1. rewrite N in H1.
    destruct (object_statistics _) as [o3 [l|e]] eqn:E3; cbn [bind] in H1; [|discriminate].
    destruct (object_statistics_spec _ _ _ E3 R1 R2) as (a'' & b'' & -> & _ & _ & L).
    destruct (locate l s); [|discriminate]. injection H1 as <- _. exists a'', b'', l. split; [reflexivity|exact L]. }
  destruct F as (a & b & l & -> & L). cbn [set_statistics c_statistics]. split; [discriminate|].
  unfold figure_at_station in H2. destruct (data c_2d_h _) as [q1 [h2|e]] eqn:E2; [|discriminate]. cbn [bind] in H2.
  destruct (data_series c_2d_h _ _ _ E2 R2) as (a1 & b1 & -> & _).
  destruct (pick h2 s') as [s2|e]; [|discriminate].
  destruct (data c_1d_h _) as [q2 [h1|e]] eqn:E1; [|discriminate]. cbn [bind] in H2.
  destruct (data_series c_1d_h _ _ _ E1 R1) as (a2 & b2 & -> & _).
  destruct (pick h1 s') as [s1|e]; [|discriminate].
  unfold get_statistics in H2. cbn [set_window set_statistics c_statistics] in H2.
  destruct (locate l s') as [st|e] eqn:T; cbn [bind] in H2; [|discriminate]. injection H2 as <- <-.
  split; [reflexivity|]. exists a, b. split; [reflexivity|]. cbn [sf_statistics].
  rewrite L in T. destruct (known (c_1d_h o) s' || known (c_2d_h o) s'); congruence.
Qed.
Print Assumptions C111_statistics_stay.

(** Writing the statistics to a file computes them for the window of that
    moment, and a figure in the same window shows those. *)
Theorem C111_after_writing_partial :
  forall o o1 l s o2 f, regular (c_1d_h o) -> regular (c_2d_h o) ->
    statistics_to_file o = (o1, Ok l) ->
    figure_at_station o1 s = (o2, Ok f) ->
    sf_statistics f = compute_statistics (sf_1d f) (sf_2d f) /\ locate l s = Ok (sf_statistics f).
Proof.
  intros o o1 l s o2 f R1 R2 H1 H2. unfold statistics_to_file in H1.
  destruct (object_statistics o) as [q [l'|e]] eqn:E; [|discriminate]. injection H1 as <- ->.
  destruct (object_statistics_spec _ _ _ E R1 R2) as (a & b & -> & _ & _ & L).
  destruct (C111_lines (set_statistics (set_window o (mk_window (Some a) (Some b))) l) s o2 f R1 R2 H2)
    as (a' & b' & _ & Sa & Sb & L1 & L2 & _).
  cbn [set_statistics set_window c_window w_start w_stop c_1d_h c_2d_h] in *.
  pose proof (Sa a eq_refl) as ->. pose proof (Sb b eq_refl) as ->.
  unfold figure_at_station in H2. destruct (data c_2d_h _) as [q1 [h2|e]] eqn:E2; [|discriminate]. cbn [bind] in H2.
  destruct (data_series c_2d_h _ _ _ E2 R2) as (a1 & b1 & -> & _).
  destruct (pick h2 s) as [s2|e]; [|discriminate].
  destruct (data c_1d_h _) as [q2 [h1|e]] eqn:E1; [|discriminate]. cbn [bind] in H2.
  destruct (data_series c_1d_h _ _ _ E1 R1) as (a2 & b2 & -> & _).
  destruct (pick h1 s) as [s1|e]; [|discriminate].
  unfold get_statistics in H2. cbn [set_window set_statistics c_statistics] in H2.
  destruct (locate l s) as [st|e] eqn:G; cbn [bind] in H2; [|discriminate]. injection H2 as _ <-.
  cbn [sf_statistics sf_1d sf_2d] in *. split; [|reflexivity]. rewrite L in G. rewrite L1, L2.
  destruct (known (c_1d_h o) s || known (c_2d_h o) s); congruence.
Qed.
Print Assumptions C111_after_writing_partial.

(** A figure, another window, a second figure: its statistics are not those of
    its lines. *)
Theorem C111_other_window_refuted :
  let s := T "A_1.00" in
  exists o1 f1 o2 f2,
    figure_at_station (set_window three_moments (mk_window (Some 0%Z) (Some 120%Z))) s = (o1, Ok f1) /\
    figure_at_station (set_window o1 (mk_window (Some 60%Z) (Some 120%Z))) s = (o2, Ok f2) /\
    sf_1d f2 = [(60%Z, Fin 2); (120%Z, Fin 3)] /\ sf_2d f2 = [(60%Z, Fin 1); (120%Z, Fin 1)] /\
    neqb (s_bias (sf_statistics f2)) (Fin (11 # 3)) = true /\
    neqb (s_bias (compute_statistics (sf_1d f2) (sf_2d f2))) (Fin (3 # 2)) = true.
Proof.
  cbv zeta. eexists. eexists. eexists. eexists. split; [reflexivity|]. split; [reflexivity|].
  repeat split; reflexivity.
Qed.
Print Assumptions C111_other_window_refuted.

(** * C112 *)
Local Open Scope Q_scope.

(** The shares of two discharges with a total that is not zero. *)
Theorem C112_shares :
  forall a b : Q, ~ a + b == 0 ->
    exists t x y, shares_of (Fin a) (Fin b) = mk_shares (Fin t) (Fin x) (Fin y) /\
      t == a + b /\ x == 100 * a / (a + b) /\ y == 100 * b / (a + b) /\ x + y == 100 /\
      (0 <= a -> 0 <= b -> 0 <= x <= 100 /\ 0 <= y <= 100).
Proof.
  intros a b N. unfold shares_of, nansum. cbn [filter isnan negb fold_left nadd].
  assert (T' : ~ 0 + a + b == 0) by (intro E; apply N; rewrite <- E; ring).
  exists (0 + a + b), (a / (0 + a + b) * 100), (b / (0 + a + b) * 100). unfold ndiv.
  replace (Qeq_bool (0 + a + b) 0) with false
    by (symmetry; destruct (Qeq_bool (0 + a + b) 0) eqn:E; [apply Qeq_bool_iff in E; contradiction|reflexivity]).
  split; [reflexivity|]. split; [ring|]. split; [rewrite <- (Qplus_0_l a) at 3; field; auto|]. split; [rewrite <- (Qplus_0_l a) at 2; field; auto|].
  split; [field; auto|]. intros A B.
  assert (P : 0 < 0 + a + b).
  { assert (0 <= 0 + a + b) by lra. destruct (Qlt_le_dec 0 (0 + a + b)) as [L|L]; [exact L|]. exfalso. apply T'. lra. }
  assert (X : a / (0 + a + b) * 100 + b / (0 + a + b) * 100 == 100) by (field; auto).
  assert (XA : 0 <= a / (0 + a + b)) by (apply Qle_shift_div_l; [exact P|lra]).
  assert (XB : 0 <= b / (0 + a + b)) by (apply Qle_shift_div_l; [exact P|lra]).
  lra.
Qed.
Print Assumptions C112_shares.

(** The lines are the discharges of the two stations in the window; the shares
    are those of the values of the lines at each moment. *)
Theorem C112_figure :
  forall o first second o' f, regular (c_1d_q o) -> regular (c_2d_q o) ->
    figure_discharge o [first; second] = (o', Ok f) ->
    exists a b, c_window o' = mk_window (Some a) (Some b) /\
      (forall x, w_start (c_window o) = Some x -> a = x) /\ (forall x, w_stop (c_window o) = Some x -> b = x) /\
      let w t s := within a b (series_of t s) in
      df_lines f = [(w (c_2d_q o) first, w (c_1d_q o) first); (w (c_2d_q o) second, w (c_1d_q o) second)] /\
      df_2d f = map (fun p => shares_of (fst p) (snd p))
                  (combine (map snd (w (c_2d_q o) first)) (map snd (w (c_2d_q o) second))) /\
      df_1d f = map (fun p => shares_of (fst p) (snd p))
                  (combine (map snd (w (c_1d_q o) first)) (map snd (w (c_1d_q o) second))) /\
      df_error f = difference (series_of (c_1d_q o) second) (series_of (c_2d_q o) second).
Proof.
  intros o first second o' f R1 R2 H. unfold figure_discharge in H.
  destruct (data c_2d_q o) as [o1 [q2|e]] eqn:E2; [|discriminate]. cbn [bind] in H.
  destruct (data_series c_2d_q _ _ _ E2 R2) as (a & b & -> & Sa & Sb & S2 & K2 & P2 & _ & G2).
  destruct (pick q2 first) as [l2|e] eqn:Q2; cbn [bind] in H; [|discriminate].
  destruct (data c_1d_q _) as [o2 [q1|e]] eqn:E1; [|discriminate]. cbn [bind] in H.
  destruct (data_series c_1d_q _ _ _ E1 R1) as (a' & b' & -> & Sa' & Sb' & S1 & K1 & P1 & _ & G1).
  cbn [set_window c_window w_start w_stop c_1d_q] in *.
  pose proof (Sa' a eq_refl) as ->. pose proof (Sb' b eq_refl) as ->.
  destruct (pick q1 first) as [l1|e] eqn:Q1; cbn [bind] in H; [|discriminate].
  destruct (pick q2 second) as [m2|e] eqn:M2; cbn [bind] in H; [|discriminate].
  destruct (pick q1 second) as [m1|e] eqn:M1; cbn [bind] in H; [|discriminate].
  destruct (pick (c_1d_q o) second) as [e1|e] eqn:X1; cbn [bind] in H; [|discriminate].
  destruct (pick (c_2d_q o) second) as [e2|e] eqn:X2; cbn [bind] in H; [|discriminate].
  destruct (distribution q2 first second) as [d2|e] eqn:D2; cbn [bind] in H; [|discriminate].
  destruct (distribution q1 first second) as [d1|e] eqn:D1; cbn [bind] in H; [|discriminate].
  injection H as <- <-. exists a, b. split; [reflexivity|]. split; [exact Sa|]. split; [exact Sb|]. cbv zeta.
  cbn [df_lines df_2d df_1d df_error].
  assert (PK : forall t s l, pick t s = Ok l -> l = series_of t s).
  { intros t s l P. unfold pick in P. unfold series_of. destruct (column (w_cols t) s); [injection P as <-; reflexivity|discriminate]. }
  assert (DD : forall q d, regular q -> distribution q first second = Ok d ->
    d = map (fun p => shares_of (fst p) (snd p)) (combine (map snd (series_of q first)) (map snd (series_of q second)))).
  { intros q d G D. unfold distribution in D. unfold series_of.
    destruct (column (w_cols q) first) as [x|] eqn:C1; cbn [bind] in D; [|discriminate].
    destruct (column (w_cols q) second) as [y|] eqn:C2; cbn [bind] in D; [|discriminate]. injection D as <-.
    unfold regular in G. rewrite Forall_forall in G. pose proof (G _ (column_in _ _ _ C1)) as L1.
    pose proof (G _ (column_in _ _ _ C2)) as L2. cbn [snd] in L1, L2.
    assert (SC : forall c : list num, length c = length (w_times q) -> map snd (combine (w_times q) c) = c).
    { generalize (w_times q). clear. intro ts. induction ts as [|t ts IH]; intros [|x c] L; try discriminate; [reflexivity|].
      cbn [combine map snd]. f_equal. apply IH. injection L as L. exact L. }
    rewrite (SC x L1), (SC y L2). reflexivity. }
  rewrite <- !S2, <- !S1. rewrite (PK _ _ _ Q2), (PK _ _ _ Q1), (PK _ _ _ M2), (PK _ _ _ M1).
  split; [reflexivity|]. split; [exact (DD _ _ G2 D2)|]. split; [exact (DD _ _ G1 D1)|].
  rewrite (PK _ _ _ X1), (PK _ _ _ X2). reflexivity.
Qed.
Print Assumptions C112_figure.

(** Anything else than two stations is refused. *)
Theorem C112_two_stations :
  forall o stations, length stations <> 2%nat -> figure_discharge o stations = (o, Raise ValueError).
Proof.
  intros o [|x [|y [|z stations]]] H; try reflexivity. exfalso. apply H. reflexivity.
Qed.
Print Assumptions C112_two_stations.

(** A missing discharge counts as nothing: the other station gets all. *)
Theorem C112_missing_refuted :
  forall b : Q, ~ b == 0 ->
    exists t y, shares_of NaN (Fin b) = mk_shares (Fin t) NaN (Fin y) /\ t == b /\ y == 100.
Proof.
  intros b N. unfold shares_of, nansum. cbn [filter isnan negb fold_left nadd]. exists (0 + b), (b / (0 + b) * 100).
  assert (T' : ~ 0 + b == 0) by (intro E; apply N; rewrite <- E; ring). unfold ndiv.
  replace (Qeq_bool (0 + b) 0) with false
    by (symmetry; destruct (Qeq_bool (0 + b) 0) eqn:E; [apply Qeq_bool_iff in E; contradiction|reflexivity]).
  split; [reflexivity|]. split; [ring|]. field. auto.
Qed.
Print Assumptions C112_missing_refuted.

(** The error is of the second station only and not of the window. *)
Definition two_rivers (a b : list num) : wtable := mk_wtable [0; 60; 120]%Z [(T "WL_1.00", a); (T "PK_1.00", b)].
Definition rivers : comparison :=
  mk_comparison (mk_window (Some 60%Z) (Some 120%Z)) (day_table []) (day_table [])
    (two_rivers [Fin 30; Fin 30; Fin 60] [Fin 70; Fin 10; Fin 20])
    (two_rivers [Fin 30; Fin 50; Fin 60] [Fin 10; Fin 10; Fin 20])
    (day_table []) (day_table []) None.
Theorem C112_error_refuted :
  exists o f, figure_discharge rivers [T "WL_1.00"; T "PK_1.00"] = (o, Ok f) /\
    (* a moment before the window *)
    df_error f = [(0%Z, Fin 60); (60%Z, Fin 0); (120%Z, Fin 0)] /\
    (* the first station differs in the window *)
    (exists l2 l1, nth_error (df_lines f) 0 = Some (l2, l1) /\ difference l1 l2 = [(60%Z, Fin (-20)); (120%Z, Fin 0)]).
Proof.
  eexists. eexists. split; [reflexivity|]. split; [reflexivity|]. eexists. eexists. split; reflexivity.
Qed.
Print Assumptions C112_error_refuted.

Theorem C112_case :
  exists o f, figure_discharge rivers [T "WL_1.00"; T "PK_1.00"] = (o, Ok f) /\
    map (fun s => neqb (sh_first s) (Fin 75) && neqb (sh_second s) (Fin 25)) (df_1d f) = [true; true] /\
    map (fun s => sh_total s) (df_1d f) = [Fin 40; Fin 80].
Proof. eexists. eexists. split; [reflexivity|]. split; reflexivity. Qed.
Print Assumptions C112_case.
