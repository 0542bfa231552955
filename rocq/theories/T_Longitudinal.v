(** C108 (differences along a route) and C109 (summary of the statistics). *)
From Coq Require Import String List Ascii ZArith QArith Bool Lia Lqa Permutation.
From Verif Require Import PyBase Num Spec Text L_Text L_Num M_Compare T_Window T_Route T_Stats M_Longitudinal.
Import ListNotations.
Local Open Scope nat_scope.

(** * C108 *)

(** Each station of a route with its river kilometre and its columns in both
    tables. *)
Record place := mk_place { p_name : text; p_km : num; p_1d : list num; p_2d : list num }.
Definition places_of (h1 h2 : wtable) (stations : list text) (rkms : list num) (ps : list place) : Prop :=
  map p_name ps = stations /\ map p_km ps = rkms /\
  Forall (fun p => column (w_cols h1) (p_name p) = Ok (p_1d p) /\ column (w_cols h2) (p_name p) = Ok (p_2d p) /\
                   length (p_1d p) = length (w_times h1) /\ length (p_2d p) = length (w_times h2)) ps.

Lemma same_labels_refl l : same_labels l l = true.
Proof. induction l as [|x l IH]; cbn; [reflexivity|]. rewrite same_value_refl, IH. reflexivity. Qed.

Lemma py_index_nth (l : list num) (i : nat) : i < length l -> py_index l (Z.of_nat i) = Ok (nth i l NaN).
Proof.
  intros H. unfold py_index. cbv zeta. replace (Z.of_nat i <? 0)%Z with false by (symmetry; apply Z.ltb_ge; lia).
  replace (Z.of_nat i <? 0)%Z with false by (symmetry; apply Z.ltb_ge; lia).
  rewrite Nat2Z.id. rewrite (nth_error_nth' l NaN H). reflexivity.
Qed.

(** Record [k] of the times is drawn for [day]: the first one that is not
    before it, or the last one if all are. *)
Definition record_of (ts : list Z) (day : Z) (k : nat) : Prop :=
  k < length ts /\
  ((exists t, nth_error ts k = Some t /\ (day <= t)%Z /\ Forall (fun x => (x < day)%Z) (firstn k ts)) \/
   (Forall (fun x => (x < day)%Z) ts /\ S k = length ts)).

Lemma nearest_record ts day : ts <> [] ->
  exists k, get_nearest_time ts day = Z.of_nat k /\ record_of ts day k.
Proof.
  intros N. destruct (C71_record_of_a_moment ts day N) as (B & [(b & t & a & E & G & L & F)|(F & G)]).
  - exists (length b). split; [exact G|]. subst ts. split; [rewrite app_length; cbn; lia|]. left. exists t.
    rewrite nth_error_app2, Nat.sub_diag by lia. split; [reflexivity|]. split; [exact L|].
    rewrite firstn_app, Nat.sub_diag, firstn_all, app_nil_r. exact F.
  - exists (length ts - 1). rewrite G. split; [lia|]. split; [destruct ts; [contradiction|cbn; lia]|].
    right. split; [exact F|]. destruct ts; [contradiction|cbn; lia].
Qed.

Lemma data_for_time_ok (h : wtable) (col : place -> list num) ps k :
  Forall (fun p => column (w_cols h) (p_name p) = Ok (col p) /\ length (col p) = length (w_times h)) ps ->
  k < length (w_times h) ->
  data_for_time h (map p_name ps) (map p_km ps) (Z.of_nat k) = Ok (map (fun p => (p_km p, nth k (col p) NaN)) ps).
Proof.
  intros F K. unfold data_for_time.
  assert (E : map_res (fun s => c <- column (w_cols h) s ;; py_index c (Z.of_nat k)) (map p_name ps) =
              Ok (map (fun p => nth k (col p) NaN) ps)).
  { induction F as [|p ps (C & L) F IH]; [reflexivity|]. cbn [map map_res]. rewrite C. cbn [bind].
    rewrite py_index_nth by lia. rewrite IH. reflexivity. }
  rewrite E. cbn [bind]. f_equal. clear. induction ps as [|p ps IH]; [reflexivity|]. cbn. rewrite IH. reflexivity.
Qed.

Lemma subtract_same_labels {A} (km v w : A -> num) (ps : list A) :
  subtract (map (fun p => (km p, v p)) ps) (map (fun p => (km p, w p)) ps) =
  map (fun p => (km p, nsub (v p) (w p))) ps.
Proof.
  unfold subtract. rewrite !map_map. cbn [fst].
  rewrite same_labels_refl. induction ps as [|p ps IH]; [reflexivity|]. cbn. rewrite IH. reflexivity.
Qed.

(** A line for each moment, labelled with it: at each station of the route the
    1D level of the record of the moment in the 1D results minus the 2D level
    of the record of the moment in the 2D results. *)
Theorem C108_lines_of_the_moments :
  forall h1 h2 stations rkms ps moments,
    places_of h1 h2 stations rkms ps -> w_times h1 <> [] -> w_times h2 <> [] ->
    time_moments (w_times h1) = Ok moments ->
    exists lines, time_lines h1 h2 stations rkms = Ok lines /\
      Forall2 (fun day line => exists l1 l2 k1 k2,
        line = (day, l1, l2) /\ record_of (w_times h1) day k1 /\ record_of (w_times h2) day k2 /\
        l1 = map (fun p => (p_km p, nth k1 (p_1d p) NaN)) ps /\
        subtract l1 l2 = map (fun p => (p_km p, nsub (nth k1 (p_1d p) NaN) (nth k2 (p_2d p) NaN))) ps) moments lines.
Proof.
  intros h1 h2 stations rkms ps moments (<- & <- & F) N1 N2 M. unfold time_lines. rewrite M. cbn [bind]. clear M.
  induction moments as [|day moments IH]; [exists []; split; [reflexivity|constructor]|].
  destruct IH as (lines & E & FL).
  destruct (nearest_record (w_times h1) day N1) as (k1 & G1 & R1).
  destruct (nearest_record (w_times h2) day N2) as (k2 & G2 & R2).
  cbn [map_res]. rewrite G1, G2.
  rewrite (data_for_time_ok h1 p_1d ps k1); [|revert F; apply Forall_impl; tauto|apply R1]. cbn [bind].
  rewrite (data_for_time_ok h2 p_2d ps k2); [|revert F; apply Forall_impl; tauto|apply R2]. cbn [bind].
  rewrite E. eexists. split; [reflexivity|]. constructor; [|exact FL].
  eexists _, _, k1, k2. split; [reflexivity|]. repeat (split; [assumption || reflexivity|]).
  apply subtract_same_labels.
Qed.
Print Assumptions C108_lines_of_the_moments.

Lemma in_firstn {A} (l : list A) a b x : nth_error l a = Some x -> a < b -> In x (firstn b l).
Proof.
  revert a b. induction l as [|y l IH]; intros [|a] [|b] E L; try lia; try discriminate.
  - injection E as <-. left. reflexivity.
  - right. apply (IH a b); [exact E|lia].
Qed.

Lemma record_unique ts day k k' : record_of ts day k -> record_of ts day k' -> k = k'.
Proof.
  assert (G : forall k k' t t', nth_error ts k = Some t -> (day <= t)%Z -> nth_error ts k' = Some t' ->
            Forall (fun x => (x < day)%Z) (firstn k' ts) -> k' <= k).
  { intros a b t t' Ha La _ Fb. destruct (Nat.le_gt_cases b a) as [|L]; [assumption|exfalso].
    rewrite Forall_forall in Fb. assert (t < day)%Z; [|lia]. apply Fb.
    exact (in_firstn ts a b t Ha L). }
  intros (K & [(t & E & L & F)|(A & S1)]) (K' & [(t' & E' & L' & F')|(A' & S1')]); [| | |lia].
  - pose proof (G _ _ _ _ E L E' F'). pose proof (G _ _ _ _ E' L' E F). lia.
  - exfalso. rewrite Forall_forall in A'. apply nth_error_In in E. apply A' in E. lia.
  - exfalso. rewrite Forall_forall in A. apply nth_error_In in E'. apply A in E'. lia.
Qed.

(** If both models have results at the same times, 1D and 2D are compared at
    one time. *)
Theorem C108_same_time_partial :
  forall h1 h2 stations rkms ps moments,
    places_of h1 h2 stations rkms ps -> w_times h1 <> [] -> w_times h2 = w_times h1 ->
    time_moments (w_times h1) = Ok moments ->
    exists lines, time_lines h1 h2 stations rkms = Ok lines /\
      Forall2 (fun day line => exists l1 l2 k,
        line = (day, l1, l2) /\ record_of (w_times h1) day k /\
        subtract l1 l2 = map (fun p => (p_km p, nsub (nth k (p_1d p) NaN) (nth k (p_2d p) NaN))) ps) moments lines.
Proof.
  intros h1 h2 stations rkms ps moments P N E M.
  destruct (C108_lines_of_the_moments h1 h2 stations rkms ps moments P N ltac:(congruence) M) as (lines & L & F).
  exists lines. split; [exact L|]. revert F. clear - E. induction 1 as [|day line ds ls H F IH]; constructor; [|exact IH].
  destruct H as (l1 & l2 & k1 & k2 & -> & R1 & R2 & _ & S). rewrite E in R2.
  rewrite <- (record_unique _ _ _ _ R1 R2) in S. exists l1, l2, k1. auto.
Qed.
Print Assumptions C108_same_time_partial.

(** Both models have the same water levels, that rise by a metre a day.  The 1D
    results are at midnight and the 2D results at noon: the 2D level is half a
    day later, and the figure shows 1D half a metre below 2D. *)
Definition days1 : list Z := map (fun i => (Z.of_nat i * day)%Z) (seq 0 7).
Definition days2 : list Z := map (fun i => (Z.of_nat i * day + 43200)%Z) (seq 0 7).
Definition rise (t : Z) : num := Fin (t # 86400).
Definition one_station : list text := [T "NR_919.00"].
Definition at_midnight : wtable := mk_wtable days1 [(T "NR_919.00", map rise days1)].
Definition at_noon : wtable := mk_wtable days2 [(T "NR_919.00", map rise days2)].

Theorem C108_other_times_refuted :
  exists lines, time_lines at_midnight at_noon one_station [Fin 919] = Ok lines /\ length lines = 6 /\
    Forall (fun line => exists d, subtract (snd (fst line)) (snd line) = [(Fin 919, Fin d)] /\ (d == - (1 # 2))%Q) lines.
Proof.
  eexists. split; [vm_compute; reflexivity|]. split; [reflexivity|].
  repeat (constructor; [eexists; split; [vm_compute; reflexivity|reflexivity]|]). constructor.
Qed.
Print Assumptions C108_other_times_refuted.

(** ** Statistics *)

Definition different (km : place -> num) (a b : place) : Prop := same_value (km b) (km a) = false.

Lemma same_value_sym x y : same_value x y = same_value y x.
Proof.
  unfold same_value. destruct x as [a| | |], y as [b| | |]; cbn; try reflexivity.
  rewrite !orb_false_r. destruct (Qeq_bool a b) eqn:E, (Qeq_bool b a) eqn:F; auto.
  - apply Qeq_bool_iff in E. symmetry in E. apply Qeq_bool_iff in E. congruence.
  - apply Qeq_bool_iff in F. symmetry in F. apply Qeq_bool_iff in F. congruence.
Qed.

Lemma first_with_own (col : place -> list num) ps p :
  ForallOrdPairs (different p_km) ps -> In p ps -> first_with (p_km p) (map (fun q => (p_km q, col q)) ps) = col p.
Proof.
  induction ps as [|q ps IH]; intros D I; [destruct I|]. cbn [map first_with].
  inversion D as [|? ? D1 D2]; subst. destruct I as [->|I]; [rewrite same_value_refl; reflexivity|].
  rewrite Forall_forall in D1. rewrite (D1 p I). apply IH; assumption.
Qed.

Lemma apply_stat_own s (col : place -> list num) ps : ForallOrdPairs (different p_km) ps ->
  apply_stat s (map (fun q => (p_km q, col q)) ps) = map (fun q => (p_km q, stat_of s (col q))) ps.
Proof.
  intros D. unfold apply_stat. rewrite map_map. cbn [fst]. apply map_ext_in. intros p I.
  rewrite (first_with_own col ps p D I). reflexivity.
Qed.

Lemma along_route_places (h : wtable) (col : place -> list num) ps :
  Forall (fun p => column (w_cols h) (p_name p) = Ok (col p)) ps ->
  ForallOrdPairs (fun a b => same_row (col b) (col a) = false) ps ->
  get_data_along_route (w_cols h) (map p_name ps) (map p_km ps) = Ok (map (fun p => (p_km p, col p)) ps).
Proof.
  intros F D. unfold get_data_along_route.
  assert (E : map_res (column (w_cols h)) (map p_name ps) = Ok (map col ps)).
  { clear D. induction F as [|p ps C F IH]; [reflexivity|]. cbn [map map_res]. rewrite C, IH. reflexivity. }
  rewrite E. cbn [bind]. f_equal.
  assert (C : combine (map p_km ps) (map col ps) = map (fun p => (p_km p, col p)) ps).
  { clear. induction ps as [|p ps IH]; [reflexivity|]. cbn. rewrite IH. reflexivity. }
  rewrite C. apply drop_distinct; [reflexivity|]. clear - D. induction D as [|p ps H D IH]; cbn; constructor; [|exact IH].
  rewrite Forall_map. exact H.
Qed.

(** If the river kilometres of the stations are different, and no two stations
    have the same 1D levels or the same 2D levels, the figure of a statistic has
    at each station the statistic of 1D minus that of 2D. *)
Theorem C108_statistics_partial :
  forall s h1 h2 stations rkms ps,
    places_of h1 h2 stations rkms ps ->
    ForallOrdPairs (different p_km) ps ->
    ForallOrdPairs (fun a b => same_row (p_1d b) (p_1d a) = false) ps ->
    ForallOrdPairs (fun a b => same_row (p_2d b) (p_2d a) = false) ps ->
    exists l1 l2, stat_lines s h1 h2 stations rkms = Ok (l1, l2) /\
      l1 = map (fun p => (p_km p, stat_of s (p_1d p))) ps /\
      subtract l1 l2 = map (fun p => (p_km p, nsub (stat_of s (p_1d p)) (stat_of s (p_2d p)))) ps.
Proof.
  intros s h1 h2 stations rkms ps (<- & <- & F) D D1 D2. unfold stat_lines.
  rewrite (along_route_places h1 p_1d ps); [|revert F; apply Forall_impl; tauto|exact D1]. cbn [bind].
  rewrite (along_route_places h2 p_2d ps); [|revert F; apply Forall_impl; tauto|exact D2]. cbn [bind].
  rewrite !apply_stat_own by exact D. eexists _, _. split; [reflexivity|]. split; [reflexivity|].
  apply subtract_same_labels.
Qed.
Print Assumptions C108_statistics_partial.

(** The statistics are those of the table of statistics (C70). *)
Theorem C108_the_same_statistics :
  forall ser, stat_of Last3 (map snd ser) = stat_last 3 ser /\ stat_of Last25 (map snd ser) = stat_last 25 ser /\
    stat_of Max3 (map snd ser) = stat_max 3 ser /\ stat_of Max13 (map snd ser) = stat_max 13 ser.
Proof. intros ser. repeat split. Qed.
Print Assumptions C108_the_same_statistics.

Lemma same_value_trans x y z : same_value x y = true -> same_value x z = same_value y z.
Proof.
  unfold same_value. destruct x as [a| | |], y as [b| | |]; cbn; try discriminate; try reflexivity.
  rewrite orb_false_r. intros E. apply Qeq_bool_iff in E. destruct z as [c| | |]; cbn; auto.
  rewrite !orb_false_r. apply Bool.eq_iff_eq_true. rewrite !Qeq_bool_iff. rewrite E. reflexivity.
Qed.

Lemma value_at_same k k' l : same_value k k' = true -> value_at k l = value_at k' l.
Proof.
  intros E. induction l as [|(j & v) l IH]; [reflexivity|]. cbn. rewrite (same_value_trans _ _ _ E), IH. reflexivity.
Qed.

Lemma value_at_map (f : num -> num) ks k : (forall x y, same_value x y = true -> f x = f y) ->
  existsb (same_value k) ks = true -> value_at k (map (fun x => (x, f x)) ks) = f k.
Proof.
  intros P. induction ks as [|x ks IH]; cbn; [discriminate|]. destruct (same_value k x) eqn:E; cbn; [|exact IH].
  intros _. symmetry. apply P, E.
Qed.

Lemma value_at_missing k l : existsb (same_value k) (map fst l) = false -> value_at k l = NaN.
Proof.
  induction l as [|(x & v) l IH]; [reflexivity|]. cbn. rewrite orb_false_iff. intros (-> & H). apply IH, H.
Qed.

(** At every label of one of the two lines the difference is that of the two
    values there; it is missing if one of the lines does not have the label. *)
Theorem C108_difference_by_label :
  forall a b k, same_labels (map fst a) (map fst b) = false ->
    existsb (same_value k) (map fst a) || existsb (same_value k) (map fst b) = true ->
    value_at k (subtract a b) = nsub (value_at k a) (value_at k b).
Proof.
  intros a b k N E. unfold subtract. rewrite N. cbv zeta.
  apply (value_at_map (fun x => nsub (value_at x a) (value_at x b))).
  - intros x y S. rewrite (value_at_same x y a S), (value_at_same x y b S). reflexivity.
  - rewrite existsb_app. destruct (existsb (same_value k) (map fst a)) eqn:A; [reflexivity|]. cbn [orb] in *.
    apply existsb_exists in E. destruct E as (x & I & S). apply existsb_exists. exists x. split; [|exact S].
    apply in_map_iff in I. destruct I as ((x' & v) & X & I). cbn in X. subst x'. apply in_map_iff. exists (x, v).
    split; [reflexivity|]. apply filter_In. split; [exact I|]. cbn [fst]. apply negb_true_iff.
    destruct (existsb (same_value x) (map fst a)) eqn:X; [|reflexivity]. exfalso.
    apply existsb_exists in X. destruct X as (y & J & T).
    assert (existsb (same_value k) (map fst a) = true); [|congruence].
    apply existsb_exists. exists y. split; [exact J|]. rewrite (same_value_trans k x y S). exact T.
Qed.
Print Assumptions C108_difference_by_label.

(** Lines with different numbers of stations are compared by label. *)
Theorem C108_different_numbers_of_stations :
  forall a b : list (num * num), length a <> length b -> same_labels (map fst a) (map fst b) = false.
Proof.
  assert (G : forall x y, same_labels x y = true -> length x = length y).
  { induction x as [|u x IH]; intros [|v y]; cbn; try discriminate; auto.
    intro E. apply andb_true_iff in E. f_equal. apply IH. apply E. }
  intros a b N. destruct (same_labels (map fst a) (map fst b)) eqn:E; [|reflexivity].
  apply G in E. rewrite !map_length in E. contradiction.
Qed.
Print Assumptions C108_different_numbers_of_stations.

(** Two branches that meet have each a station at the river kilometre of the
    junction: the second one is drawn with the levels of the first one.  1D and
    2D differ by two metres at the second one, and the figure shows none. *)
Theorem C108_junction_refuted :
  let h1 := mk_wtable [0%Z] [(T "BR_867", [Fin 10]); (T "WL_867", [Fin 9])] in
  let h2 := mk_wtable [0%Z] [(T "BR_867", [Fin 10]); (T "WL_867", [Fin 11])] in
  exists l1 l2, stat_lines Max3 h1 h2 [T "BR_867"; T "WL_867"] [Fin 867; Fin 867] = Ok (l1, l2) /\
    exists x y, subtract l1 l2 = [(Fin 867, Fin x); (Fin 867, Fin y)] /\ (x == 0)%Q /\ (y == 0)%Q.
Proof. eexists _, _. split; [vm_compute; reflexivity|]. eexists _, _. split; [vm_compute; reflexivity|]. split; reflexivity. Qed.
Print Assumptions C108_junction_refuted.

(** Two stations with the same 1D levels: there is no difference at the second
    one, although 1D and 2D levels are known. *)
Theorem C108_equal_levels_refuted :
  let h1 := mk_wtable [0%Z] [(T "BR_867", [Fin 10]); (T "BR_868", [Fin 10])] in
  let h2 := mk_wtable [0%Z] [(T "BR_867", [Fin 10]); (T "BR_868", [Fin 11])] in
  exists l1 l2, stat_lines Max3 h1 h2 [T "BR_867"; T "BR_868"] [Fin 867; Fin 868] = Ok (l1, l2) /\
    value_at (Fin 868) (subtract l1 l2) = NaN.
Proof. eexists _, _. split; [vm_compute; reflexivity|]. vm_compute. reflexivity. Qed.
Print Assumptions C108_equal_levels_refuted.

(** Three stations, three records *)
Theorem C108_case :
  let h1 := mk_wtable [0%Z; 1%Z; 2%Z] [(T "BR_1", [Fin 1; Fin 2; Fin 3]); (T "BR_2", [Fin 2; Fin 3; Fin 4])] in
  let h2 := mk_wtable [0%Z; 1%Z; 2%Z] [(T "BR_1", [Fin 1; Fin 1; Fin 1]); (T "BR_2", [Fin 0; Fin 0; Fin 3])] in
  exists l1 l2, stat_lines Last3 h1 h2 [T "BR_1"; T "BR_2"] [Fin 1; Fin 2] = Ok (l1, l2) /\
    exists x y, subtract l1 l2 = [(Fin 1, Fin x); (Fin 2, Fin y)] /\ (x == 1)%Q /\ (y == 2)%Q.
Proof. eexists _, _. split; [vm_compute; reflexivity|]. eexists _, _. split; [vm_compute; reflexivity|]. split; reflexivity. Qed.
Print Assumptions C108_case.

(** * C109 *)

Lemma unique_in seen l x : In x (unique seen l) <-> In x l /\ existsb (teqb x) seen = false.
Proof.
  revert seen. induction l as [|y l IH]; intros seen; cbn [unique]; [split; [intros []|intros ([] & _)]|].
  destruct (existsb (teqb y) seen) eqn:E.
  - rewrite IH. cbn [In]. split; [intros (A & B); auto|]. intros ([->|A] & B); [congruence|auto].
  - cbn [In]. rewrite IH. cbn [existsb]. rewrite orb_false_iff. split.
    + intros [->|(A & B & C)]; [auto|auto].
    + intros ([->|A] & B); [left; reflexivity|].
      destruct (teqb x y) eqn:X; [left; apply teqb_eq in X; congruence|right; auto].
Qed.

Lemma unique_nodup seen l : NoDup (unique seen l).
Proof.
  revert seen. induction l as [|y l IH]; intros seen; cbn [unique]; [constructor|].
  destruct (existsb (teqb y) seen); [apply IH|]. constructor; [|apply IH].
  rewrite unique_in. cbn [existsb]. rewrite teqb_refl. intros (_ & H). discriminate H.
Qed.

(** What a line should hold for a set of stations: the mean of the values that
    are known, if any. *)
Definition mean_of (vals : list num) (m : num) : Prop :=
  (numbers vals = [] /\ m = NaN) \/
  (exists q, m = Fin q /\ numbers vals <> [] /\ (q == qmean (numbers vals))%Q /\
     forall lo hi, (forall v, In v (numbers vals) -> (lo <= v <= hi)%Q) -> (lo <= q <= hi)%Q).

Lemma nanmean_mean_of l : no_inf l -> mean_of l (nanmean l).
Proof.
  intros H. destruct (nanmean_numbers l H) as [(N & E)|(N & m & E & M)]; [left; auto|right].
  exists m. repeat split; auto; rewrite M.
  - apply qmean_bound_le; [exact N|]. intros v I. apply (H0 v I).
  - apply qmean_bound_ge; [exact N|]. intros v I. apply (H0 v I).
Qed.

Lemma no_inf_filter (f : station_stats -> num) p s : no_inf (map f s) -> no_inf (map f (filter p s)).
Proof.
  unfold no_inf. rewrite !Forall_map. rewrite !Forall_forall. intros H x I. apply filter_In in I. apply H, I.
Qed.

(** One line for each branch that occurs; it holds the means over the stations
    of that branch and over the LMW stations among these, and each mean lies
    between the lowest and the highest value. *)
Theorem C109_lines :
  forall s, no_inf (map st_bias s) -> no_inf (map st_std s) ->
    NoDup (map sl_branch (summary s)) /\
    (forall b, In b (map sl_branch (summary s)) <-> exists x, In x s /\ branch_of x = b) /\
    (forall line, In line (summary s) ->
       let on := filter (fun x => teqb (branch_of x) (sl_branch line)) s in
       mean_of (map st_bias on) (sl_bias line) /\ mean_of (map st_std on) (sl_std line) /\
       mean_of (map st_bias (filter is_lmw on)) (sl_lmw_bias line) /\
       mean_of (map st_std (filter is_lmw on)) (sl_lmw_std line)).
Proof.
  intros s Hb Hs. unfold summary. rewrite map_map. cbn [sl_branch]. rewrite map_id.
  split; [apply unique_nodup|]. split.
  - intros b. rewrite unique_in. cbn [existsb]. rewrite in_map_iff. split; [intros ((x & E & I) & _); eauto|].
    intros (x & I & E). split; [eauto|reflexivity].
  - intros line I. apply in_map_iff in I. destruct I as (b & <- & _). cbn [sl_branch sl_bias sl_std sl_lmw_bias sl_lmw_std].
    assert (E : filter (fun x => teqb (branch_of x) b && is_lmw x) s = filter is_lmw (filter (fun x => teqb (branch_of x) b) s)).
    { clear. induction s as [|x s IH]; [reflexivity|]. cbn. destruct (teqb (branch_of x) b); cbn; [|exact IH].
      destruct (is_lmw x); rewrite IH; reflexivity. }
    rewrite E. repeat split; apply nanmean_mean_of; repeat apply no_inf_filter; assumption.
Qed.
Print Assumptions C109_lines.

(** The lines are in the order of the first station of each branch. *)
Theorem C109_order :
  forall s b before after, map sl_branch (summary s) = before ++ b :: after ->
    exists s1 x s2, s = s1 ++ x :: s2 /\ branch_of x = b /\
      (forall y, In y s1 -> In (branch_of y) before) /\ (forall c, In c before -> exists y, In y s1 /\ branch_of y = c).
Proof.
  intros s b before after. unfold summary. rewrite map_map. cbn [sl_branch]. rewrite map_id.
  assert (G : forall seen before, unique seen (map branch_of s) = before ++ b :: after ->
            exists s1 x s2, s = s1 ++ x :: s2 /\ branch_of x = b /\
              (forall y, In y s1 -> In (branch_of y) before \/ existsb (teqb (branch_of y)) seen = true) /\
              (forall c, In c before -> exists y, In y s1 /\ branch_of y = c)).
  { clear before. induction s as [|y s IH]; intros seen before E; cbn [map unique] in E; [destruct before; discriminate|].
    destruct (existsb (teqb (branch_of y)) seen) eqn:X.
    - destruct (IH seen before E) as (s1 & x & s2 & -> & B & P & Q). exists (y :: s1), x, s2. split; [reflexivity|].
      split; [exact B|]. split.
      + intros z [<-|I]; [right; exact X|apply P, I].
      + intros c I. destruct (Q c I) as (z & J & K). exists z. split; [right; exact J|exact K].
    - destruct before as [|c before].
      + injection E as E1 _. exists [], y, s. split; [reflexivity|]. split; [exact E1|]. split; [intros z []|intros c []].
      + injection E as <- E. destruct (IH _ _ E) as (s1 & x & s2 & -> & B & P & Q). exists (y :: s1), x, s2.
        split; [reflexivity|]. split; [exact B|]. split.
        * intros z [<-|I]; [left; left; reflexivity|]. destruct (P z I) as [J|J]; [left; right; exact J|].
          cbn [existsb] in J. apply orb_prop in J. destruct J as [J|J]; [left; left; apply teqb_eq in J; auto|right; exact J].
        * intros c [<-|I]; [exists y; split; [left; reflexivity|reflexivity]|]. destruct (Q c I) as (z & J & K).
          exists z. split; [right; exact J|exact K]. }
  intros E. destruct (G [] before E) as (s1 & x & s2 & A & B & P & Q). exists s1, x, s2. repeat split; auto.
  intros y I. destruct (P y I) as [J|J]; [exact J|discriminate J].
Qed.
Print Assumptions C109_order.

(** Each station counts in exactly one line: the stations of the lines together
    are the stations. *)
Lemma partition_perm (p : station_stats -> bool) s :
  Permutation s (filter p s ++ filter (fun x => negb (p x)) s).
Proof.
  induction s as [|x s IH]; [constructor|]. cbn. destruct (p x); cbn; [constructor; exact IH|].
  etransitivity; [constructor; exact IH|]. apply Permutation_middle.
Qed.

Theorem C109_each_station_once :
  forall s, Permutation s
    (flat_map (fun b => filter (fun x => teqb (branch_of x) b) s) (map sl_branch (summary s))).
Proof.
  intros s. unfold summary. rewrite map_map. cbn [sl_branch]. rewrite map_id.
  assert (C : forall x, In x s -> In (branch_of x) (unique [] (map branch_of s))).
  { intros x I. apply unique_in. split; [apply in_map; exact I|reflexivity]. }
  pose proof (unique_nodup [] (map branch_of s)) as N. revert C N. generalize (unique [] (map branch_of s)).
  intros bs. revert s. induction bs as [|b bs IH]; intros s C N.
  - destruct s as [|x s]; [constructor|]. destruct (C x (or_introl eq_refl)).
  - cbn [flat_map]. etransitivity; [apply (partition_perm (fun x => teqb (branch_of x) b))|].
    apply Permutation_app_head. inversion N as [|? ? N1 N2]; subst.
    etransitivity; [apply (IH (filter (fun x => negb (teqb (branch_of x) b)) s))|].
    + intros x I. apply filter_In in I. destruct I as (I & T). destruct (C x I) as [E|E]; [|exact E].
      rewrite <- E, teqb_refl in T. discriminate T.
    + exact N2.
    + apply Permutation_refl'. clear - N1. induction bs as [|c bs IH]; [reflexivity|]. cbn [flat_map].
      rewrite IH by (intros I; apply N1; right; exact I). f_equal. clear IH.
      induction s as [|x s IHs]; [reflexivity|]. cbn [filter].
      destruct (teqb (branch_of x) b) eqn:E; cbn [negb filter].
      * rewrite IHs. destruct (teqb (branch_of x) c) eqn:F; [|reflexivity]. exfalso. apply N1. left.
        apply teqb_eq in E. apply teqb_eq in F. congruence.
      * rewrite IHs. reflexivity.
Qed.
Print Assumptions C109_each_station_once.

Definition two_branches : list station_stats :=
  [mk_station (T "BR_1") (Fin 1) (Fin 0); mk_station (T "WL_1_LMW") (Fin 4) (Fin 2);
   mk_station (T "BR_2_lmw") (Fin 3) NaN; mk_station (T "BR_3") NaN NaN].
Theorem C109_case : summary two_branches =
  [mk_line (T "BR") (Fin (4 # 2)) (Fin 0) (Fin 3) NaN; mk_line (T "WL") (Fin 4) (Fin 2) (Fin 4) (Fin 2)].
Proof. vm_compute. reflexivity. Qed.
Print Assumptions C109_case.
