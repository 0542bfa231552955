(** Theorems for C55 (routes), C56 (station map), C69 (data along a route), C71
    (moments in time) and C72 (station labels). *)
From Coq Require Import String List Ascii ZArith QArith Qabs Bool Lia Lqa Sorted Permutation.
From Verif Require Import PyBase Num Text L_Text M_Compare T_Window.
Import ListNotations.
Local Open Scope nat_scope.

(** * Sorting *)

(** The order of np.argsort: NaN comes last. *)
Definition nan_last (x y : num) : Prop := isnan y = true \/ nleb x y = true.

(** What is assumed of np.argsort: the order of equal keys is left open. *)
Definition is_argsort (argsort : list num -> list nat) : Prop :=
  forall keys, Permutation (argsort keys) (seq 0 (length keys)) /\
    StronglySorted (fun i j => nan_last (nth i keys NaN) (nth j keys NaN)) (argsort keys).

Lemma nan_last_total x y : nan_last x y \/ nan_last y x.
Proof.
  unfold nan_last. destruct x as [a| | |], y as [b| | |]; cbn; auto.
  destruct (Qle_bool a b) eqn:E; auto. right. right. apply Qle_bool_iff.
  destruct (Qlt_le_dec b a) as [H|H]; [lra|]. apply Qle_bool_iff in H. congruence.
Qed.

Lemma nan_last_trans x y z : nan_last x y -> nan_last y z -> nan_last x z.
Proof.
  unfold nan_last. destruct x as [a| | |], y as [b| | |], z as [c| | |]; cbn; intros [H|H] [K|K]; auto; try discriminate.
  right. apply Qle_bool_iff in H, K. apply Qle_bool_iff. lra.
Qed.

(** There is such a sort. *)
Definition nan_lastb (x y : num) : bool := isnan y || nleb x y.
Fixpoint insert_key (key : nat -> num) (i : nat) (l : list nat) : list nat :=
  match l with
  | [] => [i]
  | j :: l' => if nan_lastb (key i) (key j) then i :: l else j :: insert_key key i l'
  end.
Definition insertion_argsort (keys : list num) : list nat :=
  fold_right (insert_key (fun i => nth i keys NaN)) [] (seq 0 (length keys)).

Lemma nan_lastb_iff x y : nan_lastb x y = true <-> nan_last x y.
Proof. unfold nan_lastb, nan_last. rewrite orb_true_iff. tauto. Qed.

Lemma insert_key_perm key i l : Permutation (insert_key key i l) (i :: l).
Proof.
  induction l as [|j l IH]; cbn; auto. destruct (nan_lastb (key i) (key j)); auto.
  eapply perm_trans; [apply perm_skip, IH|apply perm_swap].
Qed.

Lemma insert_key_sorted key i l :
  StronglySorted (fun i j => nan_last (key i) (key j)) l ->
  StronglySorted (fun i j => nan_last (key i) (key j)) (insert_key key i l).
Proof.
  induction l as [|j l IH]; intro H; cbn; [repeat constructor|].
  apply StronglySorted_inv in H. destruct H as [H1 H2].
  destruct (nan_lastb (key i) (key j)) eqn:E.
  - apply nan_lastb_iff in E. constructor; [constructor; auto|]. constructor; auto.
    eapply Forall_impl; [|exact H2]. cbv beta. intros k Hk. eapply nan_last_trans; eauto.
  - constructor; [auto|]. assert (D : nan_last (key j) (key i)).
    { destruct (nan_last_total (key i) (key j)) as [F|F]; auto. apply nan_lastb_iff in F. congruence. }
    eapply Permutation_Forall; [symmetry; apply insert_key_perm|]. constructor; auto.
Qed.

Theorem insertion_argsort_is_argsort : is_argsort insertion_argsort.
Proof.
  intro keys. unfold insertion_argsort. generalize (seq 0 (length keys)) as l. split.
  - induction l as [|i l IH]; cbn; auto. rewrite insert_key_perm. auto.
  - induction l as [|i l IH]; cbn; [constructor|]. apply insert_key_sorted. auto.
Qed.
Print Assumptions insertion_argsort_is_argsort.

(** * C55 *)

Lemma filter_map_swap {A B} (f : A -> B) (p : B -> bool) l :
  filter p (map f l) = map f (filter (fun x => p (f x)) l).
Proof. induction l as [|x l IH]; cbn; auto. destruct (p (f x)); cbn; rewrite IH; auto. Qed.

Lemma filter_perm {A} (p : A -> bool) l l' : Permutation l l' -> Permutation (filter p l) (filter p l').
Proof.
  induction 1; cbn; auto.
  - destruct (p x); auto.
  - destruct (p x), (p y); auto. apply perm_swap.
  - eapply perm_trans; eauto.
Qed.

Lemma map_nth_seq {A} (l : list A) d : map (fun i => nth i l d) (seq 0 (length l)) = l.
Proof.
  induction l as [|x l IH]; cbn [length seq map nth]; auto. f_equal. rewrite <- seq_shift, map_map. exact IH.
Qed.

Lemma sorted_filter {A} (R : A -> A -> Prop) (p : A -> bool) l :
  StronglySorted R l -> StronglySorted R (filter p l).
Proof.
  induction 1 as [|x l S1 IH F1]; cbn; [constructor|]. destruct (p x); auto. constructor; auto.
  apply Forall_forall. intros y I. apply filter_In in I. rewrite Forall_forall in F1. apply F1. tauto.
Qed.

Lemma sorted_map {A B} (R : B -> B -> Prop) (f : A -> B) l :
  StronglySorted (fun x y => R (f x) (f y)) l -> StronglySorted R (map f l).
Proof.
  induction 1 as [|x l S1 IH F1]; cbn; constructor; auto. apply Forall_map. exact F1.
Qed.

Lemma sorted_impl {A} (R Q : A -> A -> Prop) l : (forall x y, R x y -> Q x y) ->
  StronglySorted R l -> StronglySorted Q l.
Proof.
  intros I. induction 1 as [|x l S1 IH F1]; constructor; auto. eapply Forall_impl; [|exact F1]. auto.
Qed.

Section RouteFacts.
  Variable to_float : text -> option num.
  Variable argsort : list num -> list nat.
  Hypothesis A : is_argsort argsort.

  Notation rkm := (name_to_rkm to_float).
  Definition carries (n : text) : bool := match rkm n with Missing => false | Km _ => true end.

  Lemma rkm_nth i l : nth i (map rkm l) Missing = rkm (nth i l []).
  Proof. apply (map_nth rkm l [] i). Qed.

  Lemma route_stations_in names route n :
    In n (route_stations names route) <-> In n names /\ In (name_to_branch n) route.
  Proof.
    unfold route_stations. rewrite in_flat_map. split.
    - intros (stop & I & J). apply filter_In in J. destruct J as [J E]. apply teqb_eq in E. subst. auto.
    - intros [I J]. exists (name_to_branch n). split; auto. apply filter_In. split; auto. apply teqb_refl.
  Qed.

  Lemma teqb_sym a b : teqb a b = teqb b a.
  Proof.
    destruct (teqb a b) eqn:E.
    - apply teqb_eq in E. subst. symmetry. apply teqb_refl.
    - destruct (teqb b a) eqn:F; auto. apply teqb_eq in F. subst. rewrite teqb_refl in E. discriminate.
  Qed.

  Lemma filter_or {B} (p q : B -> bool) l : (forall x, In x l -> p x = true -> q x = true -> False) ->
    Permutation (filter p l ++ filter q l) (filter (fun x => p x || q x) l).
  Proof.
    induction l as [|x l IH]; intro D; cbn; auto.
    assert (D' : forall y, In y l -> p y = true -> q y = true -> False) by (intros; eapply D; eauto; right; auto).
    specialize (IH D'). destruct (p x) eqn:P, (q x) eqn:Q; cbn; auto.
    - exfalso. apply (D x); auto. left; auto.
    - rewrite <- Permutation_middle. auto.
  Qed.

  (** A branch that occurs once in the route gives each of its stations once. *)
  Lemma route_stations_nodup names route : NoDup route ->
    Permutation (route_stations names route)
      (filter (fun n => existsb (teqb (name_to_branch n)) route) names).
  Proof.
    induction route as [|stop route IH]; intro N.
    - cbn. replace (filter (fun _ => false) names) with (@nil text); auto.
      induction names; cbn; auto.
    - apply NoDup_cons_iff in N. destruct N as [N1 N2]. cbn [route_stations flat_map].
      change (flat_map (fun stop0 => filter (fun n => teqb (name_to_branch n) stop0) names) route)
        with (route_stations names route).
      rewrite (IH N2). cbn [existsb]. apply filter_or. intros n _ H1 H2. apply teqb_eq in H1.
      apply existsb_exists in H2. destruct H2 as (s & I & E). apply teqb_eq in E. congruence.
  Qed.

  (** The result of get_route. *)
  Theorem C55_route_stations :
    forall names route stations kms lmw,
      get_route to_float argsort names route = (stations, kms, lmw) ->
      Permutation stations (filter carries (route_stations names route)) /\
      kms = map (fun n => km_num (rkm n)) stations /\
      StronglySorted nan_last kms /\
      Permutation lmw (map (fun n => (n, km_num (rkm n))) (filter (infix (T "LMW")) (route_stations names route))) /\
      StronglySorted nan_last (map snd lmw).
  Proof.
    intros names route stations kms lmw H. unfold get_route in H.
    set (st := route_stations names route) in *. clearbody st.
    set (lm := map (fun n => (n, km_num (rkm n))) (filter (infix (T "LMW")) st)) in *. clearbody lm.
    injection H as <- <- <-.
    set (p := fun i => match nth i (map rkm st) Missing with Missing => false | Km _ => true end).
    destruct (A (map km_num (map rkm st))) as [P1 S1]. rewrite !map_length in P1.
    assert (K : forall i, nth i (map km_num (map rkm st)) NaN = km_num (rkm (nth i st []))).
    { intro i. change NaN with (km_num Missing). rewrite map_nth, rkm_nth. reflexivity. }
    set (L := argsort (map km_num (map rkm st))) in *. clearbody L.
    split; [|split; [|split; [|split]]].
    - eapply perm_trans; [apply Permutation_map, filter_perm, P1|].
      rewrite (filter_ext p (fun i => carries (nth i st []))).
      + rewrite <- (map_nth_seq st []) at 2. rewrite filter_map_swap. auto.
      + intro i. unfold p, carries. rewrite rkm_nth. reflexivity.
    - rewrite map_map. apply map_ext. intro i. rewrite rkm_nth. reflexivity.
    - apply sorted_map. apply sorted_filter. eapply sorted_impl; [|exact S1]. intros i j Hj. cbv beta in *.
      rewrite !K in Hj. rewrite !rkm_nth. exact Hj.
    - destruct (A (map snd lm)) as [P2 _]. rewrite map_length in P2.
      rewrite <- (map_nth_seq lm ([], NaN)) at 2. apply Permutation_map. exact P2.
    - destruct (A (map snd lm)) as [_ S2]. set (L2 := argsort (map snd lm)) in *. clearbody L2.
      rewrite map_map. apply sorted_map. eapply sorted_impl; [|exact S2]. intros i j Hj. cbv beta in *.
      rewrite <- !(map_nth snd lm ([], NaN)). exact Hj.
  Qed.

  (** In terms of the station list: which stations, and how often. *)
  Theorem C55_exactly_the_stations_partial :
    forall names route stations kms lmw,
      get_route to_float argsort names route = (stations, kms, lmw) ->
      (forall n, In n stations <-> In n names /\ In (name_to_branch n) route /\ carries n = true) /\
      (* if no branch is named twice *)
      (NoDup route ->
       Permutation stations
         (filter (fun n => existsb (teqb (name_to_branch n)) route && carries n) names)) /\
      (* if no name is read as not-a-number *)
      ((forall t x, to_float t = Some x -> isnan x = false) ->
       StronglySorted (fun x y => nleb x y = true) kms).
  Proof.
    intros names route stations kms lmw H.
    destruct (C55_route_stations _ _ _ _ _ H) as (P1 & E & S1 & _). split; [|split].
    - intro n. split.
      + intro I. apply (Permutation_in _ P1) in I. apply filter_In in I. destruct I as [I C].
        apply route_stations_in in I. tauto.
      + intros (I & B & C). apply (Permutation_in _ (Permutation_sym P1)). apply filter_In.
        split; auto. apply route_stations_in. auto.
    - intro N. eapply perm_trans; [exact P1|].
      eapply perm_trans; [apply filter_perm, route_stations_nodup, N|].
      clear. induction names as [|n names IH]; cbn; auto.
      destruct (existsb (teqb (name_to_branch n)) route); cbn; auto. destruct (carries n); auto.
    - intro F. assert (Q : Forall (fun x => isnan x = false) kms).
      { rewrite E. apply Forall_map. apply Forall_forall. intros n I.
        apply (Permutation_in _ P1) in I. apply filter_In in I. destruct I as [_ C].
        unfold carries in C. destruct (rkm n) as [|x] eqn:R; [discriminate|]. cbn.
        unfold name_to_rkm in R. destruct (nth_error (split_on "_" n) 1) as [t|]; [|discriminate].
        destruct (to_float t) as [y|] eqn:G; [|discriminate]. injection R as <-. eauto. }
      clear E P1 H. induction S1 as [|x l S2 IH F2]; [constructor|].
      apply Forall_cons_iff in Q. destruct Q as [Q1 Q2]. constructor; [auto|].
      apply Forall_forall. intros y I. rewrite Forall_forall in F2, Q2. specialize (Q2 _ I). destruct (F2 _ I); congruence.
  Qed.
End RouteFacts.
Print Assumptions C55_route_stations.
Print Assumptions C55_exactly_the_stations_partial.

(** A branch that occurs twice in the route gives its stations twice. *)
Theorem C55_branch_named_twice_refuted :
  forall to_float argsort, is_argsort argsort ->
    to_float (T "10.00") = Some (Fin 10) ->
    fst (fst (get_route to_float argsort [T "WL_10.00"] [T "WL"; T "WL"])) = [T "WL_10.00"; T "WL_10.00"].
Proof.
  intros to_float argsort A F. unfold get_route. cbn [fst].
  replace (route_stations [T "WL_10.00"] [T "WL"; T "WL"]) with [T "WL_10.00"; T "WL_10.00"] by (vm_compute; reflexivity).
  assert (R : name_to_rkm to_float (T "WL_10.00") = Km (Fin 10)).
  { unfold name_to_rkm. replace (nth_error (split_on "_" (T "WL_10.00")) 1) with (Some (T "10.00")) by (vm_compute; reflexivity).
    rewrite F. reflexivity. }
  cbn [map]. rewrite R. cbn [km_num].
  destruct (A [Fin 10; Fin 10]) as [P _]. cbn [length seq] in P.
  assert (L : exists i j, argsort [Fin 10; Fin 10] = [i; j]).
  { apply Permutation_length in P. destruct (argsort [Fin 10; Fin 10]) as [|i [|j [|k l]]]; cbn in P; try lia. eauto. }
  destruct L as (i & j & L). rewrite L in *.
  assert (Hi : i = 0 \/ i = 1) by (pose proof (Permutation_in i P (or_introl eq_refl)) as I; cbn in I; intuition).
  assert (Hj : j = 0 \/ j = 1) by (pose proof (Permutation_in j P (or_intror (or_introl eq_refl))) as I; cbn in I; intuition).
  destruct Hi as [-> | ->], Hj as [-> | ->]; cbn [filter nth map]; reflexivity.
Qed.
Print Assumptions C55_branch_named_twice_refuted.

(** The text "nan" after the underscore is a float for Python: the station is
    kept although it has no river kilometre. *)
Theorem C55_name_nan_refuted :
  forall to_float argsort, is_argsort argsort -> to_float (T "nan") = Some NaN ->
    get_route to_float argsort [T "WL_nan"] [T "WL"] = ([T "WL_nan"], [NaN], []).
Proof.
  intros to_float argsort A F. unfold get_route.
  replace (route_stations [T "WL_nan"] [T "WL"]) with [T "WL_nan"] by (vm_compute; reflexivity).
  assert (R : name_to_rkm to_float (T "WL_nan") = Km NaN).
  { unfold name_to_rkm. replace (nth_error (split_on "_" (T "WL_nan")) 1) with (Some (T "nan")) by (vm_compute; reflexivity).
    rewrite F. reflexivity. }
  replace (filter (infix (T "LMW")) [T "WL_nan"]) with (@nil text) by (vm_compute; reflexivity).
  cbn [map]. rewrite R. cbn [km_num].
  destruct (A [NaN]) as [P _]. cbn [length seq] in P. apply Permutation_sym, Permutation_length_1_inv in P. rewrite P.
  destruct (A []) as [P0 _]. cbn [length seq] in P0. apply Permutation_sym, Permutation_nil in P0. rewrite P0.
  reflexivity.
Qed.
Print Assumptions C55_name_nan_refuted.

(** An LMW station without a river kilometre is dropped from the stations but
    not from the LMW stations. *)
Theorem C55_lmw_without_kilometre_refuted :
  forall to_float argsort, is_argsort argsort -> to_float (T "LMW") = None ->
    get_route to_float argsort [T "WL_LMW"] [T "WL"] = ([], [], [(T "WL_LMW", NaN)]).
Proof.
  intros to_float argsort A F. unfold get_route.
  replace (route_stations [T "WL_LMW"] [T "WL"]) with [T "WL_LMW"] by (vm_compute; reflexivity).
  assert (R : name_to_rkm to_float (T "WL_LMW") = Missing).
  { unfold name_to_rkm. replace (nth_error (split_on "_" (T "WL_LMW")) 1) with (Some (T "LMW")) by (vm_compute; reflexivity).
    rewrite F. reflexivity. }
  replace (filter (infix (T "LMW")) [T "WL_LMW"]) with [T "WL_LMW"] by (vm_compute; reflexivity).
  cbn [map]. rewrite R. cbn [km_num].
  destruct (A [NaN]) as [P _]. cbn [length seq] in P. apply Permutation_sym, Permutation_length_1_inv in P. cbn [map snd]. rewrite P.
  reflexivity.
Qed.
Print Assumptions C55_lmw_without_kilometre_refuted.

(** * C56 *)

Lemma startswith_firstn p t : startswith p t = true <-> firstn (length p) t = p.
Proof.
  revert t. induction p as [|c p IH]; intro t; cbn; [tauto|].
  destruct t as [|d t]; cbn; [split; discriminate|].
  rewrite andb_true_iff, IH. destruct (Ascii.eqb_spec c d) as [->|N].
  - split; [intros [_ ->]; auto|intro H; injection H; auto].
  - split; [intros [H _]; discriminate|intro H; injection H; intros; congruence].
Qed.

(** The match is the first station of which the name starts with the first
    nine characters, or the empty text. *)
Theorem C56_first_match :
  forall names n,
    (exists before x after, names = before ++ x :: after /\ match_name names n = x /\
       firstn (length (firstn 9 n)) x = firstn 9 n /\
       forall y, In y before -> firstn (length (firstn 9 n)) y <> firstn 9 n) \/
    (match_name names n = [] /\ forall y, In y names -> firstn (length (firstn 9 n)) y <> firstn 9 n).
Proof.
  intros names n. unfold match_name. induction names as [|y names IH]; cbn [find].
  - right. split; [reflexivity|]. intros y [].
  - destruct (startswith (firstn 9 n) y) eqn:E.
    + left. exists [], y, names. split; [reflexivity|]. split; [reflexivity|].
      split; [apply startswith_firstn; auto|intros z []].
    + assert (Ny : firstn (length (firstn 9 n)) y <> firstn 9 n)
        by (intro F; apply startswith_firstn in F; congruence).
      destruct IH as [(b & x & a & -> & M & F & G)|[M G]].
      * left. exists (y :: b), x, a. split; [reflexivity|]. split; [exact M|]. split; [exact F|].
        intros z [<-|I]; auto.
      * right. split; [exact M|]. intros z [<-|I]; auto.
Qed.
Print Assumptions C56_first_match.

(** For a 1D name of at least nine characters: the first station with the same
    first nine characters, or none. *)
Theorem C56_same_nine_characters_partial :
  forall (names : list text) (n : text), 9 <= length n ->
    match_name names n =
      match find (fun x : text => teqb (firstn 9 x) (firstn 9 n)) names with Some x => x | None => [] end /\
    (match_name names n <> [] -> In (match_name names n) names /\ firstn 9 (match_name names n) = firstn 9 n) /\
    (match_name names n = [] <-> forall x, In x names -> firstn 9 x <> firstn 9 n).
Proof.
  intros names n L.
  assert (K : length (firstn 9 n) = 9) by (rewrite firstn_length; lia).
  assert (E : forall x, startswith (firstn 9 n) x = teqb (firstn 9 x) (firstn 9 n)).
  { intro x. destruct (startswith (firstn 9 n) x) eqn:F.
    - apply startswith_firstn in F. rewrite K in F. rewrite F. symmetry. apply teqb_refl.
    - destruct (teqb (firstn 9 x) (firstn 9 n)) eqn:G; auto. apply teqb_eq in G.
      assert (startswith (firstn 9 n) x = true) by (apply startswith_firstn; rewrite K; auto). congruence. }
  split; [|split].
  - unfold match_name.
    assert (Z : find (fun x => startswith (firstn 9 n) x) names = find (fun x : text => teqb (firstn 9 x) (firstn 9 n)) names)
      by (induction names as [|y names IH]; cbn [find]; auto; rewrite E, IH; auto).
    rewrite Z. reflexivity.
  - intro N. destruct (C56_first_match names n) as [(b & x & a & -> & M & F & _)|[M _]]; [|contradiction].
    rewrite M. rewrite K in F. split; auto. apply in_or_app. right. left. auto.
  - destruct (C56_first_match names n) as [(b & x & a & -> & M & F & _)|[M G]].
    + rewrite K in F. rewrite M. split.
      * intros ->. rewrite firstn_nil in F. rewrite <- F in K. discriminate.
      * intro H. exfalso. apply (H x); auto. apply in_or_app. right. left. auto.
    + rewrite K in G. split; auto.
Qed.
Print Assumptions C56_same_nine_characters_partial.

(** A shorter name is matched with a station whose first nine characters
    differ; the empty name with any station. *)
Theorem C56_short_name_refuted :
  match_name [T "LK_9_upper_reach"] (T "LK_9") = T "LK_9_upper_reach" /\
  firstn 9 (T "LK_9_upper_reach") <> firstn 9 (T "LK_9") /\
  match_name [T "LK_950.00"; T "LK_9"] (T "LK_9") = T "LK_950.00" /\
  forall x names, match_name (x :: names) [] = x.
Proof.
  split; [reflexivity|]. split; [vm_compute; discriminate|]. split; [reflexivity|].
  intros x names. unfold match_name. cbn. destruct x; reflexivity.
Qed.
Print Assumptions C56_short_name_refuted.

(** The 2D column of a 1D station: the data of the first 2D station with the
    same first nine characters, or empty. *)
Fixpoint position {A} (p : A -> bool) (l : list A) : option nat :=
  match l with
  | [] => None
  | x :: l' => if p x then Some 0 else match position p l' with Some i => Some (S i) | None => None end
  end.

Lemma index_of_position p names x : find p names = Some x -> index_of x names = position p names.
Proof.
  induction names as [|y names IH]; cbn [find index_of position]; intro H; [discriminate|].
  destruct (p y) eqn:E.
  - injection H as ->. rewrite teqb_refl. reflexivity.
  - destruct (teqb y x) eqn:F.
    + apply teqb_eq in F. subst. apply find_some in H. destruct H. congruence.
    + rewrite IH by auto. reflexivity.
Qed.

Theorem C56_data_of_the_matched_station :
  forall cell (names : list text) columns (stations : list text),
    (forall x, In x names -> x <> [] -> cell x = Some x) -> cell [] = None ->
    Forall (fun n => 9 <= length n) stations ->
    import_2d cell names columns (map (fun n => (n, match_name names n)) stations) =
    map (fun n => (n, match position (fun x : text => teqb (firstn 9 x) (firstn 9 n)) names with
                      | Some i => nth_error columns i
                      | None => None
                      end)) stations.
Proof.
  intros cell names columns stations C C0 L. unfold import_2d. rewrite map_map. apply map_ext_in. intros n I.
  rewrite Forall_forall in L. specialize (L n I). cbn [fst snd]. f_equal.
  destruct (C56_same_nine_characters_partial names n L) as (E & _).
  destruct (find (fun x : text => teqb (firstn 9 x) (firstn 9 n)) names) as [x|] eqn:F; rewrite E.
  - rewrite <- (index_of_position _ _ _ F). apply find_some in F. destruct F as [J G]. apply teqb_eq in G.
    rewrite C; [reflexivity|auto|]. intros ->. rewrite firstn_nil in G.
    assert (length (firstn 9 n) = 9) by (rewrite firstn_length; lia). rewrite <- G in H. discriminate.
  - rewrite C0. assert (P : position (fun x : text => teqb (firstn 9 x) (firstn 9 n)) names = None).
    { clear E C. induction names as [|y names IH]; cbn [find position] in *; auto.
      destruct (teqb (firstn 9 y) (firstn 9 n)); [discriminate|]. rewrite IH; auto. }
    rewrite P. reflexivity.
Qed.
Print Assumptions C56_data_of_the_matched_station.

(** Levels come from the level stations and discharges from the discharge
    stations. *)
Theorem C56_levels_and_discharges :
  forall cell (hnames qnames : list text) hcolumns qcolumns (stations : list text),
    (forall x, In x hnames \/ In x qnames -> x <> [] -> cell x = Some x) -> cell [] = None ->
    Forall (fun n => 9 <= length n) stations ->
    let rows := map_1d2d stations hnames qnames in
    let data names columns := map (fun n : text =>
      (n, match position (fun x : text => teqb (firstn 9 x) (firstn 9 n)) names with
          | Some i => nth_error columns i
          | None => None
          end)) stations in
    map (fun r => fst (fst r)) rows = stations /\
    import_2d cell hnames hcolumns (map (fun r => (fst (fst r), snd (fst r))) rows) = data hnames hcolumns /\
    import_2d cell qnames qcolumns (map (fun r => (fst (fst r), snd r)) rows) = data qnames qcolumns.
Proof.
  intros cell hnames qnames hcolumns qcolumns stations C C0 L rows data. unfold rows, map_1d2d. rewrite !map_map. cbn [fst snd].
  split; [apply map_id|]. split; apply C56_data_of_the_matched_station; auto.
Qed.
Print Assumptions C56_levels_and_discharges.

(** * C69: data along a route *)

Lemma same_value_refl x : same_value x x = true.
Proof. destruct x as [q| | |]; cbn; auto. unfold same_value. cbn. rewrite orb_false_r. apply Qeq_bool_iff. reflexivity. Qed.

Lemma same_row_refl r : same_row r r = true.
Proof. induction r as [|x r IH]; cbn; auto. rewrite same_value_refl, IH. auto. Qed.

(** Every row of the result is a row of a station, in order; every station has a
    row in the result that is equal to its own. *)
Lemma drop_incl seen rows : incl (drop_duplicates seen rows) rows.
Proof.
  revert seen. induction rows as [|[k r] rows IH]; intros seen x I; cbn in I; [destruct I|].
  destruct (existsb (same_row r) seen); [right; eapply IH; eauto|].
  destruct I as [<-|I]; [left; auto|right; eapply IH; eauto].
Qed.

Lemma drop_complete seen rows : forall k r, In (k, r) rows ->
  existsb (same_row r) seen = true \/ exists k' r', In (k', r') (drop_duplicates seen rows) /\ same_row r r' = true.
Proof.
  revert seen. induction rows as [|[k0 r0] rows IH]; intros seen k r I; [destruct I|]. cbn [drop_duplicates].
  destruct (existsb (same_row r0) seen) eqn:E.
  - destruct I as [I|I]; [injection I as <- <-; auto|]. apply (IH seen k r I).
  - destruct I as [I|I].
    + injection I as <- <-. right. exists k0, r0. split; [left; auto|apply same_row_refl].
    + destruct (IH (r0 :: seen) k r I) as [H|(k' & r' & H & G)].
      * cbn [existsb] in H. apply orb_prop in H. destruct H as [H|H]; auto.
        right. exists k0, r0. split; [left; auto|auto].
      * right. exists k', r'. split; [right; auto|auto].
Qed.

Lemma map_res_length {A B} (f : A -> res B) l l' : map_res f l = Ok l' -> length l' = length l.
Proof.
  revert l'. induction l as [|x l IH]; intros l' H; cbn in H; [injection H as <-; auto|].
  destruct (f x); [|discriminate]. destruct (map_res f l) as [ys|]; [|discriminate]. injection H as <-.
  cbn. f_equal. auto.
Qed.

Theorem C69_rows_along_a_route :
  forall data stations rkms out,
    get_data_along_route data stations rkms = Ok out ->
    exists rows, map_res (column data) stations = Ok rows /\
      incl out (combine rkms rows) /\
      (forall k r, In (k, r) (combine rkms rows) -> exists k' r', In (k', r') out /\ same_row r r' = true).
Proof.
  intros data stations rkms out H. unfold get_data_along_route in H.
  destruct (map_res (column data) stations) as [rows|e] eqn:E; [|discriminate]. injection H as <-.
  exists rows. split; auto. split; [apply drop_incl|]. intros k r I.
  destruct (drop_complete [] _ k r I) as [H|H]; [discriminate|auto].
Qed.
Print Assumptions C69_rows_along_a_route.

(** One row per station if no two stations have the same values. *)
Lemma drop_distinct seen rows :
  (forall k r, In (k, r) rows -> existsb (same_row r) seen = false) ->
  ForallOrdPairs (fun a b : num * list num => same_row (snd b) (snd a) = false) rows ->
  drop_duplicates seen rows = rows.
Proof.
  revert seen. induction rows as [|[k r] rows IH]; intros seen H P; cbn [drop_duplicates]; auto.
  rewrite (H k r (or_introl eq_refl)). f_equal. inversion P as [|? ? P1 P2]; subst. apply IH; auto.
  intros k' r' I. cbn [existsb]. rewrite (H k' r' (or_intror I)), orb_false_r.
  rewrite Forall_forall in P1. apply (P1 _ I).
Qed.

Theorem C69_one_row_per_station_partial :
  forall data stations rkms rows,
    length rkms = length stations ->
    map_res (column data) stations = Ok rows ->
    ForallOrdPairs (fun a b : num * list num => same_row (snd b) (snd a) = false) (combine rkms rows) ->
    exists out, get_data_along_route data stations rkms = Ok out /\
      map fst out = rkms /\ map snd out = rows.
Proof.
  intros data stations rkms rows L E P. exists (combine rkms rows). unfold get_data_along_route. rewrite E. cbn [bind].
  rewrite drop_distinct; auto. split; auto. apply map_res_length in E.
  assert (M : length rkms = length rows) by lia. clear - M. revert rows M.
  induction rkms as [|k rkms IH]; intros [|r rows] M; cbn in *; try discriminate; auto.
  injection M as M. destruct (IH _ M) as [-> ->]. auto.
Qed.
Print Assumptions C69_one_row_per_station_partial.

(** Two stations with the same water levels, as on a level reach: the second
    one is lost. *)
Theorem C69_equal_stations_refuted :
  forall k1 k2 c s1 s2, teqb s1 s2 = false ->
    get_data_along_route [(s1, c); (s2, c)] [s1; s2] [k1; k2] = Ok [(k1, c)].
Proof.
  intros k1 k2 c s1 s2 N. unfold get_data_along_route. cbn [map_res column].
  rewrite !teqb_refl, N. cbn [bind combine drop_duplicates existsb]. rewrite same_row_refl. reflexivity.
Qed.
Print Assumptions C69_equal_stations_refuted.

(** * C71: moments in time *)
Local Open Scope Z_scope.

Theorem C71_moments_partial :
  forall t0 rest, let final := last rest t0 in
    6 * day <= final - t0 ->
    exists n, (6 <= n <= 11)%nat /\
      time_moments (t0 :: rest) =
        Ok (map (fun i => t0 + Z.of_nat i * ((final - t0) / day / 6) * day) (seq 0 n)) /\
      (forall i, (i < n)%nat -> t0 <= t0 + Z.of_nat i * ((final - t0) / day / 6) * day < final).
Proof.
  intros t0 rest final H. unfold time_moments. rewrite py_index_first, py_index_last. cbn [bind]. fold final.
  set (nd := (final - t0) / day). assert (D : 6 <= nd) by (apply Z.div_le_lower_bound; unfold day in *; lia).
  rewrite Z.quot_div_nonneg by lia. set (dd := nd / 6).
  assert (E1 : nd = 6 * dd + nd mod 6) by (apply Z.div_mod; lia).
  assert (E2 : 0 <= nd mod 6 < 6) by (apply Z.mod_pos_bound; lia).
  assert (D1 : 1 <= dd) by lia.
  unfold range0. replace (dd =? 0) with false by (symmetry; apply Z.eqb_neq; lia). cbn [bind].
  set (q := (nd + dd - 1) / dd).
  assert (Q : 6 <= q <= 11).
  { split.
    - apply Z.div_le_lower_bound; lia.
    - apply Z.lt_succ_r. apply Z.div_lt_upper_bound; [lia|]. nia. }
  exists (Z.to_nat q). split; [lia|]. split.
  - do 1 f_equal. rewrite map_map. apply map_ext. intro i. fold dd. lia.
  - intros i Hi. fold dd.
    assert (Hq : Z.of_nat i <= q - 1) by lia.
    assert (Hq2 : q * dd <= nd + dd - 1) by (rewrite Z.mul_comm; apply Z.mul_div_le; lia).
    assert (Hb : Z.of_nat i * dd <= nd - 1) by nia.
    assert (Hn : nd * day <= final - t0) by (rewrite Z.mul_comm; apply Z.mul_div_le; unfold day; lia).
    unfold day in *. nia.
Qed.
Print Assumptions C71_moments_partial.

(** A period of less than six days: no moments, ValueError. *)
Theorem C71_short_period_refuted :
  forall t0 rest, let final := last rest t0 in
    0 <= final - t0 < 6 * day -> time_moments (t0 :: rest) = Raise ValueError.
Proof.
  intros t0 rest final H. unfold time_moments. rewrite py_index_first, py_index_last. cbn [bind]. fold final.
  assert (D : 0 <= (final - t0) / day < 6).
  { split; [apply Z.div_pos; unfold day; lia|apply Z.div_lt_upper_bound; unfold day in *; lia]. }
  rewrite Z.quot_div_nonneg by lia. rewrite (Z.div_small _ 6) by lia. reflexivity.
Qed.
Print Assumptions C71_short_period_refuted.

(** The record of a moment: the first one that is not before it, or the last. *)
Lemma first_not_before_spec index date :
  match first_not_before index date with
  | Some i => exists before t after, index = before ++ t :: after /\ length before = i /\
      date <= t /\ Forall (fun x => x < date) before
  | None => Forall (fun x => x < date) index
  end.
Proof.
  induction index as [|t index IH]; cbn; [constructor|]. destruct (Z.ltb_spec t date) as [L|L].
  - destruct (first_not_before index date) as [i|].
    + destruct IH as (b & t' & a & -> & <- & G & F). exists (t :: b), t', a. auto.
    + constructor; auto.
  - exists [], t, index. auto.
Qed.

Theorem C71_record_of_a_moment :
  forall index date, index <> [] ->
    0 <= get_nearest_time index date < Z.of_nat (length index) /\
    ((exists before t after, index = before ++ t :: after /\
        get_nearest_time index date = Z.of_nat (length before) /\
        date <= t /\ Forall (fun x => x < date) before) \/
     (Forall (fun x => x < date) index /\ get_nearest_time index date = Z.of_nat (length index) - 1)).
Proof.
  intros index date N. unfold get_nearest_time. pose proof (first_not_before_spec index date) as H.
  destruct (first_not_before index date) as [i|].
  - destruct H as (b & t & a & -> & <- & G & F). split.
    + rewrite app_length. cbn [length]. lia.
    + left. exists b, t, a. auto.
  - split; [destruct index; [contradiction|cbn [length]; lia]|]. right. auto.
Qed.
Print Assumptions C71_record_of_a_moment.

(** * C72: station labels *)

Definition finite_sorted (l : list (text * num)) : Prop :=
  StronglySorted (fun a b => exists x y, snd a = Fin x /\ snd b = Fin y /\ (x <= y)%Q) l /\
  Forall (fun a => exists x, snd a = Fin x) l.

Definition five_apart (a b : text * num) : Prop :=
  exists x y, snd a = Fin x /\ snd b = Fin y /\ (5 <= y - x)%Q.

Lemma far_apart p y : nltb (nabs (nsub (Fin p) (Fin y))) (Fin 5) = false <-> (5 <= Qabs (p - y))%Q.
Proof.
  cbn. unfold Qltb. rewrite negb_false_iff, Qle_bool_iff. reflexivity.
Qed.

Lemma lmw_labels_in p stations a : In a (lmw_labels p stations) ->
  exists n, In (n, snd a) stations /\ fst a = last (split_on "_" n) [] /\ infix (T "lmw") (lower n) = true.
Proof.
  revert p. induction stations as [|[n loc] st IH]; intros p I; cbn [lmw_labels] in I; [destruct I|].
  destruct (infix (T "lmw") (lower n)) eqn:E; cbn [negb] in I.
  - destruct (nltb (nabs (nsub p loc)) (Fin 5)).
    + destruct (IH _ I) as (m & J & K). exists m. split; [right; auto|auto].
    + destruct I as [<-|I].
      * exists n. split; [left; auto|auto].
      * destruct (IH _ I) as (m & J & K). exists m. split; [right; auto|auto].
  - destruct (IH _ I) as (m & J & K). exists m. split; [right; auto|auto].
Qed.

(** All labels after a label at [p] are five kilometres away from it. *)
Lemma lmw_labels_spaced stations : forall p,
  finite_sorted stations ->
  (forall a, In a stations -> exists x, snd a = Fin x /\ (p <= x)%Q) ->
  StronglySorted five_apart (lmw_labels (Fin p) stations) /\
  Forall (fun a => exists y, snd a = Fin y /\ (5 <= y - p)%Q) (lmw_labels (Fin p) stations).
Proof.
  induction stations as [|[n loc] st IH]; intros p [S1 F1] B; cbn [lmw_labels]; [split; constructor|].
  apply StronglySorted_inv in S1. destruct S1 as [S1 R1].
  apply Forall_cons_iff in F1. destruct F1 as [[x Ex] F1]. cbn [snd] in Ex. subst loc.
  assert (B' : forall a, In a st -> exists y, snd a = Fin y /\ (p <= y)%Q) by (intros; apply B; right; auto).
  destruct (negb (infix (T "lmw") (lower n))); [apply IH; [split|]; auto|].
  destruct (nltb (nabs (nsub (Fin p) (Fin x))) (Fin 5)) eqn:E; [apply IH; [split|]; auto|].
  apply far_apart in E. destruct (B (n, Fin x) (or_introl eq_refl)) as (y & Ey & Py). cbn [snd] in Ey. injection Ey as <-.
  assert (D : (5 <= x - p)%Q) by (rewrite Qabs_neg in E by lra; lra).
  assert (B2 : forall a, In a st -> exists y, snd a = Fin y /\ (x <= y)%Q).
  { intros a I. rewrite Forall_forall in R1. destruct (R1 a I) as (u & v & H1 & H2 & H3). cbn [snd] in H1.
    injection H1 as <-. exists v. auto. }
  destruct (IH x (conj S1 F1) B2) as [G1 G2]. split.
  - constructor; auto. eapply Forall_impl; [|exact G2]. cbv beta. intros a (y & Hy & Dy).
    exists x, y. cbn [snd]. auto.
  - constructor; [exists x; cbn [snd]; auto|]. eapply Forall_impl; [|exact G2]. cbv beta.
    intros a (y & Hy & Dy). exists y. split; auto. lra.
Qed.

Theorem C72_labels_five_kilometres_apart :
  forall stations, finite_sorted stations ->
    (forall a, In a stations -> exists x, snd a = Fin x /\ (-9999 <= x)%Q) ->
    StronglySorted five_apart (lmw_func stations).
Proof.
  intros stations F B. unfold lmw_func. change (Fin (-9999 # 1)) with (Fin (-9999)).
  apply lmw_labels_spaced; auto.
Qed.
Print Assumptions C72_labels_five_kilometres_apart.

(** Each LMW station has a label, or lies less than five kilometres after one. *)
Lemma lmw_labels_cover stations : forall p n x,
  finite_sorted stations ->
  (forall a, In a stations -> exists y, snd a = Fin y /\ (p <= y)%Q) ->
  In (n, Fin x) stations -> infix (T "lmw") (lower n) = true ->
  (x - p < 5)%Q \/ In (last (split_on "_" n) [], Fin x) (lmw_labels (Fin p) stations) \/
  exists m y, In (m, Fin y) (lmw_labels (Fin p) stations) /\ (y <= x)%Q /\ (x - y < 5)%Q.
Proof.
  induction stations as [|[n0 loc] st IH]; intros p n x [S1 F1] B I W; [destruct I|]. cbn [lmw_labels].
  apply StronglySorted_inv in S1. destruct S1 as [S1 R1].
  apply Forall_cons_iff in F1. destruct F1 as [[x0 Ex] F1]. cbn [snd] in Ex. subst loc.
  assert (B' : forall a, In a st -> exists y, snd a = Fin y /\ (p <= y)%Q) by (intros; apply B; right; auto).
  destruct (B (n0, Fin x0) (or_introl eq_refl)) as (y & Ey & Py). cbn [snd] in Ey. injection Ey as <-.
  assert (B2 : forall a, In a st -> exists y, snd a = Fin y /\ (x0 <= y)%Q).
  { intros a J. rewrite Forall_forall in R1. destruct (R1 a J) as (u & v & H1 & H2 & H3). cbn [snd] in H1.
    injection H1 as <-. exists v. auto. }
  destruct I as [I|I].
  - injection I as -> ->. rewrite W. cbn [negb].
    destruct (nltb (nabs (nsub (Fin p) (Fin x))) (Fin 5)) eqn:E.
    + left. destruct (Qlt_le_dec (x - p) 5) as [H|H]; auto. exfalso.
      assert (G : nltb (nabs (nsub (Fin p) (Fin x))) (Fin 5) = false) by (apply far_apart; rewrite Qabs_neg by lra; lra).
      rewrite E in G. discriminate.
    + right. left. left. reflexivity.
  - destruct (negb (infix (T "lmw") (lower n0))); [apply IH; auto; split; auto|].
    destruct (nltb (nabs (nsub (Fin p) (Fin x0))) (Fin 5)); [apply IH; auto; split; auto|].
    right. destruct (B2 _ I) as (y & Ey & Qy). cbn [snd] in Ey. injection Ey as <-.
    destruct (IH x0 n x (conj S1 F1) B2 I W) as [H|[H|(m & y & H1 & H2 & H3)]].
    + right. exists (last (split_on "_" n0) []), x0. split; [left; auto|]. auto.
    + left. right. auto.
    + right. exists m, y. split; [right; auto|auto].
Qed.

Theorem C72_every_station_near_a_label :
  forall stations n x, finite_sorted stations ->
    (forall a, In a stations -> exists y, snd a = Fin y /\ (-9994 <= y)%Q) ->
    In (n, Fin x) stations -> infix (T "lmw") (lower n) = true ->
    In (last (split_on "_" n) [], Fin x) (lmw_func stations) \/
    exists m y, In (m, Fin y) (lmw_func stations) /\ (y <= x)%Q /\ (x - y < 5)%Q.
Proof.
  intros stations n x F B I W. unfold lmw_func. change (Fin (-9999 # 1)) with (Fin (-9999)).
  destruct (lmw_labels_cover stations (-9999) n x F) as [H|H]; auto.
  - intros a J. destruct (B a J) as (y & E & L). exists y. split; auto. lra.
  - exfalso. destruct (B _ I) as (y & E & L). cbn [snd] in E. injection E as <-. lra.
Qed.
Print Assumptions C72_every_station_near_a_label.

(** A station without a number switches the spacing off: stations after it are
    all labelled. *)
Theorem C72_missing_location_refuted :
  lmw_func [(T "a_LMW", NaN); (T "b_LMW", NaN); (T "c_LMW", Fin 1)] =
    [(T "LMW", NaN); (T "LMW", NaN); (T "LMW", Fin 1)] /\
  lmw_func [(T "x_1_LMWa", Fin 1); (T "x_2_LMWb", Fin 2); (T "x_6_lmwc", Fin 6)] =
    [(T "LMWa", Fin 1); (T "lmwc", Fin 6)].
Proof. split; vm_compute; reflexivity. Qed.
Print Assumptions C72_missing_location_refuted.
