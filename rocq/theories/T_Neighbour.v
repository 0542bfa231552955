(** Theorems for C32 and C33: control volumes by nearest neighbour, without
    and with regions. *)
From Coq Require Import String List Ascii ZArith QArith Bool Lia Lqa.
From Verif Require Import Spec PyBase Num Text L_Text L_List M_Import T_Select M_Classify.
Import ListNotations.
Local Open Scope Q_scope.

(** What is assumed of sklearn: it gives the position of a sample and no sample
    is nearer. *)
Definition is_nearest (nearest : list point -> point -> nat) : Prop :=
  forall xy p, xy <> [] ->
    exists s, nth_error xy (nearest xy p) = Some s /\ forall q, In q xy -> sq_dist p s <= sq_dist p q.

(** The squared distance is that of Pythagoras: zero for a point and itself
    only, the same both ways, and of right-angled triangles. *)
Theorem C32_distance :
  forall a b c : point,
    0 <= sq_dist a b /\ sq_dist a b == sq_dist b a /\
    (sq_dist a b == 0 <-> fst a == fst b /\ snd a == snd b) /\
    (* a right angle at [c] *)
    ((fst a - fst c) * (fst b - fst c) + (snd a - snd c) * (snd b - snd c) == 0 ->
     sq_dist a b == sq_dist a c + sq_dist c b).
Proof.
  intros [ax ay] [bx by_] [cx cy]. unfold sq_dist. cbn [fst snd].
  assert (S : forall q : Q, 0 <= q * q) by (intro q; apply (Qle_trans _ (q * q)); [destruct (Qlt_le_dec q 0); nra|lra]).
  split; [pose proof (S (ax - bx)); pose proof (S (ay - by_)); lra|].
  split; [ring|]. split.
  - split; [|intros [-> ->]; ring]. intro H.
    pose proof (S (ax - bx)). pose proof (S (ay - by_)).
    assert (Z : forall q : Q, q * q == 0 -> q == 0) by (intros q Hq; destruct (Qmult_integral q q Hq); auto).
    assert (X : ax - bx == 0) by (apply Z; lra). assert (Y : ay - by_ == 0) by (apply Z; lra).
    split; lra.
  - intro H. nra.
Qed.
Print Assumptions C32_distance.

(** A search that satisfies it: the first of the nearest samples. *)
Fixpoint first_nearest (xy : list point) (p : point) : nat :=
  match xy with
  | [] => 0
  | s :: xy' =>
      match nth_error xy' (first_nearest xy' p) with
      | Some s' => if Qltb (sq_dist p s') (sq_dist p s) then S (first_nearest xy' p) else 0
      | None => 0
      end
  end.

Lemma Qltb_true a b : Qltb a b = true -> a < b.
Proof.
  unfold Qltb. intro H. apply Qnot_le_lt. intro L. apply Qle_bool_iff in L. rewrite L in H. discriminate.
Qed.

Lemma Qltb_false a b : Qltb a b = false -> b <= a.
Proof.
  unfold Qltb. intro H. apply Qle_bool_iff. destruct (Qle_bool b a); auto.
Qed.

Theorem C32_first_nearest_is_nearest : is_nearest first_nearest.
Proof.
  intros xy p. induction xy as [|s xy IH]; [congruence|]. intros _.
  destruct xy as [|s2 xy2].
  - exists s. split; [reflexivity|]. intros q [<-|[]]. lra.
  - assert (Hne : s2 :: xy2 <> []) by discriminate.
    destruct (IH Hne) as (s' & E & H). clear IH.
    remember (s2 :: xy2) as xy. cbn [first_nearest]. rewrite E.
    destruct (Qltb (sq_dist p s') (sq_dist p s)) eqn:L.
    + exists s'. split; [exact E|]. apply Qltb_true in L. intros q [<-|I]; [lra|apply H; auto].
    + exists s. split; [reflexivity|]. apply Qltb_false in L.
      intros q [<-|I]; [lra|]. specialize (H q I). lra.
Qed.
Print Assumptions C32_first_nearest_is_nearest.

(** [assigned xy ids p c]: [c] is the id of a cross-section such that none is
    nearer to [p]. *)
Definition assigned (xy : list point) (ids : list text) (p : point) (c : text) : Prop :=
  exists k s, nth_error xy k = Some s /\ nth_error ids k = Some c /\
    forall q, In q xy -> sq_dist p s <= sq_dist p q.

Lemma predict_ok nearest xy ids points :
  xy <> [] -> points <> [] ->
  predict nearest xy ids points = Ok (map (fun p => nth (nearest xy p) ids []) points).
Proof. destruct xy, points; try congruence; reflexivity. Qed.

Lemma predict_assigned nearest xy ids p :
  is_nearest nearest -> xy <> [] -> length ids = length xy ->
  assigned xy ids p (nth (nearest xy p) ids []).
Proof.
  intros N H L. destruct (N xy p H) as (s & E & M).
  exists (nearest xy p), s. split; [exact E|]. split; [|exact M].
  apply nth_error_nth'. rewrite L. apply nth_error_Some. congruence.
Qed.

Theorem C32_every_point_is_assigned_to_a_nearest_cross_section :
  forall nearest xy ids faces links,
    is_nearest nearest -> xy <> [] -> length ids = length xy -> faces <> [] -> links <> [] ->
    exists fc ec,
      classify_without_regions nearest xy ids faces links = Ok (fc, ec) /\
      Forall2 (assigned xy ids) faces fc /\ Forall2 (assigned xy ids) links ec.
Proof.
  intros nearest xy ids faces links N X L F K. unfold classify_without_regions.
  rewrite !predict_ok by assumption. cbn [bind]. do 2 eexists. split; [reflexivity|].
  split.
  - clear F. induction faces; cbn [map]; constructor; auto. apply predict_assigned; auto.
  - clear K. induction links; cbn [map]; constructor; auto. apply predict_assigned; auto.
Qed.
Print Assumptions C32_every_point_is_assigned_to_a_nearest_cross_section.

(** Without cross-sections, faces or links sklearn refuses the data. *)
Theorem C32_empty_input_is_refused :
  forall nearest xy ids faces links,
    xy = [] \/ faces = [] \/ links = [] ->
    classify_without_regions nearest xy ids faces links = Raise ValueError.
Proof.
  intros nearest [|x xy] ids [|f faces] [|l links] H; try reflexivity.
  destruct H as [|[|]]; discriminate.
Qed.
Print Assumptions C32_empty_input_is_refused.

(** The area of a control volume and the area of the mesh. *)
Definition volume_area (areas : list Q) (classes : list text) (id : text) : Q :=
  qsum (map (fun i => nth i areas 0) (members id classes)).

Lemma qsum_app a b : qsum (a ++ b) == qsum a + qsum b.
Proof. induction a; simpl; lra. Qed.

Lemma qsum_ext {A} (f g : A -> Q) l : (forall x, In x l -> f x == g x) -> qsum (map f l) == qsum (map g l).
Proof.
  induction l as [|x l IH]; intro H; simpl; [lra|].
  rewrite (H x (or_introl eq_refl)), IH; [lra|]. intros y I. apply H. right; auto.
Qed.

Lemma qsum_plus {A} (f g : A -> Q) l : qsum (map (fun x => f x + g x) l) == qsum (map f l) + qsum (map g l).
Proof. induction l as [|x l IH]; simpl; [lra|]. rewrite IH. lra. Qed.

Lemma qsum_zero {A} (f : A -> Q) l : (forall x, In x l -> f x == 0) -> qsum (map f l) == 0.
Proof.
  induction l as [|x l IH]; intro H; simpl; [lra|].
  rewrite (H x (or_introl eq_refl)), IH; [lra|]. intros y I. apply H. right; auto.
Qed.

(** Sum of an indicator over distinct ids. *)
Lemma qsum_indicator a c ids : NoDup ids -> In c ids ->
  qsum (map (fun id : text => if teqb c id then a else 0) ids) == a.
Proof.
  induction ids as [|x ids IH]; intros N I; [destruct I|].
  inversion N as [|? ? Hx N']; subst. simpl. destruct I as [->|I].
  - rewrite teqb_refl. rewrite qsum_zero; [lra|].
    intros y Iy. destruct (teqb c y) eqn:E; [|lra]. apply teqb_eq in E. subst. contradiction.
  - destruct (teqb c x) eqn:E.
    + apply teqb_eq in E. subst. contradiction.
    + rewrite IH by auto. lra.
Qed.

Lemma volume_area_cons a areas c classes id :
  volume_area (a :: areas) (c :: classes) id ==
  (if teqb c id then a else 0) + volume_area areas classes id.
Proof.
  unfold volume_area, members. cbn [length seq filter nth].
  rewrite <- seq_shift.
  assert (E : forall l, map (fun i => nth i (a :: areas) 0)
                (filter (fun i => teqb (nth i (c :: classes) []) id) (map S l))
              = map (fun i => nth i areas 0) (filter (fun i => teqb (nth i classes []) id) l)).
  { induction l as [|j l IH]; [reflexivity|]. cbn [map filter nth].
    cbn [nth] in IH. destruct (teqb (nth j classes []) id); cbn [map]; rewrite IH; reflexivity. }
  cbn [nth] in E. destruct (teqb c id); cbn [map qsum fold_right]; rewrite E; unfold qsum; lra.
Qed.

Lemma areas_add_up ids : NoDup ids -> forall classes areas, length areas = length classes ->
  Forall (fun c => In c ids) classes ->
  qsum (map (volume_area areas classes) ids) == qsum areas.
Proof.
  intros N. induction classes as [|c classes IH]; intros [|a areas] L F; try discriminate.
  - rewrite qsum_zero; [simpl; lra|]. intros; unfold volume_area; simpl; lra.
  - inversion F as [|? ? Hc F']; subst.
    rewrite (qsum_ext _ (fun id => (if teqb c id then a else 0) + volume_area areas classes id)).
    + rewrite qsum_plus, qsum_indicator by auto. rewrite IH by (auto; cbn in L; lia).
      simpl. lra.
    + intros id _. apply volume_area_cons.
Qed.

Lemma assigned_in xy ids p c : assigned xy ids p c -> In c ids.
Proof. intros (k & s & _ & E & _). eapply nth_error_In; eauto. Qed.

(** With distinct ids the control volumes partition the faces, and their areas
    add up to the area of the mesh. *)
Theorem C32_control_volumes_partition_the_mesh :
  forall nearest xy ids faces links areas fc ec,
    is_nearest nearest -> length ids = length xy -> NoDup ids -> length areas = length faces ->
    classify_without_regions nearest xy ids faces links = Ok (fc, ec) ->
    (forall i, (i < length faces)%nat -> exists! id, In id ids /\ In i (members id fc)) /\
    (forall i, (i < length links)%nat -> exists! id, In id ids /\ In i (members id ec)) /\
    (forall id i, In i (members id fc) -> (i < length faces)%nat) /\
    qsum (map (volume_area areas fc) ids) == qsum areas.
Proof.
  intros nearest xy ids faces links areas fc ec N L D A H.
  assert (X : xy <> []) by (intro X; rewrite C32_empty_input_is_refused in H by auto; discriminate).
  assert (F : faces <> []) by (intro X'; rewrite C32_empty_input_is_refused in H by auto; discriminate).
  assert (K : links <> []) by (intro X'; rewrite C32_empty_input_is_refused in H by auto; discriminate).
  destruct (C32_every_point_is_assigned_to_a_nearest_cross_section nearest xy ids faces links N X L F K)
    as (fc' & ec' & E & PF & PE).
  rewrite H in E. injection E as <- <-.
  assert (U : forall (pts : list point) cl, Forall2 (assigned xy ids) pts cl ->
    length pts = length cl /\ Forall (fun c => In c ids) cl /\
    forall i, (i < length pts)%nat -> exists! id, In id ids /\ In i (members id cl)).
  { intros pts cl P.
    assert (Ln : length pts = length cl) by (clear - P; induction P; cbn; auto).
    assert (Fa : Forall (fun c => In c ids) cl).
    { clear - P. induction P; constructor; auto. eapply assigned_in; eauto. }
    split; [exact Ln|]. split; [exact Fa|]. intros i Hi.
    destruct (nth_error cl i) as [c|] eqn:Ec.
    2: { apply nth_error_None in Ec. lia. }
    exists c. split.
    - split.
      + rewrite Forall_forall in Fa. apply Fa. eapply nth_error_In; eauto.
      + apply (proj1 (proj2 (C30_members c cl))). exact Ec.
    - intros c' [_ I]. apply (proj1 (proj2 (C30_members c' cl))) in I. congruence. }
  destruct (U _ _ PF) as (LF & IF & UF). destruct (U _ _ PE) as (LE & _ & UE).
  split; [exact UF|]. split; [exact UE|]. split.
  - intros id i I. apply (proj1 (proj2 (C30_members id fc))) in I. rewrite LF.
    apply nth_error_Some. congruence.
  - apply areas_add_up; auto. congruence.
Qed.
Print Assumptions C32_control_volumes_partition_the_mesh.

(** A point that is strictly nearer to one cross-section than to the others
    goes there, whatever the search does with ties. *)
Theorem C32_strictly_nearest_decides :
  forall xy ids p c k s id,
    assigned xy ids p c -> nth_error xy k = Some s -> nth_error ids k = Some id ->
    (forall j q, nth_error xy j = Some q -> j <> k -> sq_dist p s < sq_dist p q) ->
    c = id.
Proof.
  intros xy ids p c k s id (j & q & Ej & Ec & M) Ek Ei St.
  destruct (Nat.eq_dec j k) as [->|Hne]; [congruence|].
  specialize (St j q Ej Hne). specialize (M s (nth_error_In _ _ Ek)). lra.
Qed.
Print Assumptions C32_strictly_nearest_decides.

(** Two cross-sections with the same id have the same control volume, which
    then counts twice. *)
Theorem C32_duplicate_ids_double_the_area :
  exists xy ids faces links areas fc ec,
    classify_without_regions first_nearest xy ids faces links = Ok (fc, ec) /\
    length areas = length faces /\
    ~ qsum (map (volume_area areas fc) ids) == qsum areas.
Proof.
  exists [(0, 0); (10, 0)], [T "a"; T "a"], [(1, 0); (9, 0)], [(5, 0)], [1; 1].
  do 2 eexists. split; [vm_compute; reflexivity|]. split; [reflexivity|]. vm_compute. discriminate.
Qed.
Print Assumptions C32_duplicate_ids_double_the_area.

(** * C33 *)

Lemma select_length_in_region {A B} (l : list A) (m : list B) mask :
  length l = length m -> length (select mask l) = length (select mask m).
Proof.
  revert l m. induction mask as [|b mask IH]; intros [|x l] [|y m] H; try discriminate; auto.
  - destruct b; reflexivity.
  - cbn in H. destruct b; cbn; auto.
Qed.

Lemma select_in {A} mask : forall (l : list A) x, In x (select mask l) <->
  exists i, nth_error mask i = Some true /\ nth_error l i = Some x.
Proof.
  induction mask as [|b mask IH]; intros l x.
  - split; [intros []|]. intros (i & H & _). destruct i; discriminate.
  - destruct l as [|y l].
    + split; [destruct b; intros []|]. intros (i & _ & H). destruct i; discriminate.
    + destruct b; cbn [select]; [cbn [In]|]; rewrite IH; split.
      * intros [->|(i & H1 & H2)]; [exists 0%nat; auto|exists (S i); auto].
      * intros ([|i] & H1 & H2); cbn in *; [left; congruence|right; exists i; auto].
      * intros (i & H1 & H2). exists (S i); auto.
      * intros ([|i] & H1 & H2); cbn in *; [discriminate|exists i; auto].
Qed.

(** Rows of two columns stay together. *)
Lemma select_pair {A B} mask : forall (l : list A) (m : list B) j x y, length l = length m ->
  nth_error (select mask l) j = Some x -> nth_error (select mask m) j = Some y ->
  exists i, nth_error mask i = Some true /\ nth_error l i = Some x /\ nth_error m i = Some y.
Proof.
  induction mask as [|b mask IH]; intros l m j x y L H1 H2.
  - destruct j; discriminate.
  - destruct l as [|a l], m as [|c m]; try discriminate.
    + destruct b, j; discriminate.
    + cbn in L. destruct b; cbn [select] in *.
      * destruct j as [|j]; cbn in *.
        -- exists 0%nat. cbn. auto.
        -- destruct (IH l m j x y) as (i & ? & ? & ?); auto. exists (S i). auto.
      * destruct (IH l m j x y) as (i & ? & ? & ?); auto. exists (S i). auto.
Qed.

Lemma nth_error_in_region region regions i :
  nth_error (in_region region regions) i = Some true <-> nth_error regions i = Some region.
Proof.
  unfold in_region. rewrite nth_error_map. destruct (nth_error regions i) as [r|]; cbn.
  - split; intro H.
    + injection H as H. apply teqb_eq in H. congruence.
    + injection H as ->. rewrite teqb_refl. auto.
  - split; discriminate.
Qed.

Lemma put_where_length {A} mask : forall (new old : list A), length (put_where mask new old) = length old.
Proof.
  induction mask as [|b mask IH]; intros new old; [reflexivity|].
  destruct b, new, old; cbn; auto.
Qed.

Lemma put_where_select {A B} (g : A -> B) region : forall regions (pts : list A) (old : list B) i,
  length pts = length regions -> length old = length regions ->
  nth_error (put_where (in_region region regions) (map g (select (in_region region regions) pts)) old) i =
  match nth_error regions i, nth_error pts i with
  | Some r, Some p => if teqb r region then Some (g p) else nth_error old i
  | _, _ => nth_error old i
  end.
Proof.
  induction regions as [|r regions IH]; intros pts old i H1 H2.
  - destruct pts, old; try discriminate. destruct i; reflexivity.
  - destruct pts as [|p pts], old as [|o old]; try discriminate. cbn in H1, H2.
    cbn [in_region map select]. fold (in_region region regions).
    destruct (teqb r region) eqn:E; cbn [map put_where]; destruct i as [|i]; cbn [nth_error];
      rewrite ?E; auto; apply IH; lia.
Qed.

Lemma unique_in x l : In x (unique l) <-> In x l.
Proof.
  induction l as [|y l IH]; [reflexivity|]. cbn [unique In]. rewrite filter_In, IH. split.
  - intros [->|[H _]]; auto.
  - intros [->|H]; auto. destruct (teqb y x) eqn:E.
    + apply teqb_eq in E. auto.
    + right. split; auto.
Qed.

Lemma unique_NoDup l : NoDup (unique l).
Proof.
  induction l as [|y l IH]; cbn [unique]; constructor.
  - rewrite filter_In. rewrite teqb_refl. intros [_ H]. discriminate.
  - apply NoDup_filter, IH.
Qed.

Section Regions.
  Variable nearest : list point -> point -> nat.
  Variables (xy : list point) (ids css_regions : list text).

  (** The cross-sections of a region. *)
  Definition region_xy r := select (in_region r css_regions) xy.
  Definition region_ids r := select (in_region r css_regions) ids.

  (** The class of a point of region [r] at [p], if the region has
      cross-sections. *)
  Definition region_class (r : text) (p : point) : text := nth (nearest (region_xy r) p) (region_ids r) [].

  Definition has_css (r : text) : bool := match region_ids r with [] => false | _ => true end.

  Variables (faces : list point) (f_regions : list text) (links : list point) (e_regions : list text).
  Hypothesis Lxy : length xy = length ids.
  Hypothesis Lf : length faces = length f_regions.
  Hypothesis Le : length links = length e_regions.

  Definition settle (u : text -> text) (rs regions : list text) (pts : list point) (old : list text)
      (i : nat) : option text :=
    match nth_error regions i, nth_error pts i with
    | Some r, Some p =>
        if existsb (teqb r) rs && has_css r then Some (u (region_class r p)) else nth_error old i
    | _, _ => nth_error old i
    end.

  Lemma region_step_spec st r fc ec :
    length (fst st) = length f_regions -> length (snd st) = length e_regions ->
    region_step nearest xy ids css_regions faces f_regions links e_regions st r = Ok (fc, ec) ->
    length fc = length f_regions /\ length ec = length e_regions /\
    (forall i, nth_error fc i = settle (fun x => x) [r] f_regions faces (fst st) i) /\
    (forall i, nth_error ec i = settle u99 [r] e_regions links (snd st) i).
  Proof.
    intros L1 L2. unfold region_step. fold (region_ids r). fold (region_xy r).
    unfold settle, has_css. cbn [existsb].
    destruct (region_ids r) as [|c cs] eqn:E.
    - intro H. injection H as H. subst st. cbn [fst snd] in *.
      split; [assumption|]. split; [assumption|]. split; intro i.
      + destruct (nth_error f_regions i) as [r'|] eqn:Er; auto.
        destruct (nth_error faces i); auto.
        destruct (teqb r' r) eqn:T1; cbn; auto. apply teqb_eq in T1. subst. rewrite E. auto.
      + destruct (nth_error e_regions i) as [r'|] eqn:Er; auto.
        destruct (nth_error links i); auto.
        destruct (teqb r' r) eqn:T1; cbn; auto. apply teqb_eq in T1. subst. rewrite E. auto.
    - intro H.
      destruct (predict nearest (region_xy r) (c :: cs) (select (in_region r f_regions) faces)) as [fp|] eqn:P1;
        cbn [bind] in H; [|discriminate].
      destruct (predict nearest (region_xy r) (c :: cs) (select (in_region r e_regions) links)) as [ep|] eqn:P2;
        cbn [bind] in H; [|discriminate].
      injection H as <- <-.
      assert (Q1 : fp = map (region_class r) (select (in_region r f_regions) faces)).
      { unfold predict in P1. destruct (region_xy r) eqn:Ex; [discriminate|].
        destruct (select (in_region r f_regions) faces); [discriminate|]. injection P1 as <-.
        unfold region_class. rewrite E, Ex. reflexivity. }
      assert (Q2 : ep = map (region_class r) (select (in_region r e_regions) links)).
      { unfold predict in P2. destruct (region_xy r) eqn:Ex; [discriminate|].
        destruct (select (in_region r e_regions) links); [discriminate|]. injection P2 as <-.
        unfold region_class. rewrite E, Ex. reflexivity. }
      subst fp ep. rewrite map_map. rewrite !put_where_length.
      split; [assumption|]. split; [assumption|]. split; intro i; rewrite put_where_select by auto.
      + destruct (nth_error f_regions i) as [r'|] eqn:Er; auto.
        destruct (nth_error faces i); auto.
        destruct (teqb r' r) eqn:T1; cbn; auto. apply teqb_eq in T1. subst. rewrite E. auto.
      + destruct (nth_error e_regions i) as [r'|] eqn:Er; auto.
        destruct (nth_error links i); auto.
        destruct (teqb r' r) eqn:T1; cbn; auto. apply teqb_eq in T1. subst. rewrite E. auto.
  Qed.

  Lemma fold_regions rs : forall st fc ec,
    length (fst st) = length f_regions -> length (snd st) = length e_regions ->
    fold_res (region_step nearest xy ids css_regions faces f_regions links e_regions) rs st = Ok (fc, ec) ->
    length fc = length f_regions /\ length ec = length e_regions /\
    (forall i, nth_error fc i = settle (fun x => x) rs f_regions faces (fst st) i) /\
    (forall i, nth_error ec i = settle u99 rs e_regions links (snd st) i).
  Proof.
    induction rs as [|r rs IH]; intros st fc ec L1 L2 H; cbn [fold_res] in H.
    - injection H as H. subst st. cbn [fst snd] in *. split; [assumption|]. split; [assumption|].
      unfold settle. cbn [existsb andb].
      split; intro i.
      + destruct (nth_error f_regions i); auto. destruct (nth_error faces i); auto.
      + destruct (nth_error e_regions i); auto. destruct (nth_error links i); auto.
    - destruct (region_step nearest xy ids css_regions faces f_regions links e_regions st r) as [[fc1 ec1]|] eqn:E;
        [|discriminate].
      destruct (region_step_spec st r fc1 ec1 L1 L2 E) as (M1 & M2 & S1 & S2).
      destruct (IH (fc1, ec1) fc ec M1 M2 H) as (N1 & N2 & R1 & R2).
      split; [assumption|]. split; [assumption|]. cbn [fst snd] in *.
      split; intro i; [rewrite R1|rewrite R2]; unfold settle; [rewrite S1|rewrite S2]; unfold settle;
        cbn [existsb].
      + destruct (nth_error f_regions i) as [r'|]; auto. destruct (nth_error faces i) as [p|]; auto.
        rewrite orb_false_r. destruct (teqb r' r), (existsb (teqb r') rs), (has_css r'); reflexivity.
      + destruct (nth_error e_regions i) as [r'|]; auto. destruct (nth_error links i) as [p|]; auto.
        rewrite orb_false_r. destruct (teqb r' r), (existsb (teqb r') rs), (has_css r'); reflexivity.
  Qed.

  Lemma region_step_succeeds st r : In r f_regions ->
    (has_css r = true -> In r e_regions) ->
    exists st', region_step nearest xy ids css_regions faces f_regions links e_regions st r = Ok st'.
  Proof.
    intros I J. unfold region_step. fold (region_ids r). fold (region_xy r). unfold has_css in J.
    destruct (region_ids r) as [|c cs] eqn:E; [eexists; reflexivity|].
    assert (X : region_xy r <> []).
    { intro X. apply (f_equal (@length _)) in E. unfold region_ids in E.
      rewrite (select_length_in_region ids xy) in E by auto. unfold region_xy in X. rewrite X in E. discriminate. }
    assert (S : forall regions (pts : list point), length pts = length regions -> In r regions ->
                select (in_region r regions) pts <> []).
    { intros regions pts L K Z. apply In_nth_error in K. destruct K as [i Ki].
      destruct (nth_error pts i) as [p|] eqn:Ep.
      2: { apply nth_error_None in Ep. assert (i < length regions)%nat by (apply nth_error_Some; congruence). lia. }
      assert (In p (select (in_region r regions) pts)).
      { apply select_in. exists i. split; auto. apply nth_error_in_region. auto. }
      rewrite Z in *. contradiction. }
    rewrite !predict_ok by (auto; apply S; auto). eexists. reflexivity.
  Qed.

  Lemma region_step_fails st r : In r f_regions -> has_css r = true -> ~ In r e_regions ->
    region_step nearest xy ids css_regions faces f_regions links e_regions st r = Raise ValueError.
  Proof.
    intros I H J. unfold region_step. fold (region_ids r). fold (region_xy r). unfold has_css in H.
    destruct (region_ids r) as [|c cs] eqn:E; [discriminate|].
    assert (Z : select (in_region r e_regions) links = []).
    { destruct (select (in_region r e_regions) links) as [|p ps] eqn:Ez; auto.
      assert (K : In p (select (in_region r e_regions) links)) by (rewrite Ez; left; auto).
      apply select_in in K. destruct K as (i & K & _). apply nth_error_in_region in K.
      apply nth_error_In in K. contradiction. }
    rewrite Z. unfold predict. destruct (region_xy r) eqn:Ex; [reflexivity|].
    destruct (select (in_region r f_regions) faces); reflexivity.
  Qed.

  (** The classes of all faces and links, as a function of their place and
      region; and the condition under which there is a result. *)
  Theorem classify_with_regions_spec e_class : length e_class = length e_regions ->
    ((forall r, In r f_regions -> has_css r = true -> In r e_regions) ->
     exists fc ec,
       classify_with_regions nearest xy ids css_regions faces f_regions links e_regions e_class = Ok (fc, ec) /\
       length fc = length faces /\ length ec = length links /\
       (forall i r p, nth_error f_regions i = Some r -> nth_error faces i = Some p ->
          nth_error fc i = Some (if has_css r then region_class r p else r)) /\
       (forall i r p, nth_error e_regions i = Some r -> nth_error links i = Some p ->
          nth_error ec i = (if existsb (teqb r) f_regions && has_css r then Some (u99 (region_class r p))
                            else nth_error e_class i))) /\
    ((exists r, In r f_regions /\ has_css r = true /\ ~ In r e_regions) ->
     classify_with_regions nearest xy ids css_regions faces f_regions links e_regions e_class = Raise ValueError).
  Proof.
    intro Lc. unfold classify_with_regions. split.
    - intro H.
      assert (S : forall rs st, incl rs f_regions -> exists st',
        fold_res (region_step nearest xy ids css_regions faces f_regions links e_regions) rs st = Ok st').
      { induction rs as [|r rs IH]; intros st I; cbn [fold_res]; [eauto|].
        destruct (region_step_succeeds st r) as [st' E].
        - apply I. left; auto.
        - intro. apply H; auto. apply I. left; auto.
        - rewrite E. apply IH. intros x Hx. apply I. right; auto. }
      destruct (S (unique f_regions) (f_regions, e_class)) as [[fc ec] E].
      { intros r I. exact (proj1 (unique_in r f_regions) I). }
      exists fc, ec. split; [exact E|].
      destruct (fold_regions _ (f_regions, e_class) fc ec eq_refl Lc E) as (N1 & N2 & R1 & R2).
      split; [congruence|]. split; [congruence|]. cbn [fst snd] in *.
      assert (U : forall r, existsb (teqb r) (unique f_regions) = existsb (teqb r) f_regions).
      { intro r. apply eq_iff_eq_true. rewrite !existsb_exists. split; intros (x & I & J); exists x; (split; [|exact J]);
          [exact (proj1 (unique_in x f_regions) I)|exact (proj2 (unique_in x f_regions) I)]. }
      split; intros i r p Hr Hp; [rewrite R1|rewrite R2]; unfold settle; rewrite Hr, Hp, U.
      + assert (I : existsb (teqb r) f_regions = true).
        { apply existsb_exists. exists r. split; [eapply nth_error_In; eauto|apply teqb_refl]. }
        rewrite I. destruct (has_css r); auto.
      + reflexivity.
    - intros (r & I & H & J).
      assert (F : forall rs st, In r rs -> incl rs f_regions ->
        fold_res (region_step nearest xy ids css_regions faces f_regions links e_regions) rs st = Raise ValueError).
      { induction rs as [|r' rs IH]; intros st Ir In'; [destruct Ir|]. cbn [fold_res].
        destruct (in_dec (list_eq_dec ascii_dec) r' e_regions) as [Ie|Ie].
        - destruct Ir as [->|Ir]; [contradiction|].
          destruct (region_step_succeeds st r') as [st' E]; auto.
          { apply In'. left; auto. }
          rewrite E. apply IH; auto. intros x Hx. apply In'. right; auto.
        - destruct (has_css r') eqn:Hc.
          + rewrite region_step_fails; auto. apply In'. left; auto.
          + destruct Ir as [->|Ir]; [congruence|].
            destruct (region_step_succeeds st r') as [st' E]; auto.
            { apply In'. left; auto. }
            { congruence. }
            rewrite E. apply IH; auto. intros x Hx. apply In'. right; auto. }
      apply F; [apply unique_in; auto|]. intros x Hx. exact (proj1 (unique_in x f_regions) Hx).
  Qed.

  (** The class given within a region belongs to a cross-section of that
      region and none of that region is nearer. *)
  Lemma region_class_assigned r p : is_nearest nearest -> has_css r = true -> length css_regions = length xy ->
    exists k s, nth_error xy k = Some s /\ nth_error ids k = Some (region_class r p) /\
      nth_error css_regions k = Some r /\
      forall j q, nth_error xy j = Some q -> nth_error css_regions j = Some r -> sq_dist p s <= sq_dist p q.
  Proof.
    intros N H Lr.
    assert (X : region_xy r <> []).
    { intro X. unfold has_css in H. destruct (region_ids r) as [|c cs] eqn:E; [discriminate|].
      apply (f_equal (@length _)) in E. unfold region_ids in E.
      rewrite (select_length_in_region ids xy) in E by auto. unfold region_xy in X. rewrite X in E. discriminate. }
    destruct (predict_assigned nearest (region_xy r) (region_ids r) p N X) as (j & s & E1 & E2 & M).
    { apply select_length_in_region. auto. }
    destruct (select_pair (in_region r css_regions) xy ids j s (region_class r p) Lxy E1 E2)
      as (k & K1 & K2 & K3).
    exists k, s. split; [exact K2|]. split; [exact K3|].
    split; [apply nth_error_in_region; exact K1|].
    intros i q Hq Hr. apply M. apply select_in. exists i. split; auto. apply nth_error_in_region. auto.
  Qed.
End Regions.

(** The cross-section [k] is one of region [r] and the nearest one to [p]. *)
Definition nearest_of_region (xy : list point) (ids css_regions : list text) (r : text) (p : point)
    (c : text) : Prop :=
  exists k s, nth_error xy k = Some s /\ nth_error ids k = Some c /\ nth_error css_regions k = Some r /\
    forall j q, nth_error xy j = Some q -> nth_error css_regions j = Some r -> sq_dist p s <= sq_dist p q.

(** A region with faces and cross-sections also has links, ids fit in the array
    of the links, no region is named like a cross-section, and no id is empty:
    then faces and links go to the nearest cross-section of their region, and a
    face or link of a region without cross-sections goes to none. *)
Theorem C33_regions_confine_control_volumes_partial :
  forall nearest xy (ids css_regions : list text) faces (f_regions : list text) links
      (e_regions : list text),
    is_nearest nearest -> length xy = length ids -> length css_regions = length xy ->
    length faces = length f_regions -> length links = length e_regions ->
    (forall r, In r f_regions -> In r css_regions -> In r e_regions) ->
    (forall id : text, In id ids -> (length id <= 99)%nat /\ id <> [] /\ ~ In id f_regions) ->
    exists fc ec,
      classify_with_regions nearest xy ids css_regions faces f_regions links e_regions
        (repeat [] (length links)) = Ok (fc, ec) /\
      (forall i r p, nth_error f_regions i = Some r -> nth_error faces i = Some p ->
        exists c, nth_error fc i = Some c /\
          (In r css_regions -> nearest_of_region xy ids css_regions r p c) /\
          (~ In r css_regions -> ~ In c ids)) /\
      (forall i r p, nth_error e_regions i = Some r -> nth_error links i = Some p ->
        exists c, nth_error ec i = Some c /\
          (In r css_regions -> In r f_regions -> nearest_of_region xy ids css_regions r p c) /\
          (~ In r css_regions \/ ~ In r f_regions -> ~ In c ids)).
Proof.
  intros nearest xy ids css_regions faces f_regions links e_regions N Lxy Lr Lf Le R D.
  assert (HC : forall r, has_css ids css_regions r = true <-> In r css_regions).
  { intro r. unfold has_css, region_ids. split.
    - intro H. destruct (select (in_region r css_regions) ids) as [|c cs] eqn:E; [discriminate|].
      assert (I : In c (select (in_region r css_regions) ids)) by (rewrite E; left; auto).
      apply select_in in I. destruct I as (i & I & _). apply nth_error_in_region in I.
      eapply nth_error_In; eauto.
    - intro H. apply In_nth_error in H. destruct H as [i Hi].
      destruct (nth_error ids i) as [c|] eqn:Ec.
      2: { apply nth_error_None in Ec. assert (i < length css_regions)%nat by (apply nth_error_Some; congruence). lia. }
      assert (I : In c (select (in_region r css_regions) ids)).
      { apply select_in. exists i. split; auto. apply nth_error_in_region; auto. }
      destruct (select (in_region r css_regions) ids); [destruct I|reflexivity]. }
  assert (NC : forall r, has_css ids css_regions r = false <-> ~ In r css_regions).
  { intro r. rewrite <- HC. destruct (has_css ids css_regions r); split; congruence. }
  assert (L0 : length (repeat ([] : text) (length links)) = length e_regions)
    by (rewrite repeat_length; auto).
  destruct (proj1 (classify_with_regions_spec nearest xy ids css_regions faces f_regions links e_regions
              Lxy Lf Le _ L0)) as (fc & ec & E & L1 & L2 & PF & PE).
  { intros r I H. apply R; auto. apply HC; auto. }
  exists fc, ec. split; [exact E|]. split; intros i r p Hr Hp.
  - rewrite (PF i r p Hr Hp). eexists. split; [reflexivity|]. split; intro I.
    + apply HC in I. rewrite I. apply region_class_assigned; auto.
    + apply NC in I. rewrite I. intro J. destruct (D r J) as (_ & _ & F). apply F.
      eapply nth_error_In; eauto.
  - rewrite (PE i r p Hr Hp).
    assert (Hi : (i < length links)%nat) by (apply nth_error_Some; congruence).
    destruct (existsb (teqb r) f_regions && has_css ids css_regions r) eqn:B.
    + apply andb_prop in B. destruct B as [B1 B2]. eexists. split; [reflexivity|].
      destruct (region_class_assigned nearest xy ids css_regions Lxy r p N B2 Lr) as (k & s & K).
      assert (Hu : u99 (region_class nearest xy ids css_regions r p) = region_class nearest xy ids css_regions r p).
      { unfold u99. apply firstn_all2. apply D. eapply nth_error_In. apply K. }
      rewrite Hu. split.
      * intros _ _. exists k, s. exact K.
      * apply existsb_exists in B1. destruct B1 as (x & I1 & I2). apply teqb_eq in I2. subst x.
        apply HC in B2. intros [H|H]; contradiction.
    + exists []. split; [apply (nth_error_repeat ([] : text) (length links) i Hi)|]. split.
      * intros I J. exfalso. apply HC in I. rewrite I, andb_true_r in B.
        assert (existsb (teqb r) f_regions = true).
        { apply existsb_exists. exists r. split; auto. apply teqb_refl. }
        congruence.
      * intros _ K. destruct (D [] K) as (_ & K' & _). congruence.
Qed.
Print Assumptions C33_regions_confine_control_volumes_partial.

(** The hypotheses can be met: two regions with a cross-section each and a
    third one without. *)
Example regions_example :
  classify_with_regions first_nearest
    [(0, 0); (10, 0)] [T "a"; T "b"] [T "west"; T "east"]
    [(1, 0); (2, 0); (9, 0); (4, 0)] [T "west"; T "east"; T "east"; T "north"]
    [(1, 1); (8, 1); (7, 7)] [T "west"; T "east"; T "north"] (repeat [] 3)
  = Ok ([T "a"; T "b"; T "b"; T "north"], [T "a"; T "b"; []]).
Proof. vm_compute. reflexivity. Qed.

(** A region without cross-sections whose name is the id of a cross-section
    elsewhere: its faces go to that cross-section. *)
Theorem C33_region_named_like_a_cross_section_refuted :
  exists xy ids css_regions faces f_regions links e_regions fc ec,
    classify_with_regions first_nearest xy ids css_regions faces f_regions links e_regions
      (repeat [] (length links)) = Ok (fc, ec) /\
    ~ In (T "north") css_regions /\ nth_error f_regions 1 = Some (T "north") /\
    nth_error fc 1 = Some (T "north") /\ In (T "north") ids.
Proof.
  exists [(0, 0)], [T "north"], [T "west"], [(1, 0); (90, 0)], [T "west"; T "north"], [(1, 0)], [T "west"].
  do 2 eexists. split; [vm_compute; reflexivity|].
  split; [intros [H|[]]; vm_compute in H; discriminate|]. repeat split. left; reflexivity.
Qed.
Print Assumptions C33_region_named_like_a_cross_section_refuted.

(** A region with a face and a cross-section but without a link: the whole
    classification stops with the ValueError of sklearn. *)
Theorem C33_region_without_links_refuted :
  forall nearest xy (ids css_regions : list text) faces (f_regions : list text) links
      (e_regions e_class : list text) (r : text),
    length xy = length ids -> length faces = length f_regions -> length links = length e_regions ->
    length e_class = length e_regions -> length css_regions = length xy ->
    In r f_regions -> In r css_regions -> ~ In r e_regions ->
    classify_with_regions nearest xy ids css_regions faces f_regions links e_regions e_class = Raise ValueError.
Proof.
  intros nearest xy ids css_regions faces f_regions links e_regions e_class r Lxy Lf Le Lc Lr I J K.
  apply (proj2 (classify_with_regions_spec nearest xy ids css_regions faces f_regions links e_regions
              Lxy Lf Le e_class Lc)).
  exists r. split; [exact I|]. split; [|exact K].
  unfold has_css, region_ids. apply In_nth_error in J. destruct J as [i Hi].
  destruct (nth_error ids i) as [c|] eqn:Ec.
  2: { apply nth_error_None in Ec. assert (i < length css_regions)%nat by (apply nth_error_Some; congruence). lia. }
  assert (X : In c (select (in_region r css_regions) ids)).
  { apply select_in. exists i. split; auto. apply nth_error_in_region; auto. }
  destruct (select (in_region r css_regions) ids); [destruct X|reflexivity].
Qed.
Print Assumptions C33_region_without_links_refuted.

(** Ids of more than 99 characters are cut off for the links: they then belong
    to no cross-section. *)
Theorem C33_long_ids_lose_their_links_refuted :
  exists id fc ec,
    classify_with_regions first_nearest [(0, 0)] [id] [T "r"] [(1, 0)] [T "r"] [(1, 1)] [T "r"] [[]]
      = Ok (fc, ec) /\
    fc = [id] /\ ec <> [id].
Proof.
  exists (repeat "a"%char 100). do 2 eexists. split; [vm_compute; reflexivity|].
  split; [reflexivity|]. vm_compute. discriminate.
Qed.
Print Assumptions C33_long_ids_lose_their_links_refuted.
