(** Theorems for C47 and C48: which cross-sections are generated, and the check of SkipMaps. *)
From Coq Require Import String List Ascii ZArith QArith Bool Lia.
From Verif Require Import PyBase Num Text L_Text Fixed M_Ini M_Friction M_Import M_Network M_Export L_Export M_Log M_Run T_Run.
Import ListNotations.
Local Open Scope char_scope.

(** ** C47 *)

(** A row that is generated. *)
Definition wanted (c : css_data) : bool :=
  match cd_id c with [] => false | _ => cd_complete c && Nat.leb 10 (cd_faces c) end.
Definition built (c : css_data) : list xs :=
  if wanted c then match cd_build c with Ok x => [x] | Raise _ => [] end else [].

Section C47.
  Variable log_line : level -> text -> text.
  Variable pickled : text -> text.

  Lemma generate_one ed c : snd (generate_cross_section log_line pickled ed c) =
    if wanted c then res_map Some (cd_build c) else Ok None.
  Proof.
    unfold generate_cross_section, wanted. destruct (cd_id c) as [|a l]; [reflexivity|].
    destruct (cd_complete c); cbn [negb andb]; [|reflexivity].
    destruct (Nat.ltb_spec (cd_faces c) 10), (Nat.leb_spec 10 (cd_faces c)); try lia; reflexivity.
  Qed.

  (** Exactly the selected rows with a complete record and at least ten faces, in the order of the selection. *)
  Theorem C47_generated_list : forall selection ed l s, selected selection l = Ok s ->
    (forall c, In c s -> wanted c = true -> exists x, cd_build c = Ok x) ->
    snd (generate_list log_line pickled selection ed l) = Ok (flat_map built s).
  Proof.
    intros selection ed l s E H. unfold generate_list. rewrite E. clear E l.
    induction s as [|c s IH]; [reflexivity|]. cbn [generate_all flat_map]. rewrite generate_one. unfold built at 1.
    destruct (wanted c) eqn:W.
    - destruct (H c (or_introl eq_refl) W) as (x & Ex). rewrite Ex. cbn [res_map snd app].
      rewrite IH by (intros; apply H; auto; right; auto). reflexivity.
    - cbn [snd app]. rewrite IH by (intros; apply H; auto; right; auto). reflexivity.
  Qed.

  (** A row whose computation raises stops the run: nothing is generated. *)
  Theorem C47_failure_stops_the_run : forall selection ed l s c e, selected selection l = Ok s -> In c s ->
    wanted c = true -> cd_build c = Raise e ->
    exists e', snd (generate_list log_line pickled selection ed l) = Raise e'.
  Proof.
    intros selection ed l s c e E I W B. unfold generate_list. rewrite E. clear E l.
    induction s as [|b s IH]; [destruct I|]. cbn [generate_all]. rewrite generate_one.
    destruct I as [->|I].
    - rewrite W, B. cbn. eauto.
    - destruct (IH I) as (e' & E'). destruct (wanted b); [destruct (cd_build b)|]; cbn [res_map snd]; eauto; rewrite E'; cbn; eauto.
  Qed.
End C47.
Print Assumptions C47_generated_list.
Print Assumptions C47_failure_stops_the_run.

(** ** The selection *)

Lemma map_res_index {A} (l : list A) ks (d : A) : Forall (fun k => (0 <= k < Z.of_nat (length l))%Z) ks ->
  map_res (py_index l) ks = Ok (map (fun k => nth (Z.to_nat k) l d) ks).
Proof.
  induction 1 as [|k ks H F IH]; [reflexivity|]. cbn [map_res map].
  assert (E : py_index l k = Ok (nth (Z.to_nat k) l d)).
  { unfold py_index. cbv zeta. rewrite !(proj2 (Z.ltb_ge k 0)) by lia.
    rewrite (nth_error_nth' l d) by lia. reflexivity. }
  rewrite E, IH. reflexivity.
Qed.

(** No selection (or an empty one): all rows, in the order of the file. *)
Theorem C47_no_selection : forall (A : Type) (l : list A), selected [] l = Ok l.
Proof.
  intros A l. unfold selected, css_range. destruct l as [|a l0]; [reflexivity|]. set (l := a :: l0).
  rewrite (map_res_index l _ a).
  - f_equal. rewrite map_map. clearbody l. clear l0.
    erewrite map_ext by (intro n; rewrite Nat2Z.id; reflexivity).
    induction l as [|x l IH]; [reflexivity|]. cbn [length seq map nth]. f_equal. rewrite <- seq_shift, map_map. exact IH.
  - apply Forall_forall. intros k I. apply in_map_iff in I. destruct I as (n & <- & I). apply in_seq in I. lia.
Qed.
Print Assumptions C47_no_selection.

(** A selection of positions picks these rows, one per entry, in the order of the entries. *)
Theorem C47_selection : forall (A : Type) (d : A) (l : list A) ks, ks <> [] ->
  Forall (fun k => (0 <= k < Z.of_nat (length l))%Z) ks ->
  selected ks l = Ok (map (fun k => nth (Z.to_nat k) l d) ks).
Proof.
  intros A d l ks N F. unfold selected, css_range. destruct ks; [congruence|]. apply map_res_index. auto.
Qed.
Print Assumptions C47_selection.

(** In increasing order they are in file order. *)
Inductive sublist {A} : list A -> list A -> Prop :=
| sub_nil l : sublist [] l
| sub_take x a l : sublist a l -> sublist (x :: a) (x :: l)
| sub_skip x a l : sublist a l -> sublist a (x :: l).
Lemma increasing_sublist {A} (d : A) (l : list A) ns : (forall i j, (i < j < length ns)%nat -> (nth i ns 0 < nth j ns 0)%nat) ->
  Forall (fun n => (n < length l)%nat) ns -> sublist (map (fun n => nth n l d) ns) l.
Proof.
  revert ns. induction l as [|x l IH]; intros ns Inc F.
  - destruct ns as [|n ns]; [constructor|]. inversion F; subst. cbn in *. lia.
  - assert (Shift : forall ms, (forall m, In m ms -> (0 < m)%nat) ->
      map (fun n => nth n (x :: l) d) ms = map (fun n => nth n l d) (map pred ms)).
    { intros ms H. rewrite map_map. apply map_ext_in. intros m I. specialize (H m I). destruct m; [lia|reflexivity]. }
    assert (Dec : forall ms, (forall m, In m ms -> (0 < m)%nat) -> (forall i j, (i < j < length ms)%nat -> (nth i ms 0 < nth j ms 0)%nat) ->
      forall i j, (i < j < length (map pred ms))%nat -> (nth i (map pred ms) 0 < nth j (map pred ms) 0)%nat).
    { intros ms H K i j Hij. rewrite map_length in Hij. change 0%nat with (pred 0) at 1 2. rewrite !map_nth.
      pose proof (K i j Hij) as Kij. assert (Ii : In (nth i ms 0%nat) ms) by (apply nth_In; lia).
      apply H in Ii. lia. }
    assert (Fd : forall ms, Forall (fun n => (n < length (x :: l))%nat) ms -> (forall m, In m ms -> (0 < m)%nat) ->
      Forall (fun n => (n < length l)%nat) (map pred ms)).
    { intros ms Fm H. apply Forall_forall. intros n I. apply in_map_iff in I. destruct I as (m & <- & I).
      rewrite Forall_forall in Fm. specialize (Fm m I). specialize (H m I). cbn in Fm. lia. }
    destruct ns as [|n ns]; [constructor|].
    assert (Pos : forall m, In m ns -> (n < m)%nat).
    { intros m I. apply (In_nth _ _ 0%nat) in I. destruct I as (k & Hk & <-). apply (Inc 0%nat (S k)). cbn. lia. }
    assert (Inc' : forall i j, (i < j < length ns)%nat -> (nth i ns 0 < nth j ns 0)%nat).
    { intros i j Hij. apply (Inc (S i) (S j)). cbn. lia. }
    inversion F as [|? ? Fn Fns]; subst.
    destruct n as [|n].
    + cbn [map nth]. apply sub_take. rewrite Shift by (intros m I; specialize (Pos m I); lia).
      apply IH; [apply Dec|apply Fd]; auto; intros m I; specialize (Pos m I); lia.
    + apply sub_skip. assert (Pos' : forall m, In m (S n :: ns) -> (0 < m)%nat).
      { intros m [<-|I]; [lia|]. specialize (Pos m I). lia. }
      rewrite Shift by exact Pos'. apply IH; [apply Dec|apply Fd]; auto.
Qed.

Theorem C47_increasing_selection_keeps_file_order : forall (A : Type) (d : A) (l : list A) ks,
  ks <> [] -> Forall (fun k => (0 <= k < Z.of_nat (length l))%Z) ks ->
  (forall i j, (i < j < length ks)%nat -> (nth i ks 0 < nth j ks 0)%Z) ->
  exists s, selected ks l = Ok s /\ sublist s l /\ length s = length ks.
Proof.
  intros A d l ks N F Inc. exists (map (fun k => nth (Z.to_nat k) l d) ks). split; [apply C47_selection; auto|].
  split; [|apply map_length].
  rewrite <- (map_map Z.to_nat (fun n => nth n l d)). rewrite Forall_forall in F. apply increasing_sublist.
  - intros i j Hij. rewrite map_length in Hij. change 0%nat with (Z.to_nat 0). rewrite !map_nth.
    pose proof (Inc i j Hij). assert (I : In (nth i ks 0%Z) ks) by (apply nth_In; lia). apply F in I. lia.
  - apply Forall_forall. intros n I. apply in_map_iff in I. destruct I as (k & <- & I). apply F in I. lia.
Qed.
Print Assumptions C47_increasing_selection_keeps_file_order.

(** Otherwise not: the order is that of the selection, entries may repeat, and a wrong entry stops the run. *)
Theorem C47_file_order_refuted : exists (l : list nat) ks s, selected ks l = Ok s /\ ~ sublist s l.
Proof.
  exists [10; 20]%nat, [1; 0]%Z, [20; 10]%nat. split; [reflexivity|]. intro H.
  inversion H as [|? ? ? H1|? ? ? H1]; subst. inversion H1 as [|? ? ? H2|? ? ? H2]; subst; inversion H2.
Qed.
Theorem C47_wrong_selection_raises : forall (A : Type) (l : list A) ks k, In k ks -> (Z.of_nat (length l) <= k)%Z ->
  selected ks l = Raise IndexError.
Proof.
  intros A l ks k I H. unfold selected, css_range. destruct ks as [|k0 ks0]; [destruct I|]. set (ks := k0 :: ks0) in *. clearbody ks.
  induction ks as [|j ks IH]; [destruct I|]. cbn [map_res].
  assert (Only : forall j e, py_index l j = Raise e -> e = IndexError).
  { intros j' e. unfold py_index. cbv zeta. destruct (_ <? 0)%Z; [congruence|]. destruct (nth_error l _); congruence. }
  destruct I as [->|I].
  - unfold py_index. cbv zeta. rewrite !(proj2 (Z.ltb_ge k 0)) by lia.
    rewrite (proj2 (nth_error_None l (Z.to_nat k))) by lia. reflexivity.
  - destruct (py_index l j) as [x|e] eqn:E; [rewrite (IH I); reflexivity|]. f_equal. eauto.
Qed.
Print Assumptions C47_file_order_refuted.
Print Assumptions C47_wrong_selection_raises.

Example C47_example : snd (generate_list (fun _ m => m) (fun m => m) [] false
    [mk_css_data (T "a") true 12 (Ok example_css); mk_css_data (T "b") true 9 (Raise KeyError); mk_css_data (T "c") true 10 (Ok example_css)])
  = Ok [example_css; example_css].
Proof. reflexivity. Qed.

(** ** C48 *)

(** The levels logged for SkipMaps, and success. *)
Theorem C48_decision_rule : forall skip nsteps nof w,
  let r := validate skip nsteps nof w in
  (fst r = false <-> (Z.of_nat nsteps <= skip)%Z) /\
  (In Error (snd r) <-> (Z.of_nat nsteps <= skip)%Z) /\
  (In Warning (snd r) <-> (skip < Z.of_nat nsteps < 2 * skip)%Z \/ (nof = true /\ w = 1%Z)).
Proof.
  intros skip nsteps nof w. cbv zeta. unfold validate. cbv zeta.
  assert (K : In Warning (if nof && (w =? 1)%Z then [Warning] else []) <-> nof = true /\ w = 1%Z).
  { destruct nof, (Z.eqb_spec w 1); cbn; intuition (try discriminate; try congruence). }
  assert (KE : ~ In Error (if nof && (w =? 1)%Z then [Warning] else [])).
  { destruct (nof && (w =? 1)%Z); cbn; intuition discriminate. }
  destruct (Z.leb_spec (Z.of_nat nsteps) skip).
  - cbn [fst snd app]. split; [tauto|]. split; [split; intro; [auto|left; auto]|].
    cbn [In]. rewrite K. intuition (try discriminate; try lia).
  - destruct (Z.ltb_spec (Z.of_nat nsteps) (2 * skip)); cbn [fst snd app In].
    + split; [split; [discriminate|lia]|]. split; [split; [intros [X|X]; [discriminate|tauto]|lia]|].
      rewrite K. intuition (try discriminate; try lia).
    + split; [split; [discriminate|lia]|]. split; [split; [tauto|lia]|]. rewrite K. intuition (try discriminate; try lia).
Qed.
Print Assumptions C48_decision_rule.

(** After a successful check some time step is left; SkipMaps >= 0 or not, as long as the file has one. *)
Theorem C48_time_steps_remain : forall (A : Type) (steps : list A) skip nof w,
  fst (validate skip (length steps) nof w) = true -> (0 <= skip)%Z \/ steps <> [] ->
  slice_from skip steps <> [].
Proof.
  intros A steps skip nof w H D.
  destruct (C48_decision_rule skip (length steps) nof w) as (E & _). cbv zeta in E.
  assert (L : (skip < Z.of_nat (length steps))%Z).
  { destruct (Z.le_gt_cases (Z.of_nat (length steps)) skip) as [X|X]; [|lia]. apply E in X. congruence. }
  intro N. apply (f_equal (@length A)) in N. unfold slice_from, slice_bound in N. cbn [length] in N. rewrite skipn_length in N.
  destruct (Z.ltb_spec skip 0); [|lia]. destruct D as [D|D]; [lia|]. destruct steps; [congruence|]. cbn [length] in *. lia.
Qed.
Print Assumptions C48_time_steps_remain.

(** A failing check ends the run: nothing of the output is written. *)
Theorem C48_failure_ends_the_run : forall sf s4 co ll pk i ow d n,
  r_ini i = true -> output_exists d && negb ow = false -> r_map_exists i = true -> r_css_exists i = true ->
  snd (r_read i) = Ok n -> (Z.of_nat n <= r_skip i)%Z ->
  snd (run sf s4 co ll pk i ow d) = Ok false /\
  forall f, f <> log_file -> (forall a, In a (fst (r_read i)) -> touches a <> f) ->
            play (fst (run sf s4 co ll pk i ow d)) d f = d f.
Proof.
  intros sf s4 co ll pk i ow d n Hi Ho Hm Hc Hr Hs.
  assert (V : fst (validate (r_skip i) n (r_no_edge_faces i) (r_weighing i)) = false) by (apply C48_decision_rule; auto).
  unfold run. rewrite Hi, Ho. cbn [negb]. unfold run_inifile.
  assert (E : snd (initialise ll i) = Raise InitializationError).
  { unfold initialise. rewrite Hm, Hc, Hr. cbn [negb orb]. cbv zeta. rewrite V. reflexivity. }
  rewrite E. cbn [fst snd]. split; auto.
  intros f Hf Ha. apply play_untouched. intros a I. rewrite !in_app_iff in I.
  destruct I as [[I|[<-|[]]]|[<-|[]]]; auto; cbn; try congruence.
  apply initialise_touch in I. destruct I as [->|I]; auto.
Qed.
Print Assumptions C48_failure_ends_the_run.

(** A negative SkipMaps counts from the end: -1 skips all time steps but one without a warning. *)
Theorem C48_negative_value_refuted : exists (steps : list nat) skip,
  validate skip (length steps) false 0 = (true, []) /\
  (2 * (length steps - length (slice_from skip steps)) > length steps)%nat.
Proof. exists [1; 2; 3; 4]%nat, (-1)%Z. vm_compute. auto. Qed.
Print Assumptions C48_negative_value_refuted.
