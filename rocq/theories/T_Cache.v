(** Theorems for C37 and C38: the cache of the classification by polygons. *)
From Coq Require Import String List Ascii ZArith QArith Bool Lia.
From Verif Require Import PyBase Num Text L_Text M_Classify M_Polygon T_Polygon.
Import ListNotations.

Definition no_cache : caches := fun _ => None.

Definition name_of (k : call) : text := cache_name (c_file k) (c_prop k).

Lemma meta_eqb_eq a b : meta_eqb a b = true <-> a = b.
Proof.
  destruct a as [a1 a2], b as [b1 b2]. unfold meta_eqb. cbn [fst snd].
  rewrite andb_true_iff, !Z.eqb_eq. split; [intros []; congruence|]. intro H. injection H; auto.
Qed.

(** The classifications of regions and of sections of one 2D file have
    different cache files. *)
Theorem C37_properties_have_their_own_cache :
  forall file p1 p2, cache_name file p1 = cache_name file p2 -> p1 = p2.
Proof.
  intros file p1 p2 H. unfold cache_name, with_suffix in H. apply app_inv_head in H.
  injection H as H. apply app_inv_tail in H. exact H.
Qed.
Print Assumptions C37_properties_have_their_own_cache.

(** Every cache file holds what one of the calls [all] would compute. *)
Definition sound (all : list call) (c : caches) : Prop :=
  forall n s, c n = Some s ->
    exists k, In k all /\ name_of k = n /\
      exists f e, c_labels k = Ok (f, e) /\ s = Whole (c_meta k) f e.

Lemma sound_none all : sound all no_cache.
Proof. intros n s H. discriminate. Qed.

Lemma sound_remove all c name : sound all c -> sound all (fun n => if teqb n name then None else c n).
Proof. intros H n s. destruct (teqb n name); [discriminate|]. apply H. Qed.

Lemma sound_put all c k f e : In k all -> c_labels k = Ok (f, e) -> sound all c ->
  sound all (put_cache (name_of k) (Whole (c_meta k) f e) c).
Proof.
  intros I L H n s. unfold put_cache. destruct (teqb n (name_of k)) eqn:E.
  - intro X. injection X as <-. apply teqb_eq in E. exists k. split; auto. split; auto.
    exists f, e. auto.
  - apply H.
Qed.

(** Equal metadata under one cache name means equal labels. *)
Definition faithful (all : list call) : Prop :=
  forall k1 k2, In k1 all -> In k2 all -> name_of k1 = name_of k2 -> c_meta k1 = c_meta k2 ->
    c_labels k1 = c_labels k2.

Lemma call_sound all c k : faithful all -> sound all c -> In k all ->
  snd (get_gridpoints c k) = c_labels k /\ sound all (fst (get_gridpoints c k)).
Proof.
  intros F S I. unfold get_gridpoints. fold (name_of k).
  assert (R : forall c', sound all c' ->
    snd (match c_labels k with
         | Ok (f, e) => (put_cache (name_of k) (Whole (c_meta k) f e) c', Ok (f, e))
         | Raise x => (c', Raise x) end) = c_labels k /\
    sound all (fst (match c_labels k with
         | Ok (f, e) => (put_cache (name_of k) (Whole (c_meta k) f e) c', Ok (f, e))
         | Raise x => (c', Raise x) end))).
  { intros c' S'. destruct (c_labels k) as [[f e]|x] eqn:L; cbn [fst snd]; split; auto.
    apply sound_put; auto. }
  destruct (c (name_of k)) as [s|] eqn:E; [|apply R; auto].
  destruct (c_force k).
  - apply R. apply sound_remove. auto.
  - destruct (S _ _ E) as (k' & I' & N & f & e & L & ->).
    destruct (meta_eqb (c_meta k) (c_meta k')) eqn:M; [|apply R; auto].
    apply meta_eqb_eq in M. cbn [fst snd]. split; auto. rewrite <- L. apply F; auto.
Qed.

Lemma interrupted_sound all c at_ k : faithful all -> sound all c -> In k all -> at_ <> During ->
  sound all (interrupted at_ c k).
Proof.
  intros F S I N. destruct at_; [|congruence|].
  - unfold interrupted. destruct (c (cache_name (c_file k) (c_prop k))); [|auto].
    destruct (c_force k); [|auto]. apply sound_remove. auto.
  - apply call_sound; auto.
Qed.

(** The calls that return. *)
Fixpoint called (es : list event) : list call :=
  match es with
  | [] => []
  | Called k :: es' => k :: called es'
  | Interrupted _ _ :: es' => called es'
  end.

Lemma history_sound all : faithful all -> forall es c, sound all c ->
  incl (map event_call es) all -> (forall at_ k, In (Interrupted at_ k) es -> at_ <> During) ->
  history c es = map c_labels (called es).
Proof.
  intros F. induction es as [|[k|at_ k] es IH]; intros c S I N; [reflexivity| |]; cbn [history called map].
  - destruct (call_sound all c k F S) as [R S'].
    { apply I. left. reflexivity. }
    rewrite R. f_equal. apply IH; auto.
    + intros x Hx. apply I. right. auto.
    + intros a k' H. apply (N a k'). right. auto.
  - apply IH.
    + apply interrupted_sound; auto.
      * apply I. left. reflexivity.
      * apply (N at_ k). left. auto.
    + intros x Hx. apply I. right. auto.
    + intros a k' H. apply (N a k'). right. auto.
Qed.

(** Without a cache file to begin with, and as long as calls with the same
    cache file and the same metadata of the 2D file would compute the same
    labels (the polygons and the default label stay the same, and a change of
    the 2D file changes its time or size): every call, forced or not, of
    regions or of sections, returns the labels it would compute. *)
Theorem C37_cached_labels_are_the_labels_partial :
  forall es, (forall at_ k, In (Interrupted at_ k) es -> at_ <> During) ->
    faithful (map event_call es) ->
    history no_cache es = map c_labels (called es).
Proof.
  intros es N F. apply (history_sound (map event_call es)); auto.
  - apply sound_none.
  - apply incl_refl.
Qed.
Print Assumptions C37_cached_labels_are_the_labels_partial.

(** A forced call is right whatever is in the directory. *)
Theorem C37_forced_calls_are_right :
  forall c k, c_force k = true -> snd (get_gridpoints c k) = c_labels k.
Proof.
  intros c k H. unfold get_gridpoints. rewrite H.
  destruct (c (cache_name (c_file k) (c_prop k))); destruct (c_labels k) as [[f e]|]; reflexivity.
Qed.
Print Assumptions C37_forced_calls_are_right.

(** A call with other metadata than the cache is right too. *)
Theorem C37_stale_metadata_recomputes :
  forall c k m f e, c (name_of k) = Some (Whole m f e) -> c_meta k <> m ->
    snd (get_gridpoints c k) = c_labels k /\
    (forall f' e', c_labels k = Ok (f', e') ->
       fst (get_gridpoints c k) (name_of k) = Some (Whole (c_meta k) f' e')).
Proof.
  intros c k m f e H D. unfold get_gridpoints. fold (name_of k). rewrite H.
  assert (M : meta_eqb (c_meta k) m = false).
  { destruct (meta_eqb (c_meta k) m) eqn:E; auto. apply meta_eqb_eq in E. contradiction. }
  rewrite M. destruct (c_force k), (c_labels k) as [[f1 e1]|x]; cbn [fst snd]; split; auto;
    intros f' e' X; try discriminate; injection X as <- <-; unfold put_cache; rewrite teqb_refl; reflexivity.
Qed.
Print Assumptions C37_stale_metadata_recomputes.

(** One mesh, one polygon, and the calls as the code makes them. *)
Definition one_node : grid := mk_grid [(1, 0)]%Q [(1, [])]%Z [] [].
Definition classify (ps : list polygon) (undefined : string) : call :=
  mk_call (T "map.nc") (T "region") false (1, 2)%Z
    (gridpoints in_square (VStr (T undefined)) (T "region") ps one_node).

(** The polygon file is edited and the 2D file is not: the old labels come back. *)
Theorem C37_polygon_change_refuted :
  exists ps1 ps2 l1 l2,
    c_labels (classify ps1 "undefined") = Ok l1 /\ c_labels (classify ps2 "undefined") = Ok l2 /\
    l1 <> l2 /\
    history no_cache [Called (classify ps1 "undefined"); Called (classify ps2 "undefined")] = [Ok l1; Ok l1].
Proof.
  exists [named "p" "west" (square 0 10)], [named "p" "east" (square 0 10)].
  do 2 eexists. split; [vm_compute; reflexivity|]. split; [vm_compute; reflexivity|].
  split; [vm_compute; discriminate|]. vm_compute. reflexivity.
Qed.
Print Assumptions C37_polygon_change_refuted.

(** Likewise for the default label of the configuration. *)
Theorem C37_default_change_refuted :
  exists ps l1 l2,
    c_labels (classify ps "a") = Ok l1 /\ c_labels (classify ps "b") = Ok l2 /\ l1 <> l2 /\
    history no_cache [Called (classify ps "a"); Called (classify ps "b")] = [Ok l1; Ok l1].
Proof.
  exists [named "p" "west" (square 20 30)].
  do 2 eexists. split; [vm_compute; reflexivity|]. split; [vm_compute; reflexivity|].
  split; [vm_compute; discriminate|]. vm_compute. reflexivity.
Qed.
Print Assumptions C37_default_change_refuted.

(** Two 2D files that differ in their extension share a cache file. *)
Theorem C37_shared_cache_name :
  cache_name (T "map.nc") (T "region") = cache_name (T "map.nc4") (T "region").
Proof. reflexivity. Qed.
Print Assumptions C37_shared_cache_name.

(** The hypotheses of the positive theorem can be met by a history with a
    change of the 2D file, both properties, and an interruption. *)
Example C37_history_example :
  let k prop m labels := mk_call (T "map.nc") prop false (m, 2)%Z (Ok (labels, [])) in
  let a := [VStr (T "a")] in let b := [VStr (T "b")] in
  history no_cache [Called (k (T "region") 1%Z a); Called (k (T "section") 1%Z b); Called (k (T "region") 1%Z a);
                    Interrupted Before (k (T "region") 2%Z b); Called (k (T "region") 2%Z b); Called (k (T "section") 1%Z b)]
  = [Ok (a, []); Ok (b, []); Ok (a, []); Ok (b, []); Ok (b, [])].
Proof. vm_compute. reflexivity. Qed.

(** * C38 *)

(** An interruption before the cache file is opened, or after it is complete:
    the next call is right. *)
Theorem C38_interruption_outside_the_write_partial :
  forall all c at_ k k', faithful all -> sound all c -> In k all -> In k' all -> at_ <> During ->
    snd (get_gridpoints (interrupted at_ c k) k') = c_labels k'.
Proof.
  intros all c at_ k k' F S I I' N. apply (call_sound all); auto. apply interrupted_sound; auto.
Qed.
Print Assumptions C38_interruption_outside_the_write_partial.

(** An interruption while the cache file is written: all later calls for this
    cache file fail, until one is forced. *)
Theorem C38_interruption_during_the_write_refuted :
  forall c k f e, c_labels k = Ok (f, e) ->
    (c (name_of k) = None \/ exists m f' e', c (name_of k) = Some (Whole m f' e') /\ m <> c_meta k) ->
    forall ks, (forall k', In k' ks -> name_of k' = name_of k /\ c_force k' = false) ->
      history c (Interrupted During k :: map Called ks) = map (fun _ => Raise JSONDecodeError) ks.
Proof.
  intros c k f e L H ks. cbn [history].
  assert (P : interrupted During c k (name_of k) = Some Truncated).
  { unfold interrupted. fold (name_of k). rewrite L.
    destruct H as [H|(m & f' & e' & H & D)]; rewrite H.
    - unfold put_cache. destruct (c_force k); rewrite teqb_refl; reflexivity.
    - assert (M : meta_eqb (c_meta k) m = false).
      { destruct (meta_eqb (c_meta k) m) eqn:E; auto. apply meta_eqb_eq in E. congruence. }
      rewrite M. unfold put_cache. destruct (c_force k); rewrite teqb_refl; reflexivity. }
  generalize dependent (interrupted During c k). intros c' P.
  induction ks as [|k' ks IH]; intro A; [reflexivity|]. cbn [map history].
  destruct (A k' (or_introl eq_refl)) as [N F].
  assert (G : get_gridpoints c' k' = (c', Raise JSONDecodeError)).
  { unfold get_gridpoints. fold (name_of k'). rewrite N, P, F. reflexivity. }
  rewrite G. cbn [fst snd]. f_equal. apply IH. intros x I. apply A. right. auto.
Qed.
Print Assumptions C38_interruption_during_the_write_refuted.

(** A forced call repairs the cache file. *)
Theorem C38_forced_call_repairs :
  forall c k k' f e, c_force k = true -> c_labels k = Ok (f, e) ->
    name_of k' = name_of k -> c_meta k' = c_meta k -> c_force k' = false ->
    snd (get_gridpoints (fst (get_gridpoints c k)) k') = Ok (f, e).
Proof.
  intros c k k' f e Fk L N M Fk'.
  assert (P : fst (get_gridpoints c k) (name_of k) = Some (Whole (c_meta k) f e)).
  { unfold get_gridpoints. fold (name_of k). rewrite Fk, L.
    destruct (c (name_of k)); cbn [fst]; unfold put_cache; rewrite teqb_refl; reflexivity. }
  generalize dependent (fst (get_gridpoints c k)). intros c' P.
  unfold get_gridpoints. fold (name_of k'). rewrite N, P, Fk'.
  assert (X : meta_eqb (c_meta k') (c_meta k) = true) by (apply meta_eqb_eq; auto).
  rewrite X. reflexivity.
Qed.
Print Assumptions C38_forced_call_repairs.
