(** Theorems for C54: the time window of the comparison. *)
From Coq Require Import List ZArith Bool Lia Sorted.
From Verif Require Import PyBase M_Compare.
Import ListNotations.
Local Open Scope Z_scope.

Lemma py_index_first {A} (x : A) l : py_index (x :: l) 0 = Ok x.
Proof.
  unfold py_index. change (0 <? 0) with false. cbn [nth_error Z.to_nat]. reflexivity.
Qed.

Lemma last_step {A} (y x : A) l : last (y :: l) x = last l y.
Proof. revert y x. induction l as [|z l IH]; intros y x; [reflexivity|]. change (last (z :: l) x = last (z :: l) y). rewrite (IH z x), (IH z y). reflexivity. Qed.

Lemma py_index_last {A} (x : A) l : py_index (x :: l) (-1) = Ok (last l x).
Proof.
  unfold py_index. change (-1 <? 0) with true. cbv iota.
  replace (-1 + Z.of_nat (length (x :: l))) with (Z.of_nat (length l)) by (cbn [length]; lia).
  destruct (Z.of_nat (length l) <? 0) eqn:E; [apply Z.ltb_lt in E; lia|].
  rewrite Nat2Z.id. clear E. revert x. induction l as [|y l IH]; intro x; [reflexivity|].
  cbn [length nth_error]. rewrite IH, last_step. reflexivity.
Qed.

Definition or_default (o : option Z) (d : Z) : Z := match o with Some x => x | None => d end.

(** The window that is used: what was set, and for the rest the limits of the
    data.  The call returns the rows in the closed interval, exactly if the
    window is not empty, does not start at or after the last record and does
    not stop at or before the first one. *)
Theorem C54_window_of_a_table :
  forall A w (r : Z * A) rows,
    let data := r :: rows in
    let first := fst r in
    let final := last (map fst rows) (fst r) in
    let a := or_default (w_start w) first in
    let b := or_default (w_stop w) final in
    apply_startstop_time w data =
      (mk_window (Some a) (Some b),
       if (a <? b) && (a <? final) && (first <? b) then Ok (within a b data) else Raise ValueError).
Proof.
  intros A w r rows data first final a b. unfold apply_startstop_time, data. cbn [map].
  rewrite py_index_last, py_index_first. fold final first. cbn [bind].
  destruct w as [[sa|] [sb|]]; cbn [w_start w_stop or_default] in *; subst a b;
    cbn [w_start w_stop]; rewrite ?Z.ltb_antisym; f_equal;
    repeat match goal with |- context [?x <=? ?y] => destruct (x <=? y); cbn [negb andb]; try reflexivity end.
Qed.
Print Assumptions C54_window_of_a_table.

(** The rows: exactly the records in the closed interval, in order. *)
Theorem C54_rows_in_the_closed_interval :
  forall A w (data : list (Z * A)) w' out,
    apply_startstop_time w data = (w', Ok out) ->
    exists a b, w_start w' = Some a /\ w_stop w' = Some b /\ a < b /\
      (forall x, w_start w = Some x -> a = x) /\ (forall x, w_stop w = Some x -> b = x) /\
      out = filter (fun row => (a <=? fst row) && (fst row <=? b)) data /\
      (forall row, In row out <-> In row data /\ a <= fst row <= b).
Proof.
  intros A w [|r rows] w' out H.
  - exfalso. unfold apply_startstop_time in H. destruct w as [[sa|] [sb|]]; cbn in H;
      try discriminate; destruct (sb <=? sa); discriminate.
  - rewrite C54_window_of_a_table in H.
    set (a := or_default (w_start w) (fst r)) in *.
    set (b := or_default (w_stop w) (last (map fst rows) (fst r))) in *.
    destruct ((a <? b) && (a <? last (map fst rows) (fst r)) && (fst r <? b)) eqn:E; [|discriminate].
    injection H as <- H. change (within a b (r :: rows) = out) in H. subst out. exists a, b. cbn [w_start w_stop].
    rewrite !andb_true_iff in E. destruct E as [[E1 E2] E3].
    split; [reflexivity|]. split; [reflexivity|]. split; [apply Z.ltb_lt; auto|].
    split; [intros x Hx; subst a; rewrite Hx; reflexivity|].
    split; [intros x Hx; subst b; rewrite Hx; reflexivity|].
    change (within a b (r :: rows)) with (filter (fun row : Z * A => (a <=? fst row) && (fst row <=? b)) (r :: rows)).
    split; [reflexivity|]. intro row. rewrite filter_In, andb_true_iff, !Z.leb_le. tauto.
Qed.
Print Assumptions C54_rows_in_the_closed_interval.

(** A start at or after the last record, a stop at or before the first one and
    an empty window are errors; there are no others for a table with rows. *)
Theorem C54_error_iff :
  forall A w (r : Z * A) rows,
    let first := fst r in
    let final := last (map fst rows) (fst r) in
    (exists e, snd (apply_startstop_time w (r :: rows)) = Raise e) <->
    or_default (w_stop w) final <= or_default (w_start w) first \/
    final <= or_default (w_start w) first \/ or_default (w_stop w) final <= first.
Proof.
  intros A w r rows first final. rewrite C54_window_of_a_table. cbn [snd].
  change (last (map fst rows) (fst r)) with final. change (fst r) with first.
  set (a := or_default (w_start w) first). set (b := or_default (w_stop w) final).
  destruct ((a <? b) && (a <? final) && (first <? b)) eqn:E.
  - rewrite !andb_true_iff, !Z.ltb_lt in E. split; [intros [e H]; discriminate|lia].
  - split; [intros _|intros _; eauto].
    rewrite !andb_false_iff, !Z.ltb_ge in E. lia.
Qed.
Print Assumptions C54_error_iff.

(** For a window that has been set: data that lies outside of it is refused,
    for a sorted table. *)
Lemma last_in {A} (l : list A) d : l <> [] -> In (last l d) l.
Proof.
  induction l as [|x l IH]; intro H; [contradiction|]. destruct l as [|y l]; [left; reflexivity|].
  right. apply IH. discriminate.
Qed.

Theorem C54_data_outside_the_window_is_refused :
  forall A a b (data : list (Z * A)),
    data <> [] ->
    (forall row, In row data -> fst row <= a) \/ (forall row, In row data -> b <= fst row) ->
    snd (apply_startstop_time (mk_window (Some a) (Some b)) data) = Raise ValueError.
Proof.
  intros A a b [|r rows] N H; [contradiction|]. rewrite C54_window_of_a_table. cbn [w_start w_stop or_default snd].
  set (final := last (map fst rows) (fst r)).
  assert (I : exists row, In row (r :: rows) /\ fst row = final).
  { unfold final. destruct (map fst rows) as [|z zs] eqn:M.
    - exists r. split; [left; auto|reflexivity].
    - assert (J : In (last (z :: zs) (fst r)) (map fst rows)) by (rewrite M; apply last_in; discriminate).
      apply in_map_iff in J. destruct J as (row & J1 & J2). exists row. split; [right; auto|auto]. }
  destruct I as (row & I1 & I2).
  destruct ((a <? b) && (a <? final) && (fst r <? b)) eqn:E; auto. exfalso.
  rewrite !andb_true_iff, !Z.ltb_lt in E. destruct H as [H|H].
  - specialize (H row I1). lia.
  - specialize (H r (or_introl eq_refl)). lia.
Qed.
Print Assumptions C54_data_outside_the_window_is_refused.

(** The limits of the first table stay: every later access uses its window. *)
Lemma apply_fixed A a b (d : list (Z * A)) :
  fst (apply_startstop_time (mk_window (Some a) (Some b)) d) = mk_window (Some a) (Some b).
Proof. destruct d as [|r rows]; [reflexivity|]. rewrite C54_window_of_a_table. reflexivity. Qed.

Lemma accesses_fixed A a b (ds : list (list (Z * A))) :
  accesses (mk_window (Some a) (Some b)) ds =
  (mk_window (Some a) (Some b), map (fun d => snd (apply_startstop_time (mk_window (Some a) (Some b)) d)) ds).
Proof.
  induction ds as [|d ds IH]; [reflexivity|]. cbn [accesses map].
  destruct (apply_startstop_time (mk_window (Some a) (Some b)) d) as [w1 r] eqn:E.
  assert (F : w1 = mk_window (Some a) (Some b)) by (rewrite <- (apply_fixed A a b d), E; reflexivity).
  subst w1. rewrite IH. reflexivity.
Qed.

Theorem C54_first_table_fixes_the_window :
  forall A w (r : Z * A) rows ds,
    let a := or_default (w_start w) (fst r) in
    let b := or_default (w_stop w) (last (map fst rows) (fst r)) in
    let fixed := mk_window (Some a) (Some b) in
    accesses w ((r :: rows) :: ds) =
      (fixed, snd (apply_startstop_time w (r :: rows)) :: map (fun d => snd (apply_startstop_time fixed d)) ds).
Proof.
  intros A w r rows ds a b fixed. cbn [accesses].
  rewrite (C54_window_of_a_table A w r rows). cbv zeta. fold a b. cbn [snd].
  fold fixed. unfold fixed. rewrite accesses_fixed. reflexivity.
Qed.
Print Assumptions C54_first_table_fixes_the_window.

(** So if both limits are set, or all tables have the same limits, each table is
    cut to its own limits, in any order of access. *)
Theorem C54_same_limits_partial :
  forall A w (first final : Z) (ds : list (list (Z * A))),
    (forall d, In d ds -> exists r rows, d = r :: rows /\
        (w_start w = None -> fst r = first) /\ (w_stop w = None -> last (map fst rows) (fst r) = final)) ->
    snd (accesses w ds) = map (fun d => snd (apply_startstop_time w d)) ds.
Proof.
  intros A w first final ds H. destruct ds as [|d ds]; [reflexivity|].
  destruct (H d (or_introl eq_refl)) as (r & rows & -> & H1 & H2).
  rewrite C54_first_table_fixes_the_window. cbn [snd map]. f_equal. apply map_ext_in. intros d I.
  destruct (H d (or_intror I)) as (r' & rows' & -> & H3 & H4).
  rewrite !C54_window_of_a_table. cbv zeta. cbn [snd w_start w_stop or_default].
  assert (E1 : or_default (w_start w) (fst r) = or_default (w_start w) (fst r'))
    by (destruct (w_start w); cbn; auto; rewrite H1, H3; auto).
  assert (E2 : or_default (w_stop w) (last (map fst rows) (fst r)) = or_default (w_stop w) (last (map fst rows') (fst r')))
    by (destruct (w_stop w); cbn; auto; rewrite H2, H4; auto).
  rewrite E1, E2. reflexivity.
Qed.
Print Assumptions C54_same_limits_partial.

(** Without a start or stop the limits of the first accessed table are used for
    the others: their records are lost, or the access fails; and the result
    depends on the order. *)
Theorem C54_data_limits_refuted :
  exists (d1 d2 : list (Z * bool)),
    (* the limits of its own data would select everything *)
    apply_startstop_time (mk_window None None) d2 = (mk_window (Some 5) (Some 25), Ok d2) /\
    apply_startstop_time (mk_window None None) d1 = (mk_window (Some 0) (Some 10), Ok d1) /\
    snd (accesses (mk_window None None) [d1; d2]) = [Ok d1; Ok [(5, true)]] /\
    snd (accesses (mk_window None None) [d2; d1]) = [Ok d2; Ok [(10, true)]] /\
    exists d3, apply_startstop_time (mk_window None None) d3 = (mk_window (Some 20) (Some 25), Ok d3) /\
      snd (accesses (mk_window None None) [d1; d3]) = [Ok d1; Raise ValueError].
Proof.
  exists [(0, false); (10, true)], [(5, true); (15, false); (25, true)].
  repeat split; try reflexivity. exists [(20, true); (25, false)]. split; reflexivity.
Qed.
Print Assumptions C54_data_limits_refuted.

(** A table with one record is refused, and so is a start at the last record,
    although the closed interval contains a record. *)
Theorem C54_one_record_refuted :
  forall A t (x : A) a b, a <= t <= b ->
    snd (apply_startstop_time (mk_window None None) [(t, x)]) = Raise ValueError /\
    within a b [(t, x)] = [(t, x)] /\
    exists data : list (Z * bool), within 10 20 data = [(10, true)] /\
      snd (apply_startstop_time (mk_window (Some 10) (Some 20)) data) = Raise ValueError.
Proof.
  intros A t x a b H. split; [|split].
  - rewrite C54_window_of_a_table. cbn. rewrite Z.ltb_irrefl. reflexivity.
  - unfold within. cbn [filter fst]. replace (a <=? t) with true by (symmetry; apply Z.leb_le; lia).
    replace (t <=? b) with true by (symmetry; apply Z.leb_le; lia). reflexivity.
  - exists [(0, false); (10, true)]. split; reflexivity.
Qed.
Print Assumptions C54_one_record_refuted.

(** A start before the data is no error. *)
Theorem C54_start_before_the_data_refuted :
  exists (data : list (Z * bool)), snd (apply_startstop_time (mk_window (Some (-100)) (Some 100)) data) = Ok data /\ data <> [].
Proof. exists [(0, false); (10, true)]. split; [reflexivity|discriminate]. Qed.
Print Assumptions C54_start_before_the_data_refuted.
