(** C116: a map that is in the file twice, as where a restart file was written,
    is as good as a map that is in it once. *)
From Coq Require Import String List Ascii ZArith QArith Bool Lia Lqa.
From Verif Require Import PyBase Num Text Spec L_Num L_List M_Geometry M_Sections M_Friction M_Simplify M_Import M_Classify M_Polygon M_Cli
  M_Pipeline M_Data L_Rows T_Profile T_Friction T_Pipeline T_Neighbour T_Data T_Whole T_Skip.
Import ListNotations.
Local Open Scope nat_scope.

(** ** Specification *)

(** Entry [k] twice. *)
Fixpoint again {A} (k : nat) (l : list A) : list A :=
  match l, k with
  | [], _ => []
  | x :: l', O => x :: x :: l'
  | x :: l', S k' => x :: again k' l'
  end.
(** The map file in which map [r] is followed by a copy. *)
Definition map_again (r : nat) (f : map_file) : map_file := file_maps (fun A => @again A r) f.
(** The number of a map after the repeated map is one more. *)
Definition moved_on (k L : nat) : nat := if k <? L then S L else L.
Definition with_lake (s L : nat) (st : settings) : settings :=
  let p := st_geometry st in
  mk_settings (mkParams (Z.of_nat s) (Z.of_nat L) (gp_method p) (gp_abs p) (gp_rel p) (gp_extrapolate p))
    (st_minwidth st) (st_points st) (st_correction st) (st_base st) (st_weighing st).
(** Roughness tables with row [k] twice. *)
Definition table_again (k : nat) (t : string * table num) : string * table num :=
  (fst t, mk_table (again k (level (snd t))) (again k (friction (snd t)))).
Definition css_again (k : nat) (c : M_Pipeline.css) : M_Pipeline.css :=
  mk_css (s_name c) (s_z c) (s_tw c) (s_fw c) (s_css_z c) (s_css_tw c) (s_css_fw c) (s_crest c) (s_extra_total c)
    (s_extra_flow c) (map (table_again k) (s_tables c)) (s_widths c) (s_base c) (s_faces c) (s_links c).
(** The search for the summer dike does not look at the levels of the roughness. *)
Definition geometry_again (k : nat) (g : M_Geometry.geometry) : M_Geometry.geometry :=
  mkGeometry (g_cols g) (g_tvol1d g) (g_fvol1d g) (again k (g_z_roughness g)).
Definition ignores_roughness (correction : M_Geometry.geometry -> res (num * num * num)) : Prop :=
  forall g z, correction (mkGeometry (g_cols g) (g_tvol1d g) (g_fvol1d g) z) = correction g.

(** ** Lists *)

Definition src (k t : nat) : nat := if t <=? k then t else t - 1.
Lemma src_S k t : src (S k) (S t) = S (src k t).
Proof. unfold src. cbn [Nat.leb]. destruct (Nat.leb_spec t k); cbn; lia. Qed.
Lemma again_map {A B} (g : A -> B) k l : again k (map g l) = map g (again k l).
Proof. revert k. induction l as [|x l IH]; intros [|k]; cbn; auto. rewrite IH. reflexivity. Qed.
Lemma again_length {A} k (l : list A) : k < length l -> length (again k l) = S (length l).
Proof. revert k. induction l as [|x l IH]; intros [|k] H; cbn in *; try lia. rewrite IH; lia. Qed.
Lemma again_short {A} k (l : list A) : length l <= k -> again k l = l.
Proof. revert k. induction l as [|x l IH]; intros [|k] H; cbn in *; auto; try lia. rewrite IH; auto; lia. Qed.
Lemma again_map2 {A B C} (g : A -> B -> C) k : forall l m, length l = length m ->
  again k (map2 g l m) = map2 g (again k l) (again k m).
Proof. induction k as [|k IH]; intros [|x l] [|y m] H; cbn in *; try lia; auto. rewrite IH by lia. reflexivity. Qed.
Lemma again_hd {A} (d : A) k l : hd d (again k l) = hd d l.
Proof. destruct l, k; reflexivity. Qed.
Lemma nth_again {A} (d : A) k : forall l t, k < length l -> nth t (again k l) d = nth (src k t) l d.
Proof.
  induction k as [|k IH]; intros [|x l] t H; cbn [length] in H; try lia.
  - cbn [again]. destruct t as [|t]; [reflexivity|]. unfold src. cbn [Nat.leb]. rewrite Nat.sub_succ, Nat.sub_0_r. reflexivity.
  - cbn [again]. destruct t as [|t]; [reflexivity|]. rewrite src_S. cbn [nth]. apply IH. lia.
Qed.
Lemma again_skipn {A} s k : forall l : list A, skipn s (again (s + k) l) = again k (skipn s l).
Proof. induction s as [|s IH]; intro l; [reflexivity|]. destruct l as [|x l]; [destruct k; reflexivity|]. cbn. apply IH. Qed.
Lemma again_last {A} (d : A) k : forall l, last (again k l) d = last l d.
Proof.
  induction k as [|k IH]; intros [|x l]; auto. cbn [again]. destruct l as [|y l]; [destruct k; reflexivity|].
  change (last (x :: again k (y :: l)) d = last (y :: l) d). rewrite <- (IH (y :: l)). destruct k; reflexivity.
Qed.
Lemma src_lt k t n : k < n -> t < S n -> src k t < n.
Proof. unfold src. destruct (Nat.leb_spec t k); lia. Qed.
Lemma again_seq {B} (g' g : nat -> B) k n : k < n -> (forall t, t < S n -> g' t = g (src k t)) ->
  map g' (seq 0 (S n)) = again k (map g (seq 0 n)).
Proof.
  intros K H. apply (nth_ext _ _ (g' 0) (g' 0)).
  - rewrite again_length; rewrite !map_length, !seq_length; auto.
  - intros t T. rewrite map_length, seq_length in T. rewrite nth_again by (rewrite map_length, seq_length; exact K).
    rewrite (map_nth g'), seq_nth by exact T. pose proof (src_lt k t n K T) as R.
    rewrite (nth_indep _ (g' 0) (g 0)) by (rewrite map_length, seq_length; exact R).
    rewrite (map_nth g), seq_nth by exact R. cbn. apply H, T.
Qed.

(** A mask in which the copy of entry [k] is left out. *)
Fixpoint refuse (k : nat) (m : list bool) : list bool :=
  match m, k with
  | [], _ => []
  | b :: m', O => b :: false :: m'
  | b :: m', S k' => b :: refuse k' m'
  end.
Lemma refuse_length k m : k < length m -> length (refuse k m) = S (length m).
Proof. revert k. induction m as [|x l IH]; intros [|k] H; cbn in *; try lia. rewrite IH; lia. Qed.
Lemma select_refuse {A} k : forall m (l : list A), length m = length l -> select (refuse k m) (again k l) = select m l.
Proof.
  induction k as [|k IH]; intros [|b m] [|x l] H; cbn in *; try lia; auto. destruct b; rewrite IH by lia; reflexivity.
Qed.
Lemma mask_refuse {A} k m (l : list A) : k < length m -> length m = length l ->
  mask_index (refuse k m) (again k l) = mask_index m l.
Proof.
  intros K L. unfold mask_index. rewrite refuse_length, again_length by lia. cbn [Nat.eqb]. rewrite L, Nat.eqb_refl.
  rewrite select_refuse by exact L. reflexivity.
Qed.

(** ** Record levels *)

Fixpoint records (best : num) (l : list num) : list bool :=
  match l with
  | [] => []
  | x :: r => if nltb best x then true :: records x r else false :: records best r
  end.
Lemma last_true_app_true m : forall i, last_true_from i (m ++ [true]) = Some (i + length m).
Proof. induction m as [|b m IH]; intro i; cbn; [f_equal; lia|]. rewrite IH. f_equal. lia. Qed.
Lemma last_true_app_false m : forall i, last_true_from i (m ++ [false]) = last_true_from i m.
Proof. induction m as [|b m IH]; intro i; cbn; auto. rewrite IH. reflexivity. Qed.
Lemma monotonicity_records_from arr rest : forall done mask,
  arr = done ++ rest -> length mask = length done -> last_true mask < length done ->
  fold_left (monotonicity_step arr) (seq (length done) (length rest)) mask = mask ++ records (nth (last_true mask) arr NaN) rest.
Proof.
  induction rest as [|x rest IH]; intros done mask E L T; [cbn; rewrite app_nil_r; reflexivity|].
  cbn [length seq fold_left records].
  assert (X : nth (length done) arr NaN = x) by (rewrite E, app_nth2, Nat.sub_diag by lia; reflexivity).
  assert (E' : arr = (done ++ [x]) ++ rest) by (rewrite <- app_assoc; exact E).
  assert (LD : length (done ++ [x]) = S (length done)) by (rewrite app_length; cbn; lia).
  unfold monotonicity_step at 2. cbv zeta. rewrite X. destruct (nltb _ x).
  - rewrite <- LD. assert (LT : last_true (mask ++ [true]) = length done) by (unfold last_true; rewrite last_true_app_true; cbn; exact L).
    rewrite (IH (done ++ [x]) (mask ++ [true]) E').
    + rewrite LT, X, <- app_assoc. reflexivity.
    + rewrite !app_length, L. reflexivity.
    + rewrite LT, LD. lia.
  - rewrite <- LD. assert (LT : last_true (mask ++ [false]) = last_true mask) by (unfold last_true; rewrite last_true_app_false; reflexivity).
    rewrite (IH (done ++ [x]) (mask ++ [false]) E').
    + rewrite LT, <- app_assoc. reflexivity.
    + rewrite !app_length, L. reflexivity.
    + rewrite LT, LD. lia.
Qed.
Lemma monotonicity_records a l : check_monotonicity (a :: l) = true :: records a l.
Proof.
  unfold check_monotonicity. cbn [length]. rewrite Nat.sub_succ, Nat.sub_0_r.
  exact (monotonicity_records_from (a :: l) l [a] [true] eq_refl eq_refl ltac:(cbn; lia)).
Qed.
Lemma nltb_irrefl x : nltb x x = false.
Proof. destruct x; auto. unfold nltb. destruct (Qltb q q) eqn:E; auto. apply Qltb_true in E. lra. Qed.
Lemma records_again k : forall best l, k < length l -> records best (again k l) = refuse k (records best l).
Proof.
  induction k as [|k IH]; intros best [|x l] H; cbn [length] in H; try lia; cbn [again records].
  - destruct (nltb best x) eqn:E; cbn [refuse]; rewrite ?nltb_irrefl, ?E; reflexivity.
  - rewrite !IH by lia. destruct (nltb best x); reflexivity.
Qed.
Lemma monotonicity_again k l : k < length l -> check_monotonicity (again k l) = refuse k (check_monotonicity l).
Proof.
  destruct l as [|a l]; cbn [length]; [lia|]. intro H. destruct k as [|k]; cbn [again].
  - rewrite !monotonicity_records. cbn [records refuse]. rewrite nltb_irrefl. reflexivity.
  - rewrite !monotonicity_records. cbn [refuse]. rewrite records_again by lia. reflexivity.
Qed.

(** ** The lowest value *)

Lemma npmin_twice a v : isnan v = false -> npmin (npmin a v) v = npmin a v.
Proof.
  intro V. unfold npmin. destruct (isnan a) eqn:A; [reflexivity|]. rewrite V. destruct (nltb v a) eqn:E.
  - rewrite V, nltb_irrefl. reflexivity.
  - rewrite A, E. reflexivity.
Qed.
Lemma nanmin_again k l : nanmin (again k l) = nanmin l.
Proof.
  unfold nanmin.
  assert (F : forall k (l : list num), k < length l ->
    filter (fun x => negb (isnan x)) (again k l) = filter (fun x => negb (isnan x)) l \/
    exists a v b, isnan v = false /\ filter (fun x => negb (isnan x)) l = a ++ v :: b /\
      filter (fun x => negb (isnan x)) (again k l) = a ++ v :: v :: b).
  { clear. induction k as [|k IH]; intros [|x l] H; cbn [length] in H; try lia; cbn [again filter].
    - destruct (isnan x) eqn:X; cbn [negb]; [left; reflexivity|]. right. exists [], x, (filter (fun x => negb (isnan x)) l). auto.
    - destruct (IH l ltac:(lia)) as [E|(a & v & b & V & E & E')].
      + left. rewrite E. reflexivity.
      + right. destruct (negb (isnan x)); [exists (x :: a), v, b|exists a, v, b]; rewrite E, E'; auto. }
  destruct (Nat.lt_ge_cases k (length l)) as [K|K]; [|rewrite again_short by exact K; reflexivity].
  destruct (F k l K) as [->|(a & v & b & V & -> & ->)]; [reflexivity|].
  destruct a as [|x a]; cbn [app].
  - cbn [fold_left]. unfold npmin at 2. rewrite V, nltb_irrefl. reflexivity.
  - rewrite !fold_left_app. cbn [fold_left]. rewrite npmin_twice by exact V. reflexivity.
Qed.
Lemma fill_again k depth lev n : length lev = n -> length depth = n -> k < n ->
  fill_centre_level (again k depth) (again k lev) = res_map (again k) (fill_centre_level depth lev).
Proof.
  intros L D K. unfold fill_centre_level. destruct lev as [|x l]; [cbn in L; lia|].
  rewrite <- again_map2 by lia. rewrite nanmin_again.
  destruct (again k (x :: l)) as [|y m] eqn:E; [destruct k; discriminate|]. rewrite <- E. cbn [res_map]. f_equal. symmetry. apply again_map.
Qed.

(** ** Lakes *)

Definition bounded_below (x : num) : Prop := x <> NInf.
Lemma lake_from_again k : forall m prev l, Forall bounded_below l -> k < length l ->
  lake_mask_from m prev (again k l) = again k (lake_mask_from m prev l).
Proof.
  induction k as [|k IH]; intros m prev [|d l] F H; cbn [length] in H; try lia; apply Forall_inv_tail in F as F'; apply Forall_inv in F.
  - cbn [again lake_mask_from]. cbv zeta.
    assert (E : (nleb (nsub d d) (Fin (1 # 1000)) && (nleb (nsub d prev) (Fin (1 # 1000)) && m))%bool =
                (nleb (nsub d prev) (Fin (1 # 1000)) && m)%bool).
    { destruct (nleb (nsub d prev) (Fin (1 # 1000))) eqn:E; [|rewrite andb_false_r; reflexivity]. cbn [andb].
      destruct d as [q| | |]; try (destruct prev; discriminate).
      - replace (nleb (nsub (Fin q) (Fin q)) (Fin (1 # 1000))) with true; [reflexivity|]. symmetry. cbn. apply Qle_bool_iff. lra.
      - contradiction F. reflexivity. }
    rewrite E. reflexivity.
  - cbn [again lake_mask_from]. cbv zeta. rewrite IH; auto. lia.
Qed.
Lemma lake_time_again k lake row : Forall bounded_below row -> k < length row ->
  (lake = true -> exists q, hd NaN row = Fin q) ->
  lake_mask_time lake (again k row) = again k (lake_mask_time lake row).
Proof.
  intros F K Q. destruct row as [|d l]; [cbn in K; lia|]. cbn [length] in K. apply Forall_inv_tail in F as F'.
  destruct k as [|k]; cbn [again lake_mask_time lake_mask_from].
  - f_equal. cbv zeta. destruct lake; [|rewrite andb_false_r; reflexivity]. destruct (Q eq_refl) as [q E]. cbn in E. subst d.
    replace (nleb (nsub (Fin q) (Fin q)) (Fin (1 # 1000))) with true; [reflexivity|]. symmetry. cbn. apply Qle_bool_iff. lra.
  - f_equal. apply lake_from_again; auto. lia.
Qed.
Lemma lake_time_length lake row : length (lake_mask_time lake row) = length row.
Proof.
  destruct row as [|d l]; [reflexivity|]. cbn. f_equal. revert lake d. induction l as [|x l IH]; intros m p; cbn; auto.
Qed.
Lemma py_index_nth {A} (l : list A) n : py_index l (Z.of_nat n) = match nth_error l n with Some a => Ok a | None => Raise IndexError end.
Proof. unfold py_index. destruct (Z.ltb_spec (Z.of_nat n) 0); [lia|]. destruct (Z.ltb_spec (Z.of_nat n) 0); [lia|]. rewrite Nat2Z.id. reflexivity. Qed.
Lemma nth_error_again {A} k L (l : list A) : nth_error (again k l) (moved_on k L) = nth_error l L.
Proof.
  unfold moved_on. revert L l. induction k as [|k IH]; intros L l.
  - destruct l as [|x l]; [destruct (0 <? L), L; reflexivity|]. destruct L; reflexivity.
  - destruct l as [|x l]; [destruct (S k <? L), L; reflexivity|]. destruct L as [|L]; [reflexivity|].
    specialize (IH L l). cbn [again]. change (S k <? S L) with (k <? L). destruct (k <? L); exact IH.
Qed.
Lemma is_lake_again k L row : is_lake (Z.of_nat (moved_on k L)) (again k row) = is_lake (Z.of_nat L) row.
Proof.
  unfold is_lake. rewrite !py_index_nth, nth_error_again. destruct (nth_error row L); [|reflexivity]. cbn [bind].
  change 0%Z with (Z.of_nat 0). rewrite !py_index_nth. destruct row, k; reflexivity.
Qed.
Lemma is_lake_first L row : is_lake L row = Ok true -> exists q, hd NaN row = Fin q.
Proof.
  unfold is_lake. destruct (py_index row L) as [dL|]; [|discriminate]. cbn [bind].
  change 0%Z with (Z.of_nat 0). rewrite py_index_nth. destruct row as [|d row]; [discriminate|]. cbn [nth_error bind hd].
  intro H. injection H as H. apply andb_true_iff in H as [A B]. destruct d as [q| | |]; [eauto| | |]; destruct dL; discriminate.
Qed.

(** ** The geometry *)

(** A series for all time steps, or none at all. *)
Definition fits {A} (n : nat) (l : list A) : Prop := length l = n \/ l = [].
Lemma again_nil {A} k : again k (@nil A) = [].
Proof. destruct k; reflexivity. Qed.
Lemma nth_fits {A} (d : A) k n l t : k < n -> fits n l -> nth t (again k l) d = nth (src k t) l d.
Proof.
  intros K [L|E]; [apply nth_again; lia|]. subst l. rewrite again_nil. destruct t, (src k _); reflexivity.
Qed.
Lemma slice_nat {A} s (l : list A) : slice_from (Z.of_nat s) l = skipn s l.
Proof.
  change l with (skipn 0 l) at 1. rewrite skip_twice. unfold slice_from, slice_bound.
  destruct (Z.ltb_spec (Z.of_nat (0 + s)) 0); [lia|]. rewrite Nat2Z.id. apply skipn_min.
Qed.
Lemma timeseries_again s k row :
  get_timeseries (Z.of_nat s) (again (s + k) row) = again k (get_timeseries (Z.of_nat s) row).
Proof. unfold get_timeseries. rewrite !slice_nat, again_skipn, again_map. reflexivity. Qed.
Lemma timeseries_fits s n row : fits (s + n) row -> fits n (get_timeseries (Z.of_nat s) row).
Proof.
  unfold fits, get_timeseries. rewrite slice_nat, map_length, skipn_length.
  intros [L| ->]; [left; lia|right; rewrite skipn_nil; reflexivity].
Qed.
Lemma timeseries_bounded s row : Forall bounded_below row -> Forall bounded_below (get_timeseries (Z.of_nat s) row).
Proof.
  intro F. unfold get_timeseries. rewrite slice_nat. apply Forall_map.
  rewrite Forall_forall in *. intros x X. assert (I : In x row).
  { rewrite <- (firstn_skipn s row). apply in_or_app. right. exact X. }
  apply F in I. destruct (neqb x _); [discriminate|exact I].
Qed.

Lemma wet_again k lake row : Forall bounded_below row -> k < length row ->
  (lake = true -> exists q, hd NaN row = Fin q) ->
  wet_not_lake lake (again k row) = again k (wet_not_lake lake row).
Proof.
  intros F K Q. unfold wet_not_lake. rewrite lake_time_again by assumption. symmetry. apply again_map2.
  rewrite lake_time_length. reflexivity.
Qed.
Lemma correction_again k lake row : lake_depth_correction lake (again k row) = again k (lake_depth_correction lake row).
Proof. unfold lake_depth_correction. rewrite again_hd, again_map. reflexivity. Qed.
Lemma pool_again k c row : pool_correction c (again k row) = again k (pool_correction c row).
Proof. unfold pool_correction. rewrite again_hd. destruct (nltb _ _); [symmetry; apply again_map|reflexivity]. Qed.
Lemma lakes_again k L n depth : k < n -> Forall (fits n) depth -> Forall (Forall bounded_below) depth ->
  identify_lakes (Z.of_nat (moved_on k L)) (map (again k) depth) =
  res_map (fun r => (fst (fst r), map (again k) (snd (fst r)), map (again k) (snd r))) (identify_lakes (Z.of_nat L) depth).
Proof.
  intros K F B. unfold identify_lakes.
  assert (M : map_res (is_lake (Z.of_nat (moved_on k L))) (map (again k) depth) = map_res (is_lake (Z.of_nat L)) depth).
  { clear F B. induction depth as [|r depth IH]; [reflexivity|]. cbn [map map_res]. rewrite is_lake_again, IH. reflexivity. }
  rewrite M. clear M. destruct (map_res (is_lake (Z.of_nat L)) depth) as [lakes|] eqn:M; [|reflexivity]. cbn [bind res_map fst snd].
  f_equal. revert lakes M. induction depth as [|r depth IH]; intros lakes M.
  - cbn in M. injection M as <-. reflexivity.
  - cbn [map_res] in M. destruct (is_lake (Z.of_nat L) r) as [b|] eqn:E; [|discriminate]. cbn [bind] in M.
    destruct (map_res (is_lake (Z.of_nat L)) depth) as [bs|] eqn:M'; [|discriminate]. cbn [bind] in M. injection M as <-.
    apply Forall_inv_tail in F as F'. apply Forall_inv in F. apply Forall_inv_tail in B as B'. apply Forall_inv in B.
    specialize (IH F' B' bs eq_refl). injection IH as I1 I2.
    assert (N : k < length r).
    { destruct F as [F| ->]; [lia|]. unfold is_lake in E. rewrite py_index_nth in E. destruct L; discriminate. }
    cbn [map map2]. rewrite I1, I2, wet_again, correction_again; auto. intros ->. eapply is_lake_first, E.
Qed.
Lemma lakes_shape L n depth lk wm cr : Forall (fits n) depth -> identify_lakes L depth = Ok (lk, wm, cr) ->
  Forall (fun r => length r = n) depth /\ Forall (fun r => length r = n) wm /\ Forall (fun r => length r = n) cr.
Proof.
  intros F. unfold identify_lakes. destruct (map_res (is_lake L) depth) as [lakes|] eqn:M; [|discriminate]. cbn [bind].
  intro H. injection H as <- <- <-. revert lakes M. induction depth as [|r depth IH]; intros lakes M.
  - cbn in M. injection M as <-. repeat split; constructor.
  - cbn [map_res] in M. destruct (is_lake L r) as [b|] eqn:E; [|discriminate]. cbn [bind] in M.
    destruct (map_res (is_lake L) depth) as [bs|] eqn:M'; [|discriminate]. cbn [bind] in M. injection M as <-.
    apply Forall_inv_tail in F as F'. apply Forall_inv in F. destruct (IH F' bs eq_refl) as (A & B & C).
    assert (N : length r = n).
    { destruct F as [F| ->]; [exact F|]. exfalso. unfold is_lake in E. destruct (py_index [] L) eqn:P; [|discriminate].
      cbn [bind] in E. change 0%Z with (Z.of_nat 0) in E. rewrite py_index_nth in E. discriminate. }
    cbn [map2]. repeat split; constructor; auto.
    + unfold wet_not_lake. rewrite map2_length, lake_time_length. lia.
    + unfold lake_depth_correction. rewrite map_length. exact N.
Qed.

Lemma column_again k n t (vel : list (list num)) : k < n -> Forall (fits n) vel ->
  M_Geometry.column NaN t (map (again k) vel) = M_Geometry.column NaN (src k t) vel.
Proof.
  intros K F. unfold M_Geometry.column. rewrite map_map. apply map_ext_in. intros r R. rewrite Forall_forall in F.
  apply nth_fits with (n := n); auto.
Qed.
Lemma per_step_again k n (cf' cf : nat -> num -> num -> bool) : k < n -> (forall t d v, cf' t d v = cf (src k t) d v) ->
  forall depth vel, Forall (fits n) depth -> Forall (fits n) vel ->
  map2 (fun drow vrow => map (fun t => cf' t (nth t drow NaN) (nth t vrow NaN)) (seq 0 (S n))) (map (again k) depth) (map (again k) vel) =
  map (again k) (map2 (fun drow vrow => map (fun t => cf t (nth t drow NaN) (nth t vrow NaN)) (seq 0 n)) depth vel).
Proof.
  intros K C depth vel D. revert vel. induction D as [|d depth D0 D IH]; intros [|v vel] V; auto.
  apply Forall_inv_tail in V as V'. apply Forall_inv in V. cbn [map map2]. f_equal; [|apply IH, V'].
  apply again_seq; [exact K|]. intros t _. rewrite C, !(nth_fits NaN k n) by auto. reflexivity.
Qed.
Lemma conveyance_again smooth mean method a r k n depth vel : method <> 0%Z -> k < n -> Forall (fits n) depth -> Forall (fits n) vel ->
  distinguish_conveyance smooth mean method a r (S n) (map (again k) depth) (map (again k) vel) =
  map (again k) (distinguish_conveyance smooth mean method a r n depth vel).
Proof.
  intros M K D V. unfold distinguish_conveyance. destruct (Z.eqb_spec method 0); [contradiction|].
  assert (E : max_velocity_method a r (S n) (map (again k) depth) (map (again k) vel) = map (again k) (max_velocity_method a r n depth vel)).
  2: destruct (method =? 1)%Z; exact E.
  apply (per_step_again k n (fun t d v => conveys a r (top3_mean (M_Geometry.column NaN t (map (again k) vel))) d v)
           (fun t d v => conveys a r (top3_mean (M_Geometry.column NaN t vel)) d v)); auto.
  intros t d v. rewrite (column_again k n) by auto. reflexivity.
Qed.
Lemma conveyance_shape smooth mean method a r n depth vel : method <> 0%Z ->
  Forall (fun m => length m = n) (distinguish_conveyance smooth mean method a r n depth vel).
Proof.
  intro M. unfold distinguish_conveyance. destruct (Z.eqb_spec method 0); [contradiction|].
  assert (E : Forall (fun m => length m = n) (max_velocity_method a r n depth vel)).
  { unfold max_velocity_method. generalize (fun t => M_Geometry.column NaN t vel). intro col.
    match goal with |- Forall _ (map2 ?f _ _) => set (g := f) end.
    assert (G : forall x y, length (g x y) = n) by (intros; unfold g; rewrite map_length, seq_length; reflexivity).
    clearbody g. revert vel. induction depth as [|d depth IH]; intros [|v vel]; cbn; constructor; auto. }
  destruct (method =? 1)%Z; exact E.
Qed.

Notation copied s k := (cell_maps (fun A => @again A (s + k))) (only parsing).
Lemma area_again s k n cells masks t : k < n -> Forall (fun m : list bool => length m = n) masks ->
  masked_area (map (copied s k) cells) (map (again k) masks) t = masked_area cells masks (src k t).
Proof.
  intros K F. unfold masked_area. f_equal. revert cells. induction F as [|m masks E F IH]; intros [|c cells]; cbn [map map2]; auto.
  rewrite IH, (nth_fits false k n) by (try left; auto). reflexivity.
Qed.
Lemma volume_again s k n cells depth masks t : k < n -> Forall (fun d : list num => length d = n) depth ->
  Forall (fun m : list bool => length m = n) masks ->
  masked_volume (map (copied s k) cells) (map (again k) depth) (map (again k) masks) t = masked_volume cells depth masks (src k t).
Proof.
  intros K D F. unfold masked_volume. f_equal. revert cells masks F.
  induction D as [|d depth E D IH]; intros [|c cells] [|m masks] F; cbn [map map2 combine]; auto.
  apply Forall_inv_tail in F as F'. apply Forall_inv in F. cbn [fst snd].
  rewrite IH by exact F'. rewrite (nth_fits false k n), (nth_fits NaN k n) by (try left; auto). reflexivity.
Qed.
Lemma corrected_again k n : forall depth corr, Forall (fun d : list num => length d = n) depth -> Forall (fun d : list num => length d = n) corr ->
  map2 corrected_depth (map (again k) depth) (map (again k) corr) = map (again k) (map2 corrected_depth depth corr) /\
  Forall (fun d : list num => length d = n) (map2 corrected_depth depth corr).
Proof.
  intros depth corr D. revert corr. induction D as [|d depth E D IH]; intros [|c corr] C; cbn [map map2]; auto.
  apply Forall_inv_tail in C as C'. apply Forall_inv in C. destruct (IH corr C') as [A B]. split.
  - rewrite A. f_equal. unfold corrected_depth. symmetry. apply again_map2. lia.
  - constructor; [|exact B]. unfold corrected_depth. rewrite map2_length. lia.
Qed.
Lemma pool_length c row : length (pool_correction c row) = length row.
Proof. unfold pool_correction. destruct (nltb _ _); [apply map_length|reflexivity]. Qed.
Lemma below_again s k e l a d lv wm kk cells :
  extend_css_below_z0 e l a d (combine (combine (map (copied s k) cells) lv) wm) kk =
  extend_css_below_z0 e l a d (combine (combine cells lv) wm) kk.
Proof.
  assert (WB : forall dz, wet_area_below (combine (combine (map (copied s k) cells) lv) wm) dz = wet_area_below (combine (combine cells lv) wm) dz).
  { intro dz. unfold wet_area_below. f_equal.
    revert lv wm. induction cells as [|c cells IH]; intros [|z lv] [|b wm]; auto.
    cbn [map combine filter fst snd].
    change (depth_at_t0 (cell_maps (fun A => @again A (s + k)) c) z) with (depth_at_t0 c z).
    destruct (_ && b)%bool; cbn [map fst]; [f_equal|]; apply IH. }
  unfold extend_css_below_z0. cbv zeta.
  generalize (linspace10 (nsub a (nsub a d))). intro steps.
  generalize (hd NaN (k_flow kk)). intro fa. revert kk.
  induction steps as [|x steps IH]; intro kk; [reflexivity|]. cbn [fold_left].
  unfold below_z0_step at 2 4. rewrite WB. apply IH.
Qed.
Lemma monotonicity_len l : l <> [] -> length (check_monotonicity l) = length l.
Proof.
  destruct l as [|a l]; [congruence|]. intros _. rewrite monotonicity_records. cbn [length]. f_equal.
  revert a. induction l as [|x l IH]; intro a; cbn; auto. destruct (nltb a x); cbn; auto.
Qed.

(** Cells with a series for each of [n] time steps. *)
Definition complete (n : nat) (c : cell) : Prop :=
  fits n (c_depth c) /\ fits n (c_level c) /\ fits n (c_vel c) /\ Forall bounded_below (c_depth c).

Theorem geometry_of_repeated smooth mean p s L len centre cells k n :
  gp_method p <> 0%Z -> k < n -> Forall (complete (s + n)) cells ->
  build_geometry smooth mean (mkParams (Z.of_nat s) (Z.of_nat (moved_on k L)) (gp_method p) (gp_abs p) (gp_rel p) (gp_extrapolate p))
    len centre (map (copied s k) cells) =
  res_map (geometry_again k)
    (build_geometry smooth mean (mkParams (Z.of_nat s) (Z.of_nat L) (gp_method p) (gp_abs p) (gp_rel p) (gp_extrapolate p)) len centre cells) /\
  (forall g, build_geometry smooth mean (mkParams (Z.of_nat s) (Z.of_nat L) (gp_method p) (gp_abs p) (gp_rel p) (gp_extrapolate p))
     len centre cells = Ok g -> length (g_z_roughness g) = n).
Proof.
  intros M K F. unfold build_geometry. cbn [gp_skip gp_lake gp_method gp_abs gp_rel gp_extrapolate]. cbv zeta.
  assert (EL : map (fun c => get_timeseries (Z.of_nat s) (c_level c)) (map (copied s k) cells) =
               map (again k) (map (fun c => get_timeseries (Z.of_nat s) (c_level c)) cells))
    by (rewrite !map_map; apply map_ext; intro; apply timeseries_again).
  assert (ED : map (fun c => get_timeseries (Z.of_nat s) (c_depth c)) (map (copied s k) cells) =
               map (again k) (map (fun c => get_timeseries (Z.of_nat s) (c_depth c)) cells))
    by (rewrite !map_map; apply map_ext; intro; apply timeseries_again).
  assert (EV : map (fun c => get_timeseries (Z.of_nat s) (c_vel c)) (map (copied s k) cells) =
               map (again k) (map (fun c => get_timeseries (Z.of_nat s) (c_vel c)) cells))
    by (rewrite !map_map; apply map_ext; intro; apply timeseries_again).
  rewrite EL, ED, EV. clear EL ED EV.
  assert (FL : Forall (fits n) (map (fun c => get_timeseries (Z.of_nat s) (c_level c)) cells)).
  { apply Forall_map. eapply Forall_impl; [|exact F]. intros c C. apply timeseries_fits, C. }
  assert (FD : Forall (fits n) (map (fun c => get_timeseries (Z.of_nat s) (c_depth c)) cells)).
  { apply Forall_map. eapply Forall_impl; [|exact F]. intros c C. apply timeseries_fits, C. }
  assert (FV : Forall (fits n) (map (fun c => get_timeseries (Z.of_nat s) (c_vel c)) cells)).
  { apply Forall_map. eapply Forall_impl; [|exact F]. intros c C. apply timeseries_fits, C. }
  assert (FB : Forall (Forall bounded_below) (map (fun c => get_timeseries (Z.of_nat s) (c_depth c)) cells)).
  { apply Forall_map. eapply Forall_impl; [|exact F]. intros c C. apply timeseries_bounded, C. }
  assert (LN : length (map (fun c => get_timeseries (Z.of_nat s) (c_level c)) cells) = length (map (fun c => get_timeseries (Z.of_nat s) (c_depth c)) cells))
    by (rewrite !map_length; reflexivity).
  revert FL FD FV FB LN.
  generalize (map (fun c => get_timeseries (Z.of_nat s) (c_level c)) cells).
  generalize (map (fun c => get_timeseries (Z.of_nat s) (c_depth c)) cells).
  generalize (map (fun c => get_timeseries (Z.of_nat s) (c_vel c)) cells).
  intros vel depth level FL FD FV FB LN.
  assert (NA : forall rows : list (list num), nth centre (map (again k) rows) [] = again k (nth centre rows [])).
  { intro rows. rewrite <- (map_nth (again k) rows [] centre). rewrite again_nil. reflexivity. }
  rewrite !NA, !again_hd.
  assert (FC : fits n (nth centre level []) /\ fits n (nth centre depth [])).
  { rewrite Forall_forall in FL, FD. split.
    - destruct (Nat.lt_ge_cases centre (length level)); [apply FL, nth_In; auto|right; apply nth_overflow; auto].
    - destruct (Nat.lt_ge_cases centre (length depth)); [apply FD, nth_In; auto|right; apply nth_overflow; auto]. }
  destruct FC as [CL CD]. rewrite lakes_again with (n := n) by assumption.
  destruct CL as [CL|CL]; [|rewrite CL, again_nil; cbn; split; [reflexivity|discriminate]].
  assert (IC : centre < length depth).
  { rewrite <- LN. destruct (Nat.lt_ge_cases centre (length level)) as [|O]; auto. rewrite (nth_overflow _ _ O) in CL. cbn in CL. lia. }
  assert (FILL : fill_centre_level (again k (nth centre depth [])) (again k (nth centre level [])) =
    res_map (again k) (fill_centre_level (nth centre depth []) (nth centre level []))).
  { destruct CD as [CD|CD]; [apply fill_again with (n := n); auto|]. rewrite CD, again_nil.
    unfold fill_centre_level. destruct (nth centre level []) as [|x l]; [rewrite again_nil; reflexivity|].
    destruct (again k (x :: l)) as [|y m] eqn:E; [destruct k; discriminate|]. rewrite <- E.
    replace (map2 nsub (again k (x :: l)) []) with (@nil num) by (destruct (again k (x :: l)); reflexivity).
    cbn [map2 res_map]. f_equal. symmetry. apply again_map. }
  rewrite FILL. clear FILL.
  destruct (fill_centre_level (nth centre depth []) (nth centre level [])) as [cl|] eqn:FE; [|split; [reflexivity|discriminate]].
  assert (CN : length cl = n).
  { unfold fill_centre_level in FE. destruct (nth centre level []) as [|x l]; [discriminate|]. injection FE as <-. cbn [length] in *. rewrite map_length. exact CL. }
  clear FE CL. cbn [res_map bind].
  destruct (identify_lakes (Z.of_nat L) depth) as [[[lk wm] cr]|] eqn:LK; [|split; [reflexivity|discriminate]].
  destruct (lakes_shape _ n _ _ _ _ FD LK) as (SD & SW & SC). cbn [res_map bind fst snd]. clear LK.
  assert (CD' : length (nth centre depth []) = n) by (rewrite Forall_forall in SD; apply SD, nth_In, IC).
  rewrite again_length by lia. rewrite CD'.
  rewrite conveyance_again by assumption.
  pose proof (conveyance_shape smooth mean (gp_method p) (gp_abs p) (gp_rel p) n depth vel M) as SF.
  destruct (corrected_again k n depth cr SD SC) as [CE CS]. rewrite CE. rewrite !map_map.
  rewrite (map_ext (fun x => pool_correction (hd NaN (nth centre depth [])) (again k x)) (fun x => again k (pool_correction (hd NaN (nth centre depth [])) x)))
    by (intro; apply pool_again).
  rewrite <- (map_map (pool_correction (hd NaN (nth centre depth []))) (again k)).
  assert (PS : Forall (fun d : list num => length d = n) (map (pool_correction (hd NaN (nth centre depth []))) (map2 corrected_depth depth cr))).
  { apply Forall_map. eapply Forall_impl; [|exact CS]. intros d E. cbn. rewrite pool_length. exact E. }
  generalize dependent (map (pool_correction (hd NaN (nth centre depth []))) (map2 corrected_depth depth cr)). intros d2 PS.
  generalize dependent (distinguish_conveyance smooth mean (gp_method p) (gp_abs p) (gp_rel p) n depth vel). intros fm SF.
  rewrite (again_seq (masked_area (map (copied s k) cells) (map (again k) wm)) (masked_area cells wm) k n K) by (intros t _; apply area_again with (n := n); auto).
  rewrite (again_seq (masked_area (map (copied s k) cells) (map (again k) fm)) (masked_area cells fm) k n K) by (intros t _; apply area_again with (n := n); auto).
  rewrite (again_seq (masked_volume (map (copied s k) cells) (map (again k) d2) (map (again k) wm)) (masked_volume cells d2 wm) k n K) by (intros t _; apply volume_again with (n := n); auto).
  rewrite (again_seq (masked_volume (map (copied s k) cells) (map (again k) d2) (map (again k) fm)) (masked_volume cells d2 fm) k n K) by (intros t _; apply volume_again with (n := n); auto).
  rewrite monotonicity_again by lia.
  assert (ML : length (check_monotonicity cl) = n) by (rewrite monotonicity_len; [exact CN|intros ->; cbn in CN; lia]).
  rewrite !mask_refuse by (rewrite ?map_length, ?seq_length; lia).
  repeat (match goal with |- context [bind (mask_index ?a ?b) _] => destruct (mask_index a b); [|split; [reflexivity|discriminate]] end; cbn [bind]).
  rewrite below_again.
  rewrite (map_ext (fun x => hd NaN (again k x)) (hd NaN)) by (intro; apply again_hd).
  rewrite (map_ext (fun x : list bool => hd false (again k x)) (hd false)) by (intro; apply again_hd).
  unfold geometry_again. cbn [res_map g_cols g_tvol1d g_fvol1d g_z_roughness].
  split; [reflexivity|]. intros g G. injection G as <-. exact CN.
Qed.

(** ** The friction tables *)

Lemma assoc_set_again k x t tabs :
  assoc_set x (snd (table_again k (x, t))) (map (table_again k) tabs) = map (table_again k) (assoc_set x t tabs).
Proof.
  induction tabs as [|[y u] tabs IH]; [reflexivity|]. cbn [map]. change (table_again k (y, u)) with (y, snd (table_again k (y, u))).
  cbn [assoc_set]. destruct (String.eqb x y); cbn [map]; [reflexivity|]. f_equal. exact IH.
Qed.
Lemma skipn_seq_again {B} s k n (g' g : nat -> B) : k < n -> (forall t, t < S (s + n) -> g' t = g (src (s + k) t)) ->
  map g' (slice_from (Z.of_nat s) (seq 0 (S (s + n)))) = again k (map g (slice_from (Z.of_nat s) (seq 0 (s + n)))).
Proof.
  intros K H. rewrite !slice_nat, <- !skipn_map. rewrite (again_seq g' g (s + k) (s + n)) by (auto; lia). apply again_skipn.
Qed.
Lemma table_of_again w s k n z sel x : k < n -> length z = n -> Forall (fits (s + n)) (s_chezy sel) ->
  build_table w (Z.of_nat s) (again k z) (links_of (S (s + n)) (selection_maps (fun A => @again A (s + k)) sel)) x =
  res_map (fun t => snd (table_again k (x, t))) (build_table w (Z.of_nat s) z (links_of (s + n) sel) x).
Proof.
  intros K Z F. unfold build_table.
  change (section_is x (links_of (S (s + n)) (selection_maps (fun A => @again A (s + k)) sel))) with (section_is x (links_of (s + n) sel)).
  cbn [links_of selection_maps chezy nsteps area_full edge_faces s_chezy s_edge_faces]. fold (links_of (s + n) sel).
  rewrite mask_index_map. destruct (mask_index _ (s_chezy sel)) as [rows|] eqn:M; [|reflexivity]. cbn [res_map bind].
  assert (R : Forall (fits (s + n)) rows).
  { unfold mask_index in M. destruct (Nat.eqb _ _); [|discriminate]. injection M as <-. apply select_all, F. }
  clear M. assert (MT : forall fr, length fr = n -> make_table (again k z) (again k fr) =
                 res_map (fun t => snd (table_again k (x, t))) (make_table z fr)).
  { intros fr L. unfold make_table. rewrite !again_length by lia. rewrite Z, L, !Nat.eqb_refl. reflexivity. }
  assert (LS : length (slice_from (Z.of_nat s) (seq 0 (s + n))) = n) by (rewrite slice_nat, skipn_length, seq_length; lia).
  destruct (Z.eqb w 0).
  - cbn [bind]. unfold friction_simple.
    rewrite (skipn_seq_again s k n _ (fun t => nan_to_zero (nanmean (map zero_to_nan (M_Friction.column t rows))))).
    + apply MT. rewrite map_length. exact LS.
    + exact K.
    + intros t _. unfold M_Friction.column. do 2 f_equal. rewrite !map_map. apply map_ext_in. intros r I. f_equal.
      rewrite Forall_forall in R. apply nth_fits with (n := s + n); [lia|]. apply R, I.
  - destruct (Z.eqb w 1); [|reflexivity]. destruct (mask_index _ _) as [efs|]; [|reflexivity]. cbn [bind].
    unfold friction_area. destruct efs; [|reflexivity]. cbn [bind].
    rewrite (skipn_seq_again s k n _ (fun _ => Fin 0)) by auto. apply MT. rewrite map_length. exact LS.
Qed.
Lemma tables_again w s k n z sel : k < n -> length z = n -> Forall (fits (s + n)) (s_chezy sel) ->
  build_roughness_tables w (Z.of_nat s) (again k z) (links_of (S (s + n)) (selection_maps (fun A => @again A (s + k)) sel)) =
  res_map (map (table_again k)) (build_roughness_tables w (Z.of_nat s) z (links_of (s + n) sel)).
Proof.
  intros K Z F. unfold build_roughness_tables.
  change (edge_section (links_of (S (s + n)) (selection_maps (fun A => @again A (s + k)) sel))) with (edge_section (links_of (s + n) sel)).
  change (@nil (string * table num)) with (map (table_again k) []) at 1. generalize (@nil (string * table num)).
  induction (np_unique (edge_section (links_of (s + n) sel))) as [|x names IH]; intro tabs; [reflexivity|]. cbn [fold_res].
  rewrite table_of_again by assumption. destruct (build_table w (Z.of_nat s) z (links_of (s + n) sel) x) as [t|]; [|reflexivity].
  cbn [res_map bind]. rewrite assoc_set_again. apply IH.
Qed.

(** ** The cross-section *)

Lemma cells_of_maps op s : (forall A, op A [] = []) -> cells_of (selection_maps op s) = map (cell_maps op) (cells_of s).
Proof.
  intro E. unfold cells_of. rewrite map_map. cbn [selection_maps s_area s_bed s_depth s_level s_vel s_section].
  apply map_ext. intro i. unfold cell_maps. cbn [c_area c_bed c_depth c_level c_vel c_section].
  assert (N : forall rows : list (list num), nth i (map (op num) rows) [] = op num (nth i rows [])).
  { intro rows. rewrite <- (map_nth (op num) rows [] i). rewrite E. reflexivity. }
  rewrite !N. reflexivity.
Qed.
(** A selection with rows for [n] time steps. *)
Definition complete_selection (n : nat) (s : selection) : Prop :=
  Forall (fits n) (s_depth s) /\ Forall (fits n) (s_level s) /\ Forall (fits n) (s_vel s) /\ Forall (fits n) (s_chezy s) /\
  Forall (Forall bounded_below) (s_depth s).
Lemma complete_cells n s : complete_selection n s -> Forall (complete n) (cells_of s).
Proof.
  intros (D & L & V & _ & B). unfold cells_of. apply Forall_map, Forall_forall. intros i _.
  assert (N : forall P (rows : list (list num)), Forall P rows -> P [] -> P (nth i rows [])).
  { intros P rows F Q. destruct (Nat.lt_ge_cases i (length rows)) as [H|H].
    - rewrite Forall_forall in F. apply F, nth_In, H.
    - rewrite nth_overflow by exact H. exact Q. }
  assert (Z : fits n (@nil num)) by (right; reflexivity).
  unfold complete. cbn [c_depth c_level c_vel]. repeat split; apply N; auto.
Qed.
Lemma cross_section_again smooth mean correction clean st name len centre s L k n sel :
  gp_method (st_geometry st) <> 0%Z -> k < n -> ignores_roughness correction -> complete_selection (s + n) sel ->
  generate_cross_section smooth mean correction clean (with_lake s (moved_on k L) st) name len centre (S (s + n))
    (selection_maps (fun A => @again A (s + k)) sel) =
  res_map (option_map (css_again k))
    (generate_cross_section smooth mean correction clean (with_lake s L st) name len centre (s + n) sel).
Proof.
  intros M K I C. unfold generate_cross_section. change (s_x (selection_maps (fun A => @again A (s + k)) sel)) with (s_x sel).
  destruct (Nat.ltb _ _); [reflexivity|]. rewrite cells_of_maps by (intro; apply again_nil).
  unfold build_cross_section_geometry. cbn [with_lake st_geometry st_minwidth st_points st_correction st_base st_weighing].
  destruct (geometry_of_repeated smooth mean (st_geometry st) s L len centre (cells_of sel) k n M K (complete_cells _ _ C)) as [E R].
  rewrite E. clear E.
  destruct (build_geometry _ _ _ _ _ (cells_of sel)) as [g|]; [|reflexivity]. specialize (R g eq_refl). cbn [res_map bind].
  assert (P : perform_correction correction (st_correction st) (geometry_again k g) len = perform_correction correction (st_correction st) g len).
  { unfold perform_correction, geometry_again. rewrite I. reflexivity. }
  rewrite P. clear P. cbn [geometry_again g_cols g_z_roughness].
  destruct (check_requirements _ _ _ _) as [[[z tw] fw]|]; [|reflexivity]. cbn [bind].
  destruct (reduce_css_points _ _) as [[[z' tw'] fw']|]; [|reflexivity]. cbn [bind].
  destruct (perform_correction _ _ _ _) as [[crest total] flow]. cbn [gp_skip].
  change (g_z_roughness (geometry_again k g)) with (again k (g_z_roughness g)).
  rewrite tables_again by (auto; apply C).
  destruct (build_roughness_tables _ _ _ _) as [tabs|]; [|reflexivity]. cbn [res_map bind].
  cbn [selection_maps s_section s_area s_bed].
  destruct (nsection_widths _ _ _ _ _) as [w|]; [|reflexivity]. cbn [bind].
  destruct (compute_floodplain_base _ _ _ _) as [b|]; reflexivity.
Qed.

(** ** From the file *)

(** No depth in the file is minus infinity. *)
Definition depths_bounded (f : map_file) : Prop :=
  forall v, v_waterdepth f = Some v -> Forall (Forall bounded_below) (m_steps v).
Lemma model_data_rows nearest within inside c file mt f css dr ds regions sections m :
  snd (set_fm_model_data nearest within inside c file mt f css dr ds regions sections) = Ok m ->
  exists t l td, import_dflow2d f = Ok (t, l, td) /\ f_depth m = d_depth td /\ f_level m = d_level td /\ f_vx m = d_vx td /\
    f_vy m = d_vy td /\ e_chezy m = d_chezy_edge td.
Proof.
  unfold set_fm_model_data. destruct (import_dflow2d f) as [[[t l] td]|]; [|discriminate]. intro H. exists t, l, td. split; [reflexivity|].
  destruct css as [d|]; [|discriminate].
  assert (M : forall x, (tl <- x ;; mesh_of (fst tl) (snd tl) td) = Ok m ->
    f_depth m = d_depth td /\ f_level m = d_level td /\ f_vx m = d_vx td /\ f_vy m = d_vy td /\ e_chezy m = d_chezy_edge td).
  { intros [[t1 l1]|]; [|discriminate]. cbn [bind fst snd]. unfold mesh_of.
    destruct (variable (l_x l1)); [|discriminate]. destruct (variable (l_y l1)); [|discriminate]. cbn [bind].
    intro E. injection E as <-. repeat split. }
  destruct regions as [[ps|]|]; [| discriminate |]; destruct sections as [[qs|]|]; try discriminate;
    (match type of H with context [snd (assign_classes ?a ?b ?c ?d ?e ?f ?g ?h ?i ?j ?k ?l ?m)] =>
       destruct (assign_classes a b c d e f g h i j k l m) as [c1 [[t1 l1]|]] end; cbn [fst snd] in H; [|discriminate]; eapply M, H).
Qed.
Lemma depth_bounded f t l td : depths_bounded f -> import_dflow2d f = Ok (t, l, td) -> Forall (Forall bounded_below) (d_depth td).
Proof.
  unfold import_dflow2d. intro B. destruct (import_faces f); [|discriminate]. cbn [bind].
  destruct (variable (v_edge_type f)) as [types|]; [|discriminate]. cbn [bind]. destruct (import_edges f _); [|discriminate]. cbn [bind].
  destruct (import_nodes f); [|discriminate]. cbn [bind]. unfold import_results.
  destruct (import_frame f (v_waterdepth f)) as [dp|] eqn:DP; [|discriminate]. cbn [bind].
  destruct (import_frame f (v_s1 f)) as [lv|]; [|discriminate]. cbn [bind].
  destruct (import_frame f (v_czs f)) as [cz|]; [|discriminate]. cbn [bind].
  destruct (import_chezy f (internal_edges types)) as [ch|]; [|discriminate]. cbn [bind].
  destruct (import_frame f (v_ucx f)) as [vx|]; [|discriminate]. cbn [bind].
  destruct (import_frame f (v_ucy f)) as [vy|]; [|discriminate]. cbn [bind].
  destruct (import_frame f (v_u1 f)); [|discriminate]. cbn [bind]. intro H. injection H as <- <- <-. cbn [d_depth].
  unfold import_frame in DP. destruct (v_waterdepth f) as [v|] eqn:V; [|discriminate]. cbn [variable of_option bind] in DP.
  destruct (variable (v_time f)); [|discriminate]. cbn [bind] in DP. unfold frame in DP. destruct (Nat.eqb _ _); [|discriminate].
  injection DP as <-. specialize (B v V). unfold transpose. apply Forall_map, Forall_forall. intros i _. apply Forall_map.
  eapply Forall_impl; [|exact B]. intros r R. cbn beta. destruct (Nat.lt_ge_cases i (length r)) as [H|H].
  - rewrite Forall_forall in R. apply R, nth_In, H.
  - rewrite nth_overflow by exact H. discriminate.
Qed.
Lemma mask_rows {A} (P : A -> Prop) mask l r : mask_index mask l = Ok r -> Forall P l -> Forall P r.
Proof. unfold mask_index. destruct (Nat.eqb _ _); [|discriminate]. intro H. injection H as <-. intro F. apply select_all, F. Qed.
Lemma map2_fits (g : num -> num -> num) n a b : whole n a -> whole n b -> Forall (fits n) (map2 (map2 g) a b).
Proof.
  intros A. revert b. induction A as [|x a E A IH]; intros [|y b] B; cbn; constructor.
  - left. apply Forall_inv in B. rewrite map2_length. lia.
  - apply IH. apply Forall_inv_tail in B. exact B.
Qed.
Lemma again_rows (g : num -> num -> num) k n a b : whole n a -> whole n b ->
  map2 (map2 g) (map (again k) a) (map (again k) b) = map (again k) (map2 (map2 g) a b).
Proof.
  intros A. revert b. induction A as [|x a E A IH]; intros [|y b] B; cbn; auto.
  apply Forall_inv_tail in B as B'. apply Forall_inv in B. rewrite IH by exact B'. rewrite again_map2 by lia. reflexivity.
Qed.
Lemma whole_fits n a : whole n a -> Forall (fits n) a.
Proof. intro W. eapply Forall_impl; [|exact W]. intros r R. left. exact R. Qed.
Lemma selection_of_again sqrt m name k n : whole n (f_depth m) -> whole n (f_level m) -> whole n (f_vx m) -> whole n (f_vy m) ->
  whole n (e_chezy m) -> Forall (Forall bounded_below) (f_depth m) ->
  get_selection sqrt (mesh_maps (fun A => @again A k) m) name = res_map (selection_maps (fun A => @again A k)) (get_selection sqrt m name) /\
  (forall s, get_selection sqrt m name = Ok s -> complete_selection n s).
Proof.
  intros WD WL WX WY WC B. unfold get_selection. cbv zeta.
  cbn [mesh_maps f_x f_y f_area f_bed f_region f_islake f_section f_class f_depth f_level f_vx f_vy e_x e_y e_section e_class e_faces e_chezy].
  rewrite !mask_index_map.
  generalize (map (fun c => teqb c name) (f_class m)) (map (fun c => teqb c name) (e_class m)). intros fm em.
  Local Ltac skip := match goal with |- context [bind (mask_index ?a ?b) _] => destruct (mask_index a b); [|split; [reflexivity|discriminate]] end; cbn [bind res_map].
  do 5 skip.
  destruct (mask_index fm (f_depth m)) as [depth|] eqn:D; [|split; [reflexivity|discriminate]]. cbn [bind res_map].
  destruct (mask_index fm (f_level m)) as [lev|] eqn:L; [|split; [reflexivity|discriminate]]. cbn [bind res_map].
  destruct (mask_index fm (f_vx m)) as [vx|] eqn:X; [|split; [reflexivity|discriminate]]. cbn [bind res_map].
  destruct (mask_index fm (f_vy m)) as [vy|] eqn:Y; [|split; [reflexivity|discriminate]]. cbn [bind res_map].
  skip.
  destruct (mask_index em (e_chezy m)) as [cz|] eqn:C; [|split; [reflexivity|discriminate]]. cbn [bind res_map].
  apply (mask_rows _ _ _ _ D) in WD. apply (mask_rows _ _ _ _ L) in WL. apply (mask_rows _ _ _ _ X) in WX.
  apply (mask_rows _ _ _ _ Y) in WY. apply (mask_rows _ _ _ _ C) in WC. apply (mask_rows _ _ _ _ D) in B.
  match goal with |- context [bind ?x _] => destruct x; [|split; [reflexivity|discriminate]] end. cbn [bind].
  do 4 skip. unfold dry_levels, magnitude. split.
  - unfold selection_maps. cbn [s_x s_y s_area s_bed s_depth s_level s_vel s_section s_chezy s_region s_islake s_edge_faces s_edge_x s_edge_y s_edge_section].
    rewrite !(again_rows _ k n) by assumption. reflexivity.
  - intros s E. injection E as <-. unfold complete_selection. cbn [s_depth s_level s_vel s_chezy].
    split; [apply whole_fits, WD|]. split; [apply map2_fits; assumption|]. split; [apply map2_fits; assumption|].
    split; [apply whole_fits, WC|exact B].
Qed.

(** C116: with the number of the lake time step moved on if it comes after the
    repeated map, the caches are the same, and the cross-section as well, or the
    exception, but for the repeated row in the roughness tables. *)
Theorem C116_repeated_map_partial :
  forall nearest within inside sqrt smooth mean correction clean c file mt css dr ds regions sections st id len centre f time s k L,
    v_time f = Some time -> s + k < length time -> depths_bounded f ->
    gp_method (st_geometry st) <> 0%Z -> ignores_roughness correction ->
    fst (set_fm_model_data nearest within inside c file mt (map_again (s + k) f) css dr ds regions sections) =
    fst (set_fm_model_data nearest within inside c file mt f css dr ds regions sections) /\
    cross_section_of nearest within inside sqrt smooth mean correction clean c file mt css dr ds regions sections
      (with_lake s (moved_on k L) st) id len centre (S (length time)) (map_again (s + k) f) =
    res_map (option_map (css_again k))
      (cross_section_of nearest within inside sqrt smooth mean correction clean c file mt css dr ds regions sections
         (with_lake s L st) id len centre (length time) f).
Proof.
  intros nearest within inside sqrt smooth mean correction clean c file mt css dr ds regions sections st id len centre f time s k L
    T K B M I.
  unfold cross_section_of, map_again. rewrite (model_data_maps nearest within inside c file mt f css dr ds regions sections (fun A => @again A (s + k))).
  2: { intros A B' g l. apply again_map. }
  2: { intros time' T'. assert (time' = time) by congruence. subst time'. rewrite (again_length (s + k) time) by exact K.
       split; [|split].
       - intro l. destruct (Nat.lt_ge_cases (s + k) (length l)) as [H|H].
         + rewrite again_length by exact H. reflexivity.
         + rewrite again_short by exact H.
           destruct (Nat.eqb_spec (length l) (S (length time))), (Nat.eqb_spec (length l) (length time)); auto; lia.
       - destruct (length time); [lia|reflexivity].
       - intros l _. apply again_last. }
  cbn [fst snd]. split; [reflexivity|].
  destruct (snd (set_fm_model_data nearest within inside c file mt f css dr ds regions sections)) as [m|] eqn:E; [|reflexivity].
  cbn [res_map bind]. destruct (model_data_rows _ _ _ _ _ _ _ _ _ _ _ _ _ E) as (t & l & td & IM & E1 & E2 & E3 & E4 & E5).
  destruct (import_rows f t l td IM) as (time' & T' & W5 & _ & W1 & W2 & W3 & W4).
  assert (time' = time) by congruence. subst time'. pose proof (depth_bounded f t l td B IM) as BD.
  rewrite <- E1, <- E2, <- E3, <- E4, <- E5 in *.
  destruct (selection_of_again sqrt m id (s + k) (length time) W1 W2 W3 W4 W5 BD) as [SE SC]. rewrite SE. clear SE.
  destruct (get_selection sqrt m id) as [sel|]; [|reflexivity]. specialize (SC sel eq_refl). cbn [res_map bind].
  replace (length time) with (s + (length time - s)) in * by lia.
  apply cross_section_again; auto. lia.
Qed.
Print Assumptions C116_repeated_map_partial.

(** A repeated map that is skipped, with the copy skipped as well. *)
Theorem C116_repeated_map_that_is_skipped :
  forall nearest within inside sqrt smooth mean correction clean c file mt css dr ds regions sections st id len centre f time r s,
    v_time f = Some time -> r < s -> s < length time ->
    cross_section_of nearest within inside sqrt smooth mean correction clean c file mt css dr ds regions sections
      (skipping (Z.of_nat (S s)) st) id len centre (S (length time)) (map_again r f) =
    cross_section_of nearest within inside sqrt smooth mean correction clean c file mt css dr ds regions sections
      (skipping (Z.of_nat s) st) id len centre (length time) f.
Proof.
  intros nearest within inside sqrt smooth mean correction clean c file mt css dr ds regions sections st id len centre f time r s T R K.
  assert (LA : length (again r time) = S (length time)) by (apply again_length; lia). rewrite <- LA.
  apply C114_skipped_maps_do_not_matter; auto; [|lia|].
  - unfold map_again. cbn [file_maps v_time]. rewrite T. reflexivity.
  - assert (E : forall A (l : list A), skipn (S s) (again r l) = skipn s l).
    { clear -R. intros A. revert s R. induction r as [|r IH]; intros [|s] R l; try lia; destruct l as [|x l]; auto.
      cbn [again]. change (skipn (S s) (again r l) = skipn s l). apply IH. lia. }
    assert (C : forall v, option_map (cut (S s)) (option_map (matrix_maps (fun A => @again A r)) v) = option_map (cut s) v).
    { intros [v|]; [|reflexivity]. unfold cut, matrix_maps. cbn [option_map m_points m_steps]. rewrite E. reflexivity. }
    unfold without_first, map_again.
    cbn [file_maps v_face_x v_face_y v_face_area v_face_bed v_face_nodes v_edge_type v_edge_x v_edge_y v_edge_faces v_edge_nodes
         v_node_x v_node_y v_time v_waterdepth v_s1 v_czs v_czu v_cftrt v_ucx v_ucy v_u1].
    rewrite !C. f_equal. destruct (v_time f); [|reflexivity]. cbn [option_map]. rewrite E. reflexivity.
Qed.
Print Assumptions C116_repeated_map_that_is_skipped.

(** ** The friction on common levels *)

Definition qtable_again (k : nat) (t : qtable) : qtable := {| qlevel := again k (qlevel t); qfriction := again k (qfriction t) |}.
(** A table for which the interpolation has a meaning. *)
Definition rising_table (k : nat) (t : qtable) : Prop :=
  strictly_increasing (qlevel t) /\ length (qfriction t) = length (qlevel t) /\ k < length (qlevel t).

Lemma rising_nth xp i j : strictly_increasing xp -> i < j -> j < length xp -> (nth i xp 0 < nth j xp 0)%Q.
Proof. intros R I J. apply (R i j); auto; apply nth_error_nth'; lia. Qed.
Lemma rising_unique xp (x : Q) i j : strictly_increasing xp -> i < length xp -> j < length xp ->
  (nth i xp 0 <= x)%Q -> (nth j xp 0 <= x)%Q -> (S i < length xp -> (x < nth (S i) xp 0)%Q) ->
  (S j < length xp -> (x < nth (S j) xp 0)%Q) -> i = j.
Proof.
  intros R I J A B C D.
  assert (P : forall a b, a < length xp -> b < length xp -> (nth b xp 0 <= x)%Q -> (S a < length xp -> (x < nth (S a) xp 0)%Q) -> b <= a).
  { intros a b HA HB LB UA. destruct (Nat.le_gt_cases b a) as [|G]; auto. exfalso. specialize (UA ltac:(lia)).
    destruct (Nat.eq_dec (S a) b) as [<-|N]; [lra|]. pose proof (rising_nth xp (S a) b R ltac:(lia) HB). lra. }
  pose proof (P i j I J B C). pose proof (P j i J I A D). lia.
Qed.
Lemma interp_again search xp fp x k : bracketing search -> strictly_increasing xp -> length fp = length xp -> k < length xp ->
  np_interp search (again k xp) (again k fp) x = np_interp search xp fp x.
Proof.
  intros B R LF K. unfold np_interp. rewrite again_length by exact K. cbv zeta.
  assert (N0 : forall l : list Q, length l = length xp -> nth 0 (again k l) 0%Q = nth 0 l 0%Q) by (intros l E; rewrite nth_again by lia; reflexivity).
  assert (NL : forall l : list Q, length l = length xp -> nth (S (length xp) - 1) (again k l) 0%Q = nth (length xp - 1) l 0%Q).
  { intros l E. rewrite nth_again by lia. f_equal. unfold src. destruct (Nat.leb_spec (S (length xp) - 1) k); lia. }
  rewrite !N0, !NL by auto. destruct (Qltb (nth (length xp - 1) xp 0%Q) x) eqn:E1; [reflexivity|].
  destruct (Qltb x (nth 0 xp 0%Q)) eqn:E2; [reflexivity|]. apply Qltb_false in E1, E2.
  assert (NE : xp <> []) by (intros ->; cbn in K; lia).
  assert (NE' : again k xp <> []) by (destruct xp, k; discriminate || congruence).
  destruct (B xp x NE E2 E1) as (J1 & J2 & J3).
  assert (H1 : (nth 0 (again k xp) 0 <= x)%Q) by (rewrite N0; auto).
  assert (H2 : (x <= nth (length (again k xp) - 1) (again k xp) 0)%Q) by (rewrite again_length, NL by auto; exact E1).
  destruct (B (again k xp) x NE' H1 H2) as (I1 & I2 & I3). rewrite again_length in I1, I3 by exact K. cbv zeta in *.
  set (j := search xp x) in *. set (i := search (again k xp) x) in *.
  rewrite nth_again in I2 by exact K. rewrite nth_again in I3 by exact K.
  assert (IK : i <> k).
  { intros ->. specialize (I3 ltac:(lia)). revert I2 I3. unfold src. rewrite Nat.leb_refl.
    destruct (Nat.leb_spec (S k) k); [lia|]. replace (S k - 1) with k by lia. intros. lra. }
  assert (SS : src k (S i) = S (src k i)).
  { unfold src. destruct (Nat.leb_spec (S i) k), (Nat.leb_spec i k); lia. }
  assert (E : src k i = j).
  { apply (rising_unique xp x); auto.
    - apply src_lt; auto.
    - intro H. rewrite <- SS. apply I3. revert H. unfold src. destruct (Nat.leb_spec i k); lia. }
  assert (EE : Nat.eqb i (S (length xp) - 1) = Nat.eqb j (length xp - 1)).
  { rewrite <- E. unfold src. destruct (Nat.leb_spec i k), (Nat.eqb_spec i (S (length xp) - 1)); 
      match goal with |- _ = Nat.eqb ?a ?b => destruct (Nat.eqb_spec a b) end; auto; lia. }
  rewrite EE. rewrite !(nth_again 0%Q k xp), !(nth_again 0%Q k fp) by lia. rewrite SS, E. reflexivity.
Qed.
Lemma min_again k l : np_min (again k l) = np_min l.
Proof.
  destruct l as [|x l]; [rewrite again_nil; reflexivity|].
  assert (T : forall a v, qmin2 (qmin2 a v) v = qmin2 a v).
  { intros a v. unfold qmin2. destruct (Qltb v a) eqn:E; [|rewrite E; reflexivity]. destruct (Qltb v v) eqn:F; reflexivity. }
  destruct k as [|k]; cbn [again np_min fold_left].
  - f_equal. f_equal. unfold qmin2. destruct (Qltb x x); reflexivity.
  - f_equal. revert x l. induction k as [|k IH]; intros x [|y l]; auto; cbn [again fold_left]; [rewrite T; reflexivity|apply IH].
Qed.
Lemma max_again k l : np_max (again k l) = np_max l.
Proof.
  destruct l as [|x l]; [rewrite again_nil; reflexivity|].
  assert (T : forall a v, qmax2 (qmax2 a v) v = qmax2 a v).
  { intros a v. unfold qmax2. destruct (Qltb a v) eqn:E; [|rewrite E; reflexivity]. destruct (Qltb v v) eqn:F; reflexivity. }
  destruct k as [|k]; cbn [again np_max fold_left].
  - f_equal. f_equal. unfold qmax2. destruct (Qltb x x); reflexivity.
  - f_equal. revert x l. induction k as [|k IH]; intros x [|y l]; auto; cbn [again fold_left]; [rewrite T; reflexivity|apply IH].
Qed.
Lemma interpolate_again search z t k : bracketing search -> rising_table k t ->
  interpolate search z (qtable_again k t) = interpolate search z t /\ exists t', interpolate search z t = Ok t'.
Proof.
  intros B (R & L & K). unfold interpolate. cbn [qtable_again qlevel qfriction]. rewrite !again_length by lia. rewrite L.
  rewrite !Nat.eqb_refl. cbn [Nat.eqb]. destruct (Nat.eqb_spec (length (qlevel t)) 0); [lia|]. cbn [negb].
  split; [|eauto]. do 2 f_equal. apply map_ext. intro x. apply interp_again; auto.
Qed.

(** Tables of which those of the sections [todo] may have the repeated row. *)
Definition alike (k : nat) (todo : list string) (t t' : tables) : Prop :=
  NoDup (map fst t) /\
  Forall2 (fun a b => fst a = fst b /\ (snd a = snd b \/ In (fst a) todo /\ rising_table k (snd a) /\ snd b = qtable_again k (snd a))) t t'.
Lemma alike_assoc k todo t t' x : alike k todo t t' ->
  (assoc x t = None /\ assoc x t' = None) \/
  (exists a b, assoc x t = Some a /\ assoc x t' = Some b /\ (a = b \/ rising_table k a /\ b = qtable_again k a)).
Proof.
  intros [_ F]. induction F as [|[y a] [y' b] t t' [E H] F IH]; [left; split; reflexivity|]. cbn [fst snd] in *. subst y'. cbn [assoc].
  destruct (String.eqb x y); [|exact IH]. right. exists a, b. repeat split. destruct H as [H|(_ & H)]; auto.
Qed.
Lemma alike_range k todo x : forall css css', Forall2 (alike k todo) css css' -> level_range x css' = level_range x css.
Proof.
  unfold level_range. generalize (big, (- big)%Q). intros mm css css' F. revert mm.
  induction F as [|t t' css css' H F IH]; intro mm; [reflexivity|]. cbn [fold_res].
  destruct (alike_assoc k todo t t' x H) as [[-> ->]|(a & b & -> & -> & [<-|[R ->]])]; [apply IH| |].
  - destruct (np_min (qlevel a)); [|reflexivity]. destruct (np_max (qlevel a)); [|reflexivity]. apply IH.
  - cbn [qtable_again qlevel]. rewrite min_again, max_again.
    destruct (np_min (qlevel a)); [|reflexivity]. destruct (np_max (qlevel a)); [|reflexivity]. apply IH.
Qed.
Lemma fst_assoc_set {A} x (v a : A) t : assoc x t = Some a -> map fst (assoc_set x v t) = map fst t.
Proof.
  induction t as [|[y b] t IH]; [discriminate|]. cbn [assoc assoc_set]. destruct (String.eqb x y); [reflexivity|].
  intro H. cbn [map fst]. f_equal. apply IH, H.
Qed.
Lemma alike_done k x todo t t' v a : alike k (x :: todo) t t' -> assoc x t = Some a ->
  alike k todo (assoc_set x v t) (assoc_set x v t').
Proof.
  intros [N F] H. split; [rewrite (fst_assoc_set x v a t H); exact N|].
  assert (W : forall t t' : tables, ~ In x (map fst t) ->
    Forall2 (fun a b => fst a = fst b /\ (snd a = snd b \/ In (fst a) (x :: todo) /\ rising_table k (snd a) /\ snd b = qtable_again k (snd a))) t t' ->
    Forall2 (fun a b => fst a = fst b /\ (snd a = snd b \/ In (fst a) todo /\ rising_table k (snd a) /\ snd b = qtable_again k (snd a))) t t').
  { clear. intros t t' NI F. induction F as [|a b t t' [E H] F IH]; constructor.
    - split; [exact E|]. destruct H as [H|([H|H] & R)]; auto. exfalso. apply NI. left. symmetry. exact H.
    - apply IH. intro I. apply NI. right. exact I. }
  clear a H. induction F as [|[y b] [y' b'] t t' [E H] F IH].
  - constructor; [|constructor]. cbn. auto.
  - cbn [fst snd] in E, H. subst y'. cbn [map fst] in N. inversion N as [|? ? NI N']; subst. cbn [assoc_set].
    destruct (String.eqb_spec x y) as [<-|NE].
    + constructor; [cbn; auto|]. apply W; auto.
    + constructor; [|apply IH, N']. cbn [fst snd]. split; [reflexivity|].
      destruct H as [H|([H|H] & R)]; auto. congruence.
Qed.
Lemma alike_none k x todo t t' : alike k (x :: todo) t t' -> assoc x t = None -> alike k todo t t'.
Proof.
  intros [N F] H. split; [exact N|]. clear N. induction F as [|[y b] [y' b'] t t' [E G] F IH]; constructor.
  - cbn [fst snd] in *. split; [exact E|]. destruct G as [G|([G|G] & R)]; auto. exfalso. cbn [assoc] in H.
    rewrite <- G, String.eqb_refl in H. discriminate.
  - apply IH. cbn [assoc] in H. destruct (String.eqb x y); [discriminate|exact H].
Qed.
Lemma alike_section search k x todo z : bracketing search -> forall css css', Forall2 (alike k (x :: todo)) css css' ->
  snd (interpolate_section search x z css') = snd (interpolate_section search x z css) /\
  (snd (interpolate_section search x z css) = true ->
   Forall2 (alike k todo) (fst (interpolate_section search x z css)) (fst (interpolate_section search x z css'))).
Proof.
  intros B css css' F. induction F as [|t t' css css' H F IH]; [split; [reflexivity|constructor]|]. cbn [interpolate_section].
  destruct (interpolate_section search x z css) as [r ok], (interpolate_section search x z css') as [r' ok']. cbn [fst snd] in IH.
  destruct IH as [-> IH].
  destruct (alike_assoc k _ t t' x H) as [[A A']|(a & b & A & A' & C)]; rewrite A, A'.
  - cbn [fst snd]. split; [reflexivity|]. intro O. constructor; [eapply alike_none; eauto|auto].
  - assert (E : interpolate search z b = interpolate search z a).
    { destruct C as [<-|[R ->]]; [reflexivity|]. apply interpolate_again; auto. }
    rewrite E. destruct (interpolate search z a) as [v|]; [|split; [reflexivity|discriminate]]. cbn [fst snd].
    split; [reflexivity|]. intro O. constructor; [eapply alike_done; eauto|auto].
Qed.
Lemma alike_sections search k : bracketing search -> forall todo css css', Forall2 (alike k todo) css css' ->
  snd (interpolate_sections search todo css') = snd (interpolate_sections search todo css) /\
  (snd (interpolate_sections search todo css) = true ->
   Forall2 (alike k []) (fst (interpolate_sections search todo css)) (fst (interpolate_sections search todo css'))).
Proof.
  intros B todo. induction todo as [|x todo IH]; intros css css' F; [split; [reflexivity|intros _; exact F]|]. cbn [interpolate_sections].
  rewrite (alike_range k _ x css css' F). destruct (level_range x css) as [[lo hi]|]; [|split; [reflexivity|discriminate]].
  destruct (alike_section search k x todo (arange lo hi) B css css' F) as [E G].
  destruct (interpolate_section search x (arange lo hi) css) as [r ok], (interpolate_section search x (arange lo hi) css') as [r' ok'].
  cbn [fst snd] in *. subst ok'. destruct ok; [apply IH, G; reflexivity|split; [reflexivity|discriminate]].
Qed.
Lemma alike_nothing k t t' : alike k [] t t' -> t' = t.
Proof.
  intros [_ F]. induction F as [|[y a] [y' b] t t' [E H] F IH]; [reflexivity|]. cbn [fst snd] in *. subst y'.
  destruct H as [<-|([] & _)]. rewrite IH. reflexivity.
Qed.

(** C116: on the common levels the repeated row is gone: the tables are the
    same, if the levels rise. *)
Definition repeated_row (k : nat) (t : tables) : tables := map (fun a => (fst a, qtable_again k (snd a))) t.
Theorem C116_friction_on_common_levels_partial :
  forall search k css, bracketing search ->
    Forall (fun t => NoDup (map fst t) /\ Forall (fun a => rising_table k (snd a)) t) css ->
    snd (interpolate_friction search (map (repeated_row k) css)) = snd (interpolate_friction search css) /\
    (snd (interpolate_friction search css) = true ->
     interpolate_friction search (map (repeated_row k) css) = interpolate_friction search css).
Proof.
  intros search k css B H. unfold interpolate_friction.
  assert (N : flat_map (map fst) (map (repeated_row k) css) = flat_map (map fst) css).
  { clear. induction css as [|t css IH]; [reflexivity|]. cbn [map flat_map]. rewrite IH. f_equal.
    unfold repeated_row. rewrite map_map. reflexivity. }
  rewrite N. assert (A : Forall2 (alike k (np_unique (flat_map (map fst) css))) css (map (repeated_row k) css)).
  { assert (I : forall t a, In t css -> In a t -> In (fst a) (np_unique (flat_map (map fst) css))).
    { intros t a T Q. apply np_unique_In, in_flat_map. exists t. split; [exact T|]. apply in_map, Q. }
    revert I. generalize (np_unique (flat_map (map fst) css)). clear N. intros names I.
    induction H as [|t css [N R] H IH]; constructor.
    - split; [exact N|]. assert (It : forall a, In a t -> In (fst a) names) by (intros a Q; apply (I t a); [left; reflexivity|exact Q]).
      clear -R It. unfold repeated_row. induction R as [|a t Ra R IHt]; constructor.
      + split; [reflexivity|]. right. cbn [snd]. split; [apply It; left; reflexivity|]. split; [exact Ra|reflexivity].
      + apply IHt. intros b Q. apply It. right. exact Q.
    - apply IH. intros u a T Q. apply (I u a); [right; exact T|exact Q]. }
  destruct (alike_sections search k B _ _ _ A) as [E G]. split; [exact E|]. intro O. specialize (G O).
  assert (F : fst (interpolate_sections search (np_unique (flat_map (map fst) css)) (map (repeated_row k) css)) =
              fst (interpolate_sections search (np_unique (flat_map (map fst) css)) css)).
  { revert G. generalize (fst (interpolate_sections search (np_unique (flat_map (map fst) css)) (map (repeated_row k) css)))
      (fst (interpolate_sections search (np_unique (flat_map (map fst) css)) css)). intros l' l G.
    induction G as [|t t' l l' H' G IH]; [reflexivity|]. f_equal; [eapply alike_nothing, H'|exact IH]. }
  destruct (interpolate_sections search _ (map (repeated_row k) css)), (interpolate_sections search _ css). cbn [fst snd] in *. congruence.
Qed.
Print Assumptions C116_friction_on_common_levels_partial.

(** ** What does matter *)

(** C116 refuted where LakeTimeSteps stays as it is: the number then denotes an
    earlier map, here the copy of the first one, and every face that is wet in
    the first map is taken for a lake. *)
Definition ten_faces_lake (L nt : nat) (f : map_file) : res (option M_Pipeline.css) :=
  cross_section_of first_nearest (fun _ _ => false) (fun _ _ => false) (fun x => x) (fun x => x) (fun _ _ => Fin 0)
    (fun _ => Raise ValueError) (fun x => x) (fun _ => None) (T "map.nc") (0, 0)%Z
    (Ok (mk_columns [(0, 0)%Q] [T "a"] [T "r"] [1%Q] [0%Q])) VNull VNull None None
    (with_lake 0 L example_settings) (T "a") (Fin 10) 0 nt f.
Theorem C116_same_lake_time_step_refuted :
  exists f time, v_time f = Some time /\ depths_bounded f /\
    ten_faces_lake 1 (S (length time)) (map_again 0 f) <> res_map (option_map (css_again 0)) (ten_faces_lake 1 (length time) f).
Proof.
  exists ten_faces. eexists. split; [reflexivity|]. split.
  - intros v V. injection V as <-. repeat constructor; discriminate.
  - vm_compute. discriminate.
Qed.
Print Assumptions C116_same_lake_time_step_refuted.

(** C116 refuted for ConveyanceDetectionMethod 0, which compares with a mean
    over the maps: a slow map that occurs twice lowers it. *)
Theorem C116_mean_velocity_refuted :
  exists mean depth vel k n, k < n /\ Forall (fits n) depth /\ Forall (fits n) vel /\
    distinguish_conveyance (fun v => v) mean 0 (Fin 0) (Fin 1) (S n) (map (again k) depth) (map (again k) vel) <>
    map (again k) (distinguish_conveyance (fun v => v) mean 0 (Fin 0) (Fin 1) n depth vel).
Proof.
  exists (fun v _ => nanmean (concat v)), [[Fin 1; Fin 1; Fin 1]], [[Fin 1; Fin 2; Fin (31 # 10)]], 0, 3.
  split; [lia|]. split; [repeat constructor|]. split; [repeat constructor|]. vm_compute. discriminate.
Qed.
Print Assumptions C116_mean_velocity_refuted.

(** A case: the first, second or last of three maps is repeated. *)
Theorem C116_case :
  v_time (map_again 1 ten_faces) = Some [Fin 0; Fin 60; Fin 60; Fin 120] /\ depths_bounded ten_faces /\
  ignores_roughness (fun _ => Raise ValueError) /\
  ten_faces_lake 2 4 (map_again 0 ten_faces) = res_map (option_map (css_again 0)) (ten_faces_lake 1 3 ten_faces) /\
  ten_faces_lake 1 4 (map_again 1 ten_faces) = res_map (option_map (css_again 1)) (ten_faces_lake 1 3 ten_faces) /\
  ten_faces_lake 1 4 (map_again 2 ten_faces) = res_map (option_map (css_again 2)) (ten_faces_lake 1 3 ten_faces) /\
  (exists cs, ten_faces_lake 1 3 ten_faces = Ok (Some cs)).
Proof.
  split; [reflexivity|]. split; [intros v V; injection V as <-; repeat constructor; discriminate|]. split; [intros g z; reflexivity|].
  split; [vm_compute; reflexivity|]. split; [vm_compute; reflexivity|]. split; [vm_compute; reflexivity|].
  vm_compute. eexists. reflexivity.
Qed.
Print Assumptions C116_case.

Theorem C116_friction_case :
  let css := [[("main"%string, {| qlevel := [0; 1 # 5; 1]; qfriction := [30; 40; 45] |})];
              [("main"%string, {| qlevel := [1 # 10; 1 # 2; 3 # 5]; qfriction := [20; 60; 50] |})]]%Q in
  Forall (fun t => NoDup (map fst t) /\ Forall (fun a => rising_table 1 (snd a)) t) css /\
  snd (interpolate_friction linear_search css) = true /\
  map (repeated_row 1) css <> css /\
  interpolate_friction linear_search (map (repeated_row 1) css) = interpolate_friction linear_search css.
Proof.
  cbv zeta. match goal with |- ?P /\ _ => assert (H : P) end.
  { assert (R : forall a b c : Q, (a < b)%Q -> (b < c)%Q -> strictly_increasing [a; b; c]).
    { intros a b c AB BC i j u v I U V.
      do 3 (destruct i as [|i]; [do 3 (destruct j as [|j]; [try lia; cbn in U, V; injection U as <-; injection V as <-; lra|]);
        destruct j; discriminate|]). destruct i; discriminate. }
    repeat constructor; cbn [map fst snd In]; try (intros []); cbn [length qlevel qfriction]; try lia;
      cbn [qlevel]; apply R; reflexivity. }
  split; [exact H|]. split; [vm_compute; reflexivity|]. split; [discriminate|].
  apply C116_friction_on_common_levels_partial; [apply linear_search_bracketing|exact H|vm_compute; reflexivity].
Qed.
Print Assumptions C116_friction_case.
