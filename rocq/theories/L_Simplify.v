(** Proofs about the elimination loop of the simplifier. *)
From Coq Require Import String List ZArith QArith Qabs Qminmax Bool Lia Lqa.
From Verif Require Import PyBase Num Spec Spec_Simplify L_Num L_List M_Simplify.
Import ListNotations.
Local Open Scope Q_scope.

Definition fpt (p : qpoint) : point := (Fin (fst p), Fin (snd p)).

Lemma qtri_nonneg a b c : 0 <= qtri a b c.
Proof.
  unfold qtri. pose proof (Qabs_nonneg (fst a * (snd b - snd c) + fst b * (snd c - snd a)
        + fst c * (snd a - snd b))). apply Qle_shift_div_l; lra.
Qed.

Lemma triangle_area_fin a b c : triangle_area (fpt a) (fpt b) (fpt c) = Fin (qtri a b c).
Proof. reflexivity. Qed.

Lemma triangle_area_row_fin a b c :
  exists q, triangle_area_row (fpt a) (fpt b) (fpt c) = Fin q /\ q == qtri a b c.
Proof.
  exists (Qabs (fst c * (snd a + - snd b) +
          (fst b * (snd c + - snd a) + fst a * (snd b + - snd c))) / 2).
  split; [reflexivity|]. unfold qtri. apply Qdiv_comp; [|reflexivity].
  apply Qabs_wd. ring.
Qed.

(** argmin on lists without NaN *)
Definition nonan (l : list num) := Forall (fun x => isnan x = false) l.

Definition nle (x y : num) : Prop := nltb y x = false.

Lemma nle_refl x : nle x x.
Proof. destruct x; unfold nle; simpl; auto. apply Qltb_false. lra. Qed.

Lemma nle_trans x y z : isnan x = false -> isnan y = false -> isnan z = false ->
  nle x y -> nle y z -> nle x z.
Proof.
  destruct x, y, z; unfold nle; simpl; try congruence; auto.
  intros _ _ _ H1 H2. qb. lra.
Qed.

Lemma nlt_nle x y : nltb x y = true -> nle x y.
Proof.
  destruct x, y; unfold nle; simpl; try congruence; auto. intros H. qb. lra.
Qed.

Lemma argmin_from_spec l : forall k best bestv,
  nonan l -> isnan bestv = false ->
  (argmin_from k best bestv l = best /\ (forall x, In x l -> nle bestv x)) \/
  (exists j x, nth_error l j = Some x /\ argmin_from k best bestv l = (k + j)%nat /\
     nltb x bestv = true /\ forall y, In y l -> nle x y).
Proof.
  induction l as [|a l IH]; intros k best bestv Hn Hb; simpl.
  - left. split; auto. intros x [].
  - inversion Hn as [|? ? Ha Hl]; subst.
    unfold argmin_less. rewrite Hb, Ha.
    destruct (nltb a bestv) eqn:E.
    + right. destruct (IH (S k) k a Hl Ha) as [[H1 H2]|(j & x & Hj & H1 & H2 & H3)].
      * exists O, a. split; auto. split; [rewrite H1; lia|]. split; auto.
        intros y [<-|Hy]; auto. apply nle_refl.
      * exists (S j), x. split; auto. split; [rewrite H1; lia|].
        assert (Hx : isnan x = false).
        { rewrite Forall_forall in Hl. apply Hl. eapply nth_error_In; eauto. }
        assert (Hxb : nle x bestv).
        { apply nle_trans with a; auto; apply nlt_nle; auto. }
        split.
        -- clear Hxb IH Hj H1 H3; destruct x, a, bestv; simpl in *; try congruence; auto. apply Qltb_true; apply (proj1 (Qltb_true _ _)) in E; apply (proj1 (Qltb_true _ _)) in H2; lra.
        -- intros y [<-|Hy]; auto. apply nlt_nle; auto.
    + destruct (IH (S k) best bestv Hl Hb) as [[H1 H2]|(j & x & Hj & H1 & H2 & H3)].
      * left. split; auto. intros x [<-|Hx]; auto.
      * right. exists (S j), x. split; auto. split; [rewrite H1; lia|]. split; auto.
        intros y [<-|Hy]; auto. 
        assert (Hx : isnan x = false).
        { rewrite Forall_forall in Hl. apply Hl. eapply nth_error_In; eauto. }
        apply nle_trans with bestv; auto. apply nlt_nle; auto.
Qed.

Lemma argmin_spec l : l <> [] -> nonan l ->
  exists x, nth_error l (argmin l) = Some x /\ forall y, In y l -> nle x y.
Proof.
  destruct l as [|a l]; intros H Hn; [congruence|]. inversion Hn; subst. simpl argmin.
  destruct (argmin_from_spec l 1 0 a) as [[H1 H2']|(j & x & Hj & H1 & _ & H4)]; auto.
  - rewrite H1. exists a. split; auto. intros y [<-|Hy]; auto. apply nle_refl.
  - rewrite H1. exists x. split; auto. intros y [<-|Hy]; auto.
    destruct (argmin_from_spec l 1 0 a) as [[H5 _]|(j' & x' & Hj' & H5 & H6 & _)]; auto.
    + lia.
    + assert (j' = j) by lia. subst. rewrite Hj in Hj'. inversion Hj'; subst. apply nlt_nle; auto.
Qed.

(** If all entries are infinite the first is taken. *)
Lemma argmin_all_inf l : Forall (fun x => x = PInf) l -> argmin l = O.
Proof.
  destruct l as [|a l]; auto. intros H. inversion H; subst. simpl.
  destruct (argmin_from_spec l 1 0 PInf) as [[H1 _]|(j & x & Hj & _ & Hx & _)]; auto.
  - eapply Forall_impl; [|exact H3]. intros ? ->. auto.
  - exfalso. rewrite Forall_forall in H3. apply nth_error_In in Hj. apply H3 in Hj. subst. discriminate.
Qed.

Section Elim.
Variable pts : list qpoint.
Notation n := (length pts).
Notation fpts := (map fpt pts).

Definition pt (k : nat) : qpoint := nth k pts (0, 0).
Definition at_ (i : list nat) (p : nat) : nat := nth p i O.
(** Triangle of the p-th remaining vertex with its current neighbours. *)
Definition tri3 (i : list nat) (p : nat) : Q :=
  qtri (pt (at_ i (p - 1))) (pt (at_ i p)) (pt (at_ i (p + 1))).

Definition interior (i : list nat) (p : nat) : Prop := (0 < p)%nat /\ (p + 1 < length i)%nat.

(** Effective areas are stored at every remaining interior vertex. *)
Record inv (real areas : list num) (i : list nat) (t : Q) : Prop := {
  inv_real : length real = n;
  inv_areas : length areas = n;
  inv_len : (2 <= length i <= n)%nat;
  inv_dup : NoDup i;
  inv_lt : forall k, In k i -> (k < n)%nat;
  inv_first : nth_error i 0 = Some O;
  inv_last : nth_error i (length i - 1) = Some (n - 1)%nat;
  inv_int : forall p, interior i p -> exists q,
      nth_error areas p = Some (Fin q) /\ q == Qmax2 t (tri3 i p) /\
      nth_error real (at_ i p) = Some (Fin q);
  inv_a0 : nth_error areas 0 = Some PInf;
  inv_pad : forall p, (length i - 1 <= p < n)%nat -> nth_error areas p = Some PInf;
  inv_r0 : nth_error real 0 = Some PInf;
  inv_rn : nth_error real (n - 1) = Some PInf }.

Lemma nth_error_at i p : (p < length i)%nat -> nth_error i p = Some (at_ i p).
Proof. intros H. apply nth_error_nth'. auto. Qed.

Lemma at_remove_lt i v p : (p < v)%nat -> (v < length i)%nat -> at_ (remove_nth v i) p = at_ i p.
Proof.
  intros H1 H2. pose proof (nth_error_remove_lt i v p H1) as E.
  rewrite (nth_error_at i) in E by lia. unfold at_. apply nth_error_nth with (d := O) in E. auto.
Qed.

Lemma at_remove_ge i v p : (v <= p)%nat -> (p + 1 < length i)%nat ->
  at_ (remove_nth v i) p = at_ i (S p).
Proof.
  intros H1 H2. pose proof (nth_error_remove_ge i v p H1) as E.
  rewrite (nth_error_at i (S p)) in E by lia. unfold at_. apply nth_error_nth with (d := O) in E. auto.
Qed.

Lemma indexed_area_ok i a b c :
  (forall k, In k i -> (k < n)%nat) ->
  (a < length i)%nat -> (b < length i)%nat -> (c < length i)%nat ->
  indexed_area fpts i (Z.of_nat a) (Z.of_nat b) (Z.of_nat c) =
  Ok (Fin (qtri (pt (at_ i a)) (pt (at_ i b)) (pt (at_ i c)))).
Proof.
  intros Hlt Ha Hb Hc. unfold indexed_area.
  assert (Hp : forall k, (k < length i)%nat ->
     py_index fpts (Z.of_nat (at_ i k)) = Ok (fpt (pt (at_ i k)))).
  { intros k Hk. apply py_index_nat. rewrite nth_error_map.
    rewrite (nth_error_nth' pts (0, 0)); auto. apply Hlt. eapply nth_error_In. apply nth_error_at; auto. }
  rewrite (py_index_nat i a _ (nth_error_at i a Ha)); cbn [bind]. rewrite Hp by auto. cbn [bind].
  rewrite (py_index_nat i b _ (nth_error_at i b Hb)); cbn [bind]. rewrite Hp by auto. cbn [bind].
  rewrite (py_index_nat i c _ (nth_error_at i c Hc)); cbn [bind]. rewrite Hp by auto. cbn [bind].
  rewrite triangle_area_fin. reflexivity.
Qed.

(** Remaining vertices after the removal of interior vertex v *)
Lemma remove_spec areas v : (v < length areas)%nat ->
  length (remove areas v) = length areas /\
  (forall p, (p < v)%nat -> nth_error (remove areas v) p = nth_error areas p) /\
  (forall p, (v <= p)%nat -> (p + 1 < length areas)%nat ->
     nth_error (remove areas v) p = nth_error areas (S p)) /\
  nth_error (remove areas v) (length areas - 1) = nth_error areas (length areas - 1).
Proof.
  intros Hv. assert (Hl := remove_nth_length areas v Hv).
  unfold remove. split; [|split; [|split]].
  - rewrite app_length, Hl. simpl. lia.
  - intros p Hp. rewrite nth_error_app1 by lia. apply nth_error_remove_lt; auto.
  - intros p Hp Hq. rewrite nth_error_app1 by lia. apply nth_error_remove_ge; auto.
  - rewrite nth_error_app2 by lia. rewrite Hl, Nat.sub_diag. simpl. 
    rewrite (nth_error_last areas NaN); auto. intros ->; simpl in Hv; lia.
Qed.

Definition cap (t q : Q) : Q := if Qle_bool q t then t else q.
Lemma cap_max t q : cap t q == Qmax2 t q.
Proof.
  unfold cap, Qmax2. destruct (Qle_bool q t) eqn:E; qb; destruct (Qltb t q) eqn:E2; qb; lra.
Qed.
Lemma nleb_cap a t : (if nleb (Fin a) (Fin t) then Fin t else Fin a) = Fin (cap t a).
Proof. simpl. unfold cap. destruct (Qle_bool a t); auto. Qed.

(** Update step: state after removing interior vertex [v] of least effective
    area, with both neighbours recomputed. *)
Lemma vw_update real areas i t v s :
  inv real areas i t -> interior i v ->
  s == Qmax2 t (tri3 i v) ->
  (forall p, interior i p -> s <= Qmax2 t (tri3 i p)) ->
  exists real' areas' skip,
    (st <- vw_right fpts {| vreal := real; vareas := remove areas v; vidx := remove_nth v i;
                            vmin := v; vthis := Fin s |} ;;
     vw_left fpts {| vreal := real; vareas := remove areas v; vidx := remove_nth v i;
                     vmin := v; vthis := Fin s |} st) = Ok (real', areas', skip) /\
    inv real' areas' (remove_nth v i) s /\
    nth_error real' (at_ i v) = nth_error real (at_ i v) /\
    (forall k, ~ In k i -> nth_error real' k = nth_error real k) /\
    (forall k, skip = Some k -> interior (remove_nth v i) k /\ nth_error areas' k = Some (Fin s)).
Proof.
  intros I [Hv0 Hv1] Hs Hmin. set (i' := remove_nth v i).
  assert (Hli : length i' = (length i - 1)%nat) by (apply remove_nth_length; lia).
  destruct I as [I1 I2 I3 I4 I5 I6 I7 I8 I9 I10 I11 I12].
  destruct (remove_spec areas v) as (R0 & R1 & R2 & R3); [lia|].
  assert (Hlt' : forall k, In k i' -> (k < n)%nat).
  { intros k Hk. apply I5. unfold i' in Hk.
    destruct (remove_nth_split i v _ (nth_error_at i v ltac:(lia))) as [E1 E2]. rewrite E2 in Hk.
    rewrite E1. apply in_app_iff in Hk. apply in_app_iff. destruct Hk; [left|right; right]; auto. }
  assert (Hinj : forall p q, (p < length i)%nat -> (q < length i)%nat -> at_ i p = at_ i q -> p = q).
  { intros p q Hp Hq E. rewrite NoDup_nth_error in I4. apply I4; auto.
    rewrite !nth_error_at by auto. congruence. }
  assert (Hat0 : at_ i 0 = O) by (rewrite nth_error_at in I6 by lia; congruence).
  assert (Hatn : at_ i (length i - 1) = (n - 1)%nat) by (rewrite nth_error_at in I7 by lia; congruence).
  assert (Hdup' : NoDup i') by (apply remove_nth_NoDup; auto).
  (* stored areas of untouched vertices equal the new effective areas *)
  assert (Hold : forall p q, interior i p -> q == Qmax2 t (tri3 i p) -> q == Qmax2 s (tri3 i p)).
  { intros p q Hp Hq. specialize (Hmin p Hp).
    assert (t <= s) by (rewrite Hs; apply Qmax2_ge_l).
    unfold Qmax2 in *. destruct (Qltb t (tri3 i p)) eqn:E1, (Qltb s (tri3 i p)) eqn:E2; qb; lra. }
  (* values before updating *)
  set (A0 := remove areas v) in *.
  assert (HA0 : forall p, interior i' p -> (p <> v -> p + 1 <> v -> exists q,
            nth_error A0 p = Some (Fin q) /\ q == Qmax2 s (tri3 i' p) /\
            nth_error real (at_ i' p) = Some (Fin q))%nat).
  { intros p [Hp0 Hp1] Hpv Hpv'. rewrite Hli in Hp1.
    destruct (Nat.lt_ge_cases p v) as [Hlt|Hge].
    - destruct (I8 p) as (q & Q1 & Q2 & Q3); [split; lia|].
      exists q. rewrite R1 by auto. unfold i'. rewrite at_remove_lt by lia. split; auto.
      split; auto. apply Hold in Q2; [|split; lia]. 
      unfold tri3 in *. unfold i'. rewrite !at_remove_lt by lia. auto.
    - destruct (I8 (S p)) as (q & Q1 & Q2 & Q3); [split; lia|].
      exists q. rewrite R2 by lia. unfold i'. rewrite at_remove_ge by lia. split; auto.
      split; auto. apply Hold in Q2; [|split; lia].
      unfold tri3 in *. unfold i'. rewrite !at_remove_ge by lia.
      replace (S p - 1)%nat with (S (p - 1)) in Q2 by lia.
      replace (S p + 1)%nat with (S (p + 1)) in Q2 by lia. auto. }
  assert (HA00 : nth_error A0 0 = Some PInf) by (rewrite R1 by lia; auto).
  assert (HApad : forall p, (length i' - 1 <= p < n)%nat -> nth_error A0 p = Some PInf).
  { intros p [Hp1 Hp2]. rewrite Hli in Hp1.
    destruct (Nat.eq_dec p (n - 1)) as [->|Hne].
    - rewrite <- I2. rewrite R3. rewrite I2. apply I10. lia.
    - rewrite R2 by lia. apply I10. lia. }
  assert (Hat0' : at_ i' 0 = O) by (unfold i'; rewrite at_remove_lt by lia; auto).
  assert (Hatn' : at_ i' (length i' - 1) = (n - 1)%nat).
  { unfold i' at 1. rewrite at_remove_ge by lia. rewrite <- Hatn. f_equal. lia. }
  assert (Hinj' : forall p q, (p < length i')%nat -> (q < length i')%nat -> at_ i' p = at_ i' q -> p = q).
  { intros p q Hp Hq E. rewrite NoDup_nth_error in Hdup'. apply Hdup'; auto.
    rewrite !nth_error_at by auto. congruence. }
  assert (Hnotin : ~ In (at_ i v) i').
  { intros Hin. apply In_nth_error in Hin. destruct Hin as [p Hp].
    assert (p < length i')%nat by (apply nth_error_Some; congruence).
    destruct (Nat.lt_ge_cases p v).
    - unfold i' in Hp. rewrite nth_error_remove_lt in Hp by auto. rewrite nth_error_at in Hp by lia.
      inversion Hp as [E]. apply Hinj in E; lia.
    - unfold i' in Hp. rewrite nth_error_remove_ge in Hp by auto. rewrite nth_error_at in Hp by lia.
      inversion Hp as [E]. apply Hinj in E; lia. }
  assert (Hin' : forall p, (p < length i')%nat -> In (at_ i' p) i).
  { intros p Hp. assert (In (at_ i' p) i') as Hx by (eapply nth_error_In; apply nth_error_at; auto).
    generalize dependent (at_ i' p). intros w Hx. unfold i' in Hx.
    destruct (remove_nth_split i v _ (nth_error_at i v ltac:(lia))) as [E1 E2]. rewrite E2 in Hx.
    rewrite E1. apply in_app_iff in Hx. apply in_app_iff. destruct Hx; [left|right; right]; auto. }
  assert (Hin'' : forall p, (p < length i')%nat -> In (at_ i' p) i').
  { intros p Hp. eapply nth_error_In; apply nth_error_at; auto. }
  (* right neighbour *)
  assert (HR : exists real1 areas1 skip1,
    vw_right fpts {| vreal := real; vareas := A0; vidx := i'; vmin := v; vthis := Fin s |}
      = Ok (real1, areas1, skip1) /\ length real1 = n /\ length areas1 = n /\
    (forall k, ~ (k = at_ i' v /\ interior i' v) -> nth_error real1 k = nth_error real k) /\
    (forall k, ~ (k = v /\ interior i' v) -> nth_error areas1 k = nth_error A0 k) /\
    (interior i' v -> exists q, nth_error areas1 v = Some (Fin q) /\ q == Qmax2 s (tri3 i' v) /\
        nth_error real1 (at_ i' v) = Some (Fin q)) /\
    (forall k, skip1 = Some k -> k = v /\ interior i' v /\ nth_error areas1 v = Some (Fin s))).
  { unfold vw_right. cbn [vmin vidx vareas vreal vthis].
    destruct (Nat.lt_ge_cases (v + 1) (length i')) as [Hr|Hr].
    - assert (Hint : interior i' v) by (split; lia).
      replace (Z.of_nat v - 1)%Z with (Z.of_nat (v - 1)) by lia.
      replace (Z.of_nat v + 1)%Z with (Z.of_nat (v + 1)) by lia.
      rewrite indexed_area_ok by (auto; lia).
      rewrite (py_index_nat i' v _ (nth_error_at i' v ltac:(lia))). cbn [bind].
      fold (tri3 i' v). rewrite nleb_cap.
      eexists _, _, _. split; [reflexivity|].
      rewrite !update_nth_length. rewrite R0.
      split; [auto|]. split; [auto|]. split; [|split; [|split]].
      + intros k Hk. apply nth_error_update_ne. intros E. apply Hk. split; auto.
      + intros k Hk. apply nth_error_update_ne. intros E. apply Hk. split; auto.
      + intros _. exists (cap s (tri3 i' v)). split; [|split].
        * apply nth_error_update_eq. rewrite R0. lia.
        * apply cap_max.
        * apply nth_error_update_eq. rewrite I1. apply Hlt'. apply Hin''. lia.
      + intros k. simpl. destruct (Qle_bool (tri3 i' v) s) eqn:E; [|discriminate].
        intros [= <-]. split; auto. split; auto.
        rewrite nth_error_update_eq by (rewrite R0; lia).
        unfold cap. rewrite E. auto.
    - assert (Hni : ~ interior i' v) by (intros [? ?]; lia).
      assert (E : indexed_area fpts i' (Z.of_nat v - 1) (Z.of_nat v) (Z.of_nat v + 1) = Raise IndexError).
      { unfold indexed_area. replace (Z.of_nat v - 1)%Z with (Z.of_nat (v - 1)) by lia.
        replace (Z.of_nat v + 1)%Z with (Z.of_nat (v + 1)) by lia.
        rewrite (py_index_nat i' (v - 1) _ (nth_error_at i' (v - 1) ltac:(lia))). cbn [bind].
        rewrite (py_index_nat fpts (at_ i' (v-1)) (fpt (pt (at_ i' (v-1))))).
        2:{ rewrite nth_error_map. rewrite (nth_error_nth' pts (0, 0)); auto. apply Hlt', Hin''. lia. }
        cbn [bind].
        rewrite (py_index_nat i' v _ (nth_error_at i' v ltac:(lia))). cbn [bind].
        rewrite (py_index_nat fpts (at_ i' v) (fpt (pt (at_ i' v)))).
        2:{ rewrite nth_error_map. rewrite (nth_error_nth' pts (0, 0)); auto. apply Hlt', Hin''. lia. }
        cbn [bind].
        rewrite py_index_nat_out; auto. apply nth_error_None. lia. }
      rewrite E. eexists _, _, _. split; [reflexivity|].
      split; auto. split; [rewrite R0; auto|]. split; auto. split; auto.
      split; [intros; contradiction|]. discriminate. }
  destruct HR as (real1 & areas1 & skip1 & ER & L1 & L2 & P1 & P2 & P3 & P4).
  rewrite ER. cbn [bind]. clear ER.
  (* left neighbour *)
  unfold vw_left. cbn [vmin vidx vareas vreal vthis].
  destruct (Nat.ltb_spec 1 v) as [Hv|Hv].
  - assert (Hint : interior i' (v - 1)) by (split; lia).
    replace (Z.of_nat v - 2)%Z with (Z.of_nat (v - 2)) by lia.
    replace (Z.of_nat v - 1)%Z with (Z.of_nat (v - 1)) by lia.
    fold i'. rewrite indexed_area_ok by (auto; lia).
    rewrite (py_index_nat i' (v-1) _ (nth_error_at i' (v-1) ltac:(lia))). cbn [bind].
    replace (qtri (pt (at_ i' (v - 2))) (pt (at_ i' (v - 1))) (pt (at_ i' v)))
      with (tri3 i' (v - 1)) by (unfold tri3; do 2 f_equal; f_equal; lia).
    rewrite nleb_cap. set (q := cap s (tri3 i' (v - 1))).
    assert (Hlen1 : (at_ i' (v - 1) < n)%nat) by (apply Hlt', Hin''; lia).
    eexists _, _, _. split; [reflexivity|]. split; [|split; [|split]].
    + constructor.
      * rewrite update_nth_length; auto.
      * rewrite update_nth_length; auto.
      * rewrite Hli. lia.
      * auto.
      * auto.
      * rewrite nth_error_at by lia. congruence.
      * rewrite nth_error_at by lia. congruence.
      * intros p Hp.
        destruct (Nat.eq_dec p (v - 1)) as [->|Hp1].
        { exists q. rewrite nth_error_update_eq by lia. split; auto.
          split; [apply cap_max|]. rewrite nth_error_update_eq by lia. auto. }
        destruct (Nat.eq_dec p v) as [->|Hp2].
        { destruct (P3 Hp) as (q' & Q1 & Q2 & Q3). exists q'.
          rewrite nth_error_update_ne by lia. split; auto. split; auto.
          rewrite nth_error_update_ne; auto. intros E. destruct Hp. apply Hinj' in E; lia. }
        destruct (HA0 p Hp) as (q' & Q1 & Q2 & Q3); try lia. exists q'. destruct Hp.
        rewrite nth_error_update_ne by lia. rewrite P2 by lia. split; auto. split; auto.
        rewrite nth_error_update_ne. 2:{ intros E. apply Hinj' in E; lia. }
        rewrite P1; auto. intros [E _]. apply Hinj' in E; lia.
      * rewrite nth_error_update_ne by lia. rewrite P2 by lia. auto.
      * intros p Hp. rewrite nth_error_update_ne by lia. rewrite P2; [auto|].
        intros [-> []]. lia.
      * rewrite nth_error_update_ne. 2:{ intros E. rewrite <- Hat0' in E. apply Hinj' in E; lia. }
        rewrite P1; auto. intros [E [? ?]]. rewrite <- Hat0' in E. apply Hinj' in E; lia.
      * rewrite nth_error_update_ne. 2:{ intros E. rewrite <- Hatn' in E. apply Hinj' in E; lia. }
        rewrite P1; auto. intros [E [? ?]]. rewrite <- Hatn' in E. apply Hinj' in E; lia.
    + rewrite nth_error_update_ne. 2:{ intros E. apply Hnotin. rewrite <- E. apply Hin''. lia. }
      apply P1. intros [E [? ?]]. apply Hnotin. rewrite E. apply Hin''. lia.
    + intros k Hk. rewrite nth_error_update_ne. 2:{ intros <-. apply Hk, Hin'. lia. }
      apply P1. intros [-> [? ?]]. apply Hk, Hin'. lia.
    + intros k. unfold nleb. destruct (Qle_bool (tri3 i' (v - 1)) s) eqn:E.
      * intros [= <-]. split; auto. rewrite nth_error_update_eq by lia. unfold q, cap. rewrite E. auto.
      * intros Hk. destruct (P4 k Hk) as (-> & Hi & Ha). split; auto.
        rewrite nth_error_update_ne by lia. auto.
  - eexists _, _, _. split; [reflexivity|]. split; [|split; [|split]].
    + constructor; auto.
      * rewrite Hli. lia.
      * rewrite nth_error_at by lia. congruence.
      * rewrite nth_error_at by lia. congruence.
      * intros p Hp. destruct (Nat.eq_dec p v) as [->|Hp2].
        { auto. }
        destruct (HA0 p Hp) as (q' & Q1 & Q2 & Q3); destruct Hp; try lia. exists q'.
        rewrite P2 by lia. split; auto. split; auto.
        rewrite P1; auto. intros [E _]. apply Hinj' in E; lia.
      * rewrite P2 by lia. auto.
      * intros p Hp. rewrite P2; [auto|]. intros [-> []]. lia.
      * rewrite P1; auto. intros [E [? ?]]. rewrite <- Hat0' in E. apply Hinj' in E; lia.
      * rewrite P1; auto. intros [E [? ?]]. rewrite <- Hatn' in E. apply Hinj' in E; lia.
    + apply P1. intros [E [? ?]]. apply Hnotin. rewrite E. apply Hin''. lia.
    + intros k Hk. apply P1. intros [-> [? ?]]. apply Hk, Hin'. lia.
    + intros k Hk. destruct (P4 k Hk) as (-> & Hi & Ha). auto.
Qed.

Lemma Qmax2_Qmax a b : Qmax2 a b == Qmax a b.
Proof.
  unfold Qmax2. destruct (Qltb a b) eqn:E; qb.
  - symmetry. apply Q.max_r. lra.
  - symmetry. apply Q.max_l. lra.
Qed.

(** Selection of the next vertex when interior vertices are left. *)
Lemma vw_next_interior real areas i t skip :
  inv real areas i t -> (2 < length i)%nat ->
  (forall k, skip = Some k -> interior i k /\ nth_error areas k = Some (Fin t)) ->
  exists v s, vw_next i (real, areas, skip) =
    Ok {| vreal := real; vareas := remove areas v; vidx := remove_nth v i;
          vmin := v; vthis := Fin s |} /\
    interior i v /\ s == Qmax2 t (tri3 i v) /\
    nth_error real (at_ i v) = Some (Fin s) /\
    (forall p, interior i p -> s <= Qmax2 t (tri3 i p)).
Proof.
  intros I Hl Hskip. unfold vw_next.
  set (m := match skip with Some (S k) => S k | _ => argmin areas end).
  assert (Hm : interior i m /\ exists s, nth_error areas m = Some (Fin s) /\
               forall p, interior i p -> s <= Qmax2 t (tri3 i p)).
  { assert (Harg : interior i (argmin areas) /\ exists s, nth_error areas (argmin areas) = Some (Fin s) /\
               forall p, interior i p -> s <= Qmax2 t (tri3 i p)).
    { destruct (argmin_spec areas) as (x & Hx & Hmin).
      - intros E. pose proof (inv_areas _ _ _ _ I). pose proof (inv_len _ _ _ _ I). rewrite E in H. simpl in H. lia.
      - apply Forall_forall. intros y Hy. apply In_nth_error in Hy. destruct Hy as [p Hp].
        assert (p < n)%nat by (rewrite <- (inv_areas _ _ _ _ I); apply nth_error_Some; congruence).
        destruct (Nat.eq_dec p 0) as [->|H0].
        { rewrite (inv_a0 _ _ _ _ I) in Hp. inversion Hp; auto. }
        destruct (Nat.lt_ge_cases (p + 1) (length i)) as [H1|H1].
        { destruct (inv_int _ _ _ _ I p) as (q & Hq & _); [split; lia|]. rewrite Hq in Hp. inversion Hp; auto. }
        rewrite (inv_pad _ _ _ _ I p) in Hp by lia. inversion Hp; auto.
      - assert (Hsm : forall p, interior i p -> exists q, nle x (Fin q) /\ q == Qmax2 t (tri3 i p)).
        { intros p Hp. destruct (inv_int _ _ _ _ I p Hp) as (q & Hq & Hq2 & _). exists q. split; auto.
          apply Hmin. eapply nth_error_In; eauto. }
        assert (Hlt : (argmin areas < n)%nat) by (rewrite <- (inv_areas _ _ _ _ I); apply nth_error_Some; congruence).
        destruct (Hsm 1%nat) as (q1 & Hq1 & _); [split; lia|].
        assert (x <> PInf) by (intros ->; unfold nle in Hq1; discriminate).
        assert (Hint : interior i (argmin areas)).
        { split.
          - destruct (Nat.eq_dec (argmin areas) 0) as [E|E]; [|lia].
            rewrite E, (inv_a0 _ _ _ _ I) in Hx. congruence.
          - destruct (Nat.lt_ge_cases (argmin areas + 1) (length i)); auto.
            rewrite (inv_pad _ _ _ _ I) in Hx by lia. congruence. }
        split; auto. destruct (inv_int _ _ _ _ I _ Hint) as (q & Hq & _). exists q. split; auto.
        rewrite Hq in Hx. inversion Hx; subst x.
        intros p Hp. destruct (Hsm p Hp) as (q' & Hq' & E). unfold nle in Hq'. simpl in Hq'. qb. lra. }
    unfold m. destruct skip as [[|k]|]; auto.
    destruct (Hskip (S k) eq_refl) as [Hi Ha]. split; auto. exists t. split; auto.
    intros p _. apply Qmax2_ge_l. }
  destruct Hm as (Hi & s & Hs & Hmin). exists m, s.
  assert (Hml : (m < length i)%nat) by (destruct Hi; lia).
  unfold pop_index. rewrite (nth_error_at i m Hml). cbn [bind].
  rewrite (py_index_nat _ _ _ Hs). cbn [bind]. split; auto. split; auto.
  destruct (inv_int _ _ _ _ I m Hi) as (q & Hq & Hq2 & Hq3). rewrite Hs in Hq. inversion Hq; subst q.
  auto.
Qed.

(** Only the end points are left. *)
Lemma vw_next_done real areas i t :
  inv real areas i t -> length i = 2%nat ->
  exists i', vw_next i (real, areas, None) =
    Ok {| vreal := real; vareas := remove areas 0; vidx := i'; vmin := 0; vthis := PInf |}.
Proof.
  intros I Hl. unfold vw_next.
  assert (E : argmin areas = O).
  { apply argmin_all_inf. apply Forall_forall. intros y Hy. apply In_nth_error in Hy. destruct Hy as [p Hp].
    assert (p < n)%nat by (rewrite <- (inv_areas _ _ _ _ I); apply nth_error_Some; congruence).
    destruct (Nat.eq_dec p 0) as [->|H0].
    - rewrite (inv_a0 _ _ _ _ I) in Hp. congruence.
    - rewrite (inv_pad _ _ _ _ I) in Hp by lia. congruence. }
  rewrite E. unfold pop_index. rewrite (nth_error_at i 0) by lia. cbn [bind].
  rewrite (py_index_nat areas 0 PInf) by (apply (inv_a0 _ _ _ _ I)). cbn [bind].
  eexists. reflexivity.
Qed.

Definition area (a b c : nat) : Q := qtri (pt a) (pt b) (pt c).

(** Vertices around an interior position. *)
Lemma interior_split i v : interior i v ->
  exists l r, i = l ++ at_ i (v - 1) :: at_ i v :: at_ i (v + 1) :: r /\
    remove_nth v i = l ++ at_ i (v - 1) :: at_ i (v + 1) :: r.
Proof.
  intros [H0 H1].
  assert (E1 := nth_error_at i (v - 1) ltac:(lia)).
  assert (E2 := nth_error_at i v ltac:(lia)).
  assert (E3 := nth_error_at i (v + 1) ltac:(lia)).
  set (a := at_ i (v - 1)) in *. set (b := at_ i v) in *. set (c := at_ i (v + 1)) in *.
  clearbody a b c.
  exists (firstn (v - 1) i), (skipn (v + 2) i).
  revert v H0 H1 E1 E2 E3. induction i as [|x i IH]; intros v H0 H1 E1 E2 E3; simpl in H1; [lia|].
  destruct v as [|[|v]]; [lia| |].
  - simpl in *. inversion E1; subst. destruct i as [|y [|z i]]; try discriminate.
    simpl in *. inversion E2; inversion E3; subst. auto.
  - replace (S (S v) - 1)%nat with (S (S v - 1)) by lia.
    change (S (S v) + 2)%nat with (S (S v + 2)).
    destruct (IH (S v)) as [A1 A2]; try lia.
    + simpl in *. replace (v - 0)%nat with v by lia. auto.
    + exact E2.
    + exact E3.
    + cbn [firstn skipn app remove_nth] in *. split; f_equal; auto.
Qed.

Lemma split_interior i l a v b r : i = l ++ a :: v :: b :: r ->
  interior i (S (length l)) /\ at_ i (S (length l) - 1) = a /\ at_ i (S (length l)) = v /\
  at_ i (S (length l) + 1) = b.
Proof.
  intros ->. split; [split; rewrite ?app_length; simpl; lia|].
  unfold at_. simpl. rewrite Nat.sub_0_r.
  rewrite app_nth2 by lia. rewrite Nat.sub_diag. split; auto.
  split; rewrite app_nth2 by lia.
  - replace (S (length l) - length l)%nat with 1%nat by lia. auto.
  - replace (S (length l + 1) - length l)%nat with 2%nat by lia. auto.
Qed.

Lemma elim_step_at i v t s rest :
  interior i v -> s == Qmax2 t (tri3 i v) ->
  (forall p, interior i p -> s <= Qmax2 t (tri3 i p)) ->
  elimination area (remove_nth v i) s rest ->
  elimination area i t ((at_ i v, s) :: rest).
Proof.
  intros Hi Hs Hmin He. destruct (interior_split i v Hi) as (l & r & E1 & E2).
  rewrite E2 in He. rewrite E1 at 1. apply elim_step; auto.
  - rewrite <- Qmax2_Qmax. exact Hs.
  - intros l' a' v' b' r' E. rewrite <- E1 in E.
    destruct (split_interior i l' a' v' b' r' E) as (Hp & X1 & X2 & X3).
    rewrite <- Qmax2_Qmax. specialize (Hmin _ Hp). unfold tri3 in Hmin. rewrite X1, X2, X3 in Hmin. exact Hmin.
Qed.

Lemma elimination_in i t tr : elimination area i t tr -> forall k s, In (k, s) tr -> In k i.
Proof.
  induction 1; intros k s' Hin; simpl in Hin; [contradiction|].
  destruct Hin as [E|Hin].
  - inversion E; subst. apply in_app_iff. right; right; left; auto.
  - apply IHelimination in Hin. apply in_app_iff in Hin. apply in_app_iff.
    destruct Hin as [?|[?|?]]; [left|right; left|right; right; right]; auto.
Qed.

Lemma vw_loop_spec : forall fuel real areas i t v s,
  inv real areas i t -> interior i v ->
  s == Qmax2 t (tri3 i v) ->
  (forall p, interior i p -> s <= Qmax2 t (tri3 i p)) ->
  nth_error real (at_ i v) = Some (Fin s) ->
  (length i <= fuel + 2)%nat ->
  exists real' trace,
    vw_loop fuel fpts {| vreal := real; vareas := remove areas v; vidx := remove_nth v i;
                         vmin := v; vthis := Fin s |} = Ok real' /\
    elimination area (remove_nth v i) s trace /\
    length real' = n /\
    nth_error real' 0 = Some PInf /\ nth_error real' (n - 1) = Some PInf /\
    nth_error real' (at_ i v) = Some (Fin s) /\
    (forall k, ~ In k i -> nth_error real' k = nth_error real k) /\
    (forall k s', In (k, s') trace -> nth_error real' k = Some (Fin s')).
Proof.
  induction fuel as [|fuel IH]; intros real areas i t v s I Hi Hs Hmin Hr Hf.
  - destruct Hi. lia.
  - cbn [vw_loop vthis]. change (nltb (Fin s) PInf) with true. cbv iota.
    unfold vw_body.
    destruct (vw_update real areas i t v s I Hi Hs Hmin) as (real' & areas' & skip & E & I' & K1 & K2 & K3).
    destruct (vw_right fpts _) as [st|e]; [|discriminate E]. cbn [bind] in E |- *. rewrite E. cbn [bind vidx].
    assert (Hli : length (remove_nth v i) = (length i - 1)%nat)
      by (apply remove_nth_length; destruct Hi; lia).
    assert (Hnot : ~ In (at_ i v) (remove_nth v i)).
    { destruct (interior_split i v Hi) as (l & r & E1 & E2). rewrite E2.
      pose proof (inv_dup _ _ _ _ I) as HD. rewrite E1 in HD at 1.
      change (l ++ at_ i (v - 1) :: at_ i v :: at_ i (v + 1) :: r) with
             (l ++ [at_ i (v - 1)] ++ at_ i v :: at_ i (v + 1) :: r) in HD.
      rewrite app_assoc in HD. apply NoDup_remove_2 in HD. rewrite <- app_assoc in HD. exact HD. }
    assert (Hsub : forall k, ~ In k i -> ~ In k (remove_nth v i)).
    { intros k Hk Hin. apply Hk. destruct (interior_split i v Hi) as (l & r & E1 & E2).
      rewrite E2 in Hin. rewrite E1. apply in_app_iff in Hin. apply in_app_iff.
      destruct Hin as [?|[?|?]]; [left|right; left|right; right; right]; auto. }
    destruct (Nat.eq_dec (length i) 3) as [H3|H3].
    + assert (skip = None).
      { destruct skip as [k|]; auto. destruct (K3 k eq_refl) as [[? ?] _]. lia. }
      subst skip.
      destruct (vw_next_done real' areas' (remove_nth v i) s I') as [i' E2]; [lia|].
      rewrite E2. cbn [bind].
      exists real', []. split.
      { destruct fuel; cbn [vw_loop vthis nltb vreal]; reflexivity. }
      split; [constructor; lia|]. split; [apply (inv_real _ _ _ _ I')|].
      split; [apply (inv_r0 _ _ _ _ I')|]. split; [apply (inv_rn _ _ _ _ I')|].
      split; [congruence|]. split; [auto|]. intros k s' [].
    + destruct (vw_next_interior real' areas' (remove_nth v i) s skip I') as (v' & s' & E2 & Hi' & Hs' & Hr' & Hmin').
      { destruct Hi; lia. }
      { auto. }
      rewrite E2. cbn [bind].
      destruct (IH real' areas' (remove_nth v i) s v' s' I' Hi' Hs' Hmin' Hr') as
        (real'' & trace & F1 & F2 & F3 & F4 & F5 & F6 & F7 & F8); [lia|].
      exists real'', ((at_ (remove_nth v i) v', s') :: trace). split; [exact F1|].
      split; [eapply elim_step_at; eauto|]. split; auto. split; auto. split; auto.
      split; [rewrite F7 by auto; congruence|].
      split; [intros k Hk; rewrite F7 by auto; auto|].
      intros k s'' [Hin|Hin]; auto. inversion Hin; subst. auto.
Qed.
End Elim.
