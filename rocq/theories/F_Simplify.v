(** The simplifier of profiles with rounding, theorems for C11, C12 and C13 (Flocq).

    Same code as M_Simplify.v (lib/polysimplify.py 41-220 and cross_section.py
    586-646) over any kind of numbers, with the two ways of computing the area
    of a triangle left open; then with binary64 numbers.  For exact numbers the
    code is that of M_Simplify.v ([exact_numbers]). *)
From Coq Require Import String List ZArith QArith Bool Lia Reals Lra Permutation.
From Flocq Require Import Core.Core IEEE754.BinarySingleNaN.
From Verif Require Import PyBase Num Spec L_Num L_List L_Require M_Simplify L_Simplify T_Simplify F_Require F_Volumes.
Import ListNotations.

(** * The code for any kind of numbers *)

Section Code.
  Variable V : Type.
  Variables (lt le : V -> V -> bool) (nan_ : V -> bool) (inf dflt : V).
  Variables (area area_row : V * V -> V * V -> V * V -> V).

  Fixpoint g_rows (arr : list (V * V)) : list V :=
    match arr with
    | p1 :: ((p2 :: p3 :: _) as arr') => area_row p1 p2 p3 :: g_rows arr'
    | _ => []
    end.
  Definition g_areas (arr : list (V * V)) : res (list V) :=
    match arr with
    | [] => Raise IndexError
    | [_] => Ok [inf]
    | _ => Ok (inf :: g_rows arr ++ [inf])
    end.
  Definition g_remove (s : list V) (i : nat) : list V := remove_nth i s ++ [last s dflt].
  Definition g_less (x y : V) : bool := if nan_ y then false else if nan_ x then true else lt x y.
  Fixpoint g_argmin_from (k best : nat) (bestv : V) (l : list V) : nat :=
    match l with
    | [] => best
    | x :: l' => if g_less x bestv then g_argmin_from (S k) k x l' else g_argmin_from (S k) best bestv l'
    end.
  Definition g_argmin (l : list V) : nat :=
    match l with [] => O | x :: l' => g_argmin_from 1 O x l' end.

  (** real_areas, areas, i, min_vert, this_area *)
  Definition g_state : Type := list V * list V * list nat * nat * V.

  Definition g_indexed (pts : list (V * V)) (i : list nat) (a b c : Z) : res V :=
    ia <- py_index i a ;; pa <- py_index pts (Z.of_nat ia) ;;
    ib <- py_index i b ;; pb <- py_index pts (Z.of_nat ib) ;;
    ic <- py_index i c ;; pc <- py_index pts (Z.of_nat ic) ;;
    Ok (area pa pb pc).
  Definition g_right (pts : list (V * V)) (s : g_state) : res (list V * list V * option nat) :=
    let '(real, areas, i, v, this) := s in
    let m := Z.of_nat v in
    match g_indexed pts i (m - 1) m (m + 1) with
    | Raise IndexError => Ok (real, areas, None)
    | Raise e => Raise e
    | Ok a =>
        right_idx <- py_index i m ;;
        let capped := le a this in
        let a := if capped then this else a in
        Ok (update_nth right_idx a real, update_nth v a areas, if capped then Some v else None)
    end.
  Definition g_left (pts : list (V * V)) (s : g_state) (st : list V * list V * option nat)
    : res (list V * list V * option nat) :=
    let '(_, _, i, v, this) := s in
    let '(real, areas, skip) := st in
    let m := Z.of_nat v in
    if Nat.ltb 1 v then
      a <- g_indexed pts i (m - 2) (m - 1) m ;;
      let capped := le a this in
      let a := if capped then this else a in
      let skip := if capped then Some (v - 1)%nat else skip in
      left_idx <- py_index i (m - 1) ;;
      Ok (update_nth left_idx a real, update_nth (v - 1) a areas, skip)
    else Ok (real, areas, skip).
  Definition g_next (i : list nat) (st : list V * list V * option nat) : res g_state :=
    let '(real, areas, skip) := st in
    let m := match skip with Some (S k) => S k | _ => g_argmin areas end in
    i' <- pop_index i m ;;
    this <- py_index areas (Z.of_nat m) ;;
    Ok (real, g_remove areas m, i', m, this).
  Definition g_body (pts : list (V * V)) (s : g_state) : res g_state :=
    st <- g_right pts s ;; st <- g_left pts s st ;; g_next (snd (fst (fst s))) st.
  Fixpoint g_loop (fuel : nat) (pts : list (V * V)) (s : g_state) : res (list V) :=
    if lt (snd s) inf then
      match fuel with
      | O => Raise NonTermination
      | S fuel => s' <- g_body pts s ;; g_loop fuel pts s'
      end
    else Ok (fst (fst (fst (fst s)))).
  Definition g_thresholds (pts : list (V * V)) : res (list V) :=
    real <- g_areas pts ;;
    s <- g_next (seq 0 (length pts)) (real, real, None) ;;
    g_loop (length pts) pts s.

  Fixpoint g_insert (x : V) (l : list V) : list V :=
    match l with
    | [] => [x]
    | y :: l' => if lt x y then y :: g_insert x l' else x :: l
    end.
  Definition g_sort (l : list V) : list V := fold_right g_insert [] l.
  Definition g_index (pts : list (V * V)) (n : Z) : res (option (list bool)) :=
    th <- g_thresholds pts ;;
    match py_index (g_sort th) n with
    | Raise IndexError => Ok None
    | Raise e => Raise e
    | Ok t => Ok (Some (map (fun x => lt t x) th))
    end.
  Fixpoint g_zip (z tw : list V) : res (list (V * V)) :=
    match z, tw with
    | _, [] => Ok []
    | [], _ :: _ => Raise IndexError
    | a :: z', w :: tw' => l <- g_zip z' tw' ;; Ok ((a, w) :: l)
    end.
  Definition g_reduce (count_after : Z) (z tw fw : list V) : res (list V * list V * list V) :=
    let n := length tw in
    points <- g_zip z tw ;;
    let all := repeat true n in
    index <- (if (count_after <? Z.of_nat n)%Z then
                match g_index points count_after with
                | Raise NonTermination => Raise NonTermination
                | Raise _ => Ok (Some all)
                | Ok m => Ok m
                end
              else Ok (Some all)) ;;
    match index with
    | None => Raise IndexError
    | Some mask =>
        z' <- mask_index mask z ;;
        tw' <- mask_index mask tw ;;
        fw' <- mask_index mask fw ;;
        Ok (z', tw', fw')
    end.
End Code.

(** ** It is the code of M_Simplify.v *)

Definition exact_thresholds := g_thresholds num nltb nleb isnan PInf NaN triangle_area triangle_area_row.
Definition exact_reduce := g_reduce num nltb nleb isnan PInf NaN triangle_area triangle_area_row.

Definition state_of (s : vw) : g_state num := (vreal s, vareas s, vidx s, vmin s, vthis s).

Lemma exact_next i st :
  g_next num nltb isnan NaN i st = match vw_next i st with Ok s => Ok (state_of s) | Raise e => Raise e end.
Proof.
  destruct st as [[r a] k]. unfold g_next, vw_next.
  change (g_argmin num nltb isnan a) with (argmin a). cbv zeta.
  set (m := match k with Some (S k) => S k | _ => argmin a end).
  destruct (pop_index i m) as [i'|]; [|reflexivity]. cbn [bind].
  destruct (py_index a (Z.of_nat m)) as [t|]; reflexivity.
Qed.

Lemma exact_loop : forall fuel pts s,
  g_loop num nltb nleb isnan PInf NaN triangle_area fuel pts (state_of s) = vw_loop fuel pts s.
Proof.
  induction fuel as [|fuel IH]; intros pts s; cbn [g_loop vw_loop state_of snd fst]; [reflexivity|].
  destruct (nltb (vthis s) PInf); [|reflexivity].
  unfold g_body, vw_body.
  change (g_right num nleb triangle_area pts (state_of s)) with (vw_right pts s).
  destruct (vw_right pts s) as [st|e]; [|reflexivity]. cbn [bind].
  change (g_left num nleb triangle_area pts (state_of s) st) with (vw_left pts s st).
  destruct (vw_left pts s st) as [st'|e]; [|reflexivity]. cbn [bind].
  change (snd (fst (fst (state_of s)))) with (vidx s). rewrite exact_next.
  destruct (vw_next (vidx s) st') as [s'|e]; [|reflexivity]. cbn [bind]. apply IH.
Qed.

Lemma thresholds_exact pts : exact_thresholds pts = build_thresholds pts.
Proof.
  unfold exact_thresholds, g_thresholds, build_thresholds, point.
  change (g_areas num PInf triangle_area_row pts) with (triangle_areas_from_array pts).
  destruct (triangle_areas_from_array pts) as [real|]; [|reflexivity]. cbn [bind].
  rewrite exact_next.
  destruct (vw_next (seq 0 (length pts)) (real, real, None)) as [s'|e]; [|reflexivity]. cbn [bind].
  apply exact_loop.
Qed.

Theorem C12_exact_numbers : forall n z tw fw, exact_reduce n z tw fw = reduce_points n z tw fw.
Proof.
  intros n z tw fw. unfold exact_reduce, g_reduce, reduce_points.
  change (g_zip num z tw) with (zip_points z tw).
  destruct (zip_points z tw) as [points|]; [|reflexivity]. cbn [bind].
  unfold g_index, from_number_index.
  change (g_thresholds num nltb nleb isnan PInf NaN triangle_area triangle_area_row points) with (exact_thresholds points).
  rewrite thresholds_exact. reflexivity.
Qed.
Print Assumptions C12_exact_numbers.

(** * What holds for any areas *)

Section Rounded.
  Variable V : Type.
  Variables (lt le : V -> V -> bool) (nan_ : V -> bool) (inf dflt : V).
  Variables (area area_row : V * V -> V * V -> V * V -> V).
  Variable fin : V -> Prop.
  (** Finite numbers and infinity are ordered. *)
  Definition val (x : V) : Prop := fin x \/ x = inf.
  Hypothesis lt_irrefl : forall x, val x -> lt x x = false.
  Hypothesis lt_asym : forall x y, val x -> val y -> lt x y = true -> lt y x = false.
  Hypothesis le_trans : forall x y z, val x -> val y -> val z -> lt y x = false -> lt z y = false -> lt z x = false.
  Hypothesis lt_inf : forall x, fin x -> lt x inf = true.
  Hypothesis val_nan : forall x, val x -> nan_ x = false.

  Definition le_ (x y : V) : Prop := lt y x = false.
  Definition vals (l : list V) : Prop := Forall val l.

  Lemma inf_val : val inf. Proof. right. reflexivity. Qed.
  Lemma fin_not_inf x : fin x -> x <> inf.
  Proof. intros F E. pose proof (lt_inf x F) as H. rewrite E, (lt_irrefl inf inf_val) in H. discriminate. Qed.

  (** The smallest value. *)
  Lemma g_argmin_from_spec l : forall k best bestv, vals l -> val bestv ->
    (g_argmin_from V lt nan_ k best bestv l = best /\ (forall x, In x l -> le_ bestv x)) \/
    (exists j x, nth_error l j = Some x /\ g_argmin_from V lt nan_ k best bestv l = (k + j)%nat /\
       lt x bestv = true /\ forall y, In y l -> le_ x y).
  Proof.
    induction l as [|a l IH]; intros k best bestv Hn Hb; cbn [g_argmin_from].
    - left. split; [reflexivity|]. intros x [].
    - inversion Hn as [|? ? Ha Hl]; subst. unfold g_less. rewrite (val_nan _ Hb), (val_nan _ Ha).
      assert (In_val : forall y, In y l -> val y) by (apply Forall_forall; exact Hl).
      destruct (lt a bestv) eqn:E.
      + right. destruct (IH (S k) k a Hl Ha) as [[E1 E2]|(j & x & J1 & J2 & J3 & J4)].
        * exists O, a. split; [reflexivity|]. split; [rewrite E1; lia|]. split; [exact E|].
          intros y [<-|I]; [apply lt_irrefl; exact Ha|auto].
        * exists (S j), x. split; [exact J1|]. split; [rewrite J2; lia|].
          assert (Hx : val x) by (apply In_val; eapply nth_error_In; eauto).
          split.
          { destruct (lt x bestv) eqn:Ex; [reflexivity|].
            rewrite (le_trans bestv x a) in E by auto. discriminate. }
          intros y [<-|I]; [unfold le_; apply lt_asym; auto|auto].
      + destruct (IH (S k) best bestv Hl Hb) as [[E1 E2]|(j & x & J1 & J2 & J3 & J4)].
        * left. split; [exact E1|]. intros y [<-|I]; [exact E|auto].
        * right. exists (S j), x. split; [exact J1|]. split; [rewrite J2; lia|]. split; [exact J3|].
          assert (Hx : val x) by (apply In_val; eapply nth_error_In; eauto).
          intros y [<-|I]; [|auto]. unfold le_. apply (le_trans x bestv a); auto.
  Qed.

  Lemma g_argmin_spec l : l <> [] -> vals l ->
    exists x, nth_error l (g_argmin V lt nan_ l) = Some x /\ forall y, In y l -> le_ x y.
  Proof.
    destruct l as [|a l]; [congruence|]. intros _ Hn. inversion Hn as [|? ? Ha Hl]; subst. cbn [g_argmin].
    destruct (g_argmin_from_spec l 1 O a Hl Ha) as [[E1 E2]|(j & x & J1 & J2 & J3 & J4)].
    - rewrite E1. exists a. split; [reflexivity|]. intros y [<-|I]; [apply lt_irrefl; exact Ha|auto].
    - rewrite J2. exists x. split; [exact J1|]. intros y [<-|I]; [|auto]. apply lt_asym; auto.
      unfold vals in Hl. rewrite Forall_forall in Hl. apply Hl. eapply nth_error_In; eauto.
  Qed.

  Lemma g_argmin_all_inf l : Forall (fun x => x = inf) l -> g_argmin V lt nan_ l = O.
  Proof.
    destruct l as [|a l]; [reflexivity|]. intros H. inversion H as [|? ? Ha Hl]; subst. cbn [g_argmin].
    assert (Hv : vals l) by (eapply Forall_impl; [|exact Hl]; intros ? ->; apply inf_val).
    destruct (g_argmin_from_spec l 1 O inf Hv inf_val) as [[E1 _]|(j & x & J1 & _ & J3 & _)]; [exact E1|].
    rewrite Forall_forall in Hl. apply nth_error_In in J1. apply Hl in J1. subst x.
    rewrite (lt_irrefl inf inf_val) in J3. discriminate.
  Qed.

  Lemma g_remove_spec areas v : (v < length areas)%nat ->
    length (g_remove V dflt areas v) = length areas /\
    (forall p, (p < v)%nat -> nth_error (g_remove V dflt areas v) p = nth_error areas p) /\
    (forall p, (v <= p)%nat -> (p + 1 < length areas)%nat ->
       nth_error (g_remove V dflt areas v) p = nth_error areas (S p)) /\
    nth_error (g_remove V dflt areas v) (length areas - 1) = nth_error areas (length areas - 1).
  Proof.
    intros Hv. assert (Hl := remove_nth_length areas v Hv).
    unfold g_remove. split; [|split; [|split]].
    - rewrite app_length, Hl. cbn. lia.
    - intros p Hp. rewrite nth_error_app1 by lia. apply nth_error_remove_lt; auto.
    - intros p Hp Hq. rewrite nth_error_app1 by lia. apply nth_error_remove_ge; auto.
    - rewrite nth_error_app2 by lia. rewrite Hl, Nat.sub_diag. cbn.
      rewrite (nth_error_last areas dflt); auto. intros ->; cbn in Hv; lia.
  Qed.

  (** The points, and their areas. *)
  Variable pts : list (V * V).
  Notation n := (length pts).
  Hypothesis area_fin : forall a b c, In a pts -> In b pts -> In c pts -> fin (area a b c).
  Hypothesis row_fin : forall a b c, In a pts -> In b pts -> In c pts -> fin (area_row a b c).

  Lemma g_indexed_ok i a b c :
    (forall k, In k i -> (k < n)%nat) ->
    (a < length i)%nat -> (b < length i)%nat -> (c < length i)%nat ->
    exists x, g_indexed V area pts i (Z.of_nat a) (Z.of_nat b) (Z.of_nat c) = Ok x /\ fin x.
  Proof.
    intros Hlt Ha Hb Hc. unfold g_indexed.
    assert (Hp : forall k, (k < length i)%nat ->
      exists p, py_index pts (Z.of_nat (at_ i k)) = Ok p /\ In p pts).
    { intros k Hk. assert (L : (at_ i k < n)%nat) by (apply Hlt; eapply nth_error_In; apply nth_error_at; auto).
      destruct (nth_error pts (at_ i k)) as [p|] eqn:E; [|apply nth_error_None in E; lia].
      exists p. split; [apply py_index_nat; exact E|eapply nth_error_In; eauto]. }
    destruct (Hp a Ha) as (pa & Ea & Ia). destruct (Hp b Hb) as (pb & Eb & Ib). destruct (Hp c Hc) as (pc & Ec & Ic).
    rewrite (py_index_nat i a _ (nth_error_at i a Ha)); cbn [bind]. rewrite Ea. cbn [bind].
    rewrite (py_index_nat i b _ (nth_error_at i b Hb)); cbn [bind]. rewrite Eb. cbn [bind].
    rewrite (py_index_nat i c _ (nth_error_at i c Hc)); cbn [bind]. rewrite Ec. cbn [bind].
    exists (area pa pb pc). split; [reflexivity|]. apply area_fin; auto.
  Qed.

  (** Remaining vertices have finite areas between infinite ends. *)
  Record shape (real areas : list V) (i : list nat) : Prop := {
    sh_real : length real = n;
    sh_areas : length areas = n;
    sh_len : (2 <= length i <= n)%nat;
    sh_dup : NoDup i;
    sh_lt : forall k, In k i -> (k < n)%nat;
    sh_first : nth_error i 0 = Some O;
    sh_last : nth_error i (length i - 1) = Some (n - 1)%nat;
    sh_int : forall p, interior i p -> exists q, nth_error areas p = Some q /\ fin q;
    sh_a0 : nth_error areas 0 = Some inf;
    sh_pad : forall p, (length i - 1 <= p < n)%nat -> nth_error areas p = Some inf;
    sh_r0 : nth_error real 0 = Some inf;
    sh_rn : nth_error real (n - 1) = Some inf;
    sh_mid : forall k, (0 < k)%nat -> (k + 1 < n)%nat -> exists q, nth_error real k = Some q /\ fin q }.

  (** A vertex of the remaining ones that is not an end. *)
  Lemma interior_at real areas i p : shape real areas i -> interior i p ->
    (0 < at_ i p)%nat /\ (at_ i p + 1 < n)%nat.
  Proof.
    intros I [P0 P1].
    assert (Inj : forall p q, (p < length i)%nat -> (q < length i)%nat -> at_ i p = at_ i q -> p = q).
    { intros a b Ha Hb E. pose proof (sh_dup _ _ _ I) as D. rewrite NoDup_nth_error in D. apply D; auto.
      rewrite !nth_error_at by auto. congruence. }
    pose proof (sh_len _ _ _ I) as Ln.
    pose proof (sh_first _ _ _ I) as F. rewrite nth_error_at in F by lia. injection F as F.
    pose proof (sh_last _ _ _ I) as L. rewrite nth_error_at in L by lia. injection L as L.
    assert (B : (at_ i p < n)%nat) by (apply (sh_lt _ _ _ I); eapply nth_error_In; apply nth_error_at; lia).
    split.
    - destruct (at_ i p) eqn:E; [|lia]. rewrite <- F in E. apply Inj in E; lia.
    - destruct (Nat.eq_dec (at_ i p) (n - 1)) as [E|E]; [|lia]. rewrite <- L in E. apply Inj in E; lia.
  Qed.

  (** Removing an interior vertex from the two lists. *)
  Lemma shape_remove real areas i v : shape real areas i -> interior i v ->
    let i' := remove_nth v i in
    length i' = (length i - 1)%nat /\ shape real (g_remove V dflt areas v) i'.
  Proof.
    intros I [Hv0 Hv1] i'. pose proof I as [I1 I2 I3 I4 I5 I6 I7 I8 I9 I10 I11 I12 I13].
    assert (Hli : length i' = (length i - 1)%nat) by (apply remove_nth_length; lia).
    destruct (g_remove_spec areas v) as (R0 & R1 & R2 & R3); [lia|].
    split; [exact Hli|]. constructor; auto; try congruence.
    - lia.
    - apply remove_nth_NoDup; auto.
    - intros k Hk. apply I5. unfold i' in Hk.
      destruct (remove_nth_split i v _ (nth_error_at i v ltac:(lia))) as [E1 E2]. rewrite E2 in Hk.
      rewrite E1. apply in_app_iff in Hk. apply in_app_iff. destruct Hk; [left|right; right]; auto.
    - unfold i'. rewrite nth_error_remove_lt by lia. auto.
    - unfold i'. fold i'. rewrite Hli. unfold i'. rewrite nth_error_remove_ge by lia.
      rewrite <- I7. f_equal. lia.
    - intros p [Hp0 Hp1]. rewrite Hli in Hp1. destruct (Nat.lt_ge_cases p v) as [L|L].
      + rewrite R1 by lia. apply I8. split; lia.
      + rewrite R2 by lia. apply I8. split; lia.
    - rewrite R1 by lia. auto.
    - intros p [Hp1 Hp2]. rewrite Hli in Hp1. destruct (Nat.eq_dec p (n - 1)) as [->|Hne].
      + rewrite <- I2. rewrite R3. rewrite I2. apply I10. lia.
      + rewrite R2 by lia. apply I10. lia.
  Qed.

  (** Storing a finite area at a remaining vertex. *)
  Lemma shape_update real areas i p x : shape real areas i -> interior i p -> fin x ->
    shape (update_nth (at_ i p) x real) (update_nth p x areas) i.
  Proof.
    intros I P X. pose proof (interior_at _ _ _ _ I P) as [B0 B1].
    destruct I as [I1 I2 I3 I4 I5 I6 I7 I8 I9 I10 I11 I12 I13]. destruct P as [P0 P1].
    constructor; auto; rewrite ?update_nth_length; auto.
    - intros q Q. destruct (Nat.eq_dec q p) as [->|Ne].
      + exists x. split; [apply nth_error_update_eq; lia|exact X].
      + rewrite nth_error_update_ne by auto. apply I8. exact Q.
    - rewrite nth_error_update_ne by lia. auto.
    - intros q Q. rewrite nth_error_update_ne by lia. auto.
    - rewrite nth_error_update_ne by lia. auto.
    - rewrite nth_error_update_ne by lia. auto.
    - intros k K0 K1. destruct (Nat.eq_dec k (at_ i p)) as [->|Ne].
      + exists x. split; [apply nth_error_update_eq; lia|exact X].
      + rewrite nth_error_update_ne by auto. auto.
  Qed.

  Lemma at_in (i : list nat) k : (k < length i)%nat -> In (at_ i k) i.
  Proof. intros H. eapply nth_error_In. apply nth_error_at. exact H. Qed.

  Lemma g_update real areas i v s :
    shape real areas i -> (0 < v)%nat -> (v < length i)%nat -> fin s ->
    exists real' areas' skip,
      (st <- g_right V le area pts (real, areas, i, v, s) ;; g_left V le area pts (real, areas, i, v, s) st)
        = Ok (real', areas', skip) /\
      shape real' areas' i /\
      (forall k, skip = Some k -> interior i k).
  Proof.
    intros I Hv0 Hv1 Hs.
    assert (Lt := sh_lt _ _ _ I).
    (* right neighbour *)
    assert (HR : exists real1 areas1 skip1,
      g_right V le area pts (real, areas, i, v, s) = Ok (real1, areas1, skip1) /\
      shape real1 areas1 i /\ (forall k, skip1 = Some k -> interior i k)).
    { unfold g_right. replace (Z.of_nat v - 1)%Z with (Z.of_nat (v - 1)) by lia.
      replace (Z.of_nat v + 1)%Z with (Z.of_nat (v + 1)) by lia.
      destruct (Nat.lt_ge_cases (v + 1) (length i)) as [Hr|Hr].
      - assert (Hint : interior i v) by (split; lia).
        destruct (g_indexed_ok i (v - 1) v (v + 1)) as (a & Ea & Fa); auto; try lia.
        rewrite Ea. rewrite (py_index_nat i v _ (nth_error_at i v Hv1)). cbn [bind]. cbv zeta.
        eexists _, _, _. split; [reflexivity|]. split.
        + apply shape_update; auto. destruct (le a s); auto.
        + destruct (le a s); intros k E; [injection E as <-; exact Hint|discriminate].
      - assert (E : g_indexed V area pts i (Z.of_nat (v - 1)) (Z.of_nat v) (Z.of_nat (v + 1)) = Raise IndexError).
        { unfold g_indexed.
          assert (Hp : forall k, (k < length i)%nat -> exists p, py_index pts (Z.of_nat (at_ i k)) = Ok p).
          { intros k Hk. assert (L : (at_ i k < n)%nat) by (apply Lt, at_in; auto).
            destruct (nth_error pts (at_ i k)) as [p|] eqn:E; [|apply nth_error_None in E; lia].
            exists p. apply py_index_nat; exact E. }
          destruct (Hp (v - 1)%nat) as (p1 & E1); [lia|]. destruct (Hp v) as (p2 & E2); [lia|].
          rewrite (py_index_nat i (v - 1) _ (nth_error_at i (v - 1) ltac:(lia))). cbn [bind]. rewrite E1. cbn [bind].
          rewrite (py_index_nat i v _ (nth_error_at i v ltac:(lia))). cbn [bind]. rewrite E2. cbn [bind].
          rewrite py_index_nat_out; [reflexivity|]. apply nth_error_None. lia. }
        rewrite E. eexists _, _, _. split; [reflexivity|]. split; [exact I|]. discriminate. }
    destruct HR as (real1 & areas1 & skip1 & ER & I' & K1). rewrite ER. cbn [bind].
    unfold g_left. destruct (Nat.ltb_spec 1 v) as [Hv|Hv].
    - assert (Hint : interior i (v - 1)) by (split; lia).
      replace (Z.of_nat v - 2)%Z with (Z.of_nat (v - 2)) by lia.
      replace (Z.of_nat v - 1)%Z with (Z.of_nat (v - 1)) by lia.
      destruct (g_indexed_ok i (v - 2) (v - 1) v) as (a & Ea & Fa); auto; try lia.
      rewrite Ea. cbn [bind]. rewrite (py_index_nat i (v - 1) _ (nth_error_at i (v - 1) ltac:(lia))). cbn [bind]. cbv zeta.
      eexists _, _, _. split; [reflexivity|]. split.
      + apply shape_update; auto. destruct (le a s); auto.
      + destruct (le a s); intros k E; [injection E as <-; exact Hint|auto].
    - eexists _, _, _. split; [reflexivity|]. split; auto.
  Qed.

  Lemma shape_vals real areas i : shape real areas i -> vals areas.
  Proof.
    intros I. apply Forall_forall. intros y Hy. apply In_nth_error in Hy. destruct Hy as [p Hp].
    assert (p < n)%nat by (rewrite <- (sh_areas _ _ _ I); apply nth_error_Some; congruence).
    destruct (Nat.eq_dec p 0) as [->|H0]; [rewrite (sh_a0 _ _ _ I) in Hp; injection Hp as <-; apply inf_val|].
    destruct (Nat.lt_ge_cases (p + 1) (length i)) as [H1|H1].
    - destruct (sh_int _ _ _ I p) as (q & Hq & F); [split; lia|]. rewrite Hq in Hp. injection Hp as <-. left. exact F.
    - rewrite (sh_pad _ _ _ I p) in Hp by lia. injection Hp as <-. apply inf_val.
  Qed.

  Lemma g_next_interior real areas i skip :
    shape real areas i -> (2 < length i)%nat -> (forall k, skip = Some k -> interior i k) ->
    exists v s, g_next V lt nan_ dflt i (real, areas, skip) =
      Ok (real, g_remove V dflt areas v, remove_nth v i, v, s) /\ interior i v /\ fin s.
  Proof.
    intros I Hl Hskip. unfold g_next.
    set (m := match skip with Some (S k) => S k | _ => g_argmin V lt nan_ areas end).
    assert (Hm : interior i m).
    { assert (Harg : interior i (g_argmin V lt nan_ areas)).
      { destruct (g_argmin_spec areas) as (x & Hx & Hmin).
        - intros E. pose proof (sh_areas _ _ _ I) as A. pose proof (sh_len _ _ _ I). rewrite E in A. cbn in A. lia.
        - eapply shape_vals; eauto.
        - assert (Hlt : (g_argmin V lt nan_ areas < n)%nat)
            by (rewrite <- (sh_areas _ _ _ I); apply nth_error_Some; congruence).
          destruct (sh_int _ _ _ I 1%nat) as (q1 & Hq1 & F1); [split; lia|].
          assert (Nx : x <> inf).
          { intros ->. apply nth_error_In, Hmin in Hq1. unfold le_ in Hq1. rewrite lt_inf in Hq1 by auto. discriminate. }
          split.
          + destruct (Nat.eq_dec (g_argmin V lt nan_ areas) 0) as [E|E]; [|lia].
            rewrite E, (sh_a0 _ _ _ I) in Hx. congruence.
          + destruct (Nat.lt_ge_cases (g_argmin V lt nan_ areas + 1) (length i)); auto.
            rewrite (sh_pad _ _ _ I) in Hx by lia. congruence. }
      unfold m. destruct skip as [[|k]|]; auto. }
    destruct (sh_int _ _ _ I m Hm) as (s & Hs & F). exists m, s.
    assert (Hml : (m < length i)%nat) by (destruct Hm; lia).
    unfold pop_index. rewrite (nth_error_at i m Hml). cbn [bind].
    rewrite (py_index_nat _ _ _ Hs). cbn [bind]. auto.
  Qed.

  Lemma g_next_done real areas i :
    shape real areas i -> length i = 2%nat ->
    exists i', g_next V lt nan_ dflt i (real, areas, None) = Ok (real, g_remove V dflt areas 0, i', O, inf).
  Proof.
    intros I Hl. unfold g_next.
    assert (E : g_argmin V lt nan_ areas = O).
    { apply g_argmin_all_inf. apply Forall_forall. intros y Hy. apply In_nth_error in Hy. destruct Hy as [p Hp].
      assert (p < n)%nat by (rewrite <- (sh_areas _ _ _ I); apply nth_error_Some; congruence).
      destruct (Nat.eq_dec p 0) as [->|H0].
      - rewrite (sh_a0 _ _ _ I) in Hp. congruence.
      - rewrite (sh_pad _ _ _ I) in Hp by lia. congruence. }
    rewrite E. unfold pop_index. rewrite (nth_error_at i 0) by lia. cbn [bind].
    rewrite (py_index_nat areas 0 inf) by (apply (sh_a0 _ _ _ I)). cbn [bind].
    eexists. reflexivity.
  Qed.

  (** What the thresholds look like. *)
  Definition ended (th : list V) : Prop :=
    length th = n /\ nth_error th 0 = Some inf /\ nth_error th (n - 1) = Some inf /\
    forall k, (0 < k)%nat -> (k + 1 < n)%nat -> exists q, nth_error th k = Some q /\ fin q.
  Lemma shape_ended real areas i : shape real areas i -> ended real.
  Proof. intros []. repeat split; auto. Qed.

  Lemma g_loop_spec : forall fuel real areas i v s,
    shape real areas i -> interior i v -> fin s -> (length i <= fuel + 2)%nat ->
    exists th, g_loop V lt le nan_ inf dflt area fuel pts
      (real, g_remove V dflt areas v, remove_nth v i, v, s) = Ok th /\ ended th.
  Proof.
    induction fuel as [|fuel IH]; intros real areas i v s I Hi Hs Hf; [destruct Hi; lia|].
    cbn [g_loop snd fst]. rewrite (lt_inf s Hs). unfold g_body. cbn [snd fst].
    destruct (shape_remove real areas i v I Hi) as [Li I1].
    destruct (g_update real (g_remove V dflt areas v) (remove_nth v i) v s I1) as (real' & areas' & skip & E & I2 & K);
      [apply Hi|destruct Hi; lia|exact Hs|].
    destruct (g_right V le area pts _) as [st|e]; [|discriminate E]. cbn [bind] in E |- *. rewrite E. cbn [bind].
    destruct (Nat.eq_dec (length i) 3) as [H3|H3].
    - assert (skip = None) as ->.
      { destruct skip as [k|]; auto. destruct (K k eq_refl). lia. }
      destruct (g_next_done real' areas' (remove_nth v i) I2) as [i' E2]; [lia|].
      rewrite E2. cbn [bind]. exists real'. split.
      + destruct fuel; cbn [g_loop snd fst]; rewrite (lt_irrefl inf inf_val); reflexivity.
      + eapply shape_ended; eauto.
    - destruct (g_next_interior real' areas' (remove_nth v i) skip I2) as (v' & s' & E2 & Hi' & Fs'); auto.
      { destruct Hi; lia. }
      rewrite E2. cbn [bind]. apply IH; auto. lia.
  Qed.

  Lemma g_rows_length (l : list (V * V)) : length (g_rows V area_row l) = (length l - 2)%nat.
  Proof. induction l as [|a [|b [|c l]] IH]; auto. cbn [g_rows length] in *. rewrite IH. lia. Qed.
  Lemma g_rows_fin (l : list (V * V)) : incl l pts -> Forall fin (g_rows V area_row l).
  Proof.
    induction l as [|a [|b [|c l]] IH]; intros S; try constructor.
    - apply row_fin; apply S; cbn; auto.
    - apply IH. intros x Hx. apply S. right. exact Hx.
  Qed.

  Lemma g_thresholds_spec : (2 <= n)%nat ->
    exists th, g_thresholds V lt le nan_ inf dflt area area_row pts = Ok th /\ ended th.
  Proof.
    intros Hn. unfold g_thresholds.
    assert (Ea : g_areas V inf area_row pts = Ok (inf :: g_rows V area_row pts ++ [inf])).
    { unfold g_areas. destruct pts as [|a [|b l]]; cbn in Hn; try lia. reflexivity. }
    rewrite Ea. cbn [bind]. set (real := inf :: g_rows V area_row pts ++ [inf]).
    assert (Hl := g_rows_length pts).
    assert (I : shape real real (seq 0 n)).
    { assert (Hlen : length real = n) by (unfold real; cbn; rewrite app_length, Hl; cbn; lia).
      assert (Hlast : nth_error real (n - 1) = Some inf).
      { unfold real. replace (n - 1)%nat with (S (n - 2)) by lia. cbn [nth_error].
        rewrite nth_error_app2 by lia. rewrite Hl, Nat.sub_diag. reflexivity. }
      assert (Hmid : forall k, (0 < k)%nat -> (k + 1 < n)%nat -> exists q, nth_error real k = Some q /\ fin q).
      { intros k K0 K1. unfold real. destruct k; [lia|]. cbn [nth_error]. rewrite nth_error_app1 by lia.
        destruct (nth_error (g_rows V area_row pts) k) as [q|] eqn:E; [|apply nth_error_None in E; lia].
        exists q. split; [reflexivity|]. apply nth_error_In in E.
        pose proof (g_rows_fin pts (incl_refl pts)) as F. rewrite Forall_forall in F. auto. }
      constructor; auto.
      - rewrite seq_length. lia.
      - apply seq_NoDup.
      - intros k Hk. apply in_seq in Hk. lia.
      - rewrite nth_error_seq by lia. reflexivity.
      - rewrite seq_length, nth_error_seq by lia. reflexivity.
      - intros p [P0 P1]. rewrite seq_length in P1. auto.
      - rewrite seq_length. intros p Hp. replace p with (n - 1)%nat by lia. exact Hlast. }
    destruct (Nat.eq_dec n 2) as [H2|H2].
    - destruct (g_next_done real real _ I) as [i' E2]; [rewrite seq_length; auto|].
      rewrite E2. cbn [bind]. exists real. split; [|eapply shape_ended; eauto].
      destruct n; cbn [g_loop snd fst]; rewrite (lt_irrefl inf inf_val); reflexivity.
    - destruct (g_next_interior real real _ None I) as (v & s & E2 & Hi & Fs); [rewrite seq_length; lia|discriminate|].
      rewrite E2. cbn [bind]. apply g_loop_spec; auto. rewrite seq_length. lia.
  Qed.

  (** Values in descending order. *)
  Lemma g_insert_perm x l : Permutation (x :: l) (g_insert V lt x l).
  Proof.
    induction l as [|y l IH]; cbn [g_insert]; auto. destruct (lt x y); auto.
    eapply perm_trans; [apply perm_swap|]. constructor. auto.
  Qed.
  Lemma g_sort_perm l : Permutation l (g_sort V lt l).
  Proof.
    induction l as [|x l IH]; cbn [g_sort fold_right]; auto.
    eapply perm_trans; [apply perm_skip, IH|]. apply g_insert_perm.
  Qed.
  Fixpoint g_desc (l : list V) : Prop :=
    match l with [] => True | x :: l' => Forall (fun y => le_ y x) l' /\ g_desc l' end.
  Lemma g_insert_desc x l : vals (x :: l) -> g_desc l -> g_desc (g_insert V lt x l).
  Proof.
    induction l as [|y l IH]; intros Hn Hd; [cbn; auto|].
    inversion Hn as [|? ? Hx Hl]; subst. inversion Hl as [|? ? Hy Hl']; subst.
    cbn [g_insert]. destruct (lt x y) eqn:E.
    - destruct Hd as [Hd1 Hd2]. split.
      + apply (Permutation_Forall (g_insert_perm x l)). constructor; auto. unfold le_. apply lt_asym; auto.
      + apply IH; auto. constructor; auto.
    - split; [|exact Hd]. destruct Hd as [Hd1 Hd2]. constructor; [exact E|].
      rewrite Forall_forall in *. intros w Hw. unfold le_. apply (le_trans w y x); auto. apply Hd1; auto.
  Qed.
  Lemma vals_perm l m : Permutation l m -> vals l -> vals m.
  Proof. intros P. apply (Permutation_Forall P). Qed.
  Lemma g_sort_desc l : vals l -> g_desc (g_sort V lt l).
  Proof.
    induction l as [|x l IH]; intros H; [exact I|]. inversion H; subst. cbn [g_sort fold_right].
    apply g_insert_desc; [|apply IH; auto]. constructor; auto. eapply vals_perm; [apply g_sort_perm|]; auto.
  Qed.
  Lemma g_desc_count l : forall k t, vals l -> g_desc l -> nth_error l k = Some t ->
    (length (filter (fun x => lt t x) l) <= k)%nat.
  Proof.
    induction l as [|x l IH]; intros [|k] t Hv Hd Hk; try discriminate Hk; inversion Hv as [|? ? Hx Hl]; subst; cbn in Hk.
    - injection Hk as <-. cbn [filter]. rewrite (lt_irrefl x Hx). rewrite filter_none; [auto|]. apply Hd.
    - cbn [filter]. specialize (IH k t Hl (proj2 Hd) Hk). destruct (lt t x); cbn [length]; lia.
  Qed.
  (** A value from the third on is finite. *)
  Lemma g_desc_third l : forall k t, vals l -> g_desc l -> nth_error l k = Some t -> t = inf ->
    forall f : V -> bool, (forall x, x = inf -> f x = true) -> (k < length (filter f l))%nat.
  Proof.
    induction l as [|x l IH]; intros [|k] t Hv Hd Hk E f Hf; try discriminate Hk; inversion Hv as [|? ? Hx Hl]; subst; cbn in Hk.
    - injection Hk as ->. cbn [filter]. rewrite Hf by auto. cbn. lia.
    - specialize (IH k inf Hl (proj2 Hd) Hk eq_refl f Hf). cbn [filter].
      assert (x = inf) as ->.
      { destruct Hx as [F|E]; [|exact E]. destruct Hd as [Hd _]. rewrite Forall_forall in Hd.
        apply nth_error_In, Hd in Hk. unfold le_ in Hk. rewrite (lt_inf x F) in Hk. discriminate. }
      rewrite Hf by auto. cbn [length]. lia.
  Qed.

  (** The mask of the kept points. *)
  Lemma g_index_spec (k : Z) : (2 <= k < Z.of_nat n)%Z ->
    exists mask, g_index V lt le nan_ inf dflt area area_row pts k = Ok (Some mask) /\ length mask = n /\
      (length (filter (fun b => b) mask) <= Z.to_nat k)%nat /\
      nth_error mask 0 = Some true /\ nth_error mask (n - 1) = Some true.
  Proof.
    intros Hk. destruct g_thresholds_spec as (th & E & L & H0 & Hl & Hmid); [lia|].
    unfold g_index. rewrite E. cbn [bind].
    assert (Hth : exists mid, th = inf :: mid ++ [inf] /\ Forall fin mid).
    { destruct th as [|x th]; [discriminate|]. injection H0 as ->.
      destruct (@exists_last _ th) as (mid & y & ->); [intros ->; cbn in L; lia|].
      cbn in L. rewrite app_length in L. cbn in L. exists mid. split.
      - replace (n - 1)%nat with (S (length mid)) in Hl by lia. cbn in Hl.
        rewrite nth_error_app2, Nat.sub_diag in Hl by lia. cbn in Hl. congruence.
      - apply Forall_forall. intros w Hw. apply In_nth_error in Hw. destruct Hw as [j Hj].
        assert (j < length mid)%nat by (apply nth_error_Some; congruence).
        destruct (Hmid (S j)) as (q & Hq & F); try lia. cbn in Hq. rewrite nth_error_app1 in Hq by auto. congruence. }
    destruct Hth as (mid & Et & Fm).
    assert (Hv : vals th).
    { rewrite Et. constructor; [apply inf_val|]. apply Forall_app. split; [|constructor; [apply inf_val|constructor]].
      eapply Forall_impl; [|exact Fm]. intros x F. left. exact F. }
    pose proof (g_sort_perm th) as P. pose proof (g_sort_desc th Hv) as D.
    pose proof (vals_perm _ _ P Hv) as Vs.
    assert (Ls : length (g_sort V lt th) = n) by (rewrite <- (Permutation_length P); auto).
    destruct (nth_error (g_sort V lt th) (Z.to_nat k)) as [t|] eqn:Ek; [|apply nth_error_None in Ek; lia].
    assert (Ft : fin t).
    { assert (Vt : val t) by (unfold vals in Vs; rewrite Forall_forall in Vs; apply Vs; eapply nth_error_In; eauto).
      destruct Vt as [F|Ti]; [exact F|]. exfalso.
      pose proof (g_desc_third _ _ _ Vs D Ek Ti (fun x => negb (lt x inf))) as C.
      assert (Hf : forall x, x = inf -> negb (lt x inf) = true) by (intros x ->; rewrite (lt_irrefl inf inf_val); reflexivity).
      specialize (C Hf).
      assert (Pf : length (filter (fun x => negb (lt x inf)) (g_sort V lt th)) = length (filter (fun x => negb (lt x inf)) th)).
      { clear -P. induction P; cbn; auto; [destruct (negb (lt x inf)); cbn; auto| |congruence].
        destruct (negb (lt x inf)), (negb (lt y inf)); cbn; auto. }
      rewrite Pf, Et in C. cbn [filter] in C. rewrite (lt_irrefl inf inf_val) in C. cbn [negb] in C.
      rewrite filter_app in C. cbn [filter] in C. rewrite (lt_irrefl inf inf_val) in C. cbn [negb length] in C.
      rewrite app_length, filter_none in C; [cbn in C; lia|].
      eapply Forall_impl; [|exact Fm]. intros x F. rewrite (lt_inf x F). reflexivity. }
    assert (Ep := py_index_nat _ _ _ Ek). replace (Z.of_nat (Z.to_nat k)) with k in Ep by lia. rewrite Ep.
    exists (map (fun x => lt t x) th). split; [reflexivity|]. split; [rewrite map_length; exact L|]. split.
    - replace (length (filter (fun b => b) (map (fun x => lt t x) th))) with (length (filter (fun x => lt t x) (g_sort V lt th))).
      + apply g_desc_count; auto.
      + replace (length (filter (fun b => b) (map (fun x => lt t x) th))) with (length (filter (fun x => lt t x) th))
          by (clear; induction th as [|x th IH]; cbn; auto; destruct (lt t x); cbn; auto).
        clear -P. induction P; cbn; auto; [destruct (lt t x); cbn; auto| |congruence].
        destruct (lt t x), (lt t y); cbn; auto.
    - split; [rewrite nth_error_map, H0|rewrite nth_error_map, Hl]; cbn; rewrite (lt_inf t Ft); reflexivity.
  Qed.
  (** One list of thresholds serves every number of points. *)
  Lemma ended_vals th : (2 <= n)%nat -> ended th -> vals th.
  Proof.
    intros Hn (L & H0 & Hl & Hmid). apply Forall_forall. intros x Hx. apply In_nth_error in Hx. destruct Hx as [j Hj].
    assert (j < n)%nat by (rewrite <- L; apply nth_error_Some; congruence).
    destruct (Nat.eq_dec j 0) as [->|J0]; [rewrite H0 in Hj; injection Hj as <-; apply inf_val|].
    destruct (Nat.eq_dec j (n - 1)) as [->|J1]; [rewrite Hl in Hj; injection Hj as <-; apply inf_val|].
    destruct (Hmid j) as (q & Hq & F); try lia. rewrite Hq in Hj. injection Hj as <-. left. exact F.
  Qed.
  Lemma g_desc_nth l : forall i j x y, vals l -> g_desc l -> (i <= j)%nat ->
    nth_error l i = Some x -> nth_error l j = Some y -> le_ y x.
  Proof.
    induction l as [|a l IH]; intros [|i] j x y Hv Hd Hij Hi Hj; try discriminate Hi;
      inversion Hv as [|? ? Ha Hl]; subst; cbn in Hi.
    - injection Hi as <-. destruct j as [|j]; cbn in Hj; [injection Hj as <-; apply lt_irrefl; exact Ha|].
      destruct Hd as [Hd _]. rewrite Forall_forall in Hd. apply Hd. eapply nth_error_In; eauto.
    - destruct j as [|j]; [lia|]. cbn in Hj. apply (IH i j); auto; [apply Hd|lia].
  Qed.
  Lemma g_nested (k m : Z) : (2 <= k <= m)%Z -> (m < Z.of_nat n)%Z ->
    exists th tk tm,
      g_thresholds V lt le nan_ inf dflt area area_row pts = Ok th /\ length th = n /\
      g_index V lt le nan_ inf dflt area area_row pts k = Ok (Some (map (fun x => lt tk x) th)) /\
      g_index V lt le nan_ inf dflt area area_row pts m = Ok (Some (map (fun x => lt tm x) th)) /\
      (forall x, In x th -> lt tk x = true -> lt tm x = true).
  Proof.
    intros Hk Hm. destruct g_thresholds_spec as (th & E & He); [lia|]. pose proof He as (L & _).
    pose proof (ended_vals th ltac:(lia) He) as Hv.
    pose proof (g_sort_perm th) as P. pose proof (g_sort_desc th Hv) as D. pose proof (vals_perm _ _ P Hv) as Vs.
    assert (Ls : length (g_sort V lt th) = n) by (rewrite <- (Permutation_length P); auto).
    destruct (nth_error (g_sort V lt th) (Z.to_nat k)) as [tk|] eqn:Ek; [|apply nth_error_None in Ek; lia].
    destruct (nth_error (g_sort V lt th) (Z.to_nat m)) as [tm|] eqn:Em; [|apply nth_error_None in Em; lia].
    exists th, tk, tm. split; [exact E|]. split; [exact L|]. unfold g_index. rewrite E. cbn [bind].
    assert (Ep := py_index_nat _ _ _ Ek). replace (Z.of_nat (Z.to_nat k)) with k in Ep by lia. rewrite Ep.
    assert (Eq := py_index_nat _ _ _ Em). replace (Z.of_nat (Z.to_nat m)) with m in Eq by lia. rewrite Eq.
    split; [reflexivity|]. split; [reflexivity|].
    assert (Le : le_ tm tk) by (eapply (g_desc_nth _ (Z.to_nat k) (Z.to_nat m)); eauto; lia).
    assert (In_val : forall l y, vals l -> In y l -> val y).
    { intros l y Hl I. unfold vals in Hl. rewrite Forall_forall in Hl. auto. }
    intros x Ix Hx. destruct (lt tm x) eqn:Ex; [reflexivity|].
    pose proof (In_val th x Hv Ix) as Vx.
    pose proof (In_val _ tm Vs (nth_error_In _ _ Em)) as Vm. pose proof (In_val _ tk Vs (nth_error_In _ _ Ek)) as Vk.
    rewrite (le_trans x tm tk Vx Vm Vk Ex Le) in Hx. discriminate.
  Qed.
End Rounded.

Lemma g_zip_combine {V} (z tw : list V) : length tw = length z -> g_zip V z tw = Ok (combine z tw).
Proof.
  revert tw; induction z as [|x z IH]; intros [|w tw] H; cbn in *; try discriminate; auto.
  rewrite IH by lia. reflexivity.
Qed.

Lemma select_filter {A} mask : forall l : list A, length mask = length l ->
  length (select mask l) = length (filter (fun b => b) mask).
Proof.
  induction mask as [|[] mask IH]; intros [|x l] H; cbn in *; try discriminate; auto.
Qed.
Lemma select_combine3 {A} (z tw fw : list A) : forall mask,
  length tw = length z -> length fw = length z -> length mask = length z ->
  combine (select mask z) (combine (select mask tw) (select mask fw)) = select mask (combine z (combine tw fw)).
Proof.
  revert tw fw. induction z as [|x z IH]; intros [|w tw] [|f fw] [|b mask] H1 H2 H3; cbn in *; try discriminate; auto.
  destruct b; cbn; rewrite IH by lia; reflexivity.
Qed.

(** C11 for any kind of numbers.  The order of the numbers and the finite areas
    are all that is needed; the areas may be rounded in any way and the two ways
    to compute them may differ. *)
Theorem C11_reduction_for_any_rounding :
  forall (V : Type) (lt le : V -> V -> bool) (nan_ : V -> bool) (inf dflt : V)
    (area area_row : V * V -> V * V -> V * V -> V) (fin : V -> Prop) (k : Z) (z tw fw : list V),
    (forall x, val V inf fin x -> lt x x = false) ->
    (forall x y, val V inf fin x -> val V inf fin y -> lt x y = true -> lt y x = false) ->
    (forall x y w, val V inf fin x -> val V inf fin y -> val V inf fin w ->
       lt y x = false -> lt w y = false -> lt w x = false) ->
    (forall x, fin x -> lt x inf = true) ->
    (forall x, val V inf fin x -> nan_ x = false) ->
    (forall a b c, In a (combine z tw) -> In b (combine z tw) -> In c (combine z tw) ->
       fin (area a b c) /\ fin (area_row a b c)) ->
    (2 <= k)%Z -> length tw = length z -> length fw = length z ->
    exists z' tw' fw',
      g_reduce V lt le nan_ inf dflt area area_row k z tw fw = Ok (z', tw', fw') /\
      length tw' = length z' /\ length fw' = length z' /\
      subsequence (combine z' (combine tw' fw')) (combine z (combine tw fw)) /\
      (Z.of_nat (length z) <= k -> z' = z /\ tw' = tw /\ fw' = fw)%Z /\
      (k < Z.of_nat (length z) ->
         2 <= Z.of_nat (length z') <= k /\
         hd_error z' = hd_error z /\ hd_error tw' = hd_error tw /\ hd_error fw' = hd_error fw /\
         last z' dflt = last z dflt /\ last tw' dflt = last tw dflt /\ last fw' dflt = last fw dflt)%Z.
Proof.
  intros V lt le nan_ inf dflt area area_row fin k z tw fw O1 O2 O3 O4 O5 Ha Hk Ht Hf.
  unfold g_reduce. rewrite g_zip_combine by exact Ht. cbn [bind]. rewrite Ht.
  assert (Lc : length (combine z tw) = length z) by (rewrite combine_length; lia).
  destruct (Z.lt_ge_cases k (Z.of_nat (length z))) as [Hlt|Hge].
  - destruct (Z.ltb_spec k (Z.of_nat (length z))); [|lia].
    destruct (g_index_spec V lt le nan_ inf dflt area area_row fin O1 O2 O3 O4 O5 (combine z tw)
                (fun a b c A B C => proj1 (Ha a b c A B C)) (fun a b c A B C => proj2 (Ha a b c A B C)) k)
      as (mask & E & Lm & Hc & M0 & M1); [lia|]. rewrite E. cbn [bind]. rewrite Lc in Lm, M1.
    unfold mask_index. rewrite Ht, Hf, Lm, Nat.eqb_refl. cbn [bind].
    exists (select mask z), (select mask tw), (select mask fw). split; [reflexivity|].
    assert (Lz := select_filter mask z Lm).
    assert (Lt := select_filter mask tw ltac:(lia)). assert (Lf := select_filter mask fw ltac:(lia)).
    split; [lia|]. split; [lia|]. split; [rewrite select_combine3 by lia; apply select_subsequence|].
    split; [lia|]. intros _.
    assert (Hzne : z <> []) by (intros ->; cbn in Hlt; lia).
    assert (Htne : tw <> []) by (intros ->; cbn in Ht; destruct z; [congruence|discriminate]).
    assert (Hfne : fw <> []) by (intros ->; cbn in Hf; destruct z; [congruence|discriminate]).
    split.
    + split; [|lia].
      assert (H2 : (2 <= length (select mask z))%nat); [|lia].
      destruct mask as [|b mask]; [discriminate|]. injection M0 as ->.
      destruct z as [|x [|y z]]; cbn in Hlt; try lia.
      assert (N : select mask (y :: z) <> []).
      { apply (select_last dflt mask (y :: z)); [cbn in *; lia|congruence|].
        replace (length (x :: y :: z) - 1)%nat with (S (length (y :: z) - 1)) in M1 by (cbn; lia). exact M1. }
      cbn [select length]. destruct (select mask (y :: z)); [congruence|]. cbn. lia.
    + rewrite !(select_hd mask) by auto. do 3 (split; [reflexivity|]).
      split; [apply select_last; auto|]. split; apply select_last; auto; try lia; rewrite ?Ht, ?Hf; auto.
  - destruct (Z.ltb_spec k (Z.of_nat (length z))); [lia|]. cbn [bind].
    unfold mask_index. rewrite repeat_length, Ht, Hf, Nat.eqb_refl. cbn [bind].
    rewrite !select_all_true by lia.
    exists z, tw, fw. split; [reflexivity|]. split; auto. split; auto. split; [apply subsequence_refl|]. split; auto. lia.
Qed.
Print Assumptions C11_reduction_for_any_rounding.

(** C13 for any kind of numbers: the kept rows are those above one threshold, and
    those kept with fewer points are kept with more. *)
Theorem C13_nested_for_any_rounding :
  forall (V : Type) (lt le : V -> V -> bool) (nan_ : V -> bool) (inf dflt : V)
    (area area_row : V * V -> V * V -> V * V -> V) (fin : V -> Prop) (k m : Z) (z tw : list V),
    (forall x, val V inf fin x -> lt x x = false) ->
    (forall x y, val V inf fin x -> val V inf fin y -> lt x y = true -> lt y x = false) ->
    (forall x y w, val V inf fin x -> val V inf fin y -> val V inf fin w ->
       lt y x = false -> lt w y = false -> lt w x = false) ->
    (forall x, fin x -> lt x inf = true) ->
    (forall x, val V inf fin x -> nan_ x = false) ->
    (forall a b c, In a (combine z tw) -> In b (combine z tw) -> In c (combine z tw) ->
       fin (area a b c) /\ fin (area_row a b c)) ->
    (2 <= k <= m)%Z -> (m < Z.of_nat (length z))%Z -> length tw = length z ->
    exists th tk tm,
      g_thresholds V lt le nan_ inf dflt area area_row (combine z tw) = Ok th /\ length th = length z /\
      (forall fw, length fw = length z ->
         g_reduce V lt le nan_ inf dflt area area_row k z tw fw =
           Ok (select (map (fun x => lt tk x) th) z, select (map (fun x => lt tk x) th) tw,
               select (map (fun x => lt tk x) th) fw) /\
         g_reduce V lt le nan_ inf dflt area area_row m z tw fw =
           Ok (select (map (fun x => lt tm x) th) z, select (map (fun x => lt tm x) th) tw,
               select (map (fun x => lt tm x) th) fw)) /\
      (forall x, In x th -> lt tk x = true -> lt tm x = true).
Proof.
  intros V lt le nan_ inf dflt area area_row fin k m z tw O1 O2 O3 O4 O5 Ha Hk Hm Ht.
  assert (Lc : length (combine z tw) = length z) by (rewrite combine_length; lia).
  destruct (g_nested V lt le nan_ inf dflt area area_row fin O1 O2 O3 O4 O5 (combine z tw)
              (fun a b c A B C => proj1 (Ha a b c A B C)) (fun a b c A B C => proj2 (Ha a b c A B C)) k m)
    as (th & tk & tm & E & L & Ek & Em & N); [lia|lia|]. rewrite Lc in L.
  exists th, tk, tm. split; [exact E|]. split; [exact L|]. split; [|exact N].
  intros fw Hf. unfold g_reduce. rewrite g_zip_combine by exact Ht. cbn [bind]. rewrite Ht, Ek, Em.
  destruct (Z.ltb_spec k (Z.of_nat (length z))); [|lia]. destruct (Z.ltb_spec m (Z.of_nat (length z))); [|lia]. cbn [bind].
  unfold mask_index. rewrite !map_length, Ht, Hf, L, Nat.eqb_refl. cbn [bind]. split; reflexivity.
Qed.
Print Assumptions C13_nested_for_any_rounding.

(** * Binary64 *)

Local Open Scope R_scope.

Definition finf : f64 := B754_infinity false.

(** lib/polysimplify.py 41-48 and 72-81, every operation rounded. *)
Definition farea (p1 p2 p3 : f64 * f64) : f64 :=
  fdiv (Babs (fadd (fadd (fmul (fst p1) (fsub (snd p2) (snd p3)))
                         (fmul (fst p2) (fsub (snd p3) (snd p1))))
                   (fmul (fst p3) (fsub (snd p1) (snd p2))))) ftwo.
Definition farea_row (p1 p2 p3 : f64 * f64) : f64 :=
  let accr := fsub (snd p2) (snd p3) in
  let accr := fmul (fst p1) accr in
  let acc1 := fsub (snd p3) (snd p1) in
  let acc1 := fmul (fst p2) acc1 in
  let accr := fadd acc1 accr in
  let acc1 := fsub (snd p1) (snd p2) in
  let acc1 := fmul (fst p3) acc1 in
  let accr := fadd acc1 accr in
  fdiv (Babs accr) ftwo.

Definition freduce : Z -> list f64 -> list f64 -> list f64 -> res (list f64 * list f64 * list f64) :=
  g_reduce f64 Bltb Bleb is_nan finf B754_nan farea farea_row.

(** A finite number of at most 2 ^ k. *)
Definition below (k : Z) (x : f64) : Prop := is_finite x = true /\ Rabs (B2R x) <= bpow radix2 k.

Lemma round_below k r : (-1021 <= k <= 1023)%Z -> Rabs r <= bpow radix2 k ->
  Rabs (round radix2 fexp64 ZnearestE r) <= bpow radix2 k.
Proof.
  intros K H. apply abs_round_le_generic; auto; try typeclasses eauto.
  apply generic_format_bpow. unfold SpecFloat.fexp, SpecFloat.emin. lia.
Qed.
Lemma round_small k r : (-1021 <= k <= 1023)%Z -> Rabs r <= bpow radix2 k ->
  Rlt_bool (Rabs (round radix2 fexp64 ZnearestE r)) (bpow radix2 1024) = true.
Proof.
  intros K H. apply Rlt_bool_true. eapply Rle_lt_trans; [apply (round_below k); auto|]. apply bpow_lt. lia.
Qed.
Lemma bpow_S k : bpow radix2 (k + 1) = 2 * bpow radix2 k.
Proof. rewrite bpow_plus. change (bpow radix2 1) with 2. lra. Qed.

Lemma fadd_below k x y : (0 <= k <= 1022)%Z -> below k x -> below k y -> below (k + 1) (fadd x y).
Proof.
  intros K [Fx Bx] [Fy By].
  assert (H : Rabs (B2R x + B2R y) <= bpow radix2 (k + 1)).
  { rewrite bpow_S. pose proof (Rabs_triang (B2R x) (B2R y)). lra. }
  pose proof (Bplus_correct 53 1024 _ _ mode_NE x y Fx Fy) as C. cbn [round_mode] in C.
  change (SpecFloat.fexp 53 1024) with fexp64 in C. rewrite (round_small (k + 1)) in C by (auto; lia).
  destruct C as (C1 & C2 & _). split; [exact C2|]. unfold fadd. rewrite C1. apply round_below; auto; lia.
Qed.
Lemma fsub_below k x y : (0 <= k <= 1022)%Z -> below k x -> below k y -> below (k + 1) (fsub x y).
Proof.
  intros K [Fx Bx] [Fy By].
  assert (H : Rabs (B2R x - B2R y) <= bpow radix2 (k + 1)).
  { rewrite bpow_S. pose proof (Rabs_triang (B2R x) (- B2R y)) as T. rewrite Rabs_Ropp in T. unfold Rminus. lra. }
  pose proof (Bminus_correct 53 1024 _ _ mode_NE x y Fx Fy) as C. cbn [round_mode] in C.
  change (SpecFloat.fexp 53 1024) with fexp64 in C. rewrite (round_small (k + 1)) in C by (auto; lia).
  destruct C as (C1 & C2 & _). split; [exact C2|]. unfold fsub. rewrite C1. apply round_below; auto; lia.
Qed.
Lemma fmul_below k j x y : (0 <= k)%Z -> (0 <= j)%Z -> (k + j <= 1023)%Z -> below k x -> below j y -> below (k + j) (fmul x y).
Proof.
  intros K0 J0 K [Fx Bx] [Fy By].
  assert (H : Rabs (B2R x * B2R y) <= bpow radix2 (k + j)).
  { rewrite bpow_plus, Rabs_mult. apply Rmult_le_compat; auto; apply Rabs_pos. }
  pose proof (Bmult_correct 53 1024 _ _ mode_NE x y) as C. cbn [round_mode] in C.
  change (SpecFloat.fexp 53 1024) with fexp64 in C. rewrite (round_small (k + j)) in C by (auto; lia).
  destruct C as (C1 & C2 & _). split; [unfold fmul; rewrite C2, Fx, Fy; reflexivity|]. unfold fmul. rewrite C1. apply round_below; auto; lia.
Qed.
Lemma fhalf_finite k x : (0 <= k <= 1023)%Z -> below k x -> is_finite (fdiv x ftwo) = true.
Proof.
  intros K [Fx Bx].
  assert (H : Rabs (B2R x / B2R ftwo) <= bpow radix2 k).
  { rewrite two_value. unfold Rdiv. rewrite Rabs_mult, (Rabs_right (/ 2)) by lra. pose proof (Rabs_pos (B2R x)). lra. }
  pose proof (Bdiv_correct 53 1024 _ _ mode_NE x ftwo) as C. cbn [round_mode] in C.
  change (SpecFloat.fexp 53 1024) with fexp64 in C. rewrite (round_small k) in C by (auto; lia).
  destruct C as (_ & C2 & _); [rewrite two_value; lra|]. unfold fdiv. rewrite C2. exact Fx.
Qed.
Lemma fabs_below k x : below k x -> below k (Babs x).
Proof. intros [F B]. split; [rewrite is_finite_Babs; exact F|]. rewrite B2R_Babs, Rabs_Rabsolu. exact B. Qed.
Lemma below_le j k x : (j <= k)%Z -> below j x -> below k x.
Proof. intros H [F B]. split; [exact F|]. eapply Rle_trans; [exact B|]. apply bpow_le. exact H. Qed.

Lemma farea_finite a b c :
  below 500 (fst a) -> below 500 (snd a) -> below 500 (fst b) -> below 500 (snd b) -> below 500 (fst c) -> below 500 (snd c) ->
  is_finite (farea a b c) = true /\ is_finite (farea_row a b c) = true.
Proof.
  intros A1 A2 B1 B2 C1 C2.
  assert (P : forall x y w, below 500 x -> below 500 y -> below 500 w -> below 1001 (fmul x (fsub y w))).
  { intros x y w X Y W. change 1001%Z with (500 + 501)%Z. apply fmul_below; try lia; auto. apply (fsub_below 500); auto. lia. }
  split; unfold farea, farea_row; apply (fhalf_finite 1003); try lia; apply fabs_below.
  - apply (fadd_below 1002); [lia| |apply (below_le 1001); [lia|apply P; auto]].
    apply (fadd_below 1001); [lia| |]; apply P; auto.
  - apply (fadd_below 1002); [lia|apply (below_le 1001); [lia|apply P; auto]|].
    apply (fadd_below 1001); [lia| |]; apply P; auto.
Qed.

(** The order of finite numbers and infinity. *)
Lemma finf_lt (x : f64) : is_finite x = true -> Bltb x finf = true.
Proof. destruct x as [[]|[]| |[] m e b]; try discriminate; reflexivity. Qed.
Lemma finf_not_lt (x : f64) : val f64 finf fin x -> Bltb finf x = false.
Proof. intros [F| ->]; [|reflexivity]. unfold fin in F. destruct x as [[]|[]| |[] m e b]; try discriminate F; reflexivity. Qed.
Lemma val_not_nan (x : f64) : val f64 finf fin x -> is_nan x = false.
Proof. intros [F| ->]; [|reflexivity]. unfold fin in F. destruct x; try discriminate F; reflexivity. Qed.
Lemma flt_irrefl (x : f64) : val f64 finf fin x -> Bltb x x = false.
Proof. intros [F| ->]; [|reflexivity]. rewrite Bltb_correct by auto. apply Rlt_bool_false. lra. Qed.
Lemma flt_asym (x y : f64) : val f64 finf fin x -> val f64 finf fin y -> Bltb x y = true -> Bltb y x = false.
Proof.
  intros [F| ->] Y E.
  - destruct Y as [G| ->]; [|apply finf_not_lt; left; exact F].
    rewrite Bltb_correct in * by auto. revert E. case Rlt_bool_spec; [|discriminate]. intros H _. apply Rlt_bool_false. lra.
  - rewrite finf_not_lt in E by auto. discriminate.
Qed.
Lemma fle_trans (x y w : f64) : val f64 finf fin x -> val f64 finf fin y -> val f64 finf fin w ->
  Bltb y x = false -> Bltb w y = false -> Bltb w x = false.
Proof.
  intros X Y W E1 E2. destruct W as [W| ->]; [|apply finf_not_lt; exact X].
  destruct Y as [Y| ->]; [|rewrite finf_lt in E2 by exact W; discriminate].
  destruct X as [X| ->]; [|rewrite finf_lt in E1 by exact Y; discriminate].
  rewrite Bltb_correct in * by auto. revert E1 E2. do 2 (case Rlt_bool_spec; [discriminate|]). intros H1 H2 _ _.
  apply Rlt_bool_false. lra.
Qed.

(** C11 in binary64.  For levels and widths up to 2 ^ 500 (3e150) the reduction
    keeps the same rows of the three columns, at most [n] of them and among them
    the first and the last, whatever the rounding of the areas does. *)
Theorem C11_reduction_in_binary64 :
  forall (n : Z) (z tw fw : list f64),
    (2 <= n)%Z -> length tw = length z -> length fw = length z ->
    Forall (below 500) z -> Forall (below 500) tw ->
    exists z' tw' fw',
      freduce n z tw fw = Ok (z', tw', fw') /\
      length tw' = length z' /\ length fw' = length z' /\
      subsequence (combine z' (combine tw' fw')) (combine z (combine tw fw)) /\
      (Z.of_nat (length z) <= n -> z' = z /\ tw' = tw /\ fw' = fw)%Z /\
      (n < Z.of_nat (length z) ->
         2 <= Z.of_nat (length z') <= n /\
         hd_error z' = hd_error z /\ hd_error tw' = hd_error tw /\ hd_error fw' = hd_error fw /\
         last z' B754_nan = last z B754_nan /\ last tw' B754_nan = last tw B754_nan /\
         last fw' B754_nan = last fw B754_nan)%Z.
Proof.
  intros n z tw fw Hn Ht Hf Bz Bt. rewrite Forall_forall in Bz, Bt.
  apply (C11_reduction_for_any_rounding f64 Bltb Bleb is_nan finf B754_nan farea farea_row fin);
    auto using flt_irrefl, flt_asym, finf_lt, val_not_nan; [exact fle_trans|].
  intros [a1 a2] [b1 b2] [c1 c2] A B C.
  apply farea_finite; cbn [fst snd];
    first [apply Bz; eapply in_combine_l; eassumption|apply Bt; eapply in_combine_r; eassumption].
Qed.
Print Assumptions C11_reduction_in_binary64.

(** C13 in binary64. *)
Theorem C13_nested_in_binary64 :
  forall (n m : Z) (z tw : list f64),
    (2 <= n <= m)%Z -> (m < Z.of_nat (length z))%Z -> length tw = length z ->
    Forall (below 500) z -> Forall (below 500) tw ->
    exists (th : list f64) (tn tm : f64), length th = length z /\
      (forall fw, length fw = length z ->
         freduce n z tw fw = Ok (select (map (fun x => Bltb tn x) th) z, select (map (fun x => Bltb tn x) th) tw,
                                 select (map (fun x => Bltb tn x) th) fw) /\
         freduce m z tw fw = Ok (select (map (fun x => Bltb tm x) th) z, select (map (fun x => Bltb tm x) th) tw,
                                 select (map (fun x => Bltb tm x) th) fw)) /\
      (forall x, In x th -> Bltb tn x = true -> Bltb tm x = true).
Proof.
  intros n m z tw Hn Hm Ht Bz Bt. rewrite Forall_forall in Bz, Bt.
  destruct (C13_nested_for_any_rounding f64 Bltb Bleb is_nan finf B754_nan farea farea_row fin n m z tw)
    as (th & tn & tm & _ & L & R & N);
    auto using flt_irrefl, flt_asym, finf_lt, val_not_nan; [exact fle_trans| |].
  - intros [a1 a2] [b1 b2] [c1 c2] A B C.
    apply farea_finite; cbn [fst snd];
      first [apply Bz; eapply in_combine_l; eassumption|apply Bt; eapply in_combine_r; eassumption].
  - exists th, tn, tm. auto.
Qed.
Print Assumptions C13_nested_in_binary64.

Lemma nth_error_subsequence {A} (l m : list A) : subsequence l m ->
  forall i j a b, (i < j)%nat -> nth_error l i = Some a -> nth_error l j = Some b ->
  exists i' j', (i' < j')%nat /\ nth_error m i' = Some a /\ nth_error m j' = Some b.
Proof.
  intros S. induction S as [|x l m S IH|x l m S IH]; intros i j a b H Ea Eb.
  - destruct i; discriminate.
  - destruct j as [|j]; [lia|]. destruct i as [|i].
    + assert (I : In b m) by (eapply subsequence_In; [exact S|eapply nth_error_In; exact Eb]).
      apply In_nth_error in I. destruct I as [j' J]. exists O, (Datatypes.S j'). split; [lia|]. split; [exact Ea|exact J].
    + destruct (IH i j a b) as (i' & j' & L & I & J); auto; [lia|]. exists (Datatypes.S i'), (Datatypes.S j'). split; [lia|auto].
  - destruct (IH i j a b) as (i' & j' & L & I & J); auto. exists (Datatypes.S i'), (Datatypes.S j'). split; [lia|auto].
Qed.
Lemma subsequence_fstrict l m : subsequence l m -> fincreasing_strictly m -> fincreasing_strictly l.
Proof.
  intros S H i j a b L Ea Eb. destruct (nth_error_subsequence l m S i j a b L Ea Eb) as (i' & j' & L' & A & B).
  eapply H; eauto.
Qed.
Lemma subsequence_Forall {A} (P : A -> Prop) l m : subsequence l m -> Forall P m -> Forall P l.
Proof. intros S H. rewrite Forall_forall in *. intros x I. apply H. eapply subsequence_In; eauto. Qed.

Lemma repaired_below l : Forall (small 0) l -> (Z.of_nat (length l) <= 2 ^ 49)%Z -> Forall (below 500) (fincreasing l).
Proof.
  intros H L. destruct (fincreasing_ok l H L) as (A & _ & _).
  destruct (C02_repair_in_binary64 l H L) as (_ & Lo & Hi).
  assert (E42 : bpow radix2 43 = 2 * bpow radix2 42) by (change 43%Z with (42 + 1)%Z; apply bpow_S).
  assert (E43 : bpow radix2 43 <= bpow radix2 500) by (apply bpow_le; lia).
  assert (E41 : IZR (2 ^ 49) * bpow radix2 (-8) = bpow radix2 41).
  { rewrite (IZR_Zpower radix2) by lia. rewrite <- bpow_plus. reflexivity. }
  assert (E40 : bpow radix2 41 <= bpow radix2 42) by (apply bpow_le; lia).
  pose proof (bpow_gt_0 radix2 42). pose proof (bpow_gt_0 radix2 (-8)) as P8.
  rewrite Forall_forall in H, A. apply Forall_forall. intros r I. split; [apply A; exact I|].
  apply In_nth_error in I. destruct I as [i I].
  assert (Li : (i < length l)%nat).
  { rewrite (Forall2_len _ _ _ Lo). apply nth_error_Some. congruence. }
  destruct (Hi i r I) as (j & x & Hj & Ex & Ub).
  destruct (nth_error l i) as [y|] eqn:Ey; [|apply nth_error_None in Ey; lia].
  assert (Lb : B2R y <= B2R r).
  { clear -Lo I Ey. revert i I Ey. induction Lo as [|a b l m R _ IH]; intros [|i] I Ey; try discriminate; cbn in *.
    - injection I as <-. injection Ey as <-. exact R.
    - eapply IH; eauto. }
  apply nth_error_In in Ex, Ey. destruct (H x Ex) as [_ Bx]. destruct (H y Ey) as [_ By].
  rewrite Rmult_0_l, Rplus_0_r in Bx, By. apply Rabs_le_inv in Bx, By.
  assert (Li2 : INR (i - j) <= IZR (2 ^ 49)) by (rewrite INR_IZR_INZ; apply IZR_le; lia).
  assert (Li3 : INR (i - j) * bpow radix2 (-8) <= bpow radix2 41) by (rewrite <- E41; apply Rmult_le_compat_r; lra).
  apply Rabs_le. lra.
Qed.

(** C11 after C01 in binary64: the requirement check followed by the reduction
    gives a valid table of at most [n] rows, rounding included. *)
Theorem C11_checked_and_reduced_table_in_binary64 :
  forall (n : Z) (m : f64) (z tw fw : list f64),
    (2 <= n)%Z -> small 0 m -> Forall (small 0) z -> Forall (small 0) tw -> Forall (small 0) fw ->
    length tw = length z -> length fw = length z -> (Z.of_nat (length z) <= 2 ^ 49)%Z ->
    (exists w, In w tw /\ B2R w <> 0) ->
    exists z1 tw1 fw1 z' tw' fw',
      frequirements m z tw fw = Ok (z1, tw1, fw1) /\ freduce n z1 tw1 fw1 = Ok (z', tw', fw') /\
      (Z.of_nat (length z') <= n)%Z /\
      fincreasing_strictly z' /\ fincreasing_strictly tw' /\ fincreasing_strictly fw' /\
      Forall fin z' /\ Forall fin tw' /\ Forall fin fw' /\
      Forall (fun w => Bleb m w = true) tw' /\ Forall (fun w => Bleb m w = true) fw' /\
      Forall2 (fun f t => Bleb f t = true) fw' tw' /\
      length tw' = length z' /\ length fw' = length z'.
Proof.
  intros n m z tw fw Hn Hm Hz Ht Hf Lt Lf Ln Hw.
  destruct (C01_requirements_hold_in_binary64 m z tw fw Hm Hz Ht Hf Lt Lf Ln Hw)
    as (z1 & tw1 & fw1 & E & S1 & S2 & S3 & N1 & N2 & N3 & M1 & M2 & R & L1 & L2 & L3).
  assert (Bz : Forall (below 500) z1 /\ Forall (below 500) tw1).
  { unfold frequirements in E. match type of E with match ?x with _ => _ end = _ => destruct x; [|discriminate E] end. injection E as <- <- _.
    destruct (fclamp_ok m tw Hm Ht) as (T1 & _ & T3).
    split; apply repaired_below; auto. rewrite T3, Lt. exact Ln. }
  destruct Bz as [Bz Bt].
  destruct (C11_reduction_in_binary64 n z1 tw1 fw1 Hn) as (z' & tw' & fw' & E' & K1 & K2 & Sub & Same & Red); try congruence.
  exists z1, tw1, fw1, z', tw', fw'. split; [exact E|]. split; [exact E'|].
  assert (Lc : length (combine tw' fw') = length z') by (rewrite combine_length; lia).
  assert (Lc1 : length (combine tw1 fw1) = length z1) by (rewrite combine_length; lia).
  assert (Sz : subsequence z' z1).
  { apply (subsequence_map fst) in Sub. rewrite !combine_fst in Sub by lia. exact Sub. }
  assert (Sr : subsequence (combine tw' fw') (combine tw1 fw1)).
  { apply (subsequence_map snd) in Sub. rewrite !combine_snd in Sub by lia. exact Sub. }
  assert (St : subsequence tw' tw1).
  { apply (subsequence_map fst) in Sr. rewrite !combine_fst in Sr by lia. exact Sr. }
  assert (Sf : subsequence fw' fw1).
  { apply (subsequence_map snd) in Sr. rewrite !combine_snd in Sr by lia. exact Sr. }
  split.
  { destruct (Z.lt_ge_cases n (Z.of_nat (length z1))) as [H|H]; [apply Red in H; lia|].
    destruct (Same H) as (-> & _). lia. }
  do 3 (split; [eapply subsequence_fstrict; eauto|]).
  do 5 (split; [eapply subsequence_Forall; eauto|]).
  split; [|split; lia].
  assert (Hall : Forall (fun p => Bleb (snd p) (fst p) = true) (combine tw1 fw1)).
  { clear - R. induction R as [|f t l l' H _ IH]; cbn; constructor; auto. }
  apply (subsequence_Forall _ _ _ Sr) in Hall. clear - Hall K1 K2.
  assert (L : length fw' = length tw') by lia. clear K1 K2.
  revert fw' Hall L. induction tw' as [|t tw' IH]; intros [|f fw'] H L; try discriminate L; constructor; inversion H; subst; auto.
Qed.
Print Assumptions C11_checked_and_reduced_table_in_binary64.

(** Five points to four: the third has the smallest area. *)
Theorem C11_binary64_case :
  let f (m : positive) (e : Z) (b : SpecFloat.bounded 53 1024 m e = true) : f64 := B754_finite false m e b in
  let one := f 4503599627370496%positive (-52)%Z eq_refl in let two := ftwo in
  let three := f 6755399441055744%positive (-51)%Z eq_refl in
  let four := f 4503599627370496%positive (-50)%Z eq_refl in
  match freduce 4 [fzero; one; two; three; four] [fzero; four; four; three; four] [fzero; one; one; one; two] with
  | Ok (z, tw, fw) => map B2SF z = map B2SF [fzero; one; three; four] /\ map B2SF tw = map B2SF [fzero; four; three; four]
                      /\ map B2SF fw = map B2SF [fzero; one; one; two]
  | Raise _ => False
  end.
Proof. vm_compute. repeat split. Qed.
