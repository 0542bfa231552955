(** Theorems for C89: the roughness of a run in the roughness files. *)
From Coq Require Import String List Ascii ZArith QArith Qround Bool Lia Lqa.
From Verif Require Import PyBase Num Spec L_Num L_List Text L_Text Fixed L_Fixed M_Ini M_Friction T_Friction M_Import M_Network
  M_Export L_Export T_Definitions T_Sobek T_Roughness M_Geometry M_Pipeline M_Chain.
Import ListNotations.
Local Open Scope char_scope.

Lemma T_injective s s' : T s = T s' -> s = s'.
Proof.
  intro H. unfold T in H. rewrite <- (string_of_list_ascii_of_string s), <- (string_of_list_ascii_of_string s'). congruence.
Qed.

Lemma tassoc_tables {A B} (f : A -> B) (t : list (string * A)) s :
  tassoc (map (fun e => (T (fst e), f (snd e))) t) (T s) = option_map f (assoc s t).
Proof.
  induction t as [|[k v] t IH]; auto. cbn [map tassoc assoc fst snd].
  destruct (String.eqb_spec s k) as [->|N].
  - rewrite teqb_refl. reflexivity.
  - destruct (teqb_spec (T k) (T s)) as [E|_]; [|exact IH]. apply T_injective in E. congruence.
Qed.

Lemma Forall2_len {A B} (P : A -> B -> Prop) l m : Forall2 P l m -> length l = length m.
Proof. induction 1; cbn; auto. Qed.

Lemma Forall2_nth {A B} (P : A -> B -> Prop) l m : Forall2 P l m ->
  forall i a b, nth_error l i = Some a -> nth_error m i = Some b -> P a b.
Proof.
  induction 1 as [|x y l m H F IH]; intros [|i] a b Ea Eb; try discriminate; cbn in *.
  - injection Ea as <-. injection Eb as <-. exact H.
  - eapply IH; eauto.
Qed.

(** The lowest and the highest level of a section in the run. *)
Definition range_of (s : string) (l : list (xs * tables)) (lo hi : Q) : Prop :=
  (exists z, is_level s (map snd l) z /\ z == lo) /\ (exists z, is_level s (map snd l) z /\ z == hi) /\
  forall z, is_level s (map snd l) z -> lo <= z <= hi.

(** Levels 0.1 apart, from [lo] to below [hi]. *)
Definition grid (lo hi : Q) : list Q :=
  map (fun k => lo + inject_Z (Z.of_nat k) * (1 # 10)) (seq 0 (Z.to_nat (Qceiling ((hi - lo) / (1 # 10))))).

(** The value of a table at a level: constant outside the levels, on the line
    between two neighbouring points inside. *)
Definition value_at (t : qtable) (z v : Q) : Prop :=
  let lev k := nth k (qlevel t) 0 in
  let val k := nth k (qfriction t) 0 in
  let last := (length (qlevel t) - 1)%nat in
  (lev last <= z /\ v = val last) \/ (z < lev 0%nat /\ v = val 0%nat) \/
  exists k, (k < last)%nat /\ lev k <= z < lev (S k) /\
    (v - val k) * (lev (S k) - lev k) == (val (S k) - val k) * (z - lev k).

Lemma interp_value search t z : bracketing search -> good_table t ->
  value_at t z (np_interp search (qlevel t) (qfriction t) z).
Proof.
  intros Hs [Hne L]. unfold value_at, np_interp. cbv zeta.
  destruct (Qltb (nth (length (qlevel t) - 1) (qlevel t) 0) z) eqn:E1; qb; [left; split; [lra|reflexivity]|].
  destruct (Qltb z (nth 0 (qlevel t) 0)) eqn:E2; qb; [right; left; split; [lra|reflexivity]|].
  destruct (Hs (qlevel t) z Hne E2 E1) as (H1 & H2 & H3). cbv zeta in *. set (j := search (qlevel t) z) in *.
  destruct (Nat.eqb_spec j (length (qlevel t) - 1)) as [->|N]; [left; split; auto|].
  right. right. exists j. assert (H4 : (S j < length (qlevel t))%nat) by lia. specialize (H3 H4).
  split; [lia|]. split; [split; assumption|].
  destruct (Qeq_bool (nth j (qlevel t) 0) z) eqn:E3; [apply Qeq_bool_iff in E3; rewrite E3; ring|field; lra].
Qed.

Lemma interp_values search t zs : bracketing search -> good_table t ->
  Forall2 (value_at t) zs (map (np_interp search (qlevel t) (qfriction t)) zs).
Proof. intros Hs G. induction zs as [|z zs IH]; constructor; auto. apply interp_value; assumption. Qed.

Section C89.
  Variable double : num -> Prop.
  Variable rnd : Q -> num.
  Variable show_float : num -> text.
  Variable read_float : text -> option num.
  Hypothesis FC : float_codec double rnd show_float read_float.
  Variable show4 : num -> text.
  Variable near4 : num -> num -> Prop.
  Hypothesis show4_text : forall x, number_text (show4 x).
  Hypothesis read4 : forall x, exists v, read_float (show4 x) = Some v /\ near4 x v.
  Variable round2 : num -> num.
  Variable search : list Q -> Q -> nat.
  Hypothesis B : bracketing search.

  Definition section_key (section : text) : string := string_of_list_ascii (lower section).
  Lemma section_key_T section : T (section_key section) = lower section.
  Proof. apply T_inv. Qed.


  (** Every cross-section of the run that has the section is found in the
      roughness file of that section: with levels 0.1 apart, from the lowest
      level of the section in the run to below the highest one, and with the
      values of its own table, interpolated at these levels. *)
  Theorem C89_roughness_of_a_run : forall (l : list (xs * tables)) section,
    free newline section ->
    Forall (fun e => rough_ok double (fst e)) l ->
    all_tables good_table (map snd l) ->
    (forall s z, is_level s (map snd l) z -> (- big <= z <= big)%Q) ->
    (forall i j c d, nth_error l i = Some c -> nth_error l j = Some d ->
       x_branch (fst c) = x_branch (fst d) -> same (x_chainage (fst c)) (x_chainage (fst d)) -> i = j) ->
    (forall c d, In c l -> In d l -> lower (x_branch (fst d)) = x_branch (fst c) -> x_branch (fst d) = x_branch (fst c)) ->
    forall c tabs tab suffix r q,
      In (c, tabs) l -> assoc (section_key section) tabs = Some tab ->
      x_name c = x_branch c ++ T "_" ++ suffix -> free "_" suffix ->
      read_float suffix = Some r -> x_chainage c = Fin q -> same (round2 r) (Fin q) ->
      lower (x_branch c) = x_branch c ->
      exists lo hi values lv vs,
        range_of (section_key section) l lo hi /\
        Forall2 (value_at tab) (grid lo hi) values /\
        get_roughness_info read_float round2 (roughness_file show_float show4 (finalised search l) section) (x_name c)
          = Ok (Some lv, Some vs) /\
        Forall2 (printed rnd 4) (map Fin (grid lo hi)) lv /\
        Forall2 near4 (map Fin values) vs.
  Proof.
    intros l section Fs Ok1 Good Big Uniq Ub c tabs tab suffix r q I Ht En Fsu Er Eq Er2 Lb.
    set (s := section_key section) in *.
    destruct (interpolate_sections_ok search (map snd l) (np_unique (flat_map (map fst) (map snd l))) (np_unique_NoDup _) (map snd l))
      as (css' & Hc & Hd & _).
    { intros s' _. apply T_Friction.same_refl. }
    { intros s' t tab' _ It Ha. eapply Good; eauto. }
    assert (Is : In s (np_unique (flat_map (map fst) (map snd l)))).
    { apply sections_of_css. exists tabs, tab. split; [|exact Ht]. apply (in_map snd) in I. exact I. }
    destruct (Hd s Is) as (lo & hi & Hr & HF).
    assert (Efin : finalised search l = map2 with_tables (map fst l) css').
    { unfold finalised, interpolate_friction. rewrite Hc. reflexivity. }
    (* the entries of the finalised list *)
    assert (Len : length css' = length l) by (etransitivity; [symmetry; exact (Forall2_len _ _ _ HF)|apply map_length]).
    assert (Entry : forall d, In d (finalised search l) -> exists i x t t',
      nth_error l i = Some (x, t) /\ d = with_tables x t' /\
      assoc s t' = option_map (renew search (arange lo hi)) (assoc s t)).
    { intros d Id. rewrite Efin in Id. apply In_nth_error in Id. destruct Id as (i & Ei).
      rewrite nth_error_map2, nth_error_map in Ei. destruct (nth_error l i) as [[x t]|] eqn:El; [|discriminate].
      cbn [option_map fst] in Ei. destruct (nth_error css' i) as [t'|] eqn:Et; [|discriminate]. injection Ei as <-.
      exists i, x, t, t'. split; [exact El|]. split; [reflexivity|].
      apply (Forall2_nth _ _ _ HF i t t'); [rewrite nth_error_map, El; reflexivity|exact Et]. }
    assert (Tab : forall x t t', assoc s t' = option_map (renew search (arange lo hi)) (assoc s t) ->
      table_of (lower section) (with_tables x t') =
      option_map (fun tb => (map Fin (arange lo hi), map Fin (map (np_interp search (qlevel tb) (qfriction tb)) (arange lo hi))))
        (assoc s t)).
    { intros x t t' E. unfold table_of, with_tables. cbn [x_tables]. rewrite <- section_key_T. fold s.
      rewrite (tassoc_tables (fun tb => (map Fin (qlevel tb), map Fin (qfriction tb)))), E.
      destruct (assoc s t); reflexivity. }
    destruct (In_nth_error _ _ I) as (k & Ek).
    destruct (nth_error css' k) as [t'|] eqn:Et'.
    2:{ apply nth_error_None in Et'. assert (nth_error l k <> None) by congruence. apply nth_error_Some in H. lia. }
    assert (Ea : assoc s t' = option_map (renew search (arange lo hi)) (assoc s tabs)).
    { apply (Forall2_nth _ _ _ HF k tabs t'); [rewrite nth_error_map, Ek; reflexivity|exact Et']. }
    pose proof (Tab c tabs t' Ea) as Etab. rewrite Ht in Etab. cbn [option_map] in Etab.
    assert (Ic : In (with_tables c t') (finalised search l)).
    { rewrite Efin. apply (nth_error_In _ k). rewrite nth_error_map2, nth_error_map, Ek, Et'. reflexivity. }
    assert (Range : range_of s l lo hi).
    { assert (L0 : exists z, is_level s (map snd l) z).
      { destruct (Good tabs s tab) as [N _]; [apply (in_map snd) in I; exact I|exact Ht|].
        destruct (qlevel tab) as [|z zs] eqn:Ez; [congruence|]. exists z, tabs, tab.
        split; [apply (in_map snd) in I; exact I|]. split; [exact Ht|]. rewrite Ez. left. reflexivity. }
      destruct (range_spec s (map snd l)) with (l0 := big) (h0 := (- big)%Q) as (lo' & hi' & Hr' & A1 & A2 & A3 & A4 & A5).
      { intros t tb It Ha. eapply Good; eauto. }
      rewrite level_range_fold, Hr' in Hr. injection Hr as -> ->.
      destruct L0 as (z0 & L0). pose proof (A5 z0 L0) as [P1 P2]. pose proof (Big s z0 L0) as [Q1 Q2].
      split; [|split; [|exact A5]].
      - destruct A1 as [->|A1]; [exists z0; split; [exact L0|lra]|exists lo; split; [exact A1|reflexivity]].
      - destruct A2 as [->|A2]; [exists z0; split; [exact L0|lra]|exists hi; split; [exact A2|reflexivity]]. }
    destruct (C43_roughness_round_trip double rnd show_float read_float FC show4 near4 show4_text read4 round2
      (finalised search l) (with_tables c t') section (map Fin (arange lo hi))
      (map Fin (map (np_interp search (qlevel tab) (qfriction tab)) (arange lo hi))) suffix r q) as (lv & vs & G & P1 & P2); auto.
    - apply Forall_forall. intros d Id. destruct (Entry d Id) as (i & x & t & t1 & El & -> & _).
      rewrite Forall_forall in Ok1. apply (Ok1 (x, t)). eapply nth_error_In; eauto.
    - intros d Id Ed. destruct (Entry d Id) as (i & x & t & t1 & El & -> & _). cbn [x_branch with_tables] in *.
      apply (Ub (c, tabs) (x, t)); auto. eapply nth_error_In; eauto.
    - intros d Id Ed Hs. destruct (Entry d Id) as (i & x & t & t1 & El & -> & E1). unfold levels_of.
      unfold has_section in Hs. rewrite (Tab x t t1 E1) in *. destruct (assoc s t); [reflexivity|discriminate].
    - intros d Id Ed Hs Ech. destruct (Entry d Id) as (i & x & t & t1 & El & -> & E1). cbn [x_branch x_chainage with_tables] in *.
      assert (i = k) by (apply (Uniq i k (x, t) (c, tabs)); auto). subst i. rewrite Ek in El. injection El as <- <-.
      unfold values_of. rewrite (Tab c tabs t1 E1), Ht. reflexivity.
    - exists lo, hi, (map (np_interp search (qlevel tab) (qfriction tab)) (arange lo hi)), lv, vs.
      split; [exact Range|]. split; [|split; [exact G|split; assumption]].
      assert (Gt : good_table tab) by (apply (Good tabs s tab); [apply (in_map snd) in I; exact I|exact Ht]).
      apply interp_values; assumption.
  Qed.
End C89.
Print Assumptions C89_roughness_of_a_run.

(** The highest level of the section is not in the file, and a section with a
    single level in the whole run gets an empty table. *)
Theorem C89_levels_of_the_file : forall lo hi, lo <= hi ->
  Forall (fun z => lo <= z < hi) (grid lo hi) /\ (lo == hi <-> grid lo hi = []).
Proof.
  intros lo hi H. unfold grid.
  assert (D : (hi - lo) / (1 # 10) == (hi - lo) * 10) by field.
  split.
  - apply Forall_forall. intros z Hz. apply in_map_iff in Hz. destruct Hz as (k & <- & Hk). apply in_seq in Hk.
    assert (Hk' : (Z.of_nat k <= Qceiling ((hi - lo) / (1 # 10)) - 1)%Z) by lia.
    rewrite Zle_Qle in Hk'. pose proof (Qceiling_lt ((hi - lo) / (1 # 10))) as Hc.
    assert (K0 : 0 <= inject_Z (Z.of_nat k)) by (rewrite <- (Zle_Qle 0); lia).
    assert (K1 : inject_Z (Z.of_nat k) < (hi - lo) * 10) by (rewrite <- D; eapply Qle_lt_trans; [exact Hk'|exact Hc]).
    split; lra.
  - split; intro E.
    + assert (E0 : (hi - lo) / (1 # 10) == 0) by (rewrite D; lra). rewrite (Qceiling_comp _ _ E0). reflexivity.
    + apply map_eq_nil in E. assert (Z : Z.to_nat (Qceiling ((hi - lo) / (1 # 10))) = 0%nat).
      { rewrite <- (seq_length (Z.to_nat (Qceiling ((hi - lo) / (1 # 10)))) 0), E. reflexivity. }
      pose proof (Qle_ceiling ((hi - lo) / (1 # 10))) as Hc.
      assert (Z' : (Qceiling ((hi - lo) / (1 # 10)) <= 0)%Z) by lia. rewrite Zle_Qle in Z'.
      rewrite D in Hc at 1. change (inject_Z 0) with 0 in Z'. lra.
Qed.
Print Assumptions C89_levels_of_the_file.

(** A run with two cross-sections on one branch. *)
Definition case_run : list (xs * tables) :=
  [(mk_xs (T "waal_1000.0") (T "waal") (Fin 1000) [] [] [] NaN NaN NaN NaN NaN [] [] (x_volumes example_low),
    [("main"%string, Build_qtable [0; 1#5] [40; 44])]);
   (mk_xs (T "waal_2000.0") (T "waal") (Fin 2000) [] [] [] NaN NaN NaN NaN NaN [] [] (x_volumes example_low),
    [("main"%string, Build_qtable [1#10; 3#10] [30; 20])])].
Theorem C89_case :
  match get_roughness_info read_number (fun x => x)
          (roughness_file (show_num 3) (show_num 3) (finalised (fun xp x => scan xp x 0) case_run) (T "Main")) (T "waal_2000.0") with
  | Ok (Some lv, Some vs) => map (fun x => match x with Fin q => Qred q | _ => 0 end) lv = [0; 1#10; 1#5]%Q /\
                             map (fun x => match x with Fin q => Qred q | _ => 0 end) vs = [30; 30; 25]%Q
  | _ => False
  end.
Proof. vm_compute. split; reflexivity. Qed.
Print Assumptions C89_case.
