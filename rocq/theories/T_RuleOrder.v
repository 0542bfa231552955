(** C133: the order of the lines and of the exceptions in a branch rule file. *)
From Coq Require Import String List Ascii ZArith QArith Bool Lia Permutation.
From Verif Require Import PyBase Num L_List Text L_Text Fixed M_Ini L_Ini M_Import M_Friction M_Network L_Network T_Rules T_Exceptions L_Same.
Import ListNotations.

(** ** Specification *)

(** A rule: the branch, its rule and its exceptions. *)
Definition rule := (text * (text * list text))%type.
(** What a line of the file says; IndexError if it has no comma. *)
Definition rule_of (line : text) : res rule :=
  let parts := split_on "," (strip line) in
  b <- py_index parts 0 ;;
  r <- py_index parts 1 ;;
  Ok (strip b, (strip r, map strip (skipn 2 parts))).
Definition rules_of (content : text) : list (res rule) := map rule_of (filter (fun l => Nat.ltb 1 (length l)) (raw_lines content)).
(** The same branch and rule, and the exceptions in another order. *)
Definition same_exceptions (v w : text * list text) : Prop := fst v = fst w /\ Permutation (snd v) (snd w).
Definition same_rule (p q : rule) : Prop := fst p = fst q /\ same_exceptions (snd p) (snd q).
(** Two files with the same rules in another order. *)
Definition same_rules (l l' : list (res rule)) : Prop := exists k, Permutation l k /\ Forall2 (res_rel same_rule) k l'.
(** No branch has two rules. *)
Fixpoint branches (l : list (res rule)) : list text :=
  match l with [] => [] | Ok p :: l' => fst p :: branches l' | Raise _ :: l' => branches l' end.
(** Two tables in which every branch has the same rule. *)
Definition same_lookup (d d' : rules) : Prop :=
  forall id, match tassoc d id, tassoc d' id with Some v, Some w => same_exceptions v w | None, None => True | _, _ => False end.

(** ** The exceptions of a branch *)

Lemma insert_down_swap x y l : insert_down x (insert_down y l) = insert_down y (insert_down x l).
Proof.
  induction l as [|a l IH]; cbn [insert_down].
  - destruct (Nat.leb x y) eqn:A, (Nat.leb y x) eqn:B; try reflexivity.
    + apply Nat.leb_le in A, B. assert (x = y) by lia. subst. reflexivity.
    + apply Nat.leb_gt in A, B. lia.
  - destruct (Nat.leb y a) eqn:YA, (Nat.leb x a) eqn:XA; cbn [insert_down]; rewrite ?XA, ?YA.
    + rewrite IH. reflexivity.
    + replace (Nat.leb y x) with true; [cbn [insert_down]; rewrite ?YA; reflexivity|]. symmetry. apply Nat.leb_le. apply Nat.leb_le in YA. apply Nat.leb_gt in XA. lia.
    + replace (Nat.leb x y) with true; [cbn [insert_down]; rewrite ?XA; reflexivity|]. symmetry. apply Nat.leb_le. apply Nat.leb_le in XA. apply Nat.leb_gt in YA. lia.
    + destruct (Nat.leb x y) eqn:A, (Nat.leb y x) eqn:B; cbn [insert_down]; rewrite ?XA, ?YA; try reflexivity.
      * apply Nat.leb_le in A, B. assert (x = y) by lia. subst. reflexivity.
      * apply Nat.leb_gt in A, B. lia.
Qed.
Lemma sorted_down_same l l' : Permutation l l' -> sorted_down l = sorted_down l'.
Proof.
  unfold sorted_down. induction 1 as [|x l l' P IH|x y l|a b c P1 IH1 P2 IH2]; cbn [fold_right]; [reflexivity|rewrite IH; reflexivity|apply insert_down_swap|congruence].
Qed.
(** A loop in which only one kind of exception occurs. *)
Lemma map_res_order {A B} (f : A -> res B) e : (forall x e', f x = Raise e' -> e' = e) -> forall l l', Permutation l l' ->
  res_rel (@Permutation B) (map_res f l) (map_res f l').
Proof.
  intro H. assert (E : forall l e', map_res f l = Raise e' -> e' = e).
  { induction l as [|x l IH]; intros e' X; [discriminate|]. cbn [map_res] in X. destruct (f x) eqn:F; [|injection X as <-; apply (H x), F].
    destruct (map_res f l); [discriminate|]. injection X as <-. apply IH. reflexivity. }
  intros l l' P. induction P as [|x l l' P IH|x y l|a b c P1 IH1 P2 IH2]; cbn [map_res].
  - apply Permutation_refl.
  - destruct (f x); [|reflexivity]. destruct (map_res f l), (map_res f l'); cbn [res_rel] in *; try contradiction; [apply perm_skip, IH|exact IH].
  - specialize (E l). destruct (f y) eqn:Y, (f x) eqn:X; destruct (map_res f l); cbn [res_rel]; try apply perm_swap; try reflexivity;
      repeat match goal with J : f _ = Raise _ |- _ => apply H in J; subst end; try reflexivity;
      try (rewrite (E _ eq_refl); reflexivity); try (symmetry; apply E; reflexivity).
  - destruct (map_res f a), (map_res f b), (map_res f c); cbn [res_rel] in *; try contradiction; [eapply Permutation_trans; eassumption|congruence].
Qed.
Lemma index_of_error c l e : index_of c l = Raise e -> e = ValueError.
Proof.
  revert e. induction l as [|x l IH]; intros e H; cbn [index_of] in H; [injection H as <-; reflexivity|].
  destruct (teqb x c); [discriminate|]. destruct (index_of c l); [discriminate|]. cbn [bind] in H. injection H as <-. apply IH. reflexivity.
Qed.
Lemma exceptions_order ex ex' b : Permutation ex ex' -> apply_branch_exceptions ex b = apply_branch_exceptions ex' b.
Proof.
  intro P. unfold apply_branch_exceptions.
  pose proof (map_res_order (fun e => index_of e (b_cid b)) ValueError (fun x e => index_of_error x (b_cid b) e) ex ex' P) as M.
  destruct (map_res _ ex), (map_res _ ex'); cbn [res_rel] in M; try contradiction; [|subst; reflexivity]. cbn [bind]. rewrite (sorted_down_same _ _ M). reflexivity.
Qed.

(** ** Tables of rules *)

Lemma apply_rules_same d d' id b : same_lookup d d' -> apply_rules d id b = apply_rules d' id b.
Proof.
  intro S. specialize (S id). unfold apply_rules. destruct (tassoc d id) as [[r ex]|], (tassoc d' id) as [[r' ex']|]; try contradiction; [|reflexivity].
  destruct S as [E P]. cbn [fst snd] in *. subst r'. destruct (if nonempty r then _ else _) as [b1|]; [|reflexivity]. cbn [bind].
  replace (nonempty_list ex') with (nonempty_list ex).
  - destruct (nonempty_list ex); [|reflexivity]. rewrite (exceptions_order ex ex' b1 P). reflexivity.
  - destruct ex as [|e ex]; [apply Permutation_nil in P; subst; reflexivity|]. destruct ex'; [apply Permutation_sym, Permutation_nil in P; discriminate|reflexivity].
Qed.
Lemma network_same read_float search d d' : same_lookup d d' -> forall fuel lines t acc,
  parse_network read_float search fuel d lines t acc = parse_network read_float search fuel d' lines t acc.
Proof.
  intro S. induction fuel as [|fuel IH]; intros lines t acc; [reflexivity|]. cbn [parse_network]. destruct lines as [|l lines]; [reflexivity|].
  destruct (teqb _ _); [|apply IH].
  assert (R : forall i k t', read_branch read_float search d i k t' = read_branch read_float search d' i k t').
  { intros i k t'. unfold read_branch. destruct (py_index _ 1); [|reflexivity]. cbn [bind]. destruct (fold_res _ _ _); [|reflexivity]. cbn [bind].
    destruct (of_option _ _); [|reflexivity]. cbn [bind]. destruct (of_option _ _); [|reflexivity]. cbn [bind]. destruct (of_option _ _); [|reflexivity]. cbn [bind].
    destruct (of_option _ _); [|reflexivity]. cbn [bind]. destruct (of_option _ _); [|reflexivity]. cbn [bind]. destruct (move_ends _ _ _ _); [|reflexivity]. cbn [bind].
    rewrite (apply_rules_same d d' _ _ S). reflexivity. }
  rewrite R. destruct (read_branch _ _ _ _ _ _) as [[b t']|]; [|reflexivity]. cbn [bind]. apply IH.
Qed.

(** ** Reading the rules *)

Lemma rule_line_of d line : rule_line d line = (p <- rule_of line ;; Ok (tassoc_set d (fst p) (snd p))).
Proof. unfold rule_line, rule_of. cbv zeta. destruct (py_index _ 0); [|reflexivity]. cbn [bind]. destruct (py_index _ 1); reflexivity. Qed.
Lemma rule_error line e : rule_of line = Raise e -> e = IndexError.
Proof.
  unfold rule_of. cbv zeta. unfold py_index. intro H.
  repeat (match type of H with context [if ?b then _ else _] => destruct b | context [match ?m with _ => _ end] => destruct m end; cbn [bind] in H; try discriminate);
    try (injection H as <-; reflexivity).
Qed.
Lemma fold_rules ls : forall d, match map_res (fun p => p) (map rule_of ls) with
  | Ok ps => fold_res rule_line ls d = Ok (fold_left (fun d p => tassoc_set d (fst p) (snd p)) ps d)
  | Raise _ => fold_res rule_line ls d = Raise IndexError end.
Proof.
  induction ls as [|l ls IH]; intro d; [reflexivity|]. cbn [map map_res fold_res]. rewrite rule_line_of. destruct (rule_of l) as [p|e] eqn:E; cbn [bind].
  - specialize (IH (tassoc_set d (fst p) (snd p))). destruct (map_res (fun p => p) (map rule_of ls)); [|exact IH]. cbn [fold_left]. exact IH.
  - apply rule_error in E. subst e. reflexivity.
Qed.
Lemma table_lookup (ps : list rule) : NoDup (map fst ps) -> forall d id,
  tassoc (fold_left (fun d p => tassoc_set d (fst p) (snd p)) ps d) id = match tassoc ps id with Some v => Some v | None => tassoc d id end.
Proof.
  induction ps as [|[b v] ps IH]; intros N d id; [reflexivity|]. cbn [map fst] in N. inversion N as [|? ? Nb N']; subst. cbn [fold_left fst snd tassoc]. rewrite IH by exact N'.
  destruct (teqb_spec b id) as [->|D].
  - rewrite (proj2 (tassoc_None ps id) Nb), tassoc_set_same. reflexivity.
  - rewrite tassoc_set_other by exact D. reflexivity.
Qed.
Lemma branches_ok l ps : map_res (fun p => p) l = Ok ps -> branches l = map fst ps.
Proof.
  revert ps. induction l as [|[p|e] l IH]; intros ps H; cbn [map_res branches] in *; [injection H as <-; reflexivity| |discriminate].
  destruct (map_res (fun p => p) l); [|discriminate]. injection H as <-. cbn [map]. rewrite (IH _ eq_refl). reflexivity.
Qed.
Lemma values_F2 k l' : Forall2 (res_rel same_rule) k l' -> res_rel (Forall2 same_rule) (map_res (fun p => p) k) (map_res (fun p => p) l').
Proof.
  induction 1 as [|x y k l' E F IH]; [apply Forall2_nil|]. cbn [map_res]. destruct x, y; cbn [res_rel] in E; try contradiction; [|exact E].
  destruct (map_res (fun p => p) k), (map_res (fun p => p) l'); cbn [res_rel] in *; try contradiction; [apply Forall2_cons; assumption|exact IH].
Qed.

(** ** C133 *)

(** Either both files are refused, or every branch has the same rule. *)
Theorem C133_rule_file :
  forall content content', same_rules (rules_of content) (rules_of content') -> NoDup (branches (rules_of content)) ->
    match parse_rule_file content, parse_rule_file content' with
    | Ok d, Ok d' => same_lookup d d'
    | Raise e, Raise e' => e = e'
    | _, _ => False
    end.
Proof.
  intros content content' (k & P & F) N. unfold parse_rule_file.
  pose proof (fold_rules (filter (fun l => Nat.ltb 1 (length l)) (raw_lines content)) []) as A.
  pose proof (fold_rules (filter (fun l => Nat.ltb 1 (length l)) (raw_lines content')) []) as A'.
  fold (rules_of content) in A. fold (rules_of content') in A'.
  assert (H : forall x e, In (Raise e) (rules_of x) -> e = IndexError).
  { intros x e I. unfold rules_of in I. apply in_map_iff in I. destruct I as (l & E & _). apply (rule_error l), E. }
  assert (M : match map_res (fun p => p) (rules_of content), map_res (fun p => p) k with Ok a, Ok b => Permutation a b | Raise _, Raise _ => True | _, _ => False end).
  { clear - P. induction P as [|x l l' P IH|x y l|a b c P1 IH1 P2 IH2]; cbn [map_res].
    - apply Permutation_refl.
    - destruct x; [|exact Logic.I]. destruct (map_res (fun p => p) l), (map_res (fun p => p) l'); try contradiction; [apply perm_skip, IH|exact Logic.I].
    - destruct x, y; destruct (map_res (fun p => p) l); try exact Logic.I; apply perm_swap.
    - destruct (map_res (fun p => p) a), (map_res (fun p => p) b), (map_res (fun p => p) c); try contradiction; [eapply Permutation_trans; eassumption|exact Logic.I]. }
  pose proof (values_F2 k (rules_of content') F) as V.
  destruct (map_res (fun p => p) (rules_of content)) as [ps|e] eqn:E, (map_res (fun p => p) k) as [qs|e1]; try contradiction;
    destruct (map_res (fun p => p) (rules_of content')) as [rs|e2]; cbn [res_rel] in V; try contradiction; rewrite A, A'; [|reflexivity].
  rewrite (branches_ok _ _ E) in N. pose proof (Permutation_NoDup (Permutation_map fst M) N) as N1.
  assert (K : map fst rs = map fst qs) by (clear - V; induction V as [|p q qs rs [X _] V IH]; [reflexivity|]; cbn [map]; rewrite X, IH; reflexivity).
  intro id. rewrite (table_lookup ps N), (table_lookup rs) by (rewrite K; exact N1).
  assert (L : tassoc ps id = tassoc qs id).
  { destruct (tassoc ps id) as [v|] eqn:X.
    - apply tassoc_In in X. symmetry. apply tassoc_complete; [exact N1|]. apply (Permutation_in _ M), X.
    - apply tassoc_None in X. symmetry. apply tassoc_None. intro I. apply X. apply (Permutation_in _ (Permutation_sym (Permutation_map fst M))), I. }
  rewrite L. clear - V. induction V as [|[b v] [b' w] qs rs [X Y] V IH]; [exact Logic.I|]. cbn [fst snd tassoc] in *. subst b'. destruct (teqb b id); [exact Y|exact IH].
Qed.
Print Assumptions C133_rule_file.

(** The locations that are generated with the two files. *)
Theorem C133_locations :
  forall read_float search network content content', same_rules (rules_of content) (rules_of content') -> NoDup (branches (rules_of content)) ->
    (d <- parse_rule_file content ;; b <- parse_network_file read_float search d network ;; write_locations b) =
    (d <- parse_rule_file content' ;; b <- parse_network_file read_float search d network ;; write_locations b).
Proof.
  intros read_float search network content content' S N. pose proof (C133_rule_file content content' S N) as R.
  destruct (parse_rule_file content) as [d|], (parse_rule_file content') as [d'|]; try contradiction; [|subst; reflexivity]. cbn [bind].
  unfold parse_network_file. cbv zeta. rewrite (network_same read_float search d d' R). reflexivity.
Qed.
Print Assumptions C133_locations.

(** A branch with two rules: the later line counts. *)
Theorem C133_two_rules_matter :
  exists c c', Permutation (rules_of c) (rules_of c') /\ ~ NoDup (branches (rules_of c)) /\
    (d <- parse_rule_file c ;; Ok (tassoc d (T "waal"))) <> (d <- parse_rule_file c' ;; Ok (tassoc d (T "waal"))).
Proof.
  exists (T "waal,onlyedges" ++ [newline] ++ T "waal,onlyfirst"), (T "waal,onlyfirst" ++ [newline] ++ T "waal,onlyedges").
  split; [vm_compute; apply perm_swap|]. split; [|vm_compute; discriminate].
  vm_compute. intro N. inversion N as [|? ? H _]. apply H. left. reflexivity.
Qed.
Print Assumptions C133_two_rules_matter.

(** Two files with blanks, a line without rule, and exceptions in two orders. *)
Theorem C133_case :
  let c := T "waal, onlyedges" ++ [newline] ++ T "lek,,a,b" ++ [newline] in
  let c' := T "lek, , b ,a" ++ [newline] ++ T "waal,onlyedges" in
  same_rules (rules_of c) (rules_of c') /\ NoDup (branches (rules_of c)) /\
  (exists d d', parse_rule_file c = Ok d /\ parse_rule_file c' = Ok d' /\ d <> d' /\ tassoc d (T "waal") = tassoc d' (T "waal") /\
     tassoc d (T "lek") = Some ([], [T "a"; T "b"]) /\ tassoc d' (T "lek") = Some ([], [T "b"; T "a"])).
Proof.
  cbv zeta. split; [|split].
  - exists [Ok (T "lek", ([], [T "a"; T "b"])); Ok (T "waal", (T "onlyedges", []))]. split; [vm_compute; apply perm_swap|].
    match goal with |- Forall2 _ _ ?l => let v := eval vm_compute in l in change l with v end.
    apply Forall2_cons; [|apply Forall2_cons; [|apply Forall2_nil]]; (split; [reflexivity|]; split; [reflexivity|]); [apply perm_swap|apply perm_nil].
  - vm_compute. apply NoDup_cons; [intros [H|[]]; discriminate H|]. apply NoDup_cons; [intros []|apply NoDup_nil].
  - eexists. eexists. split; [vm_compute; reflexivity|]. split; [vm_compute; reflexivity|]. split; [discriminate|]. repeat split; vm_compute; reflexivity.
Qed.
Print Assumptions C133_case.
