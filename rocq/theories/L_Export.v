(** Lemmas on the texts of exported files: numbers, lines [key = value], the
    lines of a file written in pieces. *)
From Coq Require Import String List Ascii ZArith QArith Bool Lia.
From Verif Require Import PyBase Num Spec L_Num L_List Text L_Text Fixed L_Fixed M_Ini M_Import T_Import
  M_Friction M_Network L_Network T_NetFile M_Export.
Import ListNotations.
Local Open Scope char_scope.

(** ** Numbers in texts *)

(** Equal as numbers. *)
Definition same (x y : num) : Prop :=
  match x, y with
  | Fin a, Fin b => (a == b)%Q
  | NaN, NaN | PInf, PInf | NInf, NInf => True
  | _, _ => False
  end.

Lemma same_refl x : same x x.
Proof. destruct x; cbn; auto. reflexivity. Qed.
Lemma same_trans x y z : same x y -> same y z -> same x z.
Proof. destruct x, y, z; cbn; try tauto. intros A B. rewrite A. auto. Qed.
Lemma same_sym x y : same x y -> same y x.
Proof. destruct x, y; cbn; try tauto. intro A. rewrite A. reflexivity. Qed.

(** The characters that Python uses to write a float. *)
Definition number_char (c : ascii) : Prop := In c (T "0123456789.-+einfa").
Definition number_text (t : text) : Prop := t <> [] /\ Forall number_char t.

(** What is assumed of Python's conversions between floats and texts.
    [double] are the values that a float can have, [rnd] is the float nearest
    to a decimal number. *)
Record float_codec (double : num -> Prop) (rnd : Q -> num)
    (show_float : num -> text) (read_float : text -> option num) : Prop := {
  fc_text : forall x, number_text (show_float x);
  fc_repr : forall x, double x -> exists v, read_float (show_float x) = Some v /\ same v x;
  fc_decimal : forall t q, read_decimal t = Some q -> read_float t = Some (rnd q);
  fc_proper : forall a b, (a == b)%Q -> same (rnd a) (rnd b);
  fc_nan : read_float (T "nan") = Some NaN;
  fc_inf : read_float (T "inf") = Some PInf;
  fc_ninf : read_float (T "-inf") = Some NInf }.

(** [v] is read where [x] was written with [d] decimals. *)
Definition printed (rnd : Q -> num) (d : nat) (x v : num) : Prop :=
  match x with Fin q => same v (rnd (rounded d q)) | _ => v = x end.

Lemma number_char_facts c : number_char c ->
  is_space c = false /\ c <> "=" /\ c <> "," /\ c <> newline /\ lower_char c = c /\ c <> "[" /\ c <> "_".
Proof.
  unfold number_char. change (T "0123456789.-+einfa") with
    ["0";"1";"2";"3";"4";"5";"6";"7";"8";"9";".";"-";"+";"e";"i";"n";"f";"a"]. cbn [In].
  intro H. repeat (destruct H as [<-|H]; [repeat split; try reflexivity; try discriminate|]). destruct H.
Qed.

Lemma fixed_number_char c : fixed_char c -> number_char c.
Proof.
  intros [H|[->| ->]].
  - unfold digit_char, between in H. apply andb_true_iff in H. destruct H as [H1 H2].
    apply N.leb_le in H1, H2. rewrite <- (ascii_N_embedding c). set (n := N_of_ascii c) in *. clearbody n. clear c.
    assert (n = 48 \/ n = 49 \/ n = 50 \/ n = 51 \/ n = 52 \/ n = 53 \/ n = 54 \/ n = 55 \/ n = 56 \/ n = 57)%N by lia.
    clear H1 H2. do 9 (destruct H as [->|H]; [vm_compute; tauto|]). subst n. vm_compute. tauto.
  - vm_compute. tauto.
  - vm_compute. tauto.
Qed.

Lemma show_num_text d x : number_text (show_num d x).
Proof.
  assert (L : forall t, t <> [] -> forallb (char_in (T "0123456789.-+einfa")) t = true -> number_text t).
  { intros t N H. split; auto. apply Forall_forall. intros c I.
    rewrite forallb_forall in H. apply H in I. unfold char_in in I. apply existsb_exists in I.
    destruct I as (y & I & E). apply Ascii.eqb_eq in E. subst. auto. }
  destruct x as [q| | |]; cbn [show_num]; try (apply L; [discriminate|reflexivity]).
  split.
  - unfold show_fixed. destruct (Qltb q 0); [discriminate|]. pose proof (show_Z_nonempty (Z.abs (scaled d q) / pow10 d)) as H.
    destruct (show_Z _); [congruence|discriminate].
  - eapply Forall_impl; [|apply show_fixed_chars]. intros c. apply fixed_number_char.
Qed.

Lemma number_free c t : ~ number_char c -> number_text t -> free c t.
Proof. intros N [_ F] I. rewrite Forall_forall in F. auto. Qed.
Lemma number_no_space t : number_text t -> no_space t.
Proof. intros [N F]. split; auto. eapply Forall_impl; [|exact F]. intros c H. apply number_char_facts in H. tauto. Qed.
Lemma number_trimmed t : number_text t -> trimmed t.
Proof. intro H. apply number_no_space in H. apply Forall_trimmed. apply H. Qed.
Lemma number_lower t : number_text t -> lower t = t.
Proof.
  intros [_ F]. unfold lower. rewrite <- (map_id t) at 2. apply map_ext_in. intros c I.
  rewrite Forall_forall in F. apply F, number_char_facts in I. tauto.
Qed.

Lemma not_number_eq : ~ number_char "=".
Proof. intro H. apply number_char_facts in H. intuition. Qed.
Lemma not_number_comma : ~ number_char ",".
Proof. intro H. apply number_char_facts in H. intuition. Qed.
Lemma not_number_newline : ~ number_char newline.
Proof. intro H. apply number_char_facts in H. intuition. Qed.

Section Codec.
  Context {double : num -> Prop} {rnd : Q -> num} {show_float : num -> text} {read_float : text -> option num}.
  Hypothesis FC : float_codec double rnd show_float read_float.

  Lemma read_show_num d x : d <> O -> exists v, float_of read_float (show_num d x) = Ok v /\ printed rnd d x v.
  Proof.
    intro Hd. unfold float_of. destruct x as [q| | |]; cbn [show_num printed].
    - destruct (read_show_fixed d q Hd) as (v & E & Hv). apply (fc_decimal _ _ _ _ FC) in E. rewrite E.
      exists (rnd v). split; auto. apply (fc_proper _ _ _ _ FC). auto.
    - rewrite (fc_nan _ _ _ _ FC). exists NaN. split; reflexivity.
    - rewrite (fc_inf _ _ _ _ FC). exists PInf. split; reflexivity.
    - rewrite (fc_ninf _ _ _ _ FC). exists NInf. split; reflexivity.
  Qed.

  Lemma read_show_float x : double x -> exists v, float_of read_float (show_float x) = Ok v /\ same v x.
  Proof.
    intro D. destruct (fc_repr _ _ _ _ FC x D) as (v & E & S). exists v. unfold float_of. rewrite E. auto.
  Qed.

  Lemma words_numbers ts : Forall number_text ts -> words (join (T " ") ts) = ts.
  Proof.
    intro F. unfold words. rewrite words_join; [|eapply Forall_impl; [apply number_no_space|exact F]|auto].
    destruct ts; reflexivity.
  Qed.

  Lemma read_numbers {A} (show : A -> text) (R : A -> num -> Prop) l :
    (forall x, In x l -> number_text (show x) /\ exists v, float_of read_float (show x) = Ok v /\ R x v) ->
    exists vs, floats_of read_float (join (T " ") (map show l)) = Ok vs /\ Forall2 R l vs.
  Proof.
    intro H. unfold floats_of. rewrite words_numbers.
    2: { apply Forall_forall. intros t I. apply in_map_iff in I. destruct I as (x & <- & I). apply H; auto. }
    induction l as [|x l IH]; cbn [map map_res].
    - exists []. auto.
    - destruct (H x (or_introl eq_refl)) as (_ & v & -> & Rv).
      destruct IH as (vs & -> & F); [intros; apply H; right; auto|]. exists (v :: vs). auto.
  Qed.
End Codec.

Lemma numbers_trimmed ts : Forall number_text ts -> trimmed (join (T " ") ts).
Proof.
  intro F. destruct ts as [|t ts]; [apply trimmedb_trimmed; reflexivity|].
  split.
  - intros c t' E. inversion F as [|? ? [Nt Ft] F']; subst.
    assert (exists u, join (T " ") (t :: ts) = t ++ u) as (u & J).
    { destruct ts; [exists []; cbn; rewrite app_nil_r; auto|]. eexists. reflexivity. }
    rewrite J in E. destruct t as [|a t]; [congruence|]. cbn in E. injection E as -> _.
    inversion Ft as [|? ? Ha _]; subst. apply number_char_facts in Ha. tauto.
  - revert t F. induction ts as [|t2 ts IH]; intros t F c t' E.
    + cbn in E. inversion F as [|? ? [Nt Ft] _]; subst. apply Forall_app in Ft. destruct Ft as [_ Ft].
      inversion Ft as [|? ? Ha _]; subst. apply number_char_facts in Ha. tauto.
    + change (join (T " ") (t :: t2 :: ts)) with (t ++ [" "] ++ join (T " ") (t2 :: ts)) in E.
      inversion F as [|? ? _ F']; subst.
      assert (N : join (T " ") (t2 :: ts) <> []).
      { inversion F' as [|? ? [Nt _] _]; subst. destruct t2; [congruence|]. destruct ts; discriminate. }
      destruct (exists_last N) as (u & a & J). rewrite J in E. rewrite !app_assoc in E.
      apply app_inj_tail in E. destruct E as [_ <-]. eapply IH; eauto.
Qed.

Lemma numbers_free c ts : ~ number_char c -> c <> " " -> Forall number_text ts -> free c (join (T " ") ts).
Proof.
  intros N B F. apply free_join; [intros [<-|[]]; congruence|].
  eapply Forall_impl; [|exact F]. intro t. apply number_free. auto.
Qed.

(** ** Lines [key = value] *)

Lemma dropwhile_stop p u c v : p c = false -> dropwhile p (u ++ c :: v) = dropwhile p u ++ c :: v.
Proof. intro H. induction u as [|a u IH]; cbn; [rewrite H; auto|]. destruct (p a); auto. Qed.

Lemma rstrip_stop p a c w : p c = false -> rstrip_by p (a ++ c :: w) = a ++ c :: rstrip_by p w.
Proof.
  intro H. unfold rstrip_by. rewrite rev_app_distr. cbn [rev]. rewrite <- app_assoc. cbn [app].
  rewrite dropwhile_stop by auto. rewrite rev_app_distr. cbn [rev]. rewrite rev_involutive, <- app_assoc. auto.
Qed.

Definition spaces (t : text) : Prop := Forall (fun c => is_space c = true) t.

Lemma tabs_spaces n : spaces (tabs n).
Proof. unfold tabs, spaces. induction n; constructor; auto. Qed.
Lemma blanks_spaces n : spaces (blanks n).
Proof. unfold blanks, spaces. induction n; constructor; auto. Qed.

Lemma dropwhile_spaces t u : spaces t -> dropwhile is_space (t ++ u) = dropwhile is_space u.
Proof. apply dropwhile_all. Qed.

Lemma strip_head pad c t : spaces pad -> is_space c = false -> exists u, strip (pad ++ c :: t) = c :: u.
Proof.
  intros P H. unfold strip, strip_by. rewrite dropwhile_all by auto. cbn [dropwhile]. rewrite H.
  change (c :: t) with ([] ++ c :: t). rewrite rstrip_stop by auto. cbn. eauto.
Qed.

Lemma strip_eq_line pad c k w : spaces pad -> is_space c = false ->
  strip (pad ++ (c :: k) ++ "=" :: w) = (c :: k) ++ "=" :: rstrip w.
Proof.
  intros P H. unfold strip, strip_by. rewrite dropwhile_all by auto. cbn [app dropwhile]. rewrite H.
  change (c :: k ++ "=" :: w) with ((c :: k) ++ "=" :: w). rewrite rstrip_stop by reflexivity. auto.
Qed.

Lemma strip_rstrip sp v : spaces sp -> trimmed v -> strip (rstrip (sp ++ v)) = v.
Proof.
  intros S Tv. destruct v as [|c v].
  - rewrite app_nil_r. unfold rstrip. rewrite <- (app_nil_l sp). rewrite rstrip_by_all by auto. reflexivity.
  - unfold rstrip. rewrite rstrip_by_id; [apply strip_lpad; auto|].
    intros a t' E. destruct Tv as [_ H]. destruct (exists_last (l := c :: v)) as (u & b & J); [discriminate|].
    rewrite J in E. rewrite app_assoc in E. apply app_inj_tail in E. destruct E as [_ <-]. eapply H; eauto.
Qed.

(** The two pieces that the readers take from such a line. *)
Lemma split_line pad c k sp v : spaces pad -> is_space c = false -> free "=" (c :: k) ->
  spaces sp -> trimmed v -> free "=" v ->
  exists w, split_on "=" (strip (pad ++ (c :: k) ++ "=" :: sp ++ v)) = [c :: k; w] /\ strip w = v.
Proof.
  intros P H Fk S Tv Fv. rewrite strip_eq_line by auto. rewrite split_on_app by auto.
  exists (rstrip (sp ++ v)). split; [|apply strip_rstrip; auto].
  f_equal. apply split_on_free. intro I. unfold rstrip, rstrip_by in I. apply in_rev in I.
  destruct (dropwhile_suffix is_space (rev (sp ++ v))) as (u & E).
  assert (J : In "=" (rev (sp ++ v))) by (rewrite E; apply in_or_app; auto).
  apply in_rev in J. apply in_app_or in J. destruct J as [J|J]; [|apply Fv; auto].
  unfold spaces in S. rewrite Forall_forall in S. apply S in J. discriminate.
Qed.

Lemma value_of_line pad c k sp v : spaces pad -> is_space c = false -> free "=" (c :: k) ->
  spaces sp -> trimmed v -> free "=" v ->
  value_of (pad ++ (c :: k) ++ "=" :: sp ++ v) = Ok v.
Proof.
  intros P H Fk S Tv Fv. unfold value_of. destruct (split_line pad c k sp v) as (w & -> & E); auto.
  rewrite py_index_1. cbn [bind]. rewrite E. auto.
Qed.

(** ** Files written in pieces *)

Definition lns (ls : list text) : text := concat (map ln ls).

Lemma lns_cons l ls : lns (l :: ls) = ln l ++ lns ls.
Proof. reflexivity. Qed.
Lemma lns_app a b : lns (a ++ b) = lns a ++ lns b.
Proof. unfold lns. rewrite map_app, concat_app. auto. Qed.

Lemma file_lines_lns ls : Forall (free newline) ls -> file_lines (lns ls) = ls.
Proof. intro F. unfold lns. change ln with (fun l : text => l ++ [newline]). apply file_lines_concat. auto. Qed.

Lemma file_lines_last ls l : Forall (free newline) ls -> free newline l -> l <> [] ->
  file_lines (lns ls ++ l) = ls ++ [l].
Proof.
  intros F Fl N. unfold file_lines.
  assert (E : split_on newline (lns ls ++ l) = ls ++ [l]).
  { induction F as [|a ls Fa F IH]; [apply split_on_free; auto|].
    rewrite lns_cons. unfold ln. rewrite <- !app_assoc. cbn [app]. rewrite split_on_app by auto. rewrite IH. auto. }
  rewrite E, rev_app_distr. cbn [rev app]. destruct l as [|a l]; [congruence|].
  cbn [rev]. rewrite rev_involutive. auto.
Qed.

Lemma run_writes_ok ts : run_writes (map Ok ts) = (concat ts, None).
Proof. induction ts as [|t ts IH]; cbn; auto. rewrite IH. auto. Qed.

Lemma run_writes_app a b : run_writes (a ++ b) =
  match snd (run_writes a) with
  | None => (fst (run_writes a) ++ fst (run_writes b), snd (run_writes b))
  | Some e => (fst (run_writes a), Some e)
  end.
Proof.
  induction a as [|[t|e] a IH]; cbn; auto.
  - destruct (run_writes b); auto.
  - rewrite IH. destruct (run_writes a) as [u [e|]]; cbn; auto. rewrite app_assoc. auto.
Qed.

(** ** A codec that satisfies the assumptions: numbers with three decimals. *)

Definition three_decimals (x : num) : Prop := match x with Fin q => (rounded 3 q == q)%Q | _ => True end.
Definition read_number (t : text) : option num :=
  if teqb t (T "nan") then Some NaN
  else if teqb t (T "inf") then Some PInf
  else if teqb t (T "-inf") then Some NInf
  else option_map Fin (read_decimal t).

Lemma decimal_codec : float_codec three_decimals Fin (show_num 3) read_number.
Proof.
  assert (D : forall t q, read_decimal t = Some q -> read_number t = Some (Fin q)).
  { intros t q E. unfold read_number.
    destruct (teqb_spec t (T "nan")) as [->|_]; [discriminate|].
    destruct (teqb_spec t (T "inf")) as [->|_]; [discriminate|].
    destruct (teqb_spec t (T "-inf")) as [->|_]; [discriminate|]. rewrite E. auto. }
  constructor; auto.
  - apply show_num_text.
  - intros [q| | |] H; cbn [show_num].
    + destruct (read_show_fixed 3 q) as (v & E & Hv); [lia|]. exists (Fin v). split; auto. cbn in *. rewrite Hv. auto.
    + exists NaN. cbn; auto.
    + exists PInf. cbn; auto.
    + exists NInf. cbn; auto.
Qed.
