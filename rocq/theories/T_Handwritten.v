(** Theorems for C91: configuration files as written by hand. *)
From Coq Require Import String List Ascii ZArith Bool Lia.
From Verif Require Import PyBase Text L_Text M_Ini L_Ini T_Ini L_IniPrint.
Import ListNotations.
Local Open Scope char_scope.

Notation spaces t := (Forall (fun c => is_space c = true) t).

(** A file: lines before the first section, and sections with their lines.  A
    line is a note (blank or a comment) or an option with blanks around key and
    value and a remark after the value. *)
Inductive item :=
| Note (line : text)
| Opt (key blanks1 : text) (delimiter : ascii) (blanks2 value blanks3 remark : text).
Record heading := mk_heading { h_name : text; h_after : text }.
Record document := mk_document { d_notes : list text; d_sections : list (heading * list item) }.

Definition line_of (i : item) : text :=
  match i with
  | Note l => l
  | Opt k b1 d b2 v b3 r => k ++ b1 ++ d :: b2 ++ v ++ b3 ++ r
  end.
Definition heading_line (h : heading) : text := "[" :: h_name h ++ "]" :: h_after h.
Definition lines_of (doc : document) : list text :=
  d_notes doc ++ concat (map (fun s => heading_line (fst s) :: map line_of (snd s)) (d_sections doc)).
Definition text_of_document (doc : document) : text := concat (map (fun l => l ++ [newline]) (lines_of doc)).

Definition options (l : list item) : list (text * text) :=
  concat (map (fun i => match i with Note _ => [] | Opt k _ _ _ v _ _ => [(lower k, v)] end) l).

(** The rules of the format. *)
Definition note (l : text) : Prop :=
  free newline l /\ (spaces l \/ exists b c r, l = b ++ c :: r /\ spaces b /\ (c = "#" \/ c = ";")).
Definition good_item (i : item) : Prop :=
  match i with
  | Note l => note l
  | Opt k b1 d b2 v b3 r =>
      good_key k /\ clean v /\ spaces b1 /\ spaces b2 /\ spaces b3 /\ free newline (b1 ++ b2 ++ b3 ++ r) /\
      (d = "=" \/ d = ":") /\ (r = [] \/ exists r', r = "#" :: r') /\ free "%" r
  end.
Definition good_heading (h : heading) : Prop :=
  h_name h <> [] /\ free newline (h_name h ++ h_after h) /\ free "]" (h_after h).
Definition well_formed (doc : document) : Prop :=
  Forall note (d_notes doc) /\
  Forall (fun s => good_heading (fst s) /\ Forall good_item (snd s) /\ NoDup (map fst (options (snd s)))) (d_sections doc) /\
  NoDup (map (fun s => lower (h_name (fst s))) (d_sections doc)).

(** What the file says: the options of every section, followed by those of the
    section DEFAULT that the section does not have itself. *)
Definition is_default (s : heading * list item) : bool := teqb (h_name (fst s)) (T "DEFAULT").
Definition defaults_of (doc : document) : list (text * text) :=
  concat (map (fun s => options (snd s)) (filter is_default (d_sections doc))).
Definition inherited (defaults own : list (text * text)) : list (text * text) :=
  filter (fun kv => negb (existsb (fun o => teqb (fst o) (fst kv)) own)) defaults.
Definition meaning (doc : document) : inidict :=
  map (fun s => (lower (h_name (fst s)), options (snd s) ++ inherited (defaults_of doc) (options (snd s))))
    (filter (fun s => negb (is_default s)) (d_sections doc)).

(** * Lines *)

Lemma spaces_strip t : spaces t -> strip t = [].
Proof.
  intro H. rewrite <- (app_nil_r t). apply (strip_lpad t []); [exact H|]. split; intros c t' E; [discriminate|].
  destruct t'; discriminate.
Qed.

Lemma spaces_lstrip a t : spaces a -> dropwhile is_space (a ++ t) = dropwhile is_space t.
Proof. induction 1 as [|c a H _ IH]; cbn [app dropwhile]; [reflexivity|]. rewrite H. exact IH. Qed.

(** A note changes nothing, except that a blank line continues the value of the
    option before. *)
Lemma parse_note S cur o l : note l ->
  parse_line (mk_pstate S cur o 0 false) l = Ok (mk_pstate S cur o 0 false) \/
  exists s x, cur = Some s /\ o = Some x /\
    parse_line (mk_pstate S cur o 0 false) l = Ok (mk_pstate (append_value S s x []) cur o 0 false).
Proof.
  intros [_ [H|(b & c & r & -> & Hb & Hc)]].
  - unfold parse_line. rewrite (spaces_strip l H). cbn [startswith T orb list_ascii_of_string ps_cur ps_opt ps_sections ps_indent ps_error negb andb].
    destruct cur as [s|]; [|left; reflexivity]. destruct o as [x|]; [|left; reflexivity].
    destruct (nonempty x); [|left; reflexivity]. right. exists s, x. auto.
  - left. unfold parse_line.
    assert (Hs : is_space c = false) by (destruct Hc as [-> | ->]; reflexivity).
    assert (E : dropwhile is_space b = []) by (rewrite <- (app_nil_r b), spaces_lstrip by exact Hb; reflexivity).
    assert (Es : strip (b ++ c :: r) = c :: rstrip_by is_space r) by (unfold strip; rewrite strip_by_app by exact Hs; rewrite E; reflexivity).
    rewrite Es.
    assert (C : startswith (T "#") (c :: rstrip_by is_space r) || startswith (T ";") (c :: rstrip_by is_space r) = true)
      by (destruct Hc as [-> | ->]; reflexivity).
    cbv zeta. rewrite C. cbn [negb andb ps_cur ps_opt]. destruct cur, o; reflexivity.
Qed.

(** The value as the parser keeps it. *)
Definition kept (b2 v b3 r : text) : text := strip (b2 ++ v ++ b3 ++ r).

Lemma split_option_delimiter a d b : free "=" a -> free ":" a -> d = "=" \/ d = ":" -> split_option (a ++ d :: b) = Some (a, b).
Proof.
  intros H1 H2 Hd. induction a as [|x a IH]; cbn [app split_option].
  - destruct Hd as [-> | ->]; reflexivity.
  - destruct (Ascii.eqb_spec x "=") as [->|]; [exfalso; apply H1; left; auto|].
    destruct (Ascii.eqb_spec x ":") as [->|]; [exfalso; apply H2; left; auto|]. cbn [orb].
    rewrite IH; [reflexivity| |]; intros H; [apply H1|apply H2]; right; auto.
Qed.

Lemma free_spaces c a : is_space c = false -> spaces a -> free c a.
Proof. intros Hc H I. rewrite Forall_forall in H. specialize (H c I). congruence. Qed.

Lemma parse_option (S : list (text * rawsec)) n (R : rawsec) o k b1 d b2 v b3 r :
  good_item (Opt k b1 d b2 v b3 r) -> tassoc S n = None -> tassoc R (lower k) = None ->
  parse_line (mk_pstate (S ++ [(n, R)]) (Some n) o 0 false) (line_of (Opt k b1 d b2 v b3 r)) =
  Ok (mk_pstate (S ++ [(n, R ++ [(lower k, [kept b2 v b3 r])])]) (Some n) (Some (lower k)) 0 false).
Proof.
  intros ([K1 [K2 K2'] K3 K4 K5 K6] & V & B1 & B2 & B3 & N & Hd & _) Hn Hr.
  set (w := b2 ++ v ++ b3 ++ r).
  assert (E : line_of (Opt k b1 d b2 v b3 r) = (k ++ b1) ++ d :: w) by (cbn [line_of]; rewrite <- app_assoc; reflexivity).
  rewrite E. destruct k as [|x k]; [congruence|]. destruct (K6 x k eq_refl) as (X1 & X2 & X3).
  assert (Hx : is_space x = false) by (eapply K2; eauto).
  assert (Sd : is_space d = false) by (destruct Hd as [-> | ->]; reflexivity).
  assert (Ek : dropwhile is_space ((x :: k) ++ b1) = (x :: k) ++ b1) by (cbn [app dropwhile]; rewrite Hx; reflexivity).
  assert (Es : strip (((x :: k) ++ b1) ++ d :: w) = ((x :: k) ++ b1) ++ d :: rstrip_by is_space w).
  { unfold strip. rewrite strip_by_app by exact Sd. rewrite Ek. reflexivity. }
  unfold parse_line. rewrite Es. cbv zeta. set (body := ((x :: k) ++ b1) ++ d :: rstrip_by is_space w).
  assert (Eb : exists b, body = x :: b) by (eexists; reflexivity). destruct Eb as [b Eb].
  assert (C1 : startswith (T "#") body = false) by (rewrite Eb; apply startswith_head; congruence).
  assert (C2 : startswith (T ";") body = false) by (rewrite Eb; apply startswith_head; congruence).
  rewrite C1, C2. cbn [orb negb]. rewrite Eb at 1. cbn [ps_sections ps_cur ps_opt ps_indent ps_error].
  assert (Ei : indent_of (((x :: k) ++ b1) ++ d :: w) = 0) by (cbn [app indent_of]; rewrite Hx; reflexivity).
  rewrite Ei. cbn [Nat.ltb Nat.leb].
  replace (match o with Some o0 => if nonempty o0 && false then Some (n, o0) else None | None => None end)
    with (@None (text * text)) by (destruct o as [o0|]; auto; destruct (nonempty o0); auto).
  assert (Eh : section_header body = None).
  { rewrite Eb. clear - X3. destruct x as [[] [] [] [] [] [] [] []]; try reflexivity. congruence. }
  rewrite Eh. unfold body at 1. rewrite split_option_delimiter; [| | |exact Hd].
  2:{ apply free_app; [exact K4|]. apply free_spaces; [reflexivity|exact B1]. }
  2:{ apply free_app; [exact K5|]. apply free_spaces; [reflexivity|exact B1]. }
  assert (Er : rstrip ((x :: k) ++ b1) = x :: k).
  { unfold rstrip. rewrite rstrip_by_all by exact B1. apply rstrip_by_id. exact K2'. }
  rewrite Er. rewrite tassoc_app, Hn. cbn [tassoc]. rewrite teqb_refl. rewrite Hr.
  rewrite tassoc_set_last by auto. rewrite tassoc_set_fresh by auto. cbn [nonempty negb orb].
  assert (Ev : strip (rstrip_by is_space w) = kept b2 v b3 r).
  { unfold kept. fold w. unfold strip, strip_by. clear.
    (* stripping on the right before stripping on both sides *)
    assert (G : forall t, rstrip_by is_space (dropwhile is_space (rstrip_by is_space t)) = rstrip_by is_space (dropwhile is_space t)).
    { intro t. destruct (Forall_dec (fun c => is_space c = true) (fun c => bool_dec (is_space c) true) t) as [A|A].
      - assert (E : rstrip_by is_space t = []).
        { rewrite <- (app_nil_l t). rewrite rstrip_by_all by exact A. reflexivity. }
        rewrite E. assert (E' : dropwhile is_space t = []) by (rewrite <- (app_nil_r t), spaces_lstrip by exact A; reflexivity).
        rewrite E'. reflexivity.
      - assert (X : exists a c b, t = a ++ c :: b /\ is_space c = false).
        { induction t as [|x t IH]; [exfalso; apply A; constructor|]. destruct (is_space x) eqn:Ex.
          - destruct IH as (a & c & b & -> & Hc); [intro A'; apply A; constructor; assumption|]. exists (x :: a), c, b. auto.
          - exists [], x, t. auto. }
        destruct X as (a & c & b & -> & Hc). rewrite rstrip_by_app by exact Hc. rewrite !dropwhile_app by exact Hc.
        rewrite !rstrip_by_app by exact Hc. f_equal. f_equal.
        unfold rstrip_by. rewrite rev_involutive, dropwhile_idem. reflexivity. }
    apply G. }
  rewrite Ev. reflexivity.
Qed.

Lemma parse_heading S cur o h : good_heading h -> tassoc S (h_name h) = None ->
  parse_line (mk_pstate S cur o 0 false) (heading_line h) = Ok (mk_pstate (S ++ [(h_name h, [])]) (Some (h_name h)) None 0 false).
Proof.
  intros (H1 & H2 & H3) Hn. unfold heading_line, parse_line.
  set (n := h_name h) in *. set (a := h_after h) in *.
  assert (Es : strip ("[" :: n ++ "]" :: a) = "[" :: n ++ "]" :: rstrip_by is_space a).
  { change ("[" :: n ++ "]" :: a) with (("[" :: n) ++ "]" :: a). unfold strip. rewrite strip_by_app by reflexivity. reflexivity. }
  rewrite Es. cbv zeta. set (body := "[" :: n ++ "]" :: rstrip_by is_space a).
  change (startswith (T "#") body) with false. change (startswith (T ";") body) with false.
  cbn [orb negb]. unfold body at 1. cbn [ps_sections ps_cur ps_opt ps_indent ps_error].
  change (indent_of ("[" :: n ++ "]" :: a)) with 0.
  replace (match cur with
           | Some s => match o with
                       | Some o0 => if nonempty o0 && (0 <? 0)%nat then Some (s, o0) else None
                       | None => None
                       end
           | None => None
           end) with (@None (text * text)).
  2:{ destruct cur; auto. destruct o as [o0|]; auto. destruct (nonempty o0); auto. }
  assert (B : forall t u, free "]" u -> before_last "]" (t ++ "]" :: u) = Some t).
  { intros t u Fu. assert (Z : before_last "]" u = None).
    { clear -Fu. induction u as [|x u IH]; [reflexivity|]. cbn [before_last]. rewrite IH by (intro I; apply Fu; right; exact I).
      destruct (Ascii.eqb_spec x "]") as [->|]; [exfalso; apply Fu; left; reflexivity|reflexivity]. }
    induction t as [|x t IH]; cbn [app before_last]; [rewrite Z; reflexivity|]. rewrite IH. reflexivity. }
  assert (Eh : section_header body = Some n).
  { unfold section_header, body. rewrite B.
    - destruct n; [congruence|reflexivity].
    - intro I. apply rstrip_by_In in I. auto. }
  rewrite Eh. destruct (teqb n (T "DEFAULT")); rewrite Hn; reflexivity.
Qed.

(** * Sections *)

Definition keeps (kv : text * text) (o : text * list text) : Prop :=
  fst o = fst kv /\ snd o <> [] /\
  exists b2 b3 r, rstrip (join [newline] (snd o)) = kept b2 (snd kv) b3 r /\ clean (snd kv) /\ spaces b2 /\ spaces b3 /\
    (r = [] \/ exists r', r = "#" :: r') /\ free "%" r.

Lemma join_snoc sep ls l : ls <> [] -> join sep (ls ++ [l]) = join sep ls ++ sep ++ l.
Proof.
  induction ls as [|x ls IH]; [congruence|]. intros _. destruct ls as [|y ls]; [reflexivity|].
  change (join sep ((x :: y :: ls) ++ [l])) with (x ++ sep ++ join sep ((y :: ls) ++ [l])).
  rewrite IH by discriminate. change (join sep (x :: y :: ls)) with (x ++ sep ++ join sep (y :: ls)).
  rewrite <- !app_assoc. reflexivity.
Qed.

Lemma keeps_blank kv k ls : keeps kv (k, ls) -> keeps kv (k, ls ++ [[]]).
Proof.
  intros (E & N & b2 & b3 & r & H & Rest). split; [exact E|]. cbn [fst snd] in *.
  split; [destruct ls; discriminate|]. exists b2, b3, r. split; [|exact Rest].
  rewrite join_snoc by exact N. rewrite app_nil_r. unfold rstrip in *. rewrite rstrip_by_all by (repeat constructor). exact H.
Qed.

(** The option at hand is the last one of the section. *)
Definition at_hand (o : option text) (R : rawsec) : Prop :=
  match o with None => True | Some x => exists R0 ls, R = R0 ++ [(x, ls)] /\ tassoc R0 x = None end.

Lemma parse_items (S : list (text * rawsec)) n l : forall done (R : rawsec) o,
  Forall good_item l -> tassoc S n = None -> at_hand o R -> Forall2 keeps done R -> NoDup (map fst (done ++ options l)) ->
  exists R' o', fold_res parse_line (map line_of l) (mk_pstate (S ++ [(n, R)]) (Some n) o 0 false) =
    Ok (mk_pstate (S ++ [(n, R')]) (Some n) o' 0 false) /\ Forall2 keeps (done ++ options l) R'.
Proof.
  induction l as [|i l IH]; intros done R o G Hn A K D; cbn [map fold_res].
  - exists R, o. split; [reflexivity|]. cbn. rewrite app_nil_r. exact K.
  - inversion G as [|? ? Gi Gl]; subst. destruct i as [line|k b1 d b2 v b3 r].
    + cbn [line_of]. change (options (Note line :: l)) with (options l) in *.
      destruct (parse_note (S ++ [(n, R)]) (Some n) o line Gi) as [E|(s & x & Es & Ex & E)]; rewrite E; [apply IH; assumption|].
      injection Es as <-. subst o. destruct A as (R0 & ls & -> & Hx).
      assert (Ea : append_value (S ++ [(n, R0 ++ [(x, ls)])]) n x [] = S ++ [(n, R0 ++ [(x, ls ++ [[]])])]).
      { unfold append_value. rewrite tassoc_app, Hn. cbn [tassoc]. rewrite teqb_refl. rewrite tassoc_app, Hx. cbn [tassoc]. rewrite teqb_refl.
        rewrite (tassoc_set_last R0) by exact Hx. rewrite tassoc_set_last by exact Hn. reflexivity. }
      match goal with |- context [append_value ?a ?b ?c ?e] => change (append_value a b c e) with (append_value (S ++ [(n, R0 ++ [(x, ls)])]) n x []) end.
      rewrite Ea. apply IH; [assumption|assumption| |  |assumption].
      * exists R0, (ls ++ [[]]). auto.
      * apply Forall2_app_inv_r in K. destruct K as (d1 & d2 & K1 & K2 & ->). inversion K2 as [|kv ? ? ? Hk K3]; subst. inversion K3; subst.
        apply Forall2_app; [exact K1|]. constructor; [apply keeps_blank; exact Hk|constructor].
    + assert (Fresh : tassoc R (lower k) = None).
      { apply tassoc_None. intro I. assert (Hm : map fst R = map fst done).
        { clear -K. induction K as [|a b ? ? H]; cbn; auto. destruct H as [H _]. f_equal; auto. }
        rewrite Hm in I. change (options (Opt k b1 d b2 v b3 r :: l)) with ((lower k, v) :: options l) in D.
        rewrite map_app in D. cbn [map fst] in D. apply NoDup_remove_2 in D. apply D. apply in_or_app. left. exact I. }
      rewrite parse_option by assumption.
      change (options (Opt k b1 d b2 v b3 r :: l)) with ((lower k, v) :: options l) in *.
      destruct (IH (done ++ [(lower k, v)]) (R ++ [(lower k, [kept b2 v b3 r])]) (Some (lower k))) as (R' & o' & E & F2); auto.
      * exists R, [kept b2 v b3 r]. auto.
      * apply Forall2_app; [exact K|]. constructor; [|constructor]. split; [reflexivity|]. split; [discriminate|].
        destruct Gi as (_ & V & _ & B2 & B3 & _ & _ & Rr & Pr). exists b2, b3, r. cbn [snd join].
        split; [apply rstrip_trimmed; unfold kept; apply strip_trimmed|]. auto.
      * rewrite <- app_assoc. exact D.
      * exists R', o'. split; [exact E|]. rewrite <- app_assoc in F2. exact F2.
Qed.

Definition parsed_section (s : heading * list item) (nr : text * rawsec) : Prop :=
  fst nr = h_name (fst s) /\ Forall2 keeps (options (snd s)) (snd nr).

Lemma parse_headed ss : forall (S : list (text * rawsec)) cur o,
  Forall (fun s => good_heading (fst s) /\ Forall good_item (snd s) /\ NoDup (map fst (options (snd s)))) ss ->
  NoDup (map (fun s => h_name (fst s)) ss) -> (forall s, In s ss -> tassoc S (h_name (fst s)) = None) ->
  exists S' cur' o', fold_res parse_line (concat (map (fun s => heading_line (fst s) :: map line_of (snd s)) ss))
      (mk_pstate S cur o 0 false) = Ok (mk_pstate (S ++ S') cur' o' 0 false) /\ Forall2 parsed_section ss S'.
Proof.
  induction ss as [|s ss IH]; intros S cur o G D Fr; cbn [map concat].
  - exists [], cur, o. rewrite app_nil_r. split; [reflexivity|constructor].
  - inversion G as [|? ? (G1 & G2 & G3) G4]; subst. inversion D as [|? ? D1 D2]; subst.
    rewrite <- app_comm_cons. cbn [fold_res]. rewrite parse_heading by (auto; apply Fr; left; reflexivity).
    rewrite fold_res_app.
    destruct (parse_items S (h_name (fst s)) (snd s) [] [] None G2 (Fr s (or_introl eq_refl)) I (Forall2_nil _) G3) as (R & o' & E & F2).
    match type of E with ?a = _ => match goal with |- context [bind ?b ?g] => change b with a end end.
    rewrite E. cbn [bind].
    destruct (IH (S ++ [(h_name (fst s), R)]) (Some (h_name (fst s))) o' G4 D2) as (S' & cur' & o2 & E' & HS).
    { intros s' I'. rewrite tassoc_app, Fr by (right; exact I'). cbn [tassoc].
      destruct (teqb_spec (h_name (fst s)) (h_name (fst s'))) as [X|]; [|reflexivity].
      exfalso. apply D1. rewrite X. apply (in_map (fun s => h_name (fst s))) in I'. exact I'. }
    rewrite E'. exists ((h_name (fst s), R) :: S'), cur', o2. rewrite <- app_assoc. split; [reflexivity|].
    constructor; [split; [reflexivity|exact F2]|exact HS].
Qed.

Lemma parse_notes S notes : Forall note notes -> fold_res parse_line notes (mk_pstate S None None 0 false) = Ok (mk_pstate S None None 0 false).
Proof.
  induction 1 as [|l notes H _ IH]; cbn [fold_res]; [reflexivity|].
  destruct (parse_note S None None l H) as [E|(s & x & X & _)]; [|discriminate]. rewrite E. exact IH.
Qed.

(** * Values *)

Lemma kept_value b2 v b3 r : clean v -> spaces b2 -> spaces b3 -> (r = [] \/ exists r', r = "#" :: r') ->
  strip (hd [] (split_on "#" (kept b2 v b3 r))) = v.
Proof.
  intros [V1 V2 V3 V4] B2 B3 [->|(r' & ->)]; unfold kept.
  - rewrite app_nil_r. rewrite strip_pad by auto. rewrite split_on_free by exact V3. cbn [hd]. apply strip_id. exact V1.
  - replace (b2 ++ v ++ b3 ++ "#" :: r') with ((b2 ++ v ++ b3) ++ "#" :: r') by (rewrite <- !app_assoc; reflexivity).
    unfold strip at 2. rewrite strip_by_app by reflexivity.
    assert (Fr : free "#" (b2 ++ v ++ b3)).
    { apply free_app; [apply free_spaces; [reflexivity|exact B2]|]. apply free_app; [exact V3|]. apply free_spaces; [reflexivity|exact B3]. }
    rewrite split_on_first by (intros Hin; apply dropwhile_In in Hin; auto).
    change (dropwhile is_space (b2 ++ v ++ b3)) with (lstrip (b2 ++ v ++ b3)). rewrite strip_lstrip. apply strip_pad; auto.
Qed.

Lemma kept_percent b2 v b3 r : clean v -> spaces b2 -> spaces b3 -> free "%" r -> interpolate_percent (kept b2 v b3 r) = Ok (kept b2 v b3 r).
Proof.
  intros [_ _ _ V4] B2 B3 Hr. apply interpolate_free. intro I. unfold kept in I. apply strip_In in I.
  rewrite !in_app_iff in I. destruct I as [I|[I|[I|I]]]; auto.
  - apply (free_spaces "%") in B2; auto.
  - apply (free_spaces "%") in B3; auto.
Qed.

Definition plain (o : text * list text) : text * text := (fst o, rstrip (join [newline] (snd o))).

Definition low (l : list (text * text)) : Prop := Forall (fun kv => lower (fst kv) = fst kv) l.

Lemma read_kept opts R : Forall2 keeps opts R -> low opts -> NoDup (map fst opts) -> forall d,
  (forall kv, In kv opts -> tassoc d (fst kv) = None) ->
  fold_res (fun d kv => v <- interpolate_percent (snd kv) ;;
                        Ok (tassoc_set d (lower (fst kv)) (strip (hd [] (split_on "#" v))))) (map plain R) d = Ok (d ++ opts).
Proof.
  induction 1 as [|kv o opts R Hm _ IH]; intros Lo D d Fr; cbn [map fold_res].
  - rewrite app_nil_r. reflexivity.
  - inversion Lo as [|? ? L1 L2]; subst. inversion D as [|? ? D1 D2]; subst.
    destruct Hm as (E & _ & b2 & b3 & r & Ek & V & B2 & B3 & Hr & Pr). cbn [plain fst snd]. rewrite Ek, E.
    rewrite kept_percent by auto. cbn [bind]. rewrite kept_value by auto. rewrite L1.
    rewrite tassoc_set_fresh by (apply Fr; left; reflexivity). rewrite IH; [|assumption|assumption|].
    + rewrite <- app_assoc. destruct kv. reflexivity.
    + intros kv' I. rewrite tassoc_app, Fr by (right; exact I). cbn [tassoc].
      destruct (teqb_spec (fst kv) (fst kv')) as [X|]; [|reflexivity]. exfalso. apply D1. rewrite X. apply in_map. exact I.
Qed.

Lemma options_low l : low (options l).
Proof.
  unfold low, options. apply Forall_concat, Forall_map, Forall_forall. intros [|k b1 d b2 v b3 r] _; constructor; [|constructor].
  apply lower_idem.
Qed.

Lemma keeps_filter (p : text -> bool) opts R : Forall2 keeps opts R ->
  Forall2 keeps (filter (fun kv => p (fst kv)) opts) (filter (fun o => p (fst o)) R).
Proof.
  induction 1 as [|kv o opts R Hm _ IH]; cbn [filter]; [constructor|]. assert (E : fst o = fst kv) by apply Hm. rewrite E.
  destruct (p (fst kv)); [constructor; assumption|assumption].
Qed.

Lemma tassoc_existsb {A} (l : list (text * A)) k :
  (match tassoc l k with Some _ => false | None => true end) = negb (existsb (fun o => teqb (fst o) k) l).
Proof. induction l as [|[k' v] l IH]; cbn [tassoc existsb fst]; [reflexivity|]. destruct (teqb k' k); cbn [orb negb]; auto. Qed.

Lemma filter_map_plain (p : text -> bool) R : filter (fun kv => p (fst kv)) (map plain R) = map plain (filter (fun o => p (fst o)) R).
Proof. induction R as [|o R IH]; cbn [map filter plain fst]; [reflexivity|]. destruct (p (fst o)); cbn [map]; rewrite IH; reflexivity. Qed.

Lemma keeps_existsb opts R k : Forall2 keeps opts R -> existsb (fun o => teqb (fst o) k) R = existsb (fun o => teqb (fst o) k) opts.
Proof. induction 1 as [|kv o opts R Hm _ IH]; cbn [existsb]; [reflexivity|]. assert (E : fst o = fst kv) by apply Hm. rewrite E, IH. reflexivity. Qed.
Lemma plain_existsb R k : existsb (fun o => teqb (fst o) k) (map plain R) = existsb (fun o => teqb (fst o) k) R.
Proof. induction R as [|o R IH]; cbn [map existsb plain fst]; [reflexivity|]. rewrite IH. reflexivity. Qed.

Lemma NoDup_filter_fst {B} (p : text * B -> bool) (l : list (text * B)) : NoDup (map fst l) -> NoDup (map fst (filter p l)).
Proof.
  induction l as [|x l IH]; cbn [map filter]; intro D; [constructor|]. inversion D as [|? ? D1 D2]; subst.
  destruct (p x); cbn [map]; auto. constructor; auto. intro I. apply D1. apply in_map_iff in I. destruct I as (y & <- & I).
  apply filter_In in I. apply in_map. tauto.
Qed.

Lemma read_section own R dflt Rd : Forall2 keeps own R -> Forall2 keeps dflt Rd -> low own -> low dflt ->
  NoDup (map fst own) -> NoDup (map fst dflt) ->
  read_options (with_defaults (map plain Rd) (map plain R)) = Ok (own ++ inherited dflt own).
Proof.
  intros K Kd L Ld D Dd. unfold with_defaults.
  set (p := fun k => negb (existsb (fun o => teqb (fst o) k) own)).
  assert (E : filter (fun kv => match tassoc (map plain R) (fst kv) with Some _ => false | None => true end) (map plain Rd)
              = map plain (filter (fun o => p (fst o)) Rd)).
  { rewrite <- filter_map_plain. apply filter_ext. intro kv. rewrite tassoc_existsb, plain_existsb, (keeps_existsb own R) by exact K. reflexivity. }
  rewrite E, <- map_app. unfold read_options.
  assert (KK : Forall2 keeps (own ++ inherited dflt own) (R ++ filter (fun o => p (fst o)) Rd)).
  { apply Forall2_app; [exact K|]. unfold inherited. apply (keeps_filter p). exact Kd. }
  rewrite (read_kept _ _ KK); [reflexivity| | |reflexivity].
  - apply Forall_app. split; [exact L|]. unfold inherited. apply Forall_forall. intros kv I. apply filter_In in I.
    unfold low in Ld. rewrite Forall_forall in Ld. apply Ld. tauto.
  - rewrite map_app. unfold inherited.
    assert (Dj : forall k, In k (map fst own) -> ~ In k (map fst (filter (fun kv => p (fst kv)) dflt))).
    { intros k I J. apply in_map_iff in J. destruct J as (kv & <- & J). apply filter_In in J. destruct J as [_ J]. unfold p in J.
      apply negb_true_iff in J. apply in_map_iff in I. destruct I as (o & Eo & I).
      assert (X : existsb (fun o => teqb (fst o) (fst kv)) own = true) by (apply existsb_exists; exists o; split; [exact I|rewrite Eo; apply teqb_refl]).
      congruence. }
    pose proof (NoDup_filter_fst (fun kv => p (fst kv)) dflt Dd) as D2. clear -D D2 Dj. unfold p in *.
    induction (map fst own) as [|a l IH]; cbn [app]; [exact D2|]. inversion D as [|? ? X1 X2]; subst. constructor.
    + intro I. apply in_app_or in I. destruct I as [I|I]; [contradiction|]. apply (Dj a); [left; reflexivity|exact I].
    + apply IH; auto. intros k I. apply Dj. right. exact I.
Qed.

(** * Files *)

Lemma document_lines doc : well_formed doc -> Forall (free newline) (lines_of doc).
Proof.
  intros (N & S & _). unfold lines_of. apply Forall_app. split.
  - eapply Forall_impl; [|exact N]. intros l [H _]. exact H.
  - apply Forall_concat, Forall_map. eapply Forall_impl; [|exact S]. intros [h l] ((_ & H & _) & G & _). cbn [fst snd] in *. constructor.
    + unfold heading_line. apply free_cons; [discriminate|].
      intro I. apply in_app_or in I. destruct I as [I|[I|I]]; [|discriminate|]; apply H, in_or_app; auto.
    + apply Forall_map. eapply Forall_impl; [|exact G]. intros [line|k b1 d b2 v b3 r] Gi; cbn [line_of good_item] in *.
      * apply Gi.
      * destruct Gi as (K & V & B1 & B2 & B3 & Nl & Hd & _). destruct K, V. rewrite <- app_assoc in Nl || idtac.
        intro I. rewrite in_app_iff in I. destruct I as [I|I]; [contradiction|]. rewrite in_app_iff in I. destruct I as [I|[I|I]].
        -- apply Nl. rewrite in_app_iff. auto.
        -- destruct Hd as [-> | ->]; discriminate.
        -- rewrite !in_app_iff in I. destruct I as [I|[I|[I|I]]]; [|contradiction| |]; apply Nl; rewrite !in_app_iff; auto.
Qed.

(** A file written by hand is read as it is meant: comments, blank lines, blanks
    around keys and values and remarks make no difference, section names and
    keys are taken in lower case, and a section has the options of DEFAULT that
    it does not have itself. *)
Theorem C91_file_is_read_as_written : forall doc, well_formed doc ->
  get_inifile_params (text_of_document doc) = Ok (meaning doc).
Proof.
  intros doc W. pose proof (document_lines doc W) as NL. destruct W as (N & G & D).
  unfold get_inifile_params, parse_ini, text_of_document. rewrite file_lines_concat by exact NL.
  unfold lines_of. rewrite fold_res_app. unfold init_pstate. rewrite parse_notes by exact N. cbn [bind].
  assert (D' : NoDup (map (fun s : heading * list item => h_name (fst s)) (d_sections doc))).
  { apply (NoDup_map_inv lower). rewrite map_map. exact D. }
  destruct (parse_headed (d_sections doc) [] None None G D' (fun _ _ => eq_refl)) as (S & cur & o & E & HS).
  rewrite E. cbn [bind ps_error ps_sections app].
  set (f := fun s : text * rawsec => (fst s, map (fun o => (fst o, rstrip (join [newline] (snd o)))) (snd s))).
  change (map (fun s : text * list (text * list text) => (fst s, map (fun o : text * list text => (fst o, rstrip (join [newline] (snd o)))) (snd s))) S) with (map f S).
  (* the options of DEFAULT *)
  assert (Df : exists Rd, (match tassoc (map f S) (T "DEFAULT") with Some x => x | None => [] end) = map plain Rd /\
             Forall2 keeps (defaults_of doc) Rd /\ low (defaults_of doc) /\ NoDup (map fst (defaults_of doc))).
  { unfold defaults_of. clear E NL D N. revert G D'. induction HS as [|s nr ss S Hs _ IH]; intros G D'.
    - exists []. repeat split; constructor.
    - inversion G as [|? ? (G1 & G2 & G3) G4]; subst. inversion D' as [|? ? D1 D2]; subst. destruct Hs as [Hs1 Hs2].
      cbn [map tassoc filter]. unfold f at 1. cbn [fst snd]. change (is_default s) with (teqb (h_name (fst s)) (T "DEFAULT")). rewrite Hs1.
      destruct (teqb_spec (h_name (fst s)) (T "DEFAULT")) as [X|X].
      + cbn [map concat]. exists (snd nr). split; [reflexivity|].
        assert (Z : filter is_default ss = []).
        { clear -D1 X. rewrite X in D1. induction ss as [|s' ss IH]; [reflexivity|]. cbn [filter]. unfold is_default at 1.
          destruct (teqb_spec (h_name (fst s')) (T "DEFAULT")) as [Y|]; [exfalso; apply D1; left; exact Y|].
          apply IH. intro I. apply D1. right. exact I. }
        rewrite Z. cbn [map concat]. rewrite app_nil_r. split; [exact Hs2|]. split; [apply options_low|exact G3].
      + apply IH; assumption. }
  destruct Df as (Rd & -> & Kd & Ld & Dd). cbv zeta. unfold meaning.
  set (dflt := defaults_of doc) in *. clearbody dflt. clear E NL N D'.
  assert (R : forall d, (forall s, In s (d_sections doc) -> tassoc d (lower (h_name (fst s))) = None) ->
    fold_res (fun acc s => if teqb (fst s) (T "DEFAULT") then Ok acc
                else opts <- read_options (with_defaults (map plain Rd) (snd s)) ;; Ok (tassoc_set acc (lower (fst s)) opts))
      (map f S) d = Ok (d ++ map (fun s => (lower (h_name (fst s)), options (snd s) ++ inherited dflt (options (snd s))))
                             (filter (fun s => negb (is_default s)) (d_sections doc)))).
  { revert G D. induction HS as [|s nr ss S Hs _ IH]; intros G D d Fr; cbn [map fold_res filter].
    - rewrite app_nil_r. reflexivity.
    - inversion G as [|? ? (G1 & G2 & G3) G4]; subst. inversion D as [|? ? D1 D2]; subst. destruct Hs as [Hs1 Hs2].
      unfold f at 1 2 3. cbn [fst snd]. change (is_default s) with (teqb (h_name (fst s)) (T "DEFAULT")). rewrite Hs1. destruct (teqb (h_name (fst s)) (T "DEFAULT")) eqn:X; cbn [negb].
      + apply IH; try assumption. intros s' I. apply Fr. right. exact I.
      + change (map (fun o : text * list text => (fst o, rstrip (join [newline] (snd o)))) (snd nr)) with (map plain (snd nr)).
        rewrite (read_section (options (snd s)) (snd nr) dflt Rd) by (auto using options_low). cbn [bind].
        rewrite tassoc_set_fresh by (apply Fr; left; reflexivity). rewrite IH; try assumption.
        * cbn [map]. rewrite <- app_assoc. reflexivity.
        * intros s' I. rewrite tassoc_app, Fr by (right; exact I). cbn [tassoc].
          destruct (teqb_spec (lower (h_name (fst s))) (lower (h_name (fst s')))) as [Y|]; [|reflexivity].
          exfalso. apply D1. rewrite Y. apply (in_map (fun s => lower (h_name (fst s)))) in I. exact I. }
  rewrite R; [reflexivity|]. intros; reflexivity.
Qed.
Print Assumptions C91_file_is_read_as_written.

Lemma tassoc_meaning doc h l : well_formed doc -> In (h, l) (d_sections doc) -> h_name h <> T "DEFAULT" ->
  tassoc (meaning doc) (lower (h_name h)) = Some (options l ++ inherited (defaults_of doc) (options l)).
Proof.
  intros (_ & _ & D) I N. unfold meaning. generalize (defaults_of doc) as dflt. intro dflt.
  apply tassoc_complete.
  - rewrite map_map. cbn [fst]. clear I. induction (d_sections doc) as [|s ss IH]; cbn [filter map] in *; [constructor|].
    inversion D as [|? ? D1 D2]; subst. destruct (negb (is_default s)); cbn [map]; [|apply IH; exact D2].
    constructor; [|apply IH; exact D2]. intro J. apply D1. apply in_map_iff in J. destruct J as (s' & E & J). apply filter_In in J.
    rewrite <- E. apply (in_map (fun s => lower (h_name (fst s)))). tauto.
  - apply in_map_iff. exists (h, l). split; [reflexivity|]. apply filter_In. split; [exact I|]. unfold is_default. cbn [fst].
    destruct (teqb_spec (h_name h) (T "DEFAULT")); [contradiction|reflexivity].
Qed.

Lemma find_key_in (l : list (text * text)) k t : low l -> NoDup (map fst l) -> In (lower k, t) l -> find_key l k = Some (lower k, t).
Proof.
  intros L D I. rewrite (find_key_lower l k (lower k)) by (symmetry; apply lower_idem). apply find_key_complete; [|exact I].
  replace (map (fun x => lower (fst x)) l) with (map fst l); [exact D|].
  clear -L. induction L; cbn; congruence.
Qed.
Lemma find_key_absent (l : list (text * text)) k : low l -> ~ In (lower k) (map fst l) -> find_key l k = None.
Proof.
  intros L N. induction L as [|[x v] l H _ IH]; [reflexivity|]. cbn [find_key map fst] in *. rewrite H.
  destruct (teqb_spec x (lower k)) as [->|]; [exfalso; apply N; left; reflexivity|]. apply IH. intro I. apply N. right. exact I.
Qed.

Lemma inherited_low d o : low d -> low (inherited d o).
Proof. intro L. unfold inherited, low in *. rewrite Forall_forall in *. intros kv I. apply filter_In in I. apply L. tauto. Qed.

Lemma defaults_ok doc : well_formed doc -> low (defaults_of doc) /\ NoDup (map fst (defaults_of doc)).
Proof.
  intros (_ & G & D). unfold defaults_of. split.
  - unfold low. apply Forall_concat, Forall_map, Forall_forall. intros s _. apply options_low.
  - induction (d_sections doc) as [|s ss IH]; cbn [filter map concat]; [constructor|].
    inversion G as [|? ? (_ & _ & G3) G4]; subst. inversion D as [|? ? D1 D2]; subst.
    destruct (is_default s) eqn:Es; [|apply IH; assumption]. cbn [map concat].
    assert (Z : filter is_default ss = []).
    { clear -D1 Es. unfold is_default in Es. apply teqb_eq in Es. rewrite Es in D1.
      induction ss as [|s' ss IH]; [reflexivity|]. cbn [filter]. unfold is_default at 1.
      destruct (teqb_spec (h_name (fst s')) (T "DEFAULT")) as [Y|]; [exfalso; apply D1; left; rewrite Y; reflexivity|].
      apply IH. intro I. apply D1. right. exact I. }
    rewrite Z. cbn [map concat]. rewrite app_nil_r. exact G3.
Qed.

(** Loading a file gives a parameter the value that is written in the section
    parameters, or else in DEFAULT; otherwise it keeps its value. *)
Theorem C91_parameters_of_the_file (F : Type) (read_float : text -> option F) (tpl : config F) (cwd : list text)
    (i i' : ini F) (p : path) (doc : document) (h : heading) (l : list item) (k key : text) (kd : kind) (v0 : value F) :
  well_formed doc -> lookup_file (files (i_fs i)) (resolve cwd p) = Some (text_of_document doc) ->
  load_configuration read_float tpl cwd i p = Ok i' ->
  In (h, l) (d_sections doc) -> lower (h_name h) = T "parameters" ->
  k <> [] -> key_from_template tpl (T "parameters") k = Some (key, kd) -> get_from (i_cfg i) (T "parameters") k = Ok v0 ->
  (forall k' b1 d b2 t b3 r v, In (Opt k' b1 d b2 t b3 r) l -> lower k' = lower k -> cast read_float kd t = Some v ->
     get_parameter (i_cfg i') k = Ok (Some v)) /\
  (~ In (lower k) (map fst (options l)) -> forall t v, In (lower k, t) (defaults_of doc) -> cast read_float kd t = Some v ->
     get_parameter (i_cfg i') k = Ok (Some v)) /\
  (~ In (lower k) (map fst (options l)) -> ~ In (lower k) (map fst (defaults_of doc)) -> get_parameter (i_cfg i') k = Ok (Some v0)).
Proof.
  intros W Hf Hl I Hn Hk Ht Hg.
  destruct (C22_loaded_parameters F read_float tpl cwd i i' p _ _ k key kd v0 Hf (C91_file_is_read_as_written doc W) Hl Hk) as [A _].
  specialize (A Ht Hg). unfold file_value in A.
  assert (ND : h_name h <> T "DEFAULT") by (intro E; rewrite E in Hn; discriminate).
  pose proof (tassoc_meaning doc h l W I ND) as M. rewrite Hn in M. rewrite M in A.
  destruct (defaults_ok doc W) as [Ld Dd].
  assert (Dl : NoDup (map fst (options l))).
  { destruct W as (_ & G & _). rewrite Forall_forall in G. apply (G (h, l) I). }
  set (own := options l) in *. set (inh := inherited (defaults_of doc) own) in *.
  assert (FK : forall k0, find_key (own ++ inh) k0 = match find_key own k0 with Some x => Some x | None => find_key inh k0 end).
  { intro k0. clear. clearbody inh own. induction own as [|[x u] own' IH]; cbn [app find_key]; [reflexivity|]. destruct (teqb (lower x) (lower k0)); auto. }
  rewrite FK in A. split; [|split].
  - intros k' b1 d b2 t b3 r v J E C.
    assert (X : In (lower k, t) own).
    { unfold own, options. apply in_concat. exists [(lower k', t)]. split; [|left; rewrite E; reflexivity].
      apply in_map_iff. exists (Opt k' b1 d b2 t b3 r). auto. }
    rewrite (find_key_in own k t (options_low l) Dl X) in A. rewrite C in A. exact A.
  - intros N t v J C. rewrite (find_key_absent own k (options_low l) N) in A.
    assert (X : In (lower k, t) inh).
    { unfold inh, inherited. apply filter_In. split; [exact J|]. cbn [fst]. apply negb_true_iff.
      destruct (existsb (fun o => teqb (fst o) (lower k)) own) eqn:E; [|reflexivity]. apply existsb_exists in E.
      destruct E as (o & Io & Eo). apply teqb_eq in Eo. exfalso. apply N. rewrite <- Eo. apply in_map. exact Io. }
    rewrite (find_key_in inh k t (inherited_low _ _ Ld) (NoDup_filter_fst _ _ Dd) X) in A. rewrite C in A. exact A.
  - intros N1 N2. rewrite (find_key_absent own k (options_low l) N1) in A.
    rewrite (find_key_absent inh k (inherited_low _ _ Ld)) in A; [exact A|]. intro J. apply N2. apply in_map_iff in J.
    destruct J as (kv & <- & J). unfold inh, inherited in J. apply filter_In in J. apply in_map. tauto.
Qed.
Print Assumptions C91_parameters_of_the_file.

(** * Cases *)

Definition ini_text (ls : list string) : text := concat (map (fun l => T l ++ [newline]) ls).
Definition hand_fs (t : text) : fs := mk_fs [([T "home"; T "p.ini"], t)] [[T "home"]; [T "home"; T "out"]].
Definition hand_load (t : text) : res (ini text) :=
  load_configuration (fun x => Some x) template [T "home"] (mk_ini template None (hand_fs t)) (parse_path (T "p.ini")).

(** A file with a remark, a comment, a blank line, the section DEFAULT and other
    letter case. *)
Theorem C91_case : exists i,
  hand_load (ini_text ["# my project"; "[DEFAULT]"; "laketimesteps: 12"; "MinimumTotalWidth = 3"; "[Input]"; "[output]";
    "OutputDirectory = out"; ""; "[Parameters] settings"; "MAXIMUMPOINTSINPROFILE   = 7  # points"; "  ; comment"; "laketimesteps = 4"; ""]%string) = Ok i /\
  get_parameter (i_cfg i) (T "MaximumPointsInProfile") = Ok (Some (VInt 7)) /\
  get_parameter (i_cfg i) (T "LakeTimesteps") = Ok (Some (VInt 4)) /\
  get_parameter (i_cfg i) (T "MinimumTotalWidth") = Ok (Some (VFloat (T "3"))).
Proof. eexists. split; [vm_compute; reflexivity|]. vm_compute. repeat split. Qed.
Print Assumptions C91_case.

(** A blank at the start of a line does make a difference: the line is taken as
    part of the value before, and both parameters keep their defaults. *)
Theorem C91_indented_line_refuted : exists i,
  hand_load (ini_text ["[input]"; "[output]"; "OutputDirectory = out"; "[parameters]"; "LakeTimesteps = 4"; " MaximumPointsInProfile = 7"]%string) = Ok i /\
  get_parameter (i_cfg i) (T "LakeTimesteps") = get_parameter template (T "LakeTimesteps") /\
  get_parameter (i_cfg i) (T "MaximumPointsInProfile") = get_parameter template (T "MaximumPointsInProfile") /\
  get_parameter template (T "LakeTimesteps") <> Ok (Some (VInt 4)) /\
  get_parameter template (T "MaximumPointsInProfile") <> Ok (Some (VInt 7)).
Proof. eexists. split; [vm_compute; reflexivity|]. vm_compute. repeat split; discriminate. Qed.
Print Assumptions C91_indented_line_refuted.

(** So does a per cent sign in a remark: the file cannot be loaded. *)
Theorem C91_percent_in_remark_refuted :
  hand_load (ini_text ["[input]"; "[output]"; "OutputDirectory = out"; "[parameters]"; "LakeTimesteps = 4 # 10% of the run"]%string)
  = Raise ConfigParserError /\
  exists i, hand_load (ini_text ["[input]"; "[output]"; "OutputDirectory = out"; "[parameters]"; "LakeTimesteps = 4 # a tenth of the run"]%string) = Ok i.
Proof. split; [vm_compute; reflexivity|]. eexists. vm_compute. reflexivity. Qed.
Print Assumptions C91_percent_in_remark_refuted.
