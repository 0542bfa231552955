(** The grammar of JSON as a specification, and the proof that [loads] of
    M_Json.v reads exactly the texts of this grammar. *)
From Coq Require Import String List Ascii ZArith Bool Lia.
From Coq Require DecimalString DecimalPos DecimalFacts.
From Verif Require Import PyBase Text L_Text M_Json.
Import ListNotations.
Local Open Scope char_scope.

(** * Specification: which value a text denotes (RFC 8259; of equal names in an
    object the last one counts, and NaN and the infinities are accepted, as in
    Python) *)

Definition blanks (t : text) : Prop := Forall (fun c => is_blank c = true) t.

Definition all_digits (t : text) : Prop := t <> [] /\ Forall (fun c => is_digit c = true) t.

(** A pair of escapes for one character above 65535. *)
Definition low_escape (t : text) : Prop :=
  exists k1 k2 k3 k4 t' v, t = backslash :: "u" :: k1 :: k2 :: k3 :: k4 :: t' /\
    hex4 k1 k2 k3 k4 = Some v /\ low v = true.

(** The inside of a string. *)
Inductive string_text : text -> str -> Prop :=
| st_end : string_text [] []
| st_char c t s : c <> quote -> c <> backslash -> (32 <= N_of_ascii c)%N ->
    string_text t s -> string_text (c :: t) (N_of_ascii c :: s)
| st_escape e n t s : unescape e = Some n -> string_text t s -> string_text (backslash :: e :: t) (n :: s)
| st_unicode h1 h2 h3 h4 u t s : hex4 h1 h2 h3 h4 = Some u -> ~ (high u = true /\ low_escape t) ->
    string_text t s -> string_text (backslash :: "u" :: h1 :: h2 :: h3 :: h4 :: t) (u :: s)
| st_pair h1 h2 h3 h4 u k1 k2 k3 k4 v t s :
    hex4 h1 h2 h3 h4 = Some u -> high u = true -> hex4 k1 k2 k3 k4 = Some v -> low v = true ->
    string_text t s ->
    string_text (backslash :: "u" :: h1 :: h2 :: h3 :: h4 :: backslash :: "u" :: k1 :: k2 :: k3 :: k4 :: t)
                (pair_value u v :: s).

Inductive sign_text : text -> Prop := sg_none : sign_text [] | sg_minus : sign_text ["-"].
Inductive whole_text : text -> Prop :=
| wh_zero : whole_text ["0"]
| wh_digits c t : is_digit c = true -> c <> "0" -> Forall (fun c => is_digit c = true) t -> whole_text (c :: t).
Inductive fraction_text : text -> Prop :=
| fr_none : fraction_text []
| fr_digits t : all_digits t -> fraction_text ("." :: t).
Inductive exponent_text : text -> Prop :=
| ex_none : exponent_text []
| ex_digits e s t : e = "e" \/ e = "E" -> s = [] \/ s = ["-"] \/ s = ["+"] -> all_digits t ->
    exponent_text (e :: s ++ t).

Inductive json_text : text -> json -> Prop :=
| jt_null : json_text (T "null") JNull
| jt_true : json_text (T "true") (JBool true)
| jt_false : json_text (T "false") (JBool false)
| jt_int s w z : sign_text s -> whole_text w -> parse_Z (s ++ w) = Some z -> json_text (s ++ w) (JInt z)
| jt_float s w f e : sign_text s -> whole_text w -> fraction_text f -> exponent_text e -> f ++ e <> [] ->
    json_text (s ++ w ++ f ++ e) (JFloat (s ++ w ++ f ++ e))
| jt_nan : json_text (T "NaN") (JFloat (T "NaN"))
| jt_pinf : json_text (T "Infinity") (JFloat (T "Infinity"))
| jt_ninf : json_text (T "-Infinity") (JFloat (T "-Infinity"))
| jt_str t s : string_text t s -> json_text (quote :: t ++ [quote]) (JStr s)
| jt_arr_none w : blanks w -> json_text ("[" :: w ++ ["]"]) (JArr [])
| jt_arr t l : items_text t l -> json_text ("[" :: t ++ ["]"]) (JArr l)
| jt_obj_none w : blanks w -> json_text ("{" :: w ++ ["}"]) (JObj [])
| jt_obj t d : pairs_text t d -> json_text ("{" :: t ++ ["}"]) (JObj (dict_of d))
with items_text : text -> list json -> Prop :=
| it_one w1 t w2 v : blanks w1 -> json_text t v -> blanks w2 -> items_text (w1 ++ t ++ w2) [v]
| it_more w1 t w2 v ts l : blanks w1 -> json_text t v -> blanks w2 -> items_text ts l ->
    items_text (w1 ++ t ++ w2 ++ "," :: ts) (v :: l)
with pairs_text : text -> list (str * json) -> Prop :=
| pt_one w1 k s w2 w3 t w4 v : blanks w1 -> string_text k s -> blanks w2 -> blanks w3 ->
    json_text t v -> blanks w4 ->
    pairs_text (w1 ++ quote :: k ++ quote :: w2 ++ ":" :: w3 ++ t ++ w4) [(s, v)]
| pt_more w1 k s w2 w3 t w4 v ts d : blanks w1 -> string_text k s -> blanks w2 -> blanks w3 ->
    json_text t v -> blanks w4 -> pairs_text ts d ->
    pairs_text (w1 ++ quote :: k ++ quote :: w2 ++ ":" :: w3 ++ t ++ w4 ++ "," :: ts) ((s, v) :: d).

Scheme json_text_mut := Induction for json_text Sort Prop
with items_text_mut := Induction for items_text Sort Prop
with pairs_text_mut := Induction for pairs_text Sort Prop.
Combined Scheme json_text_ind3 from json_text_mut, items_text_mut, pairs_text_mut.

(** A whole file. *)
Definition document_text (t : text) (v : json) : Prop :=
  exists w1 t' w2, t = w1 ++ t' ++ w2 /\ blanks w1 /\ json_text t' v /\ blanks w2.

(** * Auxiliary facts *)

Ltac chars c := destruct c as [[] [] [] [] [] [] [] []].

Lemma eqb_neq (a b : ascii) : a <> b -> Ascii.eqb a b = false.
Proof. intros H. destruct (Ascii.eqb_spec a b); auto. contradiction. Qed.

Lemma skip_blanks w t : blanks w -> skip (w ++ t) = skip t.
Proof. intros H. apply dropwhile_all. exact H. Qed.

Lemma skip_all w : blanks w -> skip w = [].
Proof. intros H. rewrite <- (app_nil_r w). rewrite skip_blanks by auto. reflexivity. Qed.

Lemma skip_hd c t : is_blank c = false -> skip (c :: t) = c :: t.
Proof. intros H. unfold skip. cbn [dropwhile]. rewrite H. reflexivity. Qed.

Lemma skip_split t : exists w, blanks w /\ t = w ++ skip t.
Proof.
  induction t as [|c t IH].
  - exists []. split; [constructor|reflexivity].
  - unfold skip. cbn [dropwhile]. destruct (is_blank c) eqn:E.
    + destruct IH as (w & H & X). exists (c :: w). split; [constructor; auto|]. cbn. f_equal. exact X.
    + exists []. split; [constructor|reflexivity].
Qed.

Lemma skip_not_blank t c r : skip t = c :: r -> is_blank c = false.
Proof. intros H. apply (dropwhile_hd_inv is_blank t). unfold skip in H. rewrite H. reflexivity. Qed.

(** ** Strings *)

Lemma push_some {A B} (x : A) (r : option (list A * B)) l t :
  push x r = Some (l, t) -> exists l', l = x :: l' /\ r = Some (l', t).
Proof. destruct r as [[l' t']|]; cbn; [|discriminate]. intros H. injection H as <- <-. eauto. Qed.

Lemma scan_str_ok t s : string_text t s -> forall r, scan_str (t ++ quote :: r) = Some (s, r).
Proof.
  intros H. induction H as [|c t s N1 N2 L H IH|e n t s E H IH|h1 h2 h3 h4 u t s E N H IH|h1 h2 h3 h4 u k1 k2 k3 k4 v t s E1 Hh E2 Hl H IH]; intros r.
  - reflexivity.
  - cbn [app scan_str]. rewrite (eqb_neq c quote), (eqb_neq c backslash) by auto.
    replace (N.ltb (N_of_ascii c) 32) with false by (symmetry; apply N.ltb_ge; auto).
    rewrite IH. reflexivity.
  - cbn [app scan_str]. change (Ascii.eqb backslash quote) with false.
    change (Ascii.eqb backslash backslash) with true. cbn iota.
    assert (U : Ascii.eqb e "u" = false) by (apply eqb_neq; intros ->; discriminate E).
    rewrite U, E, IH. reflexivity.
  - cbn [app scan_str]. change (Ascii.eqb backslash quote) with false.
    change (Ascii.eqb backslash backslash) with true. change (Ascii.eqb "u" "u") with true. cbn iota.
    rewrite E. specialize (IH r). destruct (high u) eqn:Hh; [|rewrite IH; reflexivity].
    destruct (t ++ quote :: r) as [|b [|e' [|k1 [|k2 [|k3 [|k4 t4]]]]]] eqn:Et; try (rewrite IH; reflexivity).
    destruct (Ascii.eqb b backslash && Ascii.eqb e' "u") eqn:B; [|rewrite IH; reflexivity].
    apply andb_true_iff in B. destruct B as [B1 B2].
    apply Ascii.eqb_eq in B1. apply Ascii.eqb_eq in B2. subst b e'.
    destruct (hex4 k1 k2 k3 k4) as [v|] eqn:Ek.
    + destruct (low v) eqn:Hl; [|rewrite IH; reflexivity].
      exfalso. apply N. split; auto.
      (* the six characters lie inside t *)
      inversion H; subst; cbn [app] in Et.
      * discriminate Et.
      * injection Et as -> _. contradiction.
      * injection Et as -> _. cbn in H0. discriminate H0.
      * injection Et as -> -> -> -> _. exists k1, k2, k3, k4, t0, v. repeat split; auto.
      * injection Et as -> -> -> -> _.
        eexists k1, k2, k3, k4, _, v. repeat split; eauto.
    + cbn [scan_str] in IH. change (Ascii.eqb backslash quote) with false in IH.
      change (Ascii.eqb backslash backslash) with true in IH. change (Ascii.eqb "u" "u") with true in IH.
      cbn iota in IH. rewrite Ek in IH. discriminate IH.
  - cbn [app scan_str]. change (Ascii.eqb backslash quote) with false.
    change (Ascii.eqb backslash backslash) with true. change (Ascii.eqb "u" "u") with true.
    cbn [andb]. cbn iota. rewrite E1, Hh, E2, Hl, IH. reflexivity.
Qed.

Lemma scan_str_sound_aux : forall n t, (length t <= n)%nat -> forall s r, scan_str t = Some (s, r) ->
  exists p, t = p ++ quote :: r /\ string_text p s.
Proof.
  induction n as [|n IH]; intros t L s r H.
  - destruct t; [discriminate H|cbn in L; lia].
  - destruct t as [|c t1]; [discriminate H|]. cbn [scan_str] in H. cbn [length] in L.
    destruct (Ascii.eqb_spec c quote) as [->|Nq].
    { injection H as <- <-. exists []. split; [reflexivity|constructor]. }
    destruct (Ascii.eqb_spec c backslash) as [->|Nb].
    2:{ destruct (N.ltb_spec (N_of_ascii c) 32) as [X|X]; [discriminate|].
        apply push_some in H. destruct H as (s' & -> & H). apply IH in H; [|lia].
        destruct H as (p & -> & Hp). exists (c :: p). split; [reflexivity|constructor; auto]. }
    destruct t1 as [|e t2]; [discriminate|]. cbn [length] in L.
    destruct (Ascii.eqb_spec e "u") as [->|Nu].
    2:{ destruct (unescape e) as [k|] eqn:E; [|discriminate].
        apply push_some in H. destruct H as (s' & -> & H). apply IH in H; [|lia].
        destruct H as (p & -> & Hp). exists (backslash :: e :: p). split; [reflexivity|constructor; auto]. }
    destruct t2 as [|h1 [|h2 [|h3 [|h4 t3]]]]; try discriminate. cbn [length] in L.
    destruct (hex4 h1 h2 h3 h4) as [u|] eqn:E; [|discriminate].
    assert (Single : push u (scan_str t3) = Some (s, r) -> ~ (high u = true /\ low_escape t3) ->
              exists p, backslash :: "u" :: h1 :: h2 :: h3 :: h4 :: t3 = p ++ quote :: r /\ string_text p s).
    { intros X N0. apply push_some in X. destruct X as (s' & -> & X). apply IH in X; [|lia].
      destruct X as (p & -> & Hp). exists (backslash :: "u" :: h1 :: h2 :: h3 :: h4 :: p).
      split; [reflexivity|]. eapply st_unicode; eauto.
      intros [Hh (k1 & k2 & k3 & k4 & t' & v & -> & Ev & Lv)]. apply N0. split; auto.
      exists k1, k2, k3, k4, (t' ++ quote :: r), v. repeat split; auto. }
    destruct (high u) eqn:Hh.
    2:{ apply Single; auto. intros [X _]. discriminate X. }
    assert (Short : forall (X : ~ low_escape t3), ~ (true = true /\ low_escape t3)) by tauto.
    destruct t3 as [|b [|e' [|k1 [|k2 [|k3 [|k4 t4]]]]]];
      try (apply Single; [exact H|apply Short; intros (? & ? & ? & ? & ? & ? & X & _); discriminate X]).
    cbn [length] in L.
    destruct (Ascii.eqb b backslash && Ascii.eqb e' "u") eqn:B.
    + apply andb_true_iff in B. destruct B as [B1 B2].
      apply Ascii.eqb_eq in B1. apply Ascii.eqb_eq in B2. subst b e'.
      destruct (hex4 k1 k2 k3 k4) as [v|] eqn:Ek; [|discriminate].
      destruct (low v) eqn:Hl.
      * apply push_some in H. destruct H as (s' & -> & H). apply IH in H; [|lia].
        destruct H as (p & -> & Hp).
        exists (backslash :: "u" :: h1 :: h2 :: h3 :: h4 :: backslash :: "u" :: k1 :: k2 :: k3 :: k4 :: p).
        split; [reflexivity|]. eapply st_pair; eauto.
      * apply Single; auto. apply Short. intros (x1 & x2 & x3 & x4 & t' & v' & X & Ev & Lv).
        injection X as <- <- <- <- <-. rewrite Ek in Ev. injection Ev as <-. congruence.
    + apply Single; auto. apply Short. intros (x1 & x2 & x3 & x4 & t' & v' & X & Ev & Lv).
      injection X as -> -> <- <- <- <- <-. discriminate B.
Qed.

Lemma scan_str_sound t s r : scan_str t = Some (s, r) -> exists p, t = p ++ quote :: r /\ string_text p s.
Proof. apply (scan_str_sound_aux (length t)); auto. Qed.

(** ** Numbers *)

(** A text behind a number. *)
Definition stops (t : text) : Prop :=
  match t with [] => True | c :: _ => is_digit c = false /\ c <> "." /\ c <> "e" /\ c <> "E" end.

(** A text that does not go on with a digit. *)
Definition no_digit (t : text) : Prop := match t with [] => True | c :: _ => is_digit c = false end.

Lemma digits_all ds r : Forall (fun c => is_digit c = true) ds ->
  no_digit r -> digits (ds ++ r) = (ds, r).
Proof.
  intros H Hr. induction H as [|c ds E H IH].
  - cbn [app]. destruct r as [|c r]; [reflexivity|]. cbn [digits]. rewrite Hr. reflexivity.
  - cbn [app digits]. rewrite E, IH. reflexivity.
Qed.

Lemma digits_sound t ds r : digits t = (ds, r) -> t = ds ++ r /\ Forall (fun c => is_digit c = true) ds.
Proof.
  revert ds r. induction t as [|c t IH]; intros ds r H; cbn [digits] in H.
  - injection H as <- <-. split; constructor.
  - destruct (is_digit c) eqn:E.
    + destruct (digits t) as [d1 r1] eqn:D. cbn [fst snd] in H. injection H as <- <-.
      destruct (IH _ _ eq_refl) as [-> F]. split; [reflexivity|constructor; auto].
    + injection H as <- <-. split; [reflexivity|constructor].
Qed.

Lemma digits_next t ds r : digits t = (ds, r) -> no_digit r.
Proof.
  revert ds r. induction t as [|c t IH]; intros ds r H; cbn [digits] in H.
  - injection H as <- <-. exact I.
  - destruct (is_digit c) eqn:E.
    + destruct (digits t) as [d1 r1] eqn:D. cbn [fst snd] in H. injection H as <- <-. exact (IH _ _ eq_refl).
    + injection H as <- <-. exact E.
Qed.

Lemma fraction_none r : stops r -> scan_fraction r = ([], r).
Proof.
  destruct r as [|c r]; [reflexivity|]. intros (_ & H & _). unfold scan_fraction.
  rewrite eqb_neq by auto. reflexivity.
Qed.

Lemma exponent_none r : stops r -> scan_exponent r = ([], r).
Proof.
  destruct r as [|c r]; [reflexivity|]. intros (_ & _ & H1 & H2). unfold scan_exponent.
  rewrite !eqb_neq by auto. reflexivity.
Qed.

Lemma stops_digit r : stops r -> no_digit r.
Proof. destruct r; [auto|]. intros (H & _). exact H. Qed.

Lemma scan_exponent_ok e r : exponent_text e -> stops r -> scan_exponent (e ++ r) = (e, r).
Proof.
  intros H S. inversion H as [|x s t He Hs [Hn Hd]]; subst; [apply exponent_none; auto|].
  cbn [app]. unfold scan_exponent.
  assert (X : Ascii.eqb x "e" || Ascii.eqb x "E" = true) by (destruct He; subst; reflexivity).
  rewrite X.
  assert (Y : match (s ++ t) ++ r with
              | s0 :: t2 => if Ascii.eqb s0 "-" || Ascii.eqb s0 "+" then ([s0], t2) else ([], (s ++ t) ++ r)
              | [] => ([], (s ++ t) ++ r) end = (s, t ++ r)).
  { destruct Hs as [->|[->| ->]]; try reflexivity.
    cbn [app]. destruct t as [|c t]; [contradiction|]. cbn [app].
    assert (D : is_digit c = true) by (inversion Hd; auto).
    replace (Ascii.eqb c "-" || Ascii.eqb c "+") with false; [reflexivity|]. chars c; try reflexivity; discriminate D. }
  rewrite Y, digits_all by auto using stops_digit. destruct t; [contradiction|]. reflexivity.
Qed.

Lemma exponent_starts e r : exponent_text e -> stops r ->
  match e ++ r with [] => True | c :: _ => is_digit c = false /\ c <> "." end.
Proof.
  intros H S. inversion H as [|x s t He Hs Hd]; subst.
  - destruct r; cbn; auto. destruct S as (? & ? & _). auto.
  - cbn. destruct He; subst; split; try reflexivity; discriminate.
Qed.

Lemma scan_fraction_ok f e r : fraction_text f -> exponent_text e -> stops r ->
  scan_fraction (f ++ e ++ r) = (f, e ++ r).
Proof.
  intros Hf He S. pose proof (exponent_starts e r He S) as X. inversion Hf as [|t [Hn Hd]]; subst.
  - cbn [app]. destruct (e ++ r) as [|c u]; [reflexivity|]. unfold scan_fraction.
    rewrite eqb_neq by tauto. reflexivity.
  - cbn [app]. unfold scan_fraction. change (Ascii.eqb "." ".") with true. cbn iota.
    rewrite digits_all; auto.
    + destruct t; [contradiction|reflexivity].
    + unfold no_digit. destruct (e ++ r); tauto.
Qed.

Lemma finish_number_ok w f e r : fraction_text f -> exponent_text e -> stops r -> f ++ e <> [] ->
  finish_number w (f ++ e ++ r) = Some (JFloat (w ++ f ++ e), r).
Proof.
  intros Hf He S N. unfold finish_number. rewrite scan_fraction_ok, scan_exponent_ok by auto.
  destruct (f ++ e); [contradiction|reflexivity].
Qed.

Lemma fraction_exponent_starts f e r : fraction_text f -> exponent_text e -> stops r ->
  no_digit (f ++ e ++ r).
Proof.
  intros Hf He S. inversion Hf; subst.
  - cbn [app]. pose proof (exponent_starts e r He S). unfold no_digit. destruct (e ++ r); tauto.
  - reflexivity.
Qed.

Lemma scan_number_split s w rest : sign_text s -> whole_text w ->
  no_digit rest ->
  scan_number (s ++ w ++ rest) = finish_number (s ++ w) rest.
Proof.
  intros Hs Hw Hr.
  assert (Y : scan_minus (s ++ w ++ rest) = (s, w ++ rest)).
  { unfold scan_minus. inversion Hs; subst; [|reflexivity]. cbn [app]. inversion Hw as [|c t D]; subst; [reflexivity|].
    cbn [app]. rewrite eqb_neq; [reflexivity|]. intros ->. discriminate D. }
  unfold scan_number. rewrite Y.
  inversion Hw as [|c t D N0 F]; subst.
  - cbn [app]. change (Ascii.eqb "0" "0") with true. cbn iota. reflexivity.
  - cbn [app]. rewrite eqb_neq by auto. rewrite D, digits_all by auto. reflexivity.
Qed.

Lemma word_starts s w t : sign_text s -> whole_text w ->
  startswith (T "null") (s ++ w ++ t) = false /\ startswith (T "true") (s ++ w ++ t) = false /\
  startswith (T "false") (s ++ w ++ t) = false.
Proof.
  intros Hs Hw. inversion Hs; subst; [|repeat split; reflexivity].
  inversion Hw as [|c u D]; subst; [repeat split; reflexivity|].
  cbn [app]. chars c; try discriminate D; repeat split; reflexivity.
Qed.

Lemma scan_word_int s w z r : sign_text s -> whole_text w -> parse_Z (s ++ w) = Some z -> stops r ->
  scan_word (s ++ w ++ r) = Some (JInt z, r).
Proof.
  intros Hs Hw P S. destruct (word_starts s w r Hs Hw) as (A & B & C).
  unfold scan_word. rewrite A, B, C, scan_number_split by auto using stops_digit.
  unfold finish_number. rewrite fraction_none, exponent_none, P by auto. reflexivity.
Qed.

Lemma scan_word_float s w f e r : sign_text s -> whole_text w -> fraction_text f -> exponent_text e ->
  f ++ e <> [] -> stops r ->
  scan_word (s ++ w ++ f ++ e ++ r) = Some (JFloat (s ++ w ++ f ++ e), r).
Proof.
  intros Hs Hw Hf He N S. destruct (word_starts s w (f ++ e ++ r) Hs Hw) as (A & B & C).
  unfold scan_word. rewrite A, B, C, scan_number_split by auto using fraction_exponent_starts.
  rewrite finish_number_ok by auto. rewrite <- app_assoc. reflexivity.
Qed.

Lemma scan_fraction_sound t f r : scan_fraction t = (f, r) -> t = f ++ r /\ fraction_text f.
Proof.
  unfold scan_fraction. destruct t as [|c t]; [intros H; injection H as <- <-; split; constructor|].
  destruct (Ascii.eqb_spec c ".") as [->|N].
  - destruct (digits t) as [[|d ds] u] eqn:D; intros H; injection H as <- <-.
    + split; constructor.
    + apply digits_sound in D. destruct D as [-> F]. split; [reflexivity|]. constructor. split; [discriminate|auto].
  - intros H; injection H as <- <-. split; constructor.
Qed.

Lemma scan_exponent_sound t e r : scan_exponent t = (e, r) -> t = e ++ r /\ exponent_text e.
Proof.
  unfold scan_exponent. destruct t as [|c t]; [intros H; injection H as <- <-; split; constructor|].
  destruct (Ascii.eqb c "e" || Ascii.eqb c "E") eqn:E; [|intros H; injection H as <- <-; split; constructor].
  assert (E' : c = "e" \/ c = "E").
  { apply orb_true_iff in E. destruct E as [E|E]; apply Ascii.eqb_eq in E; auto. }
  destruct (match t with
            | s :: t2 => if Ascii.eqb s "-" || Ascii.eqb s "+" then ([s], t2) else ([], t)
            | [] => ([], t) end) as [sg t2] eqn:Sg.
  assert (X : t = sg ++ t2 /\ (sg = [] \/ sg = ["-"] \/ sg = ["+"])).
  { destruct t as [|s u]; [injection Sg as <- <-; auto|].
    destruct (Ascii.eqb s "-" || Ascii.eqb s "+") eqn:Y; injection Sg as <- <-; [|auto].
    split; [reflexivity|]. apply orb_true_iff in Y. destruct Y as [Y|Y]; apply Ascii.eqb_eq in Y; subst; auto. }
  destruct X as [-> Hs]. destruct (digits t2) as [[|d ds] u] eqn:D; intros H; injection H as <- <-.
  - split; constructor.
  - apply digits_sound in D. destruct D as [-> F]. split.
    + cbn [app]. rewrite <- app_assoc. reflexivity.
    + constructor; auto. split; [discriminate|auto].
Qed.

Lemma finish_number_sound s w t v r : sign_text s -> whole_text w ->
  finish_number (s ++ w) t = Some (v, r) -> exists p, s ++ w ++ t = p ++ r /\ json_text p v.
Proof.
  intros Hs Hw H. unfold finish_number in H.
  destruct (scan_fraction t) as [f t1] eqn:F. destruct (scan_exponent t1) as [e t2] eqn:E.
  apply scan_fraction_sound in F. apply scan_exponent_sound in E.
  destruct F as [-> Hf]. destruct E as [-> He].
  destruct (f ++ e) as [|c u] eqn:Z.
  - apply app_eq_nil in Z. destruct Z as [-> ->]. destruct (parse_Z (s ++ w)) as [z|] eqn:P; [|discriminate].
    injection H as <- <-. exists (s ++ w). split; [cbn; rewrite <- app_assoc; reflexivity|]. constructor; auto.
  - injection H as <- <-. exists (s ++ w ++ f ++ e). split.
    + rewrite <- !app_assoc. reflexivity.
    + rewrite <- app_assoc, <- Z. apply jt_float; auto. rewrite Z. discriminate.
Qed.

Lemma scan_number_sound t v r : scan_number t = Some (v, r) -> exists p, t = p ++ r /\ json_text p v.
Proof.
  unfold scan_number. intros H.
  destruct (scan_minus t) as [s t1] eqn:Sg.
  assert (X : t = s ++ t1 /\ sign_text s).
  { unfold scan_minus in Sg. destruct t as [|c u]; [injection Sg as <- <-; split; constructor|].
    destruct (Ascii.eqb_spec c "-") as [->|N]; injection Sg as <- <-; split; constructor. }
  destruct X as [-> Hs]. destruct t1 as [|c t2]; [discriminate|].
  destruct (Ascii.eqb_spec c "0") as [->|N0].
  - apply finish_number_sound in H; auto using wh_zero.
  - destruct (is_digit c) eqn:D; [|discriminate]. destruct (digits t2) as [ds t3] eqn:Dd.
    apply digits_sound in Dd. destruct Dd as [-> F].
    apply finish_number_sound in H; auto using wh_digits.
Qed.

Lemma startswith_split p t : startswith p t = true -> t = p ++ skipn (length p) t.
Proof.
  revert t. induction p as [|c p IH]; intros t H; [reflexivity|].
  destruct t as [|d t]; [discriminate|]. cbn in H. apply andb_true_iff in H. destruct H as [H1 H2].
  apply Ascii.eqb_eq in H1. subst d. cbn. f_equal. auto.
Qed.

Lemma scan_word_sound t v r : scan_word t = Some (v, r) -> exists p, t = p ++ r /\ json_text p v.
Proof.
  unfold scan_word. intros H.
  repeat match type of H with
  | (if startswith ?p t then _ else _) = _ =>
      let E := fresh "E" in destruct (startswith p t) eqn:E;
      [injection H as <- <-; exists p; split; [exact (startswith_split _ _ E)|constructor]|]
  | match scan_number t with _ => _ end = _ =>
      let E := fresh "E" in destruct (scan_number t) as [[v' r']|] eqn:E;
      [injection H as <- <-; apply scan_number_sound in E; exact E|]
  | None = Some _ => discriminate H
  end.
Qed.

(** ** Values *)

(** The first character of a value. *)
Lemma json_text_starts t v : json_text t v ->
  exists c t', t = c :: t' /\ is_blank c = false /\ c <> "]" /\ c <> "}" /\ c <> ",".
Proof.
  assert (D : forall s w u, sign_text s -> whole_text w ->
    exists c t', s ++ w ++ u = c :: t' /\ is_blank c = false /\ c <> "]" /\ c <> "}" /\ c <> ",").
  { intros s w u Hs Hw. inversion Hs; subst.
    - inversion Hw as [|c t0 Dc]; subst; cbn [app]; do 2 eexists; (split; [reflexivity|]).
      + repeat split; try reflexivity; discriminate.
      + chars c; try discriminate Dc; repeat split; try reflexivity; discriminate.
    - cbn [app]. do 2 eexists. split; [reflexivity|]. repeat split; try reflexivity; discriminate. }
  intros H. inversion H; subst;
    try (do 2 eexists; split; [reflexivity|]; repeat split; try reflexivity; discriminate).
  - destruct (D s w [] H0 H1) as (c & t' & E & X). rewrite app_nil_r in E. exists c, t'. auto.
  - apply (D s w (f ++ e)); auto.
Qed.

Lemma json_text_length t v : json_text t v -> (1 <= length t)%nat.
Proof. intros H. destruct (json_text_starts t v H) as (c & t' & -> & _). cbn. lia. Qed.

Lemma startswith_app p t : startswith p (p ++ t) = true.
Proof. induction p as [|c p IH]; [reflexivity|]. cbn. rewrite Ascii.eqb_refl. exact IH. Qed.

(** Blanks, commas and closing brackets end a number. *)
Lemma stops_after w c t : blanks w -> c = "," \/ c = "]" \/ c = "}" -> stops (w ++ c :: t).
Proof.
  intros H Hc. destruct w as [|b w].
  - cbn. destruct Hc as [->|[->| ->]]; repeat split; try reflexivity; discriminate.
  - cbn. assert (B : is_blank b = true) by (inversion H; auto).
    chars b; try discriminate B; repeat split; try reflexivity; discriminate.
Qed.

(** The reader reads every text of the grammar. *)
Definition reads_value (t : text) (v : json) : Prop :=
  forall n r, (2 * length t <= n)%nat -> stops r -> scan n (t ++ r) = Some (v, r).
Definition reads_items (t : text) (l : list json) : Prop :=
  forall n r, (2 * length t + 1 <= n)%nat -> scan_items n (skip (t ++ "]" :: r)) = Some (l, r).
Definition reads_pairs (t : text) (d : list (str * json)) : Prop :=
  forall n r, (2 * length t + 1 <= n)%nat -> scan_pairs n (skip (t ++ "}" :: r)) = Some (d, r).

Lemma scan_is_word n c t : Ascii.eqb c quote = false -> Ascii.eqb c "{" = false -> Ascii.eqb c "[" = false ->
  scan (S n) (c :: t) = scan_word (c :: t).
Proof. intros A B C. cbn [scan]. rewrite A, B, C. reflexivity. Qed.

Lemma number_scan n s w u : sign_text s -> whole_text w -> (1 <= n)%nat ->
  scan n (s ++ w ++ u) = scan_word (s ++ w ++ u).
Proof.
  intros Hs Hw L. destruct n; [lia|]. inversion Hs; subst.
  - inversion Hw as [|c t D]; subst; [reflexivity|]. cbn [app].
    apply scan_is_word; apply eqb_neq; intros ->; discriminate D.
  - reflexivity.
Qed.

Lemma items_start t l : items_text t l -> exists w c t', t = w ++ c :: t' /\ blanks w /\ is_blank c = false /\ c <> "]".
Proof.
  intros H. inversion H as [w1 t1 w2 v B1 V B2|w1 t1 w2 v ts l' B1 V B2 I]; subst;
    destruct (json_text_starts _ _ V) as (c & t' & -> & X1 & X2 & _).
  - exists w1, c, (t' ++ w2). repeat split; auto.
  - exists w1, c, (t' ++ w2 ++ "," :: ts). repeat split; auto.
Qed.

Lemma pairs_start t d : pairs_text t d -> exists w t', t = w ++ quote :: t' /\ blanks w.
Proof. intros H. inversion H; subst; eauto. Qed.

Lemma scan_complete :
  (forall t v, json_text t v -> reads_value t v) /\
  (forall t l, items_text t l -> reads_items t l) /\
  (forall t d, pairs_text t d -> reads_pairs t d).
Proof.
  apply json_text_ind3.
  - intros n r L S. destruct n; [vm_compute in L; lia|]. reflexivity.
  - intros n r L S. destruct n; [vm_compute in L; lia|]. reflexivity.
  - intros n r L S. destruct n; [vm_compute in L; lia|]. reflexivity.
  - intros s w z Hs Hw P n r L S.
    assert (L1 : (1 <= length (s ++ w))%nat).
    { rewrite app_length. inversion Hw; subst; cbn; lia. }
    rewrite <- app_assoc, number_scan by (auto; lia). apply scan_word_int; auto.
  - intros s w f e Hs Hw Hf He N n r L S.
    assert (L1 : (1 <= length (s ++ w ++ f ++ e))%nat).
    { rewrite app_length, app_length. inversion Hw; subst; cbn; lia. }
    rewrite <- !app_assoc, number_scan by (auto; lia). apply scan_word_float; auto.
  - intros n r L S. destruct n; [vm_compute in L; lia|]. reflexivity.
  - intros n r L S. destruct n; [vm_compute in L; lia|]. reflexivity.
  - intros n r L S. destruct n; [vm_compute in L; lia|]. reflexivity.
  - intros t s H n r L S. destruct n; [cbn in L; lia|].
    cbn [app]. rewrite <- app_assoc. cbn [app scan]. change (Ascii.eqb quote quote) with true. cbn iota.
    rewrite (scan_str_ok t s H r). reflexivity.
  - intros w B n r L S. destruct n; [cbn in L; lia|].
    cbn [app]. rewrite <- app_assoc. cbn [app scan].
    change (Ascii.eqb "[" quote) with false. change (Ascii.eqb "[" "{") with false.
    change (Ascii.eqb "[" "[") with true. cbn iota.
    rewrite skip_blanks by auto. rewrite skip_hd by reflexivity. reflexivity.
  - intros t l H IH n r L S. destruct n; [cbn in L; lia|].
    cbn [app]. rewrite <- app_assoc. cbn [app scan].
    change (Ascii.eqb "[" quote) with false. change (Ascii.eqb "[" "{") with false.
    change (Ascii.eqb "[" "[") with true. cbn iota.
    assert (L2 : (2 * length t + 1 <= n)%nat) by (cbn [length] in L; rewrite app_length in L; cbn in L; lia).
    specialize (IH n r L2).
    destruct (items_start t l H) as (w & c & t' & -> & B & X1 & X2).
    rewrite <- app_assoc in IH |- *. cbn [app] in IH |- *.
    rewrite skip_blanks in IH |- * by auto. rewrite skip_hd in IH |- * by auto.
    rewrite (eqb_neq c "]") by auto. rewrite IH. reflexivity.
  - intros w B n r L S. destruct n; [cbn in L; lia|].
    cbn [app]. rewrite <- app_assoc. cbn [app scan].
    change (Ascii.eqb "{" quote) with false. change (Ascii.eqb "{" "{") with true. cbn iota.
    rewrite skip_blanks by auto. rewrite skip_hd by reflexivity. reflexivity.
  - intros t d H IH n r L S. destruct n; [cbn in L; lia|].
    cbn [app]. rewrite <- app_assoc. cbn [app scan].
    change (Ascii.eqb "{" quote) with false. change (Ascii.eqb "{" "{") with true. cbn iota.
    assert (L2 : (2 * length t + 1 <= n)%nat) by (cbn [length] in L; rewrite app_length in L; cbn in L; lia).
    specialize (IH n r L2).
    destruct (pairs_start t d H) as (w & t' & -> & B).
    rewrite <- app_assoc in IH |- *. cbn [app] in IH |- *.
    rewrite skip_blanks in IH |- * by auto. rewrite skip_hd in IH |- * by reflexivity.
    change (Ascii.eqb quote "}") with false. cbn iota. rewrite IH. reflexivity.
  - intros w1 t w2 v B1 V IH B2 n r L. destruct n; [lia|].
    rewrite <- !app_assoc. rewrite skip_blanks by auto.
    destruct (json_text_starts t v V) as (c & t' & -> & X1 & _).
    cbn [app]. rewrite skip_hd by auto. cbn [scan_items].
    change (c :: t' ++ w2 ++ "]" :: r) with ((c :: t') ++ (w2 ++ "]" :: r)).
    rewrite IH.
    + rewrite skip_blanks by auto. rewrite skip_hd by reflexivity. reflexivity.
    + rewrite !app_length in L. lia.
    + apply stops_after; auto.
  - intros w1 t w2 v ts l B1 V IH B2 I IHi n r L. destruct n; [lia|].
    rewrite <- !app_assoc. cbn [app]. rewrite skip_blanks by auto.
    destruct (json_text_starts t v V) as (c & t' & -> & X1 & _).
    cbn [app]. rewrite skip_hd by auto. cbn [scan_items].
    change (c :: t' ++ w2 ++ "," :: ts ++ "]" :: r) with ((c :: t') ++ (w2 ++ "," :: ts ++ "]" :: r)).
    rewrite !app_length in L. cbn [length] in L.
    rewrite IH.
    + rewrite skip_blanks by auto. rewrite skip_hd by reflexivity.
      change (Ascii.eqb "," "]") with false. change (Ascii.eqb "," ",") with true. cbn iota.
      rewrite IHi by lia. reflexivity.
    + cbn [length]. lia.
    + apply stops_after; auto.
  - intros w1 k s w2 w3 t w4 v B1 K B2 B3 V IH B4 n r L. destruct n; [lia|].
    rewrite <- !app_assoc. cbn [app]. rewrite skip_blanks by auto. rewrite skip_hd by reflexivity.
    cbn [scan_pairs]. change (Ascii.eqb quote quote) with true. cbn iota.
    rewrite <- !app_assoc. cbn [app].
    rewrite (scan_str_ok k s K). rewrite <- !app_assoc. cbn [app]. rewrite skip_blanks by auto. rewrite skip_hd by reflexivity.
    change (Ascii.eqb ":" ":") with true. cbn iota. rewrite <- !app_assoc. rewrite skip_blanks by auto.
    repeat (rewrite ?app_length in L; cbn [length] in L).
    destruct (json_text_starts t v V) as (c & t' & -> & X1 & _).
    cbn [app]. rewrite skip_hd by auto.
    change (c :: t' ++ w4 ++ "}" :: r) with ((c :: t') ++ (w4 ++ "}" :: r)).
    rewrite IH.
    + rewrite skip_blanks by auto. rewrite skip_hd by reflexivity. reflexivity.
    + cbn [length] in *. lia.
    + apply stops_after; auto.
  - intros w1 k s w2 w3 t w4 v ts d B1 K B2 B3 V IH B4 P IHp n r L. destruct n; [lia|].
    rewrite <- !app_assoc. cbn [app]. rewrite skip_blanks by auto. rewrite skip_hd by reflexivity.
    cbn [scan_pairs]. change (Ascii.eqb quote quote) with true. cbn iota.
    rewrite <- !app_assoc. cbn [app].
    rewrite (scan_str_ok k s K). rewrite <- !app_assoc. cbn [app]. rewrite skip_blanks by auto. rewrite skip_hd by reflexivity.
    change (Ascii.eqb ":" ":") with true. cbn iota. rewrite <- !app_assoc. rewrite skip_blanks by auto.
    repeat (rewrite ?app_length in L; cbn [length] in L).
    destruct (json_text_starts t v V) as (c & t' & -> & X1 & _).
    cbn [app]. rewrite skip_hd by auto.
    change (c :: t' ++ w4 ++ "," :: ts ++ "}" :: r) with ((c :: t') ++ (w4 ++ "," :: ts ++ "}" :: r)).
    cbn [length] in L.
    rewrite IH.
    + rewrite skip_blanks by auto. rewrite skip_hd by reflexivity.
      change (Ascii.eqb "," "}") with false. change (Ascii.eqb "," ",") with true. cbn iota.
      rewrite IHp by lia. reflexivity.
    + cbn [length] in *. lia.
    + apply stops_after; auto.
Qed.

(** The reader reads only texts of the grammar. *)
Lemma scan_sound : forall n,
  (forall t v r, scan n t = Some (v, r) -> exists p, t = p ++ r /\ json_text p v) /\
  (forall t l r, scan_items n t = Some (l, r) -> exists p, t = p ++ "]" :: r /\ items_text p l) /\
  (forall t d r, scan_pairs n t = Some (d, r) -> exists p, t = p ++ "}" :: r /\ pairs_text p d).
Proof.
  induction n as [|n (IHv & IHi & IHp)]; [repeat split; intros; discriminate|].
  split; [|split].
  - intros t v r H. cbn [scan] in H. destruct t as [|c t]; [discriminate|].
    destruct (Ascii.eqb_spec c quote) as [->|Nq].
    { destruct (scan_str t) as [[s r']|] eqn:E; [|discriminate]. injection H as <- <-.
      apply scan_str_sound in E. destruct E as (p & -> & Hp). exists (quote :: p ++ [quote]). split.
      - cbn [app]. rewrite <- app_assoc. reflexivity.
      - constructor; auto. }
    destruct (Ascii.eqb_spec c "{") as [->|No].
    { destruct (skip_split t) as (w & B & E). destruct (skip t) as [|x u]; [discriminate|].
      destruct (Ascii.eqb_spec x "}") as [->|Nx].
      - injection H as <- <-. exists ("{" :: w ++ ["}"]). split; [|constructor; auto].
        cbn [app]. rewrite <- app_assoc. cbn [app]. f_equal. exact E.
      - destruct (scan_pairs n (x :: u)) as [[d r']|] eqn:E2; [|discriminate]. injection H as <- <-.
        apply IHp in E2. destruct E2 as (p & E2 & Hp). rewrite E2 in E.
        assert (Hw : pairs_text (w ++ p) d).
        { inversion Hp; subst; rewrite app_assoc; constructor; auto; apply Forall_app; auto. }
        exists ("{" :: (w ++ p) ++ ["}"]). split; [|constructor; auto].
        cbn [app]. rewrite <- !app_assoc. cbn [app]. f_equal. exact E. }
    destruct (Ascii.eqb_spec c "[") as [->|Na].
    { destruct (skip_split t) as (w & B & E). destruct (skip t) as [|x u]; [discriminate|].
      destruct (Ascii.eqb_spec x "]") as [->|Nx].
      - injection H as <- <-. exists ("[" :: w ++ ["]"]). split; [|constructor; auto].
        cbn [app]. rewrite <- app_assoc. cbn [app]. f_equal. exact E.
      - destruct (scan_items n (x :: u)) as [[d r']|] eqn:E2; [|discriminate]. injection H as <- <-.
        apply IHi in E2. destruct E2 as (p & E2 & Hp). rewrite E2 in E.
        assert (Hw : items_text (w ++ p) d).
        { inversion Hp; subst; rewrite app_assoc; constructor; auto; apply Forall_app; auto. }
        exists ("[" :: (w ++ p) ++ ["]"]). split; [|constructor; auto].
        cbn [app]. rewrite <- !app_assoc. cbn [app]. f_equal. exact E. }
    apply scan_word_sound in H. exact H.
  - intros t l r H. cbn [scan_items] in H.
    destruct (scan n t) as [[v u]|] eqn:E; [|discriminate].
    apply IHv in E. destruct E as (p & -> & Hp).
    destruct (skip_split u) as (w & B & E). destruct (skip u) as [|x u']; [discriminate|].
    destruct (Ascii.eqb_spec x "]") as [->|Nx].
    + injection H as <- <-. exists (p ++ w). split.
      * rewrite <- app_assoc. f_equal. exact E.
      * change (p ++ w) with ([] ++ p ++ w). constructor; auto. constructor.
    + destruct (Ascii.eqb_spec x ",") as [->|Nc]; [|discriminate].
      apply push_some in H. destruct H as (l' & -> & H).
      destruct (skip_split u') as (w' & B' & E'). apply IHi in H. destruct H as (p' & E2 & Hp').
      rewrite E2 in E'.
      assert (Hw : items_text (w' ++ p') l').
      { inversion Hp'; subst; rewrite app_assoc; constructor; auto; apply Forall_app; auto. }
      exists (p ++ w ++ "," :: w' ++ p'). split.
      * rewrite E, E'. rewrite <- !app_assoc. cbn [app]. rewrite <- !app_assoc. reflexivity.
      * change (p ++ w ++ "," :: w' ++ p') with ([] ++ p ++ w ++ "," :: w' ++ p'). constructor; auto. constructor.
  - intros t d r H. cbn [scan_pairs] in H. destruct t as [|q t1]; [discriminate|].
    destruct (Ascii.eqb_spec q quote) as [->|Nq]; [|discriminate].
    destruct (scan_str t1) as [[k t2]|] eqn:E; [|discriminate].
    apply scan_str_sound in E. destruct E as (kt & -> & K).
    destruct (skip_split t2) as (w2 & B2 & E2). destruct (skip t2) as [|x t3]; [discriminate|].
    destruct (Ascii.eqb_spec x ":") as [->|Nx]; [|discriminate].
    destruct (skip_split t3) as (w3 & B3 & E3).
    destruct (scan n (skip t3)) as [[v u]|] eqn:E; [|discriminate].
    apply IHv in E. destruct E as (p & Ep & Hp). rewrite Ep in E3.
    destruct (skip_split u) as (w & B & E). destruct (skip u) as [|y u']; [discriminate|].
    destruct (Ascii.eqb_spec y "}") as [->|Ny].
    + injection H as <- <-. exists ([] ++ quote :: kt ++ quote :: w2 ++ ":" :: w3 ++ p ++ w). split.
      * rewrite E2, E3, E. cbn [app]. rewrite <- !app_assoc. cbn [app]. rewrite <- !app_assoc. cbn [app].
        rewrite <- !app_assoc. reflexivity.
      * constructor; auto. constructor.
    + destruct (Ascii.eqb_spec y ",") as [->|Nc]; [|discriminate].
      apply push_some in H. destruct H as (d' & -> & H).
      destruct (skip_split u') as (w' & B' & E'). apply IHp in H. destruct H as (p' & E4 & Hp').
      rewrite E4 in E'.
      assert (Hw : pairs_text (w' ++ p') d').
      { inversion Hp'; subst; rewrite app_assoc; constructor; auto; apply Forall_app; auto. }
      exists ([] ++ quote :: kt ++ quote :: w2 ++ ":" :: w3 ++ p ++ w ++ "," :: w' ++ p'). split.
      * rewrite E2, E3, E, E'. repeat (rewrite <- !app_assoc; cbn [app]). reflexivity.
      * constructor; auto. constructor.
Qed.

(** [loads] reads exactly the documents of the grammar. *)
Lemma loads_complete t v : document_text t v -> loads t = Ok v.
Proof.
  intros (w1 & t' & w2 & -> & B1 & V & B2). unfold loads.
  rewrite skip_blanks by auto. destruct (json_text_starts t' v V) as (c & u & E & X & _).
  assert (Y : skip (t' ++ w2) = t' ++ w2) by (rewrite E; cbn [app]; apply skip_hd; auto).
  rewrite Y. destruct scan_complete as (C & _).
  rewrite (C t' v V).
  - rewrite skip_all by auto. reflexivity.
  - rewrite !app_length. lia.
  - destruct w2 as [|b w2]; [exact I|]. inversion B2; subst. cbn.
    chars b; try discriminate; repeat split; try reflexivity; discriminate.
Qed.

Lemma loads_sound t v : loads t = Ok v -> document_text t v.
Proof.
  unfold loads. intros H. destruct (scan _ (skip t)) as [[v' r]|] eqn:E; [|discriminate].
  apply scan_sound in E. destruct E as (p & E & Hp).
  destruct (skip_split t) as (w & B & Et). destruct (skip_split r) as (w2 & B2 & Er).
  destruct (skip r) as [|x r']; [|discriminate]. injection H as <-. rewrite app_nil_r in Er.
  exists w, p, r. subst r. repeat split; auto. rewrite <- E. exact Et.
Qed.

(** A value in brackets ends where its bracket is closed, whatever follows. *)
Lemma closed_reads t v c t' : json_text t v -> t = c :: t' -> c = "{" \/ c = "[" \/ c = quote ->
  forall n r, (2 * length t <= n)%nat -> scan n (t ++ r) = Some (v, r).
Proof.
  intros V E Hc n r L. destruct scan_complete as (_ & CI & CP). destruct n; [subst t; cbn in L; lia|].
  assert (D : forall s w u, sign_text s -> whole_text w -> s ++ w ++ u = c :: t' -> False).
  { intros s w u Hs Hw X. inversion Hs; subst s; inversion Hw as [|x y Dx Nx]; subst w; cbn [app] in X;
      injection X as <- _; destruct Hc as [Hc|[Hc|Hc]]; subst; try discriminate; discriminate Dx. }
  inversion V; subst;
    try (match goal with H : T _ = _ :: _ |- _ => injection H as <- _; destruct Hc as [Hc|[Hc|Hc]]; discriminate Hc end).
  - exfalso. apply (D s w []); auto. rewrite app_nil_r. auto.
  - exfalso. apply (D s w (f ++ e)); auto.
  - cbn [app]. rewrite <- app_assoc. cbn [app scan]. change (Ascii.eqb quote quote) with true. cbn iota.
    rewrite (scan_str_ok _ _ H). reflexivity.
  - cbn [app]. rewrite <- app_assoc. cbn [app scan].
    change (Ascii.eqb "[" quote) with false. change (Ascii.eqb "[" "{") with false.
    change (Ascii.eqb "[" "[") with true. cbn iota.
    rewrite skip_blanks by auto. rewrite skip_hd by reflexivity. reflexivity.
  - cbn [app]. rewrite <- app_assoc. cbn [app scan].
    change (Ascii.eqb "[" quote) with false. change (Ascii.eqb "[" "{") with false.
    change (Ascii.eqb "[" "[") with true. cbn iota.
    match goal with X : _ = c :: t' |- _ => rewrite <- X in L end.
    match goal with I0 : items_text ?t0 l |- _ =>
      assert (L2 : (2 * length t0 + 1 <= n)%nat) by (cbn [length] in L; rewrite app_length in L; cbn in L; lia);
      pose proof (CI t0 l I0 n r L2) as X; destruct (items_start t0 l I0) as (w & ch & u & -> & B & X1 & X2) end.
    rewrite <- app_assoc in X |- *. cbn [app] in X |- *.
    rewrite skip_blanks in X |- * by auto. rewrite skip_hd in X |- * by auto.
    rewrite (eqb_neq ch "]") by auto. rewrite X. reflexivity.
  - cbn [app]. rewrite <- app_assoc. cbn [app scan].
    change (Ascii.eqb "{" quote) with false. change (Ascii.eqb "{" "{") with true. cbn iota.
    rewrite skip_blanks by auto. rewrite skip_hd by reflexivity. reflexivity.
  - cbn [app]. rewrite <- app_assoc. cbn [app scan].
    change (Ascii.eqb "{" quote) with false. change (Ascii.eqb "{" "{") with true. cbn iota.
    match goal with X : _ = c :: t' |- _ => rewrite <- X in L end.
    match goal with I0 : pairs_text ?t0 d |- _ =>
      assert (L2 : (2 * length t0 + 1 <= n)%nat) by (cbn [length] in L; rewrite app_length in L; cbn in L; lia);
      pose proof (CP t0 d I0 n r L2) as X; destruct (pairs_start t0 d I0) as (w & u & -> & B) end.
    rewrite <- app_assoc in X |- *. cbn [app] in X |- *.
    rewrite skip_blanks in X |- * by auto. rewrite skip_hd in X |- * by reflexivity.
    change (Ascii.eqb quote "}") with false. cbn iota. rewrite X. reflexivity.
Qed.

Lemma blank_or_not (t : text) : blanks t \/ exists c, In c t /\ is_blank c = false.
Proof.
  induction t as [|c t [IH|(d & I & E)]].
  - left. constructor.
  - destruct (is_blank c) eqn:E; [left; constructor; auto|right; exists c; split; [left|]; auto].
  - right. exists d. split; [right|]; auto.
Qed.

(** A document in brackets of which more than blanks is cut off at the end is no
    document. *)
Lemma cut_off_fails t v p q : document_text t v -> t = p ++ q ->
  (exists d, v = JObj d) \/ (exists l, v = JArr l) ->
  (exists c, In c q /\ is_blank c = false) -> loads p = Raise JSONDecodeError.
Proof.
  intros (w1 & t1 & w2 & Et & B1 & V & B2) E Hv (c & Ic & Nc).
  assert (Raises : forall x, loads p = Raise x -> loads p = Raise JSONDecodeError).
  { intros x. unfold loads. destruct (scan _ _) as [[v' r]|]; [|auto]. destruct (skip r); [discriminate|auto]. }
  destruct (loads p) as [v2|x] eqn:Lp; [|exact (Raises x eq_refl)].
  exfalso. clear Raises. apply loads_sound in Lp. destruct Lp as (u1 & t2 & u2 & Ep & C1 & V2 & C2).
  assert (Start : exists k t', t1 = k :: t' /\ (k = "{" \/ k = "[" \/ k = quote)).
  { destruct Hv as [(d & ->)|(l & ->)]; inversion V; subst; eauto 6. }
  destruct Start as (k & t1' & Ek & Hk).
  destruct (json_text_starts t2 v2 V2) as (k2 & t2' & Ek2 & X2 & _).
  destruct (json_text_starts t1 v V) as (k1 & t1'' & Ek1 & X1 & _).
  assert (Same : t1 ++ w2 = t2 ++ u2 ++ q).
  { assert (S1 : skip t = t1 ++ w2).
    { rewrite Et, skip_blanks by auto. rewrite Ek1. cbn [app]. apply skip_hd; auto. }
    assert (S2 : skip t = t2 ++ u2 ++ q).
    { rewrite E, Ep, <- !app_assoc, skip_blanks by auto. rewrite Ek2. cbn [app]. apply skip_hd; auto. }
    congruence. }
  assert (K : k2 = k).
  { rewrite Ek, Ek2 in Same. cbn [app] in Same. injection Same as Z _. auto. }
  set (n := (2 * length t1 + 2 * length t2)%nat).
  pose proof (closed_reads t1 v k t1' V Ek Hk n w2 ltac:(unfold n; lia)) as R1.
  pose proof (closed_reads t2 v2 k2 t2' V2 Ek2 ltac:(rewrite K; exact Hk) n (u2 ++ q) ltac:(unfold n; lia)) as R2.
  rewrite Same in R1. rewrite R1 in R2. injection R2 as _ Z.
  unfold blanks in B2. rewrite Z in B2. rewrite Forall_forall in B2.
  specialize (B2 c ltac:(apply in_or_app; auto)). congruence.
Qed.

(** * What json.dump writes *)

(** Texts that have one representation: code points, and no two halves of a
    surrogate pair in a row. *)
Fixpoint proper (s : str) : Prop :=
  match s with
  | [] => True
  | n :: s' => (n < 1114112)%N /\ proper s' /\
               match s' with m :: _ => ~ (high n = true /\ low m = true) | [] => True end
  end.

Inductive writable : json -> Prop :=
| wr_null : writable JNull
| wr_bool b : writable (JBool b)
| wr_int z : writable (JInt z)
| wr_float t : json_text t (JFloat t) -> writable (JFloat t)
| wr_str s : proper s -> writable (JStr s)
| wr_arr l : Forall writable l -> writable (JArr l)
| wr_obj d : Forall (fun kv => proper (fst kv) /\ writable (snd kv)) d -> NoDup (map fst d) -> writable (JObj d).

Section Json_ind.
  Variable P : json -> Prop.
  Hypothesis Hnull : P JNull.
  Hypothesis Hbool : forall b, P (JBool b).
  Hypothesis Hint : forall z, P (JInt z).
  Hypothesis Hfloat : forall t, P (JFloat t).
  Hypothesis Hstr : forall s, P (JStr s).
  Hypothesis Harr : forall l, Forall P l -> P (JArr l).
  Hypothesis Hobj : forall d, Forall (fun kv => P (snd kv)) d -> P (JObj d).
  Fixpoint json_ind' (v : json) : P v :=
    match v with
    | JNull => Hnull
    | JBool b => Hbool b
    | JInt z => Hint z
    | JFloat t => Hfloat t
    | JStr s => Hstr s
    | JArr l => Harr l ((fix go l := match l return Forall P l with
                                     | [] => Forall_nil _
                                     | x :: l' => Forall_cons _ (json_ind' x) (go l') end) l)
    | JObj d => Hobj d ((fix go d := match d return Forall (fun kv => P (snd kv)) d with
                                     | [] => Forall_nil _
                                     | x :: d' => Forall_cons _ (json_ind' (snd x)) (go d') end) d)
    end.
End Json_ind.

Lemma hex_value_digit n : (n < 16)%N -> hex_value (hex_digit n) = Some n.
Proof.
  intros H.
  assert (X : In n (map N.of_nat (seq 0 16))).
  { apply in_map_iff. exists (N.to_nat n). split; [lia|]. apply in_seq. lia. }
  cbn [seq map] in X. repeat (destruct X as [<-|X]; [reflexivity|]). destruct X.
Qed.

Lemma hex4_escape n : (n < 65536)%N ->
  hex4 (hex_digit (n / 4096)) (hex_digit (n / 256 mod 16)) (hex_digit (n / 16 mod 16)) (hex_digit (n mod 16)) = Some n.
Proof.
  intros H. unfold hex4.
  rewrite !hex_value_digit; try (apply N.mod_lt; discriminate); [|apply N.div_lt_upper_bound; lia].
  f_equal.
  assert (E1 : (n / 4096 = n / 256 / 16)%N) by (rewrite N.div_div by discriminate; reflexivity).
  assert (E2 : (n / 256 = n / 16 / 16)%N) by (rewrite N.div_div by discriminate; reflexivity).
  rewrite E1.
  pose proof (N.div_mod (n / 256) 16 ltac:(discriminate)) as D1.
  pose proof (N.div_mod (n / 16) 16 ltac:(discriminate)) as D2.
  pose proof (N.div_mod n 16 ltac:(discriminate)) as D3.
  rewrite <- E2 in D2. lia.
Qed.

Lemma ascii_N n : (n < 256)%N -> N_of_ascii (ascii_of_N n) = n.
Proof. apply N_ascii_embedding. Qed.

Lemma cons_inj {A} (a b : A) l m : a :: l = b :: m -> a = b /\ l = m.
Proof. intros E. injection E. auto. Qed.

(** The escape of a text that starts with a low half. *)
Lemma dump_low s : low_escape (flat_map dump_char s) -> proper s ->
  match s with m :: _ => low m = true | [] => False end.
Proof.
  intros (k1 & k2 & k3 & k4 & t' & v & E & H & L) P. destruct s as [|m s]; [discriminate E|].
  cbn [flat_map] in E. destruct P as (Pm & _).
  unfold dump_char in E.
  repeat match type of E with
  | (if N.eqb m ?k then _ else _) ++ _ = _ => destruct (N.eqb_spec m k); [discriminate E|]
  end.
  destruct (N.leb 32 m && N.leb m 126) eqn:R.
  - cbn [app] in E. apply cons_inj in E. destruct E as [E _]. apply andb_true_iff in R. destruct R as [R1 R2].
    apply N.leb_le in R1. apply N.leb_le in R2.
    assert (m = 92)%N; [|contradiction].
    rewrite <- (ascii_N m) by lia. rewrite E. reflexivity.
  - destruct (N.ltb_spec m 65536) as [M|M].
    + unfold unicode_escape in E. cbn [app] in E.
      do 2 (apply cons_inj in E; destruct E as [_ E]).
      do 4 (apply cons_inj in E; destruct E as [<- E]). clear E.
      rewrite hex4_escape in H by auto. injection H as <-. exact L.
    + assert (Q : ((m - 65536) / 1024 < 1024)%N) by (apply N.div_lt_upper_bound; lia).
      remember (55296 + (m - 65536) / 1024)%N as a eqn:Ea in E.
      rewrite <- app_assoc in E.
      remember (unicode_escape (56320 + (m - 65536) mod 1024) ++ flat_map dump_char s) as more eqn:Em in E. clear Em.
      unfold unicode_escape in E. cbn [app] in E.
      do 2 (apply cons_inj in E; destruct E as [_ E]).
      do 4 (apply cons_inj in E; destruct E as [<- E]). clear E.
      rewrite hex4_escape in H by lia. injection H as <-. unfold low in L.
      apply andb_true_iff in L. destruct L as [L _]. apply N.leb_le in L. lia.
Qed.

Lemma dump_string s : proper s -> string_text (flat_map dump_char s) s.
Proof.
  induction s as [|n s IH]; intros P; [constructor|].
  assert (P' := P). destruct P' as (Pn & Ps & Pp). specialize (IH Ps).
  cbn [flat_map]. unfold dump_char.
  repeat match goal with
  | |- string_text ((if N.eqb n ?k then _ else _) ++ _) _ => destruct (N.eqb_spec n k) as [->|];
      [apply st_escape; [reflexivity|exact IH]|]
  end.
  destruct (N.leb 32 n && N.leb n 126) eqn:R.
  - apply andb_true_iff in R. destruct R as [R1 R2]. apply N.leb_le in R1. apply N.leb_le in R2.
    cbn [app]. rewrite <- (ascii_N n) at 2 by lia.
    apply st_char; auto.
    + intros E. assert (n = 34)%N; [|contradiction]. rewrite <- (ascii_N n) by lia. rewrite E. reflexivity.
    + intros E. assert (n = 92)%N; [|contradiction]. rewrite <- (ascii_N n) by lia. rewrite E. reflexivity.
    + rewrite ascii_N by lia. auto.
  - destruct (N.ltb_spec n 65536) as [M|M].
    + unfold unicode_escape. cbn [app]. apply st_unicode; auto using hex4_escape.
      intros [Hh Hl]. apply dump_low in Hl; auto. destruct s as [|m s]; [destruct Hl|]. apply Pp. auto.
    + assert (Q : ((n - 65536) / 1024 < 1024)%N) by (apply N.div_lt_upper_bound; lia).
      assert (Q2 : ((n - 65536) mod 1024 < 1024)%N) by (apply N.mod_lt; discriminate).
      rewrite <- app_assoc. unfold unicode_escape. cbn [app].
      assert (E : n = pair_value (55296 + (n - 65536) / 1024) (56320 + (n - 65536) mod 1024)).
      { pose proof (N.div_mod (n - 65536) 1024 ltac:(discriminate)) as D.
        assert (n = 65536 + (n - 65536))%N by lia.
        generalize dependent ((n - 65536) mod 1024)%N. generalize dependent ((n - 65536) / 1024)%N.
        unfold pair_value. intros. lia. }
      assert (Ra : (55296 <= 55296 + (n - 65536) / 1024 <= 56319)%N).
      { generalize dependent ((n - 65536) / 1024)%N. intros. lia. }
      assert (Rb : (56320 <= 56320 + (n - 65536) mod 1024 <= 57343)%N).
      { generalize dependent ((n - 65536) mod 1024)%N. intros. lia. }
      set (a := (55296 + (n - 65536) / 1024)%N) in *. set (b := (56320 + (n - 65536) mod 1024)%N) in *.
      rewrite E.
      apply st_pair; auto; try (apply hex4_escape; clearbody a b; lia).
      * unfold high. apply andb_true_iff. split; apply N.leb_le; tauto.
      * unfold low. apply andb_true_iff. split; apply N.leb_le; tauto.
Qed.

(** Printed integers. *)
Lemma nilempty_digits d : Forall (fun c => is_digit c = true) (T (DecimalString.NilEmpty.string_of_uint d)).
Proof. exact (uint_digits d). Qed.

Lemma show_pos_whole p : whole_text (T (DecimalString.NilZero.string_of_uint (Pos.to_uint p))).
Proof.
  assert (U : Decimal.unorm (Pos.to_uint p) = Pos.to_uint p).
  { pose proof (DecimalPos.Unsigned.to_of (Pos.to_uint p)) as X.
    rewrite DecimalPos.Unsigned.of_to in X. cbn in X. symmetry. exact X. }
  assert (NZ : forall u, Pos.to_uint p <> Decimal.D0 u).
  { intros u E. rewrite E in U. unfold Decimal.unorm in U. cbn [Decimal.nzhead] in U.
    pose proof (DecimalFacts.nzhead_nonzero u) as Z.
    destruct (Decimal.nzhead u) eqn:Q; try discriminate U; try (eapply Z; eauto; fail).
    injection U as <-.
    assert (C : Pos.of_uint (Pos.to_uint p) = Npos p) by apply DecimalPos.Unsigned.of_to.
    rewrite E in C. discriminate C. }
  pose proof (DecimalPos.Unsigned.to_uint_nonnil p) as NN.
  destruct (Pos.to_uint p) as [|u|u|u|u|u|u|u|u|u|u]; try contradiction;
    try (exfalso; eapply NZ; reflexivity);
    (cbn; unfold T; cbn [list_ascii_of_string]; apply wh_digits; [reflexivity|discriminate|apply nilempty_digits]).
Qed.

Lemma show_Z_text z : json_text (show_Z z) (JInt z).
Proof.
  pose proof (parse_show_Z z) as P. unfold show_Z in P |- *. destruct z as [|p|p].
  - exact (jt_int [] ["0"] 0%Z sg_none wh_zero P).
  - exact (jt_int [] _ (Z.pos p) sg_none (show_pos_whole p) P).
  - exact (jt_int ["-"] _ (Z.neg p) sg_minus (show_pos_whole p) P).
Qed.

Lemma seqb_eq a : forall b, seqb a b = true <-> a = b.
Proof.
  induction a as [|x a IH]; intros [|y b]; cbn; try (split; congruence).
  rewrite andb_true_iff, N.eqb_eq, IH. split; [intros [-> ->]; reflexivity|intros E; injection E as <- <-; auto].
Qed.

Lemma seqb_refl a : seqb a a = true.
Proof. apply seqb_eq. reflexivity. Qed.

Lemma dict_set_new {A} k (v : A) d : ~ In k (map fst d) -> dict_set k v d = d ++ [(k, v)].
Proof.
  induction d as [|[k' v'] d IH]; intros H; [reflexivity|]. cbn in H |- *.
  destruct (seqb k' k) eqn:E; [apply seqb_eq in E; tauto|]. rewrite IH by tauto. reflexivity.
Qed.

Lemma dict_of_distinct {A} (d : list (str * A)) : NoDup (map fst d) -> dict_of d = d.
Proof.
  unfold dict_of. intros H.
  assert (G : forall acc, NoDup (map fst (acc ++ d)) ->
            fold_left (fun d kv => dict_set (fst kv) (snd kv) d) d acc = acc ++ d).
  { clear H. induction d as [|[k v] d IH]; intros acc H; [symmetry; apply app_nil_r|].
    cbn [fold_left fst snd]. rewrite dict_set_new.
    - rewrite IH by (rewrite <- app_assoc; exact H). rewrite <- app_assoc. reflexivity.
    - rewrite map_app in H. cbn [map] in H. apply NoDup_remove_2 in H. rewrite in_app_iff in H. tauto. }
  apply (G []). exact H.
Qed.

Lemma comma_blank : T ", " = ["," ; " "].
Proof. reflexivity. Qed.

Lemma json_text_dump v : writable v -> json_text (dump v) v.
Proof.
  induction v as [|b|z|t|s|l IH|d IH] using json_ind'; intros W; inversion W; subst.
  - constructor.
  - destruct b; constructor.
  - apply show_Z_text.
  - auto.
  - apply jt_str. apply dump_string. auto.
  - cbn [dump]. destruct l as [|x l]; [apply (jt_arr_none []); constructor|].
    apply jt_arr.
    assert (B : blanks [" "]) by (repeat constructor).
    assert (G : forall w, blanks w -> items_text (w ++ join (T ", ") (map dump (x :: l))) (x :: l)).
    { clear W. rename H0 into W. revert x IH W. induction l as [|y l IHl]; intros x IH W w Bw.
      - cbn [map join]. rewrite <- (app_nil_r (dump x)). apply it_one; auto; [|constructor].
        inversion IH; inversion W; auto.
      - cbn [map join]. rewrite comma_blank.
        inversion IH as [|? ? IHx IHr]; inversion W as [|? ? Wx Wr]; subst.
        exact (it_more w (dump x) [] x _ _ Bw (IHx Wx) (Forall_nil _) (IHl y IHr Wr [" "] B)). }
    exact (G [] (Forall_nil _)).
  - cbn [dump]. destruct d as [|x d]; [apply (jt_obj_none []); constructor|].
    rewrite <- (dict_of_distinct (x :: d)) at 2 by auto.
    apply jt_obj.
    assert (B : blanks [" "]) by (repeat constructor).
    match goal with H : Forall _ (x :: d) |- _ => rename H into W0 end.
    assert (G : forall w, blanks w ->
       pairs_text (w ++ join (T ", ") (map (fun kv => dump_str (fst kv) ++ T ": " ++ dump (snd kv)) (x :: d))) (x :: d)).
    { clear W. match goal with H : NoDup _ |- _ => clear H end. rename W0 into W.
      revert x IH W. induction d as [|y d IHd]; intros x IH W w Bw.
      - inversion IH as [|? ? IHx _]; inversion W as [|? ? [Wk Wx] _]; subst. destruct x as [k v]. cbn [fst snd] in *.
        cbn [map join fst snd]. unfold dump_str.
        replace ((quote :: flat_map dump_char k ++ [quote]) ++ T ": " ++ dump v)
          with (quote :: flat_map dump_char k ++ quote :: [] ++ ":" :: [" "] ++ dump v ++ []).
        + apply pt_one; auto; [apply dump_string; auto|constructor|constructor].
        + rewrite app_nil_r. cbn [app]. rewrite <- app_assoc. reflexivity.
      - inversion IH as [|? ? IHx IHr]; inversion W as [|? ? [Wk Wx] Wr]; subst. destruct x as [k v]. cbn [fst snd] in *.
        pose proof (IHd y IHr Wr [" "] B) as Z.
        change (map (fun kv => dump_str (fst kv) ++ T ": " ++ dump (snd kv)) ((k, v) :: y :: d))
          with ((dump_str k ++ T ": " ++ dump v) :: map (fun kv => dump_str (fst kv) ++ T ": " ++ dump (snd kv)) (y :: d)).
        set (rest := map (fun kv => dump_str (fst kv) ++ T ": " ++ dump (snd kv)) (y :: d)) in *.
        assert (J : join (T ", ") ((dump_str k ++ T ": " ++ dump v) :: rest)
                    = (dump_str k ++ T ": " ++ dump v) ++ T ", " ++ join (T ", ") rest) by reflexivity.
        rewrite J. unfold dump_str.
        replace (((quote :: flat_map dump_char k ++ [quote]) ++ T ": " ++ dump v) ++ T ", " ++ join (T ", ") rest)
          with (quote :: flat_map dump_char k ++ quote :: [] ++ ":" :: [" "] ++ dump v ++ [] ++ "," :: [" "] ++ join (T ", ") rest).
        + apply pt_more; auto; [apply dump_string; auto|constructor|constructor].
        + cbn [app]. rewrite <- !app_assoc. reflexivity. }
    exact (G [] (Forall_nil _)).
Qed.

Lemma loads_dump v : writable v -> loads (dump v) = Ok v.
Proof.
  intros W. apply loads_complete. exists [], (dump v), []. repeat split; try constructor.
  - cbn. rewrite app_nil_r. reflexivity.
  - apply json_text_dump; auto.
Qed.
