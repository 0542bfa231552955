(** Theorems for C75: malformed configuration files are refused as a whole. *)
From Coq Require Import String List Ascii ZArith Bool Lia.
From Verif Require Import PyBase Text L_Text M_Ini L_Ini L_IniPrint.
Import ListNotations.

(** A line that starts in the first column and is not blank, not a comment, not
    a section header and holds neither "=" nor ":". *)
Definition meaningless (l : text) : Prop :=
  exists c l', l = c :: l' /\ is_space c = false /\ c <> "#"%char /\ c <> ";"%char /\ c <> "["%char /\
    ~ In "="%char l /\ ~ In ":"%char l.

Lemma parse_line_only_parser_errors st l e : parse_line st l = Raise e -> e = ConfigParserError.
Proof.
  unfold parse_line. cbv zeta.
  repeat match goal with
         | |- context [match ?x with _ => _ end] => destruct x
         end; intros H; try discriminate; congruence.
Qed.

Lemma parse_line_error st l st' : parse_line st l = Ok st' -> ps_error st = true -> ps_error st' = true.
Proof.
  unfold parse_line. cbv zeta.
  repeat match goal with
         | |- context [match ?x with _ => _ end] => destruct x
         end; intros H E; try discriminate; injection H as <-; cbn; rewrite ?E; auto.
Qed.

Lemma fold_error ls : forall st st', fold_res parse_line ls st = Ok st' -> ps_error st = true -> ps_error st' = true.
Proof.
  intros st st' H E. revert E H.
  intros E. apply (fold_res_inv (fun s => ps_error s = true)); auto.
  intros b x b' Hb Hx. eapply parse_line_error; eauto.
Qed.

Lemma fold_only_parser_errors ls : forall st e, fold_res parse_line ls st = Raise e -> e = ConfigParserError.
Proof.
  induction ls as [|l ls IH]; intros st e; cbn [fold_res]; [discriminate|].
  destruct (parse_line st l) as [st'|e'] eqn:E; intros H; [eauto|].
  injection H as <-. eapply parse_line_only_parser_errors; eauto.
Qed.

Lemma strip_first c l : is_space c = false -> strip (c :: l) = c :: rstrip l.
Proof. intros H. unfold strip, rstrip. apply (strip_by_app is_space [] c l). auto. Qed.

Lemma indent_first c l : is_space c = false -> indent_of (c :: l) = 0.
Proof. intros H. cbn. rewrite H. reflexivity. Qed.

Lemma no_comment c l : c <> "#"%char -> c <> ";"%char ->
  startswith (T "#") (c :: l) || startswith (T ";") (c :: l) = false.
Proof.
  intros H1 H2. change (T "#") with ["#"%char]. change (T ";") with [";"%char]. cbn [startswith].
  destruct (Ascii.eqb_spec "#" c); [congruence|]. destruct (Ascii.eqb_spec ";" c); [congruence|]. reflexivity.
Qed.

Lemma split_option_none t : ~ In "="%char t -> ~ In ":"%char t -> split_option t = None.
Proof.
  induction t as [|c t IH]; intros H1 H2; cbn; auto.
  destruct (Ascii.eqb_spec c "="); [subst; exfalso; apply H1; left; auto|].
  destruct (Ascii.eqb_spec c ":"); [subst; exfalso; apply H2; left; auto|].
  cbn. rewrite IH; auto; intros H; [apply H1 | apply H2]; right; auto.
Qed.

Lemma split_option_first k d v : ~ In "="%char k -> ~ In ":"%char k -> d = "="%char \/ d = ":"%char ->
  split_option (k ++ d :: v) = Some (k, v).
Proof.
  induction k as [|c k IH]; intros H1 H2 Hd; cbn.
  - destruct Hd; subst; reflexivity.
  - destruct (Ascii.eqb_spec c "="); [subst; exfalso; apply H1; left; auto|].
    destruct (Ascii.eqb_spec c ":"); [subst; exfalso; apply H2; left; auto|].
    cbn. rewrite IH; auto; intros H; [apply H1 | apply H2]; right; auto.
Qed.

Lemma section_header_none c l : c <> "["%char -> section_header (c :: l) = None.
Proof. intros H. unfold section_header. destruct c as [[] [] [] [] [] [] [] []]; try reflexivity. exfalso. apply H. reflexivity. Qed.

(** A line in the first column with a value is never a continuation. *)
Lemma parse_line_first st c l : is_space c = false -> c <> "#"%char -> c <> ";"%char ->
  parse_line st (c :: l) =
  let value := c :: rstrip l in
  match section_header value with
  | Some name =>
      if teqb name (T "DEFAULT") then
        Ok (mk_pstate (match tassoc (ps_sections st) name with
                       | Some _ => ps_sections st
                       | None => ps_sections st ++ [(name, [])]
                       end) (Some name) None 0 (ps_error st))
      else
        match tassoc (ps_sections st) name with
        | Some _ => Raise ConfigParserError
        | None => Ok (mk_pstate (ps_sections st ++ [(name, [])]) (Some name) None 0 (ps_error st))
        end
  | None =>
      match ps_cur st with
      | None => Raise ConfigParserError
      | Some s =>
          match split_option value with
          | Some (o, v) =>
              let o' := lower (rstrip o) in
              let sec := match tassoc (ps_sections st) s with Some d => d | None => [] end in
              match tassoc sec o' with
              | Some _ => Raise ConfigParserError
              | None =>
                  Ok (mk_pstate (tassoc_set (ps_sections st) s (tassoc_set sec o' [strip v]))
                                (ps_cur st) (Some o') 0 (ps_error st || negb (nonempty (rstrip o))))
              end
          | None => Ok (mk_pstate (ps_sections st) (ps_cur st) (ps_opt st) 0 true)
          end
      end
  end.
Proof.
  intros H1 H2 H3. unfold parse_line. cbv zeta. rewrite strip_first, no_comment, indent_first by auto.
  replace (match ps_cur st, ps_opt st with
           | Some s, Some o => if nonempty o && Nat.ltb (ps_indent st) 0 then Some (s, o) else None
           | _, _ => None end) with (@None (text * text)); [reflexivity|].
  destruct (ps_cur st), (ps_opt st); auto. rewrite andb_false_r. reflexivity.
Qed.

Lemma parse_meaningless st l : meaningless l ->
  match parse_line st l with Ok st' => ps_error st' = true | Raise e => e = ConfigParserError end.
Proof.
  intros (c & l' & -> & H1 & H2 & H3 & H4 & H5 & H6).
  rewrite parse_line_first by auto. cbv zeta. rewrite section_header_none by auto.
  destruct (ps_cur st); auto. rewrite split_option_none; [reflexivity| |];
    (intros [H|H]; [first [apply H5; left; exact H | apply H6; left; exact H]|]);
    apply rstrip_by_In in H; [apply H5 | apply H6]; right; auto.
Qed.

Lemma parse_error_result ls : 
  match fold_res parse_line ls init_pstate with
  | Ok st => ps_error st = true
  | Raise e => e = ConfigParserError
  end ->
  forall t, file_lines t = ls -> get_inifile_params t = Raise ConfigParserError.
Proof.
  intros H t <-. unfold get_inifile_params, parse_ini.
  destruct (fold_res parse_line (file_lines t) init_pstate) as [st|e]; cbn [bind]; [|subst; auto].
  rewrite H. reflexivity.
Qed.

Lemma fold_split a l b st :
  (forall st', match parse_line st' l with Ok s => ps_error s = true | Raise e => e = ConfigParserError end) ->
  match fold_res parse_line (a ++ l :: b) st with
  | Ok s => ps_error s = true
  | Raise e => e = ConfigParserError
  end.
Proof.
  intros H. rewrite fold_res_app. destruct (fold_res parse_line a st) as [s|e] eqn:E; cbn [bind].
  - cbn [fold_res]. specialize (H s). destruct (parse_line s l) as [s'|e]; [|exact H].
    destruct (fold_res parse_line b s') as [s''|e'] eqn:E'.
    + eapply fold_error; eauto.
    + eapply fold_only_parser_errors; eauto.
  - eapply fold_only_parser_errors; eauto.
Qed.

(** C75.  A line without meaning. *)
Theorem C75_meaningless_line_is_refused :
  forall (t : text), (exists l, In l (file_lines t) /\ meaningless l) ->
    get_inifile_params t = Raise ConfigParserError.
Proof.
  intros t (l & Hl & Hm). apply in_split in Hl. destruct Hl as (a & b & E).
  apply (parse_error_result (a ++ l :: b)); auto.
  apply fold_split. intros st. apply parse_meaningless. auto.
Qed.
Print Assumptions C75_meaningless_line_is_refused.

(** The section header of [n] and an assignment to [k], in the first column. *)
Definition header_of (n : text) (l : text) : Prop :=
  l = "["%char :: n ++ ["]"%char] /\ n <> [] /\ ~ In "]"%char n.
Definition assigns (k : text) (l : text) : Prop :=
  exists c k' d v, l = (c :: k') ++ d :: v /\ lower (rstrip (c :: k')) = k /\
    is_space c = false /\ c <> "#"%char /\ c <> ";"%char /\ c <> "["%char /\
    (d = "="%char \/ d = ":"%char) /\ ~ In "="%char (c :: k') /\ ~ In ":"%char (c :: k').

Lemma before_last_end n : ~ In "]"%char n -> before_last "]" (n ++ ["]"%char]) = Some n.
Proof.
  induction n as [|c n IH]; intros H; [reflexivity|]. cbn [app before_last]. rewrite IH; auto.
  intros H'. apply H. right. auto.
Qed.

Lemma header_value n : n <> [] -> ~ In "]"%char n ->
  section_header ("["%char :: rstrip (n ++ ["]"%char])) = Some n.
Proof.
  intros H1 H2.
  assert (E : rstrip (n ++ ["]"%char]) = n ++ ["]"%char]).
  { unfold rstrip. rewrite rstrip_by_app by reflexivity. reflexivity. }
  rewrite E. unfold section_header. rewrite before_last_end by auto. destruct n; congruence.
Qed.

Lemma tassoc_set_same {A} (l : list (text * A)) k v : tassoc (tassoc_set l k v) k = Some v.
Proof.
  induction l as [|[a x] l IH]; cbn; [rewrite teqb_refl; auto|].
  destruct (teqb a k) eqn:E; cbn; rewrite E; auto.
Qed.

Lemma tassoc_set_other {A} (l : list (text * A)) k v n : n <> k -> tassoc (tassoc_set l k v) n = tassoc l n.
Proof.
  intros H. induction l as [|[a x] l IH]; cbn.
  - destruct (teqb_spec k n); congruence.
  - destruct (teqb_spec a k) as [->|]; cbn.
    + destruct (teqb_spec k n); congruence.
    + rewrite IH. auto.
Qed.

Lemma tassoc_app {A} (l m : list (text * A)) k v : tassoc l k = Some v -> tassoc (l ++ m) k = Some v.
Proof. induction l as [|[a x] l IH]; cbn; [discriminate|]. destruct (teqb a k); auto. Qed.

Lemma tassoc_app_none {A} (l : list (text * A)) k v : tassoc l k = None -> tassoc (l ++ [(k, v)]) k = Some v.
Proof.
  induction l as [|[a x] l IH]; cbn; [rewrite teqb_refl; auto|]. destruct (teqb a k); [discriminate|auto].
Qed.

(** Section [n] holds at least the options [ks]. *)
Definition holds (n : text) (ks : list text) (secs : list (text * rawsec)) : Prop :=
  exists sec, tassoc secs n = Some sec /\ forall k, In k ks -> tassoc sec k <> None.

Lemma holds_set n ks secs s o v sec : holds n ks secs -> 
  (match tassoc secs s with Some d => d | None => [] end) = sec ->
  holds n ks (tassoc_set secs s (tassoc_set sec o v)).
Proof.
  intros (d & H1 & H2) E. unfold holds. destruct (text_dec n s) as [->|Hn].
  - rewrite tassoc_set_same. rewrite H1 in E. subst d. eexists. split; [reflexivity|].
    intros k Hk. destruct (text_dec k o) as [->|Ho]; [rewrite tassoc_set_same; discriminate|].
    rewrite tassoc_set_other by auto. auto.
  - rewrite tassoc_set_other by auto. eauto.
Qed.

Lemma holds_append n ks secs s o l : holds n ks secs -> holds n ks (append_value secs s o l).
Proof.
  intros H. unfold append_value. destruct (tassoc secs s) as [sec|] eqn:E; auto.
  destruct (tassoc sec o) eqn:E2; auto. apply holds_set; auto. rewrite E. auto.
Qed.

Lemma holds_app n ks secs m : holds n ks secs -> holds n ks (secs ++ m).
Proof. intros (d & H1 & H2). exists d. split; [apply tassoc_app|]; auto. Qed.

Lemma parse_line_holds n ks st l st' : holds n ks (ps_sections st) -> parse_line st l = Ok st' ->
  holds n ks (ps_sections st').
Proof.
  intros H. unfold parse_line. cbv zeta.
  repeat match goal with
         | |- context [match ?x with _ => _ end] => destruct x eqn:?
         end; intros E; try discriminate; injection E as <-; cbn [ps_sections];
    auto using holds_append, holds_app; try (apply holds_set; auto; match goal with H : tassoc _ _ = _ |- _ => rewrite H; auto end).
  match goal with |- holds _ _ (tassoc_set ?S ?t [(?o, ?v)]) => apply (holds_set n ks S t o v []) end; auto.
  match goal with H : tassoc (ps_sections st) _ = _ |- _ => rewrite H; auto end.
Qed.

Lemma fold_holds n ks ls st st' : holds n ks (ps_sections st) -> fold_res parse_line ls st = Ok st' ->
  holds n ks (ps_sections st').
Proof.
  intros H. apply (fold_res_inv (fun s => holds n ks (ps_sections s))); auto.
  intros b x b' Hb Hx. eapply parse_line_holds; eauto.
Qed.

Lemma parse_header st n l st' : header_of n l -> parse_line st l = Ok st' ->
  holds n [] (ps_sections st') /\ ps_cur st' = Some n /\
  (n <> T "DEFAULT" -> tassoc (ps_sections st) n = None).
Proof.
  intros (-> & H1 & H2). rewrite parse_line_first by (reflexivity || discriminate). cbv zeta.
  rewrite header_value by auto. destruct (teqb_spec n (T "DEFAULT")) as [Hd|Hd].
  - intros H. injection H as <-. cbn [ps_sections ps_cur]. split; [|split; [reflexivity|congruence]].
    destruct (tassoc (ps_sections st) n) as [sec|] eqn:E.
    + exists sec. split; [assumption|]. intros k [].
    + exists []. split; [apply tassoc_app_none; auto|]. intros k [].
  - destruct (tassoc (ps_sections st) n) as [sec|] eqn:E; [discriminate|].
    intros H. injection H as <-. cbn [ps_sections ps_cur]. split; [|split; auto].
    exists []. split; [apply tassoc_app_none; auto|]. intros k [].
Qed.

(** C75.  A section that is given twice. *)
Theorem C75_repeated_section_is_refused :
  forall (t n l1 l2 : text) a b c, file_lines t = a ++ l1 :: b ++ l2 :: c ->
    header_of n l1 -> header_of n l2 -> n <> T "DEFAULT" ->
    get_inifile_params t = Raise ConfigParserError.
Proof.
  intros t n l1 l2 a b c E H1 H2 Hn. apply (parse_error_result (a ++ l1 :: b ++ l2 :: c)); auto.
  destruct (fold_res parse_line (a ++ l1 :: b ++ l2 :: c) init_pstate) as [st|e] eqn:F.
  2: { eapply fold_only_parser_errors; eauto. }
  exfalso. rewrite fold_res_app in F. destruct (fold_res parse_line a init_pstate) as [s0|] eqn:F0; [|discriminate].
  cbn [bind fold_res] in F. destruct (parse_line s0 l1) as [s1|] eqn:F1; [|discriminate].
  rewrite fold_res_app in F. destruct (fold_res parse_line b s1) as [s2|] eqn:F2; [|discriminate].
  cbn [bind fold_res] in F. destruct (parse_line s2 l2) as [s3|] eqn:F3; [|discriminate].
  destruct (parse_header _ _ _ _ H1 F1) as (Hh & _ & _).
  pose proof (fold_holds _ _ _ _ _ Hh F2) as (sec & Hs & _).
  destruct (parse_header _ _ _ _ H2 F3) as (_ & _ & Hx). rewrite Hx in Hs by auto. discriminate.
Qed.
Print Assumptions C75_repeated_section_is_refused.

Lemma parse_assigns st k l st' : assigns k l -> parse_line st l = Ok st' ->
  exists s, ps_cur st = Some s /\ ps_cur st' = Some s /\
    ~ holds s [k] (ps_sections st) /\ holds s [k] (ps_sections st').
Proof.
  intros (c & k' & d & v & -> & Hk & H1 & H2 & H3 & H4 & Hd & H5 & H6).
  cbn [app]. rewrite parse_line_first by auto. cbv zeta. rewrite section_header_none by auto.
  destruct (ps_cur st) as [s|] eqn:Ec; [|discriminate].
  assert (Ev : c :: rstrip (k' ++ d :: v) = (c :: k') ++ d :: rstrip v).
  { cbn [app]. f_equal. unfold rstrip. apply rstrip_by_app. destruct Hd; subst; reflexivity. }
  rewrite Ev, split_option_first by auto. rewrite Hk.
  match goal with |- context [tassoc ?x k] => destruct (tassoc x k) eqn:Eo; [discriminate|] end.
  intros H. injection H as <-. exists s. cbn [ps_cur ps_sections]. split; [reflexivity|]. split; [reflexivity|]. split.
  - intros (sec & G1 & G2). rewrite G1 in Eo. apply (G2 k); [left|]; auto.
  - exists (tassoc_set (match tassoc (ps_sections st) s with Some d0 => d0 | None => [] end) k [strip (rstrip v)]).
    split; [apply tassoc_set_same|]. intros k0 [<-|[]]. rewrite tassoc_set_same. discriminate.
Qed.

(** C75.  An option before the first section. *)
Theorem C75_option_outside_a_section_is_refused :
  forall (t l : text) (k : text) a b, file_lines t = a ++ l :: b -> assigns k l ->
    (forall x, In x a -> strip x = [] \/ startswith (T "#") (strip x) = true \/ startswith (T ";") (strip x) = true) ->
    get_inifile_params t = Raise ConfigParserError.
Proof.
  intros t l k a b E Hl Ha. apply (parse_error_result (a ++ l :: b)); auto.
  destruct (fold_res parse_line (a ++ l :: b) init_pstate) as [st|e] eqn:F.
  2: { eapply fold_only_parser_errors; eauto. }
  exfalso. rewrite fold_res_app in F.
  assert (Fa : fold_res parse_line a init_pstate = Ok init_pstate).
  { clear - Ha. induction a as [|x a IH]; [reflexivity|]. cbn [fold_res].
    replace (parse_line init_pstate x) with (Ok init_pstate); [apply IH; intros; apply Ha; right; auto|].
    unfold parse_line. cbv zeta. destruct (Ha x) as [H|[H|H]]; [left; auto|..].
    - rewrite H. reflexivity.
    - rewrite H. reflexivity.
    - rewrite H, orb_true_r. reflexivity. }
  rewrite Fa in F. cbn [bind fold_res] in F. destruct (parse_line init_pstate l) as [s1|] eqn:F1; [|discriminate].
  destruct (parse_assigns _ _ _ _ Hl F1) as (s & Hs & _). discriminate.
Qed.
Print Assumptions C75_option_outside_a_section_is_refused.

Lemma parse_line_cur st l st' : startswith (T "[") (strip l) = false -> parse_line st l = Ok st' ->
  ps_cur st' = ps_cur st.
Proof.
  intros H. unfold parse_line. cbv zeta.
  destruct (if startswith (T "#") (strip l) || startswith (T ";") (strip l) then [] else strip l) as [|c v] eqn:E.
  - repeat match goal with |- context [match ?x with _ => _ end] => destruct x eqn:? end;
      intros G; injection G as <-; cbn [ps_cur]; auto.
  - assert (Hs : section_header (c :: v) = None).
    { apply section_header_none. intros ->.
      destruct (startswith (T "#") (strip l) || startswith (T ";") (strip l)); [discriminate|].
      rewrite E in H. discriminate. }
    rewrite Hs.
    repeat match goal with |- context [match ?x with _ => _ end] => destruct x eqn:? end;
      intros G; try discriminate; injection G as <-; cbn [ps_cur]; auto.
Qed.

Lemma fold_cur ls st st' : (forall x, In x ls -> startswith (T "[") (strip x) = false) ->
  fold_res parse_line ls st = Ok st' -> ps_cur st' = ps_cur st.
Proof.
  revert st. induction ls as [|x ls IH]; intros st H F; cbn [fold_res] in F; [congruence|].
  destruct (parse_line st x) as [s|] eqn:E; [|discriminate].
  rewrite (IH s); auto; [|intros y Hy; apply H; right; auto].
  apply (parse_line_cur _ x); auto. apply H. left. auto.
Qed.

(** C75.  An option that is given twice in a section; keys do not differ by
    case. *)
Theorem C75_repeated_option_is_refused :
  forall (t l1 l2 : text) (k : text) a b c, file_lines t = a ++ l1 :: b ++ l2 :: c ->
    assigns k l1 -> assigns k l2 ->
    (forall x, In x b -> startswith (T "[") (strip x) = false) ->
    get_inifile_params t = Raise ConfigParserError.
Proof.
  intros t l1 l2 k a b c E H1 H2 Hb. apply (parse_error_result (a ++ l1 :: b ++ l2 :: c)); auto.
  destruct (fold_res parse_line (a ++ l1 :: b ++ l2 :: c) init_pstate) as [st|e] eqn:F.
  2: { eapply fold_only_parser_errors; eauto. }
  exfalso. rewrite fold_res_app in F. destruct (fold_res parse_line a init_pstate) as [s0|] eqn:F0; [|discriminate].
  cbn [bind fold_res] in F. destruct (parse_line s0 l1) as [s1|] eqn:F1; [|discriminate].
  rewrite fold_res_app in F. destruct (fold_res parse_line b s1) as [s2|] eqn:F2; [|discriminate].
  cbn [bind fold_res] in F. destruct (parse_line s2 l2) as [s3|] eqn:F3; [|discriminate].
  destruct (parse_assigns _ _ _ _ H1 F1) as (s & _ & C1 & _ & G1).
  pose proof (fold_holds _ _ _ _ _ G1 F2) as G2. pose proof (fold_cur _ _ _ Hb F2) as C2.
  destruct (parse_assigns _ _ _ _ H2 F3) as (s' & C3 & _ & G3 & _).
  assert (s' = s) by congruence. subst. auto.
Qed.
Print Assumptions C75_repeated_option_is_refused.

(** C75.  A refused file reaches the user as an error of the parser: no project
    is made from it and a loaded configuration is not touched. *)
Theorem C75_no_project_from_a_refused_file :
  forall F (read_float : text -> option F) (tpl : config F) cwd w i p (t : text),
    get_inifile_params t = Raise ConfigParserError ->
    (lookup_file (files w) (resolve cwd p) = Some t ->
       project_init read_float tpl cwd w p = Raise ConfigParserError) /\
    (lookup_file (files (i_fs i)) (resolve cwd p) = Some t ->
       load_configuration read_float tpl cwd i p = Raise ConfigParserError).
Proof.
  intros F rf tpl cwd w i p t H. split; intros Hf.
  - unfold project_init, is_file. rewrite Hf. unfold load_configuration. cbn [i_fs]. rewrite Hf.
    unfold read_inifile. rewrite H. reflexivity.
  - unfold load_configuration. rewrite Hf. unfold read_inifile. rewrite H. reflexivity.
Qed.
Print Assumptions C75_no_project_from_a_refused_file.

Definition two_lines (a b : text) : text := a ++ newline :: b ++ [newline].
Example C75_cases :
  get_inifile_params (two_lines (T "[input]") (T "oops")) = Raise ConfigParserError /\
  get_inifile_params (two_lines (T "[input]") (T "[input]")) = Raise ConfigParserError /\
  get_inifile_params (two_lines (T "a = 1") (T "[input]")) = Raise ConfigParserError /\
  get_inifile_params (two_lines (T "[input]") (T "a = 1")) = Ok [(T "input", [(T "a", T "1")])] /\
  meaningless (T "oops") /\ header_of (T "input") (T "[input]") /\ assigns (T "a") (T "A = 1").
Proof.
  repeat (split; [vm_compute; reflexivity|]). split; [|split].
  - exists "o"%char, (T "ops"). repeat split; first [discriminate | vm_compute; intuition discriminate | reflexivity].
  - repeat split; first [discriminate | vm_compute; intuition discriminate | reflexivity].
  - exists "A"%char, (T " "), "="%char, (T " 1"). repeat split; auto; first [discriminate | vm_compute; intuition discriminate | reflexivity].
Qed.
