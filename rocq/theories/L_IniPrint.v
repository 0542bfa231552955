(** Parsing a printed configuration. *)
From Coq Require Import String List Ascii ZArith Bool Lia.
From Verif Require Import PyBase Text L_Text M_Ini L_Ini.
Import ListNotations.
Local Open Scope char_scope.

Lemma dropwhile_app p a c b : p c = false -> dropwhile p (a ++ c :: b) = dropwhile p a ++ c :: b.
Proof.
  intros H. induction a as [|x a IH]; simpl; [rewrite H; auto|]. destruct (p x); auto.
Qed.

Lemma rstrip_by_app p a c b : p c = false -> rstrip_by p (a ++ c :: b) = a ++ c :: rstrip_by p b.
Proof.
  intros H. unfold rstrip_by. rewrite rev_app_distr. simpl. rewrite <- app_assoc. simpl.
  rewrite dropwhile_app by auto. rewrite rev_app_distr. simpl. rewrite rev_involutive, <- app_assoc. auto.
Qed.

Lemma strip_by_app p a c b : p c = false -> strip_by p (a ++ c :: b) = dropwhile p a ++ c :: rstrip_by p b.
Proof. intros H. unfold strip_by. rewrite dropwhile_app, rstrip_by_app; auto. Qed.

Lemma dropwhile_idem p t : dropwhile p (dropwhile p t) = dropwhile p t.
Proof. apply dropwhile_hd. apply dropwhile_hd_inv. Qed.

Lemma strip_lstrip t : strip (lstrip t) = strip t.
Proof. unfold strip, strip_by, lstrip. rewrite dropwhile_idem. auto. Qed.

Lemma dropwhile_In p t c : In c (dropwhile p t) -> In c t.
Proof. induction t; simpl; auto. destruct (p a); simpl; auto. Qed.

Lemma rstrip_by_In p t c : In c (rstrip_by p t) -> In c t.
Proof. unfold rstrip_by. rewrite <- in_rev. intros H. apply dropwhile_In in H. rewrite <- in_rev in H. auto. Qed.

Lemma strip_In t c : In c (strip t) -> In c t.
Proof. unfold strip, strip_by. intros H. apply rstrip_by_In in H. apply dropwhile_In in H. auto. Qed.

Lemma before_last_snoc c t : before_last c (t ++ [c]) = Some t.
Proof. induction t as [|x t IH]; simpl; [rewrite Ascii.eqb_refl; auto|]. rewrite IH. auto. Qed.

Lemma split_option_app a b : free "=" a -> free ":" a -> split_option (a ++ "=" :: b) = Some (a, b).
Proof.
  induction a as [|x a IH]; intros H1 H2; cbn [app split_option]; [reflexivity|].
  destruct (Ascii.eqb_spec x "=") as [->|]; [exfalso; apply H1; left; auto|].
  destruct (Ascii.eqb_spec x ":") as [->|]; [exfalso; apply H2; left; auto|]. cbn [orb].
  rewrite IH; [reflexivity| |]; intros H; [apply H1|apply H2]; right; auto.
Qed.

Lemma interpolate_free t : free "%" t -> interpolate_percent t = Ok t.
Proof.
  induction t as [|c t IH]; intros H; [reflexivity|].
  assert (Hc : c <> "%") by (intros ->; apply H; left; auto).
  assert (E : interpolate_percent (c :: t) = bind (interpolate_percent t) (fun r => Ok (c :: r))).
  { clear - Hc. destruct c as [[] [] [] [] [] [] [] []]; try reflexivity. congruence. }
  rewrite E, IH; [reflexivity|]. intros H'. apply H. right; auto.
Qed.

Lemma startswith_head x p y b : x <> y -> startswith (x :: p) (y :: b) = false.
Proof. intros H. cbn [startswith]. destruct (Ascii.eqb_spec x y); [contradiction|reflexivity]. Qed.

Lemma rstrip_trimmed t : trimmed t -> rstrip t = t.
Proof. intros [_ H]. apply rstrip_by_id. auto. Qed.

Section WithFloats.
  Variable F : Type.
  Variable show_float : F -> text.
  Notation show := (show_value show_float).

  (** What can stand in a configuration so that its print can be parsed. *)
  Record good_name (n : text) : Prop := {
    gn_nonempty : n <> []; gn_newline : free newline n; gn_default : n <> T "DEFAULT" }.
  Record good_key (k : text) : Prop := {
    gk_nonempty : k <> []; gk_trimmed : trimmed k; gk_newline : free newline k;
    gk_eq : free "=" k; gk_colon : free ":" k;
    gk_first : forall c k', k = c :: k' -> c <> "#" /\ c <> ";" /\ c <> "[" }.
  Record clean (t : text) : Prop := {
    cl_trimmed : trimmed t; cl_newline : free newline t; cl_hash : free "#" t; cl_percent : free "%" t }.
  Record good_entry (ke : text * entry F) : Prop := {
    ge_key : good_key (fst ke);
    ge_value : clean (show (e_value (snd ke)));
    ge_hint_nl : free newline (e_hint (snd ke));
    ge_hint_pc : free "%" (e_hint (snd ke)) }.
  Record printable (c : config F) : Prop := {
    pr_names : Forall (fun ns => good_name (fst ns)) c;
    pr_entries : Forall (fun ns => Forall good_entry (snd ns)) c;
    pr_distinct : distinct_keys c;
    pr_keys : Forall (fun ns => distinct_keys (snd ns)) c }.

  Definition raw (e : entry F) : text :=
    strip (" " :: ljust 10 (show (e_value e)) ++ "#" :: rstrip (" " :: e_hint e)).

  Lemma raw_value e : clean (show (e_value e)) -> strip (hd [] (split_on "#" (raw e))) = show (e_value e).
  Proof.
    intros [H1 H2 H3 H4]. unfold raw.
    change (" " :: ljust 10 (show (e_value e)) ++ "#" :: rstrip (" " :: e_hint e))
      with ((" " :: ljust 10 (show (e_value e))) ++ "#" :: rstrip (" " :: e_hint e)).
    unfold strip at 2. rewrite strip_by_app by reflexivity.
    assert (Hfree : free "#" (" " :: ljust 10 (show (e_value e)))).
    { apply free_cons; [discriminate|]. unfold ljust. apply free_app; auto. apply free_repeat. discriminate. }
    rewrite split_on_first by (intros Hin; apply dropwhile_In in Hin; auto).
    change (dropwhile is_space (" " :: ljust 10 (show (e_value e)))) with (lstrip (" " :: ljust 10 (show (e_value e)))).
    rewrite strip_lstrip. apply (strip_pad [" "] (show (e_value e)) (repeat " " (10 - length (show (e_value e))))); auto.
    apply all_space_repeat.
  Qed.

  Lemma raw_percent e : clean (show (e_value e)) -> free "%" (e_hint e) -> interpolate_percent (raw e) = Ok (raw e).
  Proof.
    intros [_ _ _ H] Hh. apply interpolate_free. intros Hin. unfold raw in Hin. apply strip_In in Hin.
    change (In "%" ((" " :: ljust 10 (show (e_value e))) ++ "#" :: rstrip (" " :: e_hint e))) in Hin.
    apply in_app_or in Hin. destruct Hin as [Hin|Hin].
    - destruct Hin as [Hin|Hin]; [discriminate|]. unfold ljust in Hin. apply in_app_or in Hin.
      destruct Hin as [Hin|Hin]; [auto|]. apply repeat_spec in Hin. discriminate.
    - destruct Hin as [Hin|Hin]; [discriminate|]. apply rstrip_by_In in Hin.
      destruct Hin as [Hin|Hin]; [discriminate|auto].
  Qed.

  Lemma print_entry_shape ke : print_entry show_float ke =
    (ljust 30 (fst ke) ++ "=" :: " " :: ljust 10 (show (e_value (snd ke)))) ++ "#" :: " " :: e_hint (snd ke).
  Proof.
    unfold print_entry. rewrite <- app_assoc. f_equal.
  Qed.

  Lemma print_entry_strip ke : good_key (fst ke) -> strip (print_entry show_float ke) =
    ljust 30 (fst ke) ++ "=" :: " " :: ljust 10 (show (e_value (snd ke))) ++ "#" :: rstrip (" " :: e_hint (snd ke)).
  Proof.
    intros [H1 [H2 H2'] H3 H4 H5 H6]. rewrite print_entry_shape. unfold strip. rewrite strip_by_app by reflexivity.
    rewrite dropwhile_hd.
    - rewrite <- app_assoc. reflexivity.
    - intros c. destruct (fst ke) as [|x k] eqn:E; [congruence|]. cbn. intros [= <-]. eapply H2; eauto.
  Qed.

  Lemma parse_entry (S : list (text * rawsec)) n (R : rawsec) o ke : good_key (fst ke) -> tassoc S n = None -> tassoc R (lower (fst ke)) = None ->
    parse_line (mk_pstate (S ++ [(n, R)]) (Some n) o 0 false) (print_entry show_float ke) =
    Ok (mk_pstate (S ++ [(n, R ++ [(lower (fst ke), [raw (snd ke)])])]) (Some n) (Some (lower (fst ke))) 0 false).
  Proof.
    intros Hk Hn Hr. pose proof (print_entry_strip ke Hk) as Es. destruct Hk as [H1 [H2 H2'] H3 H4 H5 H6].
    unfold parse_line. rewrite Es. cbv zeta.
    destruct (fst ke) as [|x k] eqn:E; [congruence|].
    destruct (H6 x k eq_refl) as (Hx1 & Hx2 & Hx3).
    assert (Hx : is_space x = false) by (eapply H2; eauto).
    set (body := ljust 30 (x :: k) ++ "=" :: " " :: ljust 10 (show (e_value (snd ke))) ++ "#" :: rstrip (" " :: e_hint (snd ke))).
    assert (Eb : exists b, body = x :: b) by (eexists; reflexivity). destruct Eb as [b Eb].
    assert (C1 : startswith (T "#") body = false).
    { rewrite Eb. apply startswith_head. congruence. }
    assert (C2 : startswith (T ";") body = false).
    { rewrite Eb. apply startswith_head. congruence. }
    rewrite C1, C2. cbn [orb negb]. rewrite Eb at 1. cbn [ps_sections ps_cur ps_opt ps_indent ps_error].
    assert (Ei : indent_of (print_entry show_float ke) = 0).
    { rewrite print_entry_shape, E. cbn. rewrite Hx. auto. }
    rewrite Ei. cbn [Nat.ltb Nat.leb].
    replace (match o with Some o0 => if nonempty o0 && false then Some (n, o0) else None | None => None end)
      with (@None (text * text)) by (destruct o as [o0|]; auto; destruct (nonempty o0); auto).
    assert (Eh : section_header body = None).
    { rewrite Eb. clear - Hx3. destruct x as [[] [] [] [] [] [] [] []]; try reflexivity. congruence. }
    rewrite Eh. unfold body at 1. rewrite split_option_app.
    2:{ apply free_app; auto. apply free_repeat. discriminate. }
    2:{ apply free_app; auto. apply free_repeat. discriminate. }
    assert (Er : rstrip (ljust 30 (x :: k)) = x :: k).
    { unfold ljust, rstrip. rewrite rstrip_by_all by apply all_space_repeat. apply rstrip_by_id. auto. }
    rewrite Er. rewrite tassoc_app, Hn. cbn [tassoc]. rewrite teqb_refl. rewrite Hr.
    rewrite tassoc_set_last by auto. rewrite tassoc_set_fresh by auto. cbn [nonempty negb orb]. reflexivity.
  Qed.

  Lemma parse_entries (S : list (text * rawsec)) n sec : forall (R : rawsec) o, Forall good_entry sec -> tassoc S n = None ->
    distinct_keys sec -> (forall ke, In ke sec -> tassoc R (lower (fst ke)) = None) ->
    fold_res parse_line (map (print_entry show_float) sec) (mk_pstate (S ++ [(n, R)]) (Some n) o 0 false) =
    Ok (mk_pstate (S ++ [(n, R ++ map (fun ke => (lower (fst ke), [raw (snd ke)])) sec)]) (Some n)
          (fold_left (fun _ ke => Some (lower (fst ke))) sec o) 0 false).
  Proof.
    induction sec as [|ke sec IH]; intros R o Hg Hn Hd Hr; cbn [map fold_res fold_left].
    - rewrite app_nil_r. auto.
    - inversion Hg; subst. inversion Hd; subst.
      rewrite parse_entry; [|apply H1|auto|apply Hr; left; auto].
      rewrite IH; auto.
      + rewrite <- app_assoc. reflexivity.
      + intros ke' Hin. rewrite tassoc_app, Hr by (right; auto). cbn [tassoc].
        destruct (teqb_spec (lower (fst ke)) (lower (fst ke'))) as [E|]; auto.
        exfalso. apply H3. rewrite E. apply (in_map (fun kv => lower (fst kv))) in Hin. auto.
  Qed.

  (** The lines kept for an entry; a blank line may follow. *)
  Definition raw_match (ke : text * entry F) (o : text * list text) : Prop :=
    fst o = lower (fst ke) /\ rstrip (join [newline] (snd o)) = raw (snd ke).

  Lemma raw_trimmed e : trimmed (raw e).
  Proof. apply strip_trimmed. Qed.

  Lemma raw_match_one ke : raw_match ke (lower (fst ke), [raw (snd ke)]).
  Proof. split; auto. cbn [snd join]. apply rstrip_trimmed, raw_trimmed. Qed.

  Lemma raw_match_two ke : raw_match ke (lower (fst ke), [raw (snd ke); []]).
  Proof.
    split; auto. cbn [snd join]. rewrite app_nil_r. unfold rstrip.
    rewrite rstrip_by_all by (repeat constructor). apply rstrip_trimmed, raw_trimmed.
  Qed.

  Lemma Forall2_map_r {A B} (P : A -> B -> Prop) (f : A -> B) l : (forall x, P x (f x)) -> Forall2 P l (map f l).
  Proof. intros H. induction l; simpl; constructor; auto. Qed.

  Lemma parse_header (S : list (text * rawsec)) o o2 n : good_name n -> tassoc S n = None ->
    parse_line (mk_pstate S o o2 0 false) ("[" :: n ++ T "]") = Ok (mk_pstate (S ++ [(n, [])]) (Some n) None 0 false).
  Proof.
    intros [H1 H2 H3] Hn. unfold parse_line.
    assert (Es : strip ("[" :: n ++ T "]") = "[" :: n ++ T "]").
    { apply strip_id. split.
      - intros c t' [= <- _]. reflexivity.
      - intros c t' E. change ("[" :: n ++ T "]") with (("[" :: n) ++ ["]"]) in E.
        apply app_inj_tail in E. destruct E as [_ <-]. reflexivity. }
    rewrite Es. cbv zeta.
    assert (C1 : startswith (T "#") ("[" :: n ++ T "]") = false) by reflexivity.
    assert (C2 : startswith (T ";") ("[" :: n ++ T "]") = false) by reflexivity.
    rewrite C1, C2. cbn [orb negb ps_sections ps_cur ps_opt ps_indent ps_error].
    assert (Ei : indent_of ("[" :: n ++ T "]") = 0) by reflexivity. rewrite Ei.
    replace (match o with
             | Some s => match o2 with
                         | Some o0 => if nonempty o0 && (0 <? 0)%nat then Some (s, o0) else None
                         | None => None
                         end
             | None => None
             end) with (@None (text * text)).
    2:{ destruct o; auto. destruct o2 as [o0|]; auto. destruct (nonempty o0); auto. }
    assert (Eh : section_header ("[" :: n ++ T "]") = Some n).
    { unfold section_header. change (T "]") with ["]"]. rewrite before_last_snoc. destruct n; [congruence|reflexivity]. }
    rewrite Eh. destruct (teqb_spec n (T "DEFAULT")); [contradiction|]. rewrite Hn. reflexivity.
  Qed.

  Lemma parse_blank S cur o : parse_line (mk_pstate S cur o 0 false) [] =
    match cur, o with
    | Some s, Some o' => if nonempty o' then Ok (mk_pstate (append_value S s o' []) cur o 0 false)
                         else Ok (mk_pstate S cur o 0 false)
    | _, _ => Ok (mk_pstate S cur o 0 false)
    end.
  Proof. reflexivity. Qed.

  Lemma fold_res_app {A B} (f : B -> A -> res B) l m b :
    fold_res f (l ++ m) b = bind (fold_res f l b) (fold_res f m).
  Proof. revert b. induction l as [|x l IH]; simpl; intros b; auto. destruct (f b x); auto. Qed.

  Lemma fold_last {A} (sec : list (text * A)) ke (o : option text) :
    fold_left (fun _ ke => Some (lower (fst ke))) (sec ++ [ke]) o = Some (lower (fst ke)).
  Proof. rewrite fold_left_app. auto. Qed.

  Lemma parse_section (S : list (text * rawsec)) o o2 ns : good_name (fst ns) -> Forall good_entry (snd ns) -> distinct_keys (snd ns) ->
    tassoc S (fst ns) = None ->
    exists R o3, fold_res parse_line (print_section show_float ns) (mk_pstate S o o2 0 false) =
      Ok (mk_pstate (S ++ [(fst ns, R)]) (Some (fst ns)) o3 0 false) /\ Forall2 raw_match (snd ns) R.
  Proof.
    destruct ns as [n sec]. cbn [fst snd]. intros Hn Hg Hd Ha. unfold print_section. cbn [fst snd fold_res].
    rewrite parse_header by auto. rewrite fold_res_app, parse_entries; auto.
    cbn [app bind fold_res]. rewrite parse_blank.
    destruct sec as [|ke sec _] using rev_ind.
    - cbn. eexists [], _. split; [reflexivity|constructor].
    - rewrite fold_last.
      assert (Hke : good_key (fst ke)).
      { rewrite Forall_forall in Hg. apply (Hg ke). apply in_or_app. right; left; auto. }
      assert (Hne : nonempty (lower (fst ke)) = true).
      { destruct Hke as [H _ _ _ _ _]. destruct (fst ke); [congruence|reflexivity]. }
      rewrite Hne. unfold append_value. rewrite tassoc_app, Ha. cbn [tassoc]. rewrite teqb_refl.
      rewrite map_app. cbn [map].
      assert (Hfresh : tassoc (map (fun ke => (lower (fst ke), [raw (snd ke)])) sec) (lower (fst ke)) = None).
      { apply tassoc_None. rewrite map_map. cbn [fst]. unfold distinct_keys in Hd. rewrite map_app in Hd.
        cbn [map] in Hd. apply NoDup_remove_2 in Hd. rewrite app_nil_r in Hd. auto. }
      rewrite tassoc_app, Hfresh. cbn [tassoc]. rewrite teqb_refl.
      rewrite (tassoc_set_last _ (lower (fst ke))) by auto. rewrite tassoc_set_last by auto.
      eexists _, _. split; [reflexivity|]. apply Forall2_app.
      + apply Forall2_map_r. apply raw_match_one.
      + constructor; [apply raw_match_two|constructor].
  Qed.

  Definition parsed (ns : text * section F) (nr : text * rawsec) : Prop :=
    fst nr = fst ns /\ Forall2 raw_match (snd ns) (snd nr).

  Lemma parse_sections c : forall (S : list (text * rawsec)) o o2, Forall (fun ns => good_name (fst ns)) c ->
    Forall (fun ns => Forall good_entry (snd ns)) c -> Forall (fun ns => distinct_keys (snd ns)) c ->
    NoDup (map fst c) -> (forall ns, In ns c -> tassoc S (fst ns) = None) ->
    exists S' cur o3, fold_res parse_line (concat (map (print_section show_float) c)) (mk_pstate S o o2 0 false) =
      Ok (mk_pstate (S ++ S') cur o3 0 false) /\ Forall2 parsed c S'.
  Proof.
    induction c as [|ns c IH]; intros S o o2 H1 H2 H3 Hd Hs; cbn [map concat].
    - exists [], o, o2. rewrite app_nil_r. split; [reflexivity|constructor].
    - inversion H1; subst. inversion H2; subst. inversion H3; subst. inversion Hd; subst.
      destruct (parse_section S o o2 ns) as (R & o3 & E & HR); auto; [apply Hs; left; auto|].
      rewrite fold_res_app, E. cbn [bind].
      destruct (IH (S ++ [(fst ns, R)]) (Some (fst ns)) o3) as (S' & cur & o4 & E' & HS'); auto.
      { intros ns' Hin. rewrite tassoc_app, Hs by (right; auto). cbn [tassoc].
        destruct (teqb_spec (fst ns) (fst ns')) as [E2|]; auto. exfalso. match goal with H : ~ In (fst ns) _ |- _ => apply H end. rewrite E2. apply in_map. auto. }
      rewrite E'. exists ((fst ns, R) :: S'), cur, o4. rewrite <- app_assoc. split; [reflexivity|].
      constructor; auto. split; auto.
  Qed.

  Lemma print_lines_newline c : printable c -> Forall (free newline) (concat (map (print_section show_float) c)).
  Proof.
    intros [H1 H2 _ _]. apply Forall_concat. apply Forall_map.
    apply Forall_forall. intros [n sec] Hin. rewrite Forall_forall in H1, H2.
    specialize (H1 _ Hin). specialize (H2 _ Hin). cbn [fst snd] in *. unfold print_section. cbn [fst snd].
    constructor.
    - apply free_cons; [discriminate|]. apply free_app; [apply H1|]. apply free_cons; [discriminate|intros []].
    - apply Forall_app. split; [|constructor; [intros []|constructor]].
      apply Forall_map. eapply Forall_impl; [|exact H2]. intros ke [[K1 K2 K3 K4 K5 K6] [V1 V2 V3 V4] N1 N2].
      unfold print_entry. unfold ljust. repeat apply free_app; auto; try (apply free_repeat; discriminate).
      + repeat (apply free_cons; [discriminate|]). intros [].
      + repeat (apply free_cons; [discriminate|]). intros [].
  Qed.

  Lemma distinct_fst {A} (c : list (text * A)) : distinct_keys c -> NoDup (map fst c).
  Proof. unfold distinct_keys. rewrite <- (map_map fst lower). apply NoDup_map_inv. Qed.

  Lemma parse_printed c : printable c -> exists S : list (text * rawsec), parse_ini (print_configuration show_float c) =
    Ok (map (fun s : text * rawsec => (fst s, map (fun o => (fst o, rstrip (join [newline] (snd o)))) (snd s))) S) /\ Forall2 parsed c S.
  Proof.
    intros H. unfold parse_ini, print_configuration.
    rewrite file_lines_concat by (apply print_lines_newline; auto).
    destruct H as [H1 H2 H3 H4].
    destruct (parse_sections c [] None None) as (S & cur & o & E & HS); auto using distinct_fst.
    unfold init_pstate. rewrite E. cbn [bind ps_error ps_sections]. exists S. split; auto.
  Qed.

  Definition read_entries (sec : section F) : list (text * text) :=
    map (fun ke => (lower (fst ke), show (e_value (snd ke)))) sec.

  Lemma read_options_printed sec R : Forall good_entry sec -> distinct_keys sec -> Forall2 raw_match sec R ->
    read_options (map (fun o => (fst o, rstrip (join [newline] (snd o)))) R) = Ok (read_entries sec).
  Proof.
    intros Hg Hd HR. unfold read_options.
    assert (G : forall d, (forall ke, In ke sec -> tassoc d (lower (fst ke)) = None) ->
      fold_res (fun d kv => v <- interpolate_percent (snd kv) ;;
                  Ok (tassoc_set d (lower (fst kv)) (strip (hd [] (split_on "#" v)))))
        (map (fun o => (fst o, rstrip (join [newline] (snd o)))) R) d = Ok (d ++ read_entries sec)).
    { revert Hg Hd. induction HR as [|ke o sec R Hm _ IH]; intros Hg Hd d Hf; cbn [map fold_res].
      - unfold read_entries. cbn [map]. rewrite app_nil_r. auto.
      - inversion Hg; subst. inversion Hd; subst. destruct Hm as [Hm1 Hm2].
        cbn [fst snd]. rewrite Hm2. destruct H1 as [K V N1 N2].
        rewrite raw_percent by auto. cbn [bind]. rewrite raw_value by auto. rewrite Hm1, lower_idem.
        rewrite tassoc_set_fresh by (apply Hf; left; auto).
        rewrite IH; auto.
        + unfold read_entries. cbn [map]. rewrite <- app_assoc. reflexivity.
        + intros ke' Hin. rewrite tassoc_app, Hf by (right; auto). cbn [tassoc].
          destruct (teqb_spec (lower (fst ke)) (lower (fst ke'))) as [E|]; auto.
          exfalso. apply H3. rewrite E. apply (in_map (fun kv => lower (fst kv))) in Hin. auto. }
    rewrite G; [reflexivity|]. auto.
  Qed.

  Theorem read_printed c : printable c -> get_inifile_params (print_configuration show_float c) =
    Ok (map (fun ns => (lower (fst ns), read_entries (snd ns))) c).
  Proof.
    intros H. destruct (parse_printed c H) as (S & E & HS). unfold get_inifile_params. rewrite E. cbn [bind]. cbv zeta.
    destruct H as [H1 H2 H3 H4].
    set (f := fun s : text * rawsec => (fst s, map (fun o => (fst o, rstrip (join [newline] (snd o)))) (snd s))).
    assert (Hdef : tassoc (map f S) (T "DEFAULT") = None).
    { apply tassoc_None. rewrite map_map. intros Hin.
      assert (Hfst : map (fun s => fst (f s)) S = map fst c).
      { clear - HS. induction HS as [|a b l l' H]; simpl; auto. destruct H as [H _]. f_equal; auto. }
      rewrite Hfst in Hin. apply in_map_iff in Hin. destruct Hin as (ns & En & Hin).
      rewrite Forall_forall in H1. destruct (H1 _ Hin) as [_ _ Hx]. auto. }
    rewrite Hdef. clear Hdef E.
    assert (G : forall d, (forall ns, In ns c -> tassoc d (lower (fst ns)) = None) ->
      fold_res (fun acc s => if teqb (fst s) (T "DEFAULT") then Ok acc
                 else opts <- read_options (with_defaults [] (snd s)) ;; Ok (tassoc_set acc (lower (fst s)) opts))
        (map f S) d = Ok (d ++ map (fun ns => (lower (fst ns), read_entries (snd ns))) c)).
    { revert H1 H2 H3 H4. induction HS as [|ns s c S Hm _ IH]; intros H1 H2 H3 H4 d Hf; cbn [map fold_res].
      - rewrite app_nil_r. auto.
      - inversion H1; subst. inversion H2; subst. inversion H3; subst. inversion H4; subst.
        destruct Hm as [Hm1 Hm2]. cbn [fst snd f]. rewrite Hm1.
        destruct (teqb_spec (fst ns) (T "DEFAULT")) as [E|_]; [match goal with H : good_name (fst ns) |- _ => destruct H end; congruence|].
        unfold with_defaults. cbn [filter]. rewrite app_nil_r.
        rewrite read_options_printed with (sec := snd ns) by auto. cbn [bind].
        rewrite tassoc_set_fresh by (apply Hf; left; auto).
        rewrite IH; auto.
        + rewrite <- app_assoc. reflexivity.
        + intros ns' Hin. rewrite tassoc_app, Hf by (right; auto). cbn [tassoc].
          destruct (teqb_spec (lower (fst ns)) (lower (fst ns'))) as [E|]; auto.
          exfalso. match goal with H : ~ In (lower (fst ns)) _ |- _ => apply H end. rewrite E. apply (in_map (fun kv => lower (fst kv))) in Hin. auto. }
    rewrite G; [reflexivity|]. auto.
  Qed.
End WithFloats.
