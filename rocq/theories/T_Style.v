(** C115: a plot style changes the look of a figure and not what it shows. *)
From Coq Require Import String List Ascii ZArith QArith Bool Lia.
From Verif Require Import PyBase Num Text L_List L_Text M_Style.
Import ListNotations.

(** ** Specification *)

Section Style.
  Context {H C : Type}.
  Variable read_float : text -> option num.
  Variable ticks : bool -> axes H C -> list text.
  Variable installed : text -> bool.

  (** What a figure shows: the artists and the contents of its axes. *)
  Definition shown (f : figure H C) : list (list (H * text) * C) :=
    map (fun a => (a_artists a, a_content a)) (f_axes f).
  (** The artists that belong in a legend, in order. *)
  Definition belongs (p : H * text) : Prop := snd p <> [] /\ forall r, snd p <> "_"%char :: r.
  Definition figure_of (o : outcome H C) : option (figure H C) :=
    match o with Nothing => None | WithLegend f _ | Parts f _ _ => Some f end.
  (** A label that is neither empty nor a number. *)
  Definition no_number (l : text) : Prop := plain_minus l <> [] /\ read_float (plain_minus l) = None.

  Lemma has_label_belongs p : has_label p = true <-> belongs p.
  Proof.
    unfold has_label, belongs. destruct p as [h [|c r]]; cbn [snd].
    - split; [discriminate|intros [X _]; contradiction].
    - rewrite negb_true_iff. destruct (Ascii.eqb_spec c "_"%char) as [->|N].
      + split; [discriminate|]. intros [_ X]. contradiction (X r eq_refl).
      + split; auto. intros _. split; [discriminate|]. intros r' E. injection E as E _. contradiction.
  Qed.
  Lemma timeaxis_no_number labels : is_timeaxis read_float labels = true <-> exists l ls, labels = l :: ls /\ no_number l.
  Proof.
    unfold is_timeaxis, no_number. destruct labels as [|l ls].
    - split; [discriminate|]. intros (l & ls & E & _). discriminate.
    - split.
      + intro E. exists l, ls. split; [reflexivity|]. destruct (plain_minus l) as [|c r]; [discriminate|].
        destruct (read_float (c :: r)) eqn:R; [discriminate|]. split; [discriminate|reflexivity].
      + intros (l' & ls' & E & N & R). injection E as <- <-. destruct (plain_minus l) as [|c r]; [contradiction|].
        rewrite R. reflexivity.
  Qed.
  Lemma combine_parts {A B} (l : list (A * B)) : combine (map fst l) (map snd l) = l.
  Proof. induction l as [|[a b] l IH]; cbn; congruence. Qed.
  Lemma combine_parts_app {A B} (l : list (A * B)) x y : combine (map fst l ++ x) (map snd l ++ y) = l ++ combine x y.
  Proof. induction l as [|[a b] l IH]; cbn; congruence. Qed.

  (** *** Which styles there are *)

  (** A style that does not exist is refused, and nothing has changed. *)
  Theorem C115_unknown_style :
    forall p fig style extra beside use_legend,
      style <> T "sito" -> style <> T "van_veen" ->
      apply_style read_float ticks installed p fig style extra beside use_legend = (p, Raise KeyError).
  Proof.
    intros p fig style extra beside use_legend A B. unfold apply_style, style_named, styles. cbn [find fst].
    destruct (teqb style (T "sito")) eqn:E; [apply teqb_eq in E; contradiction|].
    destruct (teqb style (T "van_veen")) eqn:E'; [apply teqb_eq in E'; contradiction|]. reflexivity.
  Qed.

  (** *** What a style does *)

  (** With one of the two styles: the call fails only for a figure without
      axes; what the figure shows is the same; its axes have the grids and the
      spines of the style; an axis has dates if it had them before or its first
      label is no number; without a figure the settings of the process are all
      that changes. *)
  Theorem C115_styled_figure :
    forall p fig style extra beside use_legend g,
      style_named style = Some g ->
      let (p', r) := apply_style read_float ticks installed p fig style extra beside use_legend in
      p' = mk_process (if installed (T "nl_NL.UTF-8") then T "nl_NL.UTF-8" else p_locale p) line_cycle (font_of g) false /\
      match fig with
      | None => r = Ok Nothing
      | Some f =>
          (r = Raise IndexError /\ f_axes f = [] /\ beside = None) \/
          exists o f', r = Ok o /\ figure_of o = Some f' /\ shown f' = shown f /\
            Forall2 (fun a a' => a_grids a' = a_grids a ++ [major_grid g; minor_grid g] /\
                a_spine a' = spine_width g /\ a_background a' = false /\
                (a_dates_x a' = true <-> a_dates_x a = true \/ exists l ls, ticks true a = l :: ls /\ no_number l) /\
                (a_dates_y a' = true <-> a_dates_y a = true \/ exists l ls, ticks false a = l :: ls /\ no_number l))
              (f_axes f) (f_axes f')
      end.
  Proof.
    intros p fig style extra beside use_legend g E. unfold apply_style. rewrite E.
    assert (P : initiate installed g p =
      mk_process (if installed (T "nl_NL.UTF-8") then T "nl_NL.UTF-8" else p_locale p) line_cycle (font_of g) false).
    { unfold initiate, set_locale. destruct (installed (T "nl_NL.UTF-8")); reflexivity. }
    destruct fig as [f|]; [|split; [exact P|reflexivity]]. split; [exact P|].
    assert (A : forall axs, Forall2 (fun a a' => a_grids a' = a_grids a ++ [major_grid g; minor_grid g] /\
                a_spine a' = spine_width g /\ a_background a' = false /\
                (a_dates_x a' = true <-> a_dates_x a = true \/ exists l ls, ticks true a = l :: ls /\ no_number l) /\
                (a_dates_y a' = true <-> a_dates_y a = true \/ exists l ls, ticks false a = l :: ls /\ no_number l))
              axs (map (style_axes read_float ticks g) axs)).
    { induction axs as [|a axs IH]; cbn [map]; constructor; [|exact IH].
      cbn [style_axes a_grids a_spine a_background a_dates_x a_dates_y].
      rewrite !orb_true_iff, !timeaxis_no_number. repeat split; auto. }
    assert (S : forall axs ls, shown (mk_figure (map (style_axes read_float ticks g) axs) ls) = map (fun a => (a_artists a, a_content a)) axs).
    { intros axs ls. unfold shown. cbn [f_axes]. rewrite map_map. reflexivity. }
    unfold style_figure.
    destruct beside as [b|]; [|destruct (f_axes f) as [|a axs] eqn:X; [left; auto|]];
      right; destruct use_legend; eexists; eexists; (split; [reflexivity|]); (split; [reflexivity|]);
      rewrite S; (split; [unfold shown; rewrite ?X; reflexivity|]); cbn [f_axes]; apply A.
  Qed.

  (** The legend lists the artists of all axes that belong in it, once each and
      in order, and then the additional ones; without a legend the same lists
      are returned.  Additional labels need as many handles. *)
  Theorem C115_legend :
    forall p f style extra beside g,
      style_named style = Some g -> (f_axes f <> [] \/ beside <> None) ->
      let entries := filter has_label (flat_map a_artists (f_axes f)) in
      let more := match extra with Some e => combine (fst e) (snd e) | None => [] end in
      (exists f' l, snd (apply_style read_float ticks installed p (Some f) style extra beside true) = Ok (WithLegend f' l) /\
         l_entries l = entries ++ more /\ l_beside l = match beside with Some b => b | None => 0%nat end /\
         f_legends f' = f_legends f ++ [l]) /\
      (exists f', snd (apply_style read_float ticks installed p (Some f) style extra beside false) =
         Ok (Parts f' (map fst entries ++ match extra with Some e => fst e | None => [] end)
                      (map snd entries ++ match extra with Some e => snd e | None => [] end)) /\
         f_legends f' = f_legends f) /\
      (forall q, In q entries <-> In q (flat_map a_artists (f_axes f)) /\ belongs q).
  Proof.
    intros p f style extra beside g E N entries more. unfold apply_style. rewrite E. cbn [snd].
    assert (L : flat_map labelled (f_axes f) = entries).
    { unfold entries, labelled. clear. induction (f_axes f) as [|a axs IH]; [reflexivity|]. cbn [flat_map]. rewrite filter_app, IH. reflexivity. }
    split; [|split].
    - unfold style_figure. rewrite L.
      assert (M : combine (map fst entries ++ match extra with Some e => fst e | None => [] end)
                    (map snd entries ++ match extra with Some e => snd e | None => [] end) = entries ++ more).
      { rewrite combine_parts_app. unfold more. destruct extra; reflexivity. }
      destruct beside as [b|]; [|destruct (f_axes f); [destruct N as [N|N]; contradiction N; reflexivity|]];
        (eexists; eexists; split; [reflexivity|]; split; [exact M|]; split; reflexivity).
    - unfold style_figure. rewrite L.
      destruct beside as [b|]; [|destruct (f_axes f); [destruct N as [N|N]; contradiction N; reflexivity|]];
        (eexists; split; reflexivity).
    - intro q. unfold entries. rewrite filter_In, has_label_belongs. reflexivity.
  Qed.

  (** *** The lines of a figure *)

  (** Twenty-four lines can be told apart by colour or line style. *)
  Theorem C115_lines_differ :
    forall g p, p_cycle (initiate installed g p) = line_cycle /\ NoDup line_cycle /\ length line_cycle = 24%nat.
  Proof.
    intros g p. split; [reflexivity|]. split; [|reflexivity].
    assert (D : forall x y : text * text, {x = y} + {x <> y}) by (repeat decide equality).
    apply (NoDup_count_occ' D). intros x I. revert x I.
    assert (F : Forall (fun x => count_occ D line_cycle x = 1%nat) line_cycle).
    { apply Forall_forall. intros x I. apply NoDup_count_occ'; [|exact I].
      unfold line_cycle, koeln. cbn [app map combine].
      repeat (apply NoDup_cons; [cbn [In]; intro X; repeat (destruct X as [X|X]; [discriminate X|]); exact X|]). apply NoDup_nil. }
    rewrite Forall_forall in F. exact F.
  Qed.

  (** *** A second time *)

  (** If the style does not change the labels of an axis without dates, a second
      application changes no axis; it repeats the grids and adds a legend. *)
  Definition dates (b : bool) (a : axes H C) : bool := if b then a_dates_x a else a_dates_y a.
  Theorem C115_again_partial :
    forall g a,
      (forall b, dates b (style_axes read_float ticks g a) = false -> ticks b (style_axes read_float ticks g a) = ticks b a) ->
      let a1 := style_axes read_float ticks g a in
      let a2 := style_axes read_float ticks g a1 in
      a_dates_x a2 = a_dates_x a1 /\ a_dates_y a2 = a_dates_y a1 /\ a_spine a2 = a_spine a1 /\
      a_background a2 = a_background a1 /\ a_artists a2 = a_artists a1 /\ a_content a2 = a_content a1.
  Proof.
    intros g a K a1 a2. unfold a2. cbn [style_axes a_dates_x a_dates_y a_spine a_background a_artists a_content].
    assert (X : forall b, (dates b a1 || is_timeaxis read_float (ticks b a1))%bool = dates b a1).
    { intro b. destruct (dates b a1) eqn:E; [reflexivity|]. specialize (K b E). fold a1 in K. rewrite K. cbn [orb].
      destruct b; unfold a1, dates in E; cbn [style_axes a_dates_x a_dates_y] in E;
        apply orb_false_iff in E; apply E. }
    split; [exact (X true)|]. split; [exact (X false)|]. repeat split.
  Qed.

  (** The deprecated function does the same and returns nothing. *)
  Theorem C115_van_veen :
    forall p fig use_legend extra beside,
      fst (van_veen read_float ticks installed p fig use_legend extra beside) =
      fst (apply_style read_float ticks installed p fig (T "van_veen") extra beside use_legend) /\
      (snd (van_veen read_float ticks installed p fig use_legend extra beside) = Ok Nothing \/
       snd (van_veen read_float ticks installed p fig use_legend extra beside) = Raise IndexError).
  Proof.
    intros p fig use_legend extra beside. unfold van_veen.
    change (apply_style read_float ticks installed p fig (T "van_veen") extra beside use_legend) with
      (let p' := initiate installed van_veen_guide p in
       match fig with None => (p', Ok Nothing)
       | Some f => (p', style_figure read_float ticks van_veen_guide f extra beside use_legend) end).
    cbv zeta. destruct fig as [f|]; [|auto]. split; [reflexivity|]. cbn [snd].
    unfold style_figure. destruct beside as [b|]; [destruct use_legend; auto|]. destruct (f_axes f); [auto|destruct use_legend; auto].
  Qed.
End Style.
Print Assumptions C115_unknown_style.
Print Assumptions C115_styled_figure.
Print Assumptions C115_legend.
Print Assumptions C115_lines_differ.
Print Assumptions C115_again_partial.
Print Assumptions C115_van_veen.

(** ** Where the property fails *)

(** Axes with one line, and a way to draw tick labels. *)
Definition line_axes : axes text unit :=
  mk_axes [(T "line", T "1D"); (T "mark", T "_nolegend")] false false [] 1 true tt.
Definition line_figure : figure text unit := mk_figure [line_axes] [].

(** An axis of times whose labels are years, as for a series of some years, is
    taken for an axis of numbers; an axis with names is taken for one of times. *)
Theorem C115_time_axes_refuted :
  forall (read_float : text -> option num) ticks installed p n,
    read_float (T "2011") = Some n -> read_float (T "Lobith") = None ->
    ticks true line_axes = [T "2011"; T "2012"] -> ticks false line_axes = [T "Lobith"; T "Tiel"] ->
    exists a l, snd (apply_style read_float ticks installed p (Some line_figure) (T "sito") None None true) =
        Ok (WithLegend (mk_figure [a] [l]) l) /\
      a_dates_x a = false /\ a_dates_y a = true.
Proof.
  intros read_float ticks installed p n Y N X Z.
  eexists; eexists. split; [reflexivity|]. cbn [style_axes a_dates_x a_dates_y line_axes]. fold line_axes.
  rewrite X, Z. unfold is_timeaxis.
  change (plain_minus (T "2011")) with (T "2011"). change (plain_minus (T "Lobith")) with (T "Lobith").
  cbv [T list_ascii_of_string] in Y, N |- *. rewrite Y, N. split; reflexivity.
Qed.
Print Assumptions C115_time_axes_refuted.

(** A figure that is styled twice, as figure_longitudinal does with a figure to
    which lines are added, has two legends. *)
Theorem C115_second_legend_refuted :
  forall (read_float : text -> option num) (ticks : bool -> axes text unit -> list text) installed p,
  exists f1 f2 l,
    snd (apply_style read_float ticks installed p (Some line_figure) (T "sito") None None true) = Ok (WithLegend f1 l) /\
    snd (apply_style read_float ticks installed p (Some f1) (T "sito") None None true) = Ok (WithLegend f2 l) /\
    f_legends f2 = [l; l] /\ l_entries l = [(T "line", T "1D")].
Proof. intros read_float ticks installed p. eexists; eexists; eexists. repeat split; reflexivity. Qed.
Print Assumptions C115_second_legend_refuted.

(** Labels without a handle are left out of the legend without a message. *)
Theorem C115_labels_without_handles_refuted :
  forall (read_float : text -> option num) (ticks : bool -> axes text unit -> list text) installed p,
  exists f l,
    snd (apply_style read_float ticks installed p (Some line_figure) (T "sito") (Some ([], [T "bias"])) None true) = Ok (WithLegend f l) /\
    ~ In (T "bias") (map snd (l_entries l)).
Proof.
  intros read_float ticks installed p. eexists; eexists. split; [reflexivity|]. cbn. intros [X|X]; [discriminate|exact X].
Qed.
Print Assumptions C115_labels_without_handles_refuted.

(** A case: a minus sign of matplotlib is read as a number. *)
Theorem C115_case :
  let minus := map ascii_of_nat [226; 136; 146; 53]%nat in
  let read_float := fun t => if teqb t (T "-5") then Some (Fin (-5)) else None in
  is_timeaxis read_float [minus] = false /\ is_timeaxis read_float [T "01-jan"] = true /\
  is_timeaxis read_float [[]] = false /\ is_timeaxis read_float [] = false /\
  plain_minus (T "a-b") = T "a-b".
Proof. repeat split. Qed.
Print Assumptions C115_case.

(** * The minus sign *)

(** The bytes of U+2212. *)
Definition minus_sign : text := map ascii_of_nat [226; 136; 146]%nat.

Lemma plain_minus_step a b c r :
  plain_minus (a :: b :: c :: r) =
  if (Nat.eqb (nat_of_ascii a) 226 && Nat.eqb (nat_of_ascii b) 136 && Nat.eqb (nat_of_ascii c) 146)%bool
  then "-"%char :: plain_minus r else a :: plain_minus (b :: c :: r).
Proof. reflexivity. Qed.

Lemma is_minus a b c :
  (Nat.eqb (nat_of_ascii a) 226 && Nat.eqb (nat_of_ascii b) 136 && Nat.eqb (nat_of_ascii c) 146)%bool = true <->
  [a; b; c] = minus_sign.
Proof.
  rewrite !andb_true_iff, !Nat.eqb_eq. split.
  - intros [[A B] D]. rewrite <- (ascii_nat_embedding a), <- (ascii_nat_embedding b), <- (ascii_nat_embedding c), A, B, D. reflexivity.
  - intro E. injection E as -> -> ->. repeat split.
Qed.

(** Every minus sign of matplotlib becomes a hyphen, wherever it is. *)
Theorem C115_every_minus_sign : forall a b,
  plain_minus (a ++ minus_sign ++ b) = plain_minus a ++ "-"%char :: plain_minus b.
Proof.
  intro a. remember (length a) as n eqn:N. revert a N. induction n as [n IH] using (well_founded_induction lt_wf).
  intros a N b. destruct a as [|x [|y [|z r]]].
  - reflexivity.
  - cbn [app]. change (minus_sign ++ b) with (ascii_of_nat 226 :: ascii_of_nat 136 :: ascii_of_nat 146 :: b).
    rewrite plain_minus_step.
    replace (nat_of_ascii (ascii_of_nat 226) =? 136)%nat with false by reflexivity.
    rewrite andb_false_r. reflexivity.
  - cbn [app]. change (minus_sign ++ b) with (ascii_of_nat 226 :: ascii_of_nat 136 :: ascii_of_nat 146 :: b).
    rewrite !plain_minus_step.
    replace (nat_of_ascii (ascii_of_nat 226) =? 146)%nat with false by reflexivity.
    replace (nat_of_ascii (ascii_of_nat 226) =? 136)%nat with false by reflexivity.
    rewrite !andb_false_r. reflexivity.
  - cbn [app]. rewrite !plain_minus_step.
    destruct (_ && _)%bool.
    + cbn [app]. f_equal. apply (IH (length r)); [subst n; cbn; lia|reflexivity].
    + cbn [app]. f_equal. change (y :: z :: r ++ minus_sign ++ b) with ((y :: z :: r) ++ minus_sign ++ b).
      apply (IH (length (y :: z :: r))); [subst n; cbn; lia|reflexivity].
Qed.
Print Assumptions C115_every_minus_sign.

(** A label without one is left as it is. *)
Theorem C115_other_labels_are_kept : forall t,
  (forall a b, t <> a ++ minus_sign ++ b) -> plain_minus t = t.
Proof.
  induction t as [|x r IH]; intro H; [reflexivity|].
  assert (R : plain_minus r = r).
  { apply IH. intros a b E. apply (H (x :: a) b). cbn. now rewrite E. }
  destruct r as [|y [|z r]]; [reflexivity|reflexivity|].
  rewrite plain_minus_step. destruct (_ && _)%bool eqn:E.
  - apply is_minus in E. exfalso. apply (H [] r). cbn [app]. rewrite <- E. reflexivity.
  - f_equal. exact R.
Qed.
Print Assumptions C115_other_labels_are_kept.

(** The two styles. *)
Theorem C115_the_styles :
  styles = [(T "sito", sito); (T "van_veen", van_veen_guide)] /\
  (forall name g, style_named name = Some g ->
     g_visible (major_grid g) = true /\ g_visible (minor_grid g) = true /\
     g_which (major_grid g) = T "major" /\ g_which (minor_grid g) = T "minor" /\
     g_linestyle (major_grid g) = g_linestyle (minor_grid g) /\ g_color (major_grid g) = g_color (minor_grid g) /\
     f_weight (font_of g) = T "normal").
Proof.
  split; [reflexivity|]. intros name g. unfold style_named, styles. cbn [find fst].
  destruct (teqb name _); [intros [= <-]; now repeat split|].
  destruct (teqb name _); [intros [= <-]; now repeat split|discriminate].
Qed.
Print Assumptions C115_the_styles.
