(** Model of the plot styles (fm2prof/utils.py 40-63, 957-1147): what
    PlotStyles.apply does to the settings of matplotlib and to a figure.

    A figure is a list of axes; what is drawn in axes is kept as it is ([a_content]).
    Text is a list of bytes (UTF-8).  Axes that share an axis (twinx) are taken
    to have one each. *)
From Coq Require Import String List Ascii ZArith QArith Bool.
From Verif Require Import PyBase Num Text.
Import ListNotations.

(** * Styles *)

(** utils.py 40: StyleGuide; a grid is given by the arguments of ax.grid. *)
Record grid := mk_grid { g_visible : bool; g_which : text; g_linestyle : text; g_linewidth : Q; g_color : text }.
Record font := mk_font { f_family : text; f_weight : text; f_size : Z }.
Record guide := mk_guide { font_of : font; major_grid : grid; minor_grid : grid; spine_width : Q }.

(** utils.py 1023-1048 *)
Definition sito : guide :=
  mk_guide (mk_font (T "Franca, Arial") (T "normal") 16)
    (mk_grid true (T "major") (T "--") 1 (T "#BBBBBB")) (mk_grid true (T "minor") (T "--") 1 (T "#BBBBBB")) 1.
Definition van_veen_guide : guide :=
  mk_guide (mk_font (T "Bahnschrift") (T "normal") 18)
    (mk_grid true (T "major") (T "-") 1 (T "k")) (mk_grid true (T "minor") (T "-") (1 # 2) (T "k")) 2.
Definition styles : list (text * guide) := [(T "sito", sito); (T "van_veen", van_veen_guide)].
Definition style_named (name : text) : option guide :=
  match find (fun p => teqb name (fst p)) styles with Some p => Some (snd p) | None => None end.

(** utils.py 44-53, 963: the colour scheme *)
Definition koeln : list text :=
  [T "#000000"; T "#E69F00"; T "#56B4E9"; T "#009E73"; T "#F0E444"; T "#0072B2"; T "#D55E00"; T "#CC79A7"].

(** * Settings of the process *)

(** LC_TIME, and rcParams: axes.prop_cycle (colour and line style), font,
    axes.unicode_minus. *)
Record process := mk_process {
  p_locale : text; p_cycle : list (text * text); p_font : font; p_unicode_minus : bool }.

(** utils.py 965-973: a locale that is not installed is reported on the screen
    and nothing changes. *)
Definition set_locale (installed : text -> bool) (name : text) (p : process) : process :=
  if installed name then mk_process name (p_cycle p) (p_font p) (p_unicode_minus p) else p.

(** utils.py 1075-1078; [l * 3] *)
Definition line_cycle : list (text * text) :=
  combine (koeln ++ koeln ++ koeln)
    (map (fun _ => T "-") koeln ++ map (fun _ => T "--") koeln ++ map (fun _ => T "-.") koeln).
(** utils.py 1068-1085 _initiate *)
Definition initiate (installed : text -> bool) (g : guide) (p : process) : process :=
  let p1 := set_locale installed (T "nl_NL.UTF-8") p in
  mk_process (p_locale p1) line_cycle (font_of g) false.

(** * Figures *)

(** Axes: the artists with their labels in order of drawing; whether an axis
    has the date formatter and locator of the class; calls of ax.grid; width
    of the spines; whether the background is visible. *)
Record axes (H C : Type) := mk_axes {
  a_artists : list (H * text); a_dates_x : bool; a_dates_y : bool;
  a_grids : list grid; a_spine : Q; a_background : bool; a_content : C }.
Arguments mk_axes {H C}. Arguments a_artists {H C}. Arguments a_dates_x {H C}. Arguments a_dates_y {H C}.
Arguments a_grids {H C}. Arguments a_spine {H C}. Arguments a_background {H C}. Arguments a_content {H C}.
(** The legends of a figure: entries, and the axes whose top they are aligned
    with. *)
Record legend (H : Type) := mk_legend { l_entries : list (H * text); l_beside : nat }.
Arguments mk_legend {H}. Arguments l_entries {H}. Arguments l_beside {H}.
Record figure (H C : Type) := mk_figure { f_axes : list (axes H C); f_legends : list (legend H) }.
Arguments mk_figure {H C}. Arguments f_axes {H C}. Arguments f_legends {H C}.

(** The result: None, a figure with its legend, or a figure, handles and labels. *)
Inductive outcome (H C : Type) :=
  | Nothing
  | WithLegend (f : figure H C) (l : legend H)
  | Parts (f : figure H C) (handles : list H) (labels : list text).
Arguments Nothing {H C}. Arguments WithLegend {H C}. Arguments Parts {H C}.

(** [str.replace] of the minus sign U+2212 by a hyphen *)
Fixpoint plain_minus (t : text) : text :=
  match t with
  | a :: ((b :: c :: r) as r') =>
      if (Nat.eqb (nat_of_ascii a) 226 && Nat.eqb (nat_of_ascii b) 136 && Nat.eqb (nat_of_ascii c) 146)%bool
      then "-"%char :: plain_minus r else a :: plain_minus r'
  | a :: r => a :: plain_minus r
  | [] => []
  end.

Section Figure.
  Context {H C : Type}.
  (** float() of a text; the tick labels of the x or y axis of axes when the
      figure is drawn; installed locales. *)
  Variable read_float : text -> option num.
  Variable ticks : bool -> axes H C -> list text.
  Variable installed : text -> bool.

  (** utils.py 975-987 _is_timeaxis *)
  Definition is_timeaxis (labels : list text) : bool :=
    match labels with
    | [] => false
    | l :: _ =>
        match plain_minus l with
        | [] => false
        | l' => match read_float l' with Some _ => false | None => true end
        end
    end.

  (** Axes.get_legend_handles_labels: artists without a label, or with one that
      starts with an underscore, are left out. *)
  Definition has_label (p : H * text) : bool :=
    match snd p with [] => false | c :: _ => negb (Ascii.eqb c "_") end.
  Definition labelled (a : axes H C) : list (H * text) := filter has_label (a_artists a).

  (** utils.py 1109-1122.  The tick labels are those of the drawing that
      precedes the loop. *)
  Definition style_axes (g : guide) (a : axes H C) : axes H C :=
    mk_axes (a_artists a) (a_dates_x a || is_timeaxis (ticks true a)) (a_dates_y a || is_timeaxis (ticks false a))
      (a_grids a ++ [major_grid g; minor_grid g]) (spine_width g) false (a_content a).

  (** utils.py 1087-1147 _style_figure.  fig.legend pairs handles and labels
      and leaves out those without a partner.  [beside] is the number of the
      axes ax_align_legend. *)
  Definition style_figure (g : guide) (f : figure H C) (extra : option (list H * list text)) (beside : option nat)
      (use_legend : bool) : res (outcome H C) :=
    match beside, f_axes f with
    | None, [] => Raise IndexError
    | _, _ =>
        let handles := map fst (flat_map labelled (f_axes f)) in
        let labels := map snd (flat_map labelled (f_axes f)) in
        let handles := handles ++ match extra with Some e => fst e | None => [] end in
        let labels := labels ++ match extra with Some e => snd e | None => [] end in
        let axs := map (style_axes g) (f_axes f) in
        if use_legend then
          let l := mk_legend (combine handles labels) (match beside with Some b => b | None => 0%nat end) in
          Ok (WithLegend (mk_figure axs (f_legends f ++ [l])) l)
        else Ok (Parts (mk_figure axs (f_legends f)) handles labels)
    end.

  (** utils.py 1012-1066 apply *)
  Definition apply_style (p : process) (fig : option (figure H C)) (style : text)
      (extra : option (list H * list text)) (beside : option nat) (use_legend : bool) : process * res (outcome H C) :=
    match style_named style with
    | None => (p, Raise KeyError)
    | Some g =>
        let p' := initiate installed g p in
        match fig with
        | None => (p', Ok Nothing)
        | Some f => (p', style_figure g f extra beside use_legend)
        end
    end.

  (** utils.py 989-1010 van_veen: the result of apply is not returned. *)
  Definition van_veen (p : process) (fig : option (figure H C)) (use_legend : bool)
      (extra : option (list H * list text)) (beside : option nat) : process * res (outcome H C) :=
    let (p', r) := apply_style p fig (T "van_veen") extra beside use_legend in
    (p', match r with Ok _ => Ok Nothing | Raise e => Raise e end).
End Figure.
