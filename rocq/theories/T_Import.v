(** Theorems for C27, C29, C30, C31: location file, transposition, selection,
    missing values. *)
From Coq Require Import String List Ascii ZArith QArith Bool Lia Lqa.
From Verif Require Import PyBase Num Spec L_Num Text L_Text Fixed M_Geometry M_Import.
Import ListNotations.
Local Open Scope char_scope.

(** * C27 *)

Section Spec.
  Variable F : Type.
  Variable read_float : text -> option F.
  Variable round_float : F -> option Z.

  (** A location: what one line of the file stands for. *)
  Record location := mk_location {
    l_x : F; l_y : F; l_id : text; l_branch : text; l_length : F; l_chainage : F }.

  (** What a line (without line end) means: six columns id,x,y,length,branch,
      chainage, or five columns x,y,branch,length,chainage whose id is the
      branch with the rounded chainage. *)
  Inductive means : text -> location -> Prop :=
  | six : forall id x y len br ch fx fy fl fc,
      Forall (free ",") [id; x; y; len; br; ch] ->
      read_float x = Some fx -> read_float y = Some fy ->
      read_float len = Some fl -> read_float ch = Some fc ->
      means (join (T ",") [id; x; y; len; br; ch]) (mk_location fx fy id (strip br) fl fc)
  | five : forall x y br len ch fx fy fl fc z,
      Forall (free ",") [x; y; br; len; ch] ->
      read_float x = Some fx -> read_float y = Some fy ->
      read_float len = Some fl -> read_float ch = Some fc -> round_float fc = Some z ->
      means (join (T ",") [x; y; br; len; ch])
            (mk_location fx fy (br ++ "_" :: show_Z z) (strip br) fl fc).

  (** A header: the place of the x coordinate holds no number. *)
  Inductive header : text -> Prop :=
  | header6 : forall id x y len br ch,
      Forall (free ",") [id; x; y; len; br; ch] -> read_float x = None ->
      header (join (T ",") [id; x; y; len; br; ch])
  | header5 : forall x y br len ch fc z,
      Forall (free ",") [x; y; br; len; ch] -> read_float x = None ->
      read_float ch = Some fc -> round_float fc = Some z ->
      header (join (T ",") [x; y; br; len; ch]).

  Definition columns_of (ls : list location) : columns F :=
    mk_columns (map (fun l => (l_x l, l_y l)) ls) (map l_id ls) (map l_branch ls)
               (map l_length ls) (map l_chainage ls).
End Spec.
Arguments mk_location {F}. Arguments columns_of {F}. Arguments means {F}. Arguments header {F}.
Arguments l_x {F}. Arguments l_y {F}. Arguments l_id {F}. Arguments l_branch {F}.
Arguments l_length {F}. Arguments l_chainage {F}.

(** Pieces of a split join back to the text. *)
Lemma join_split c t : join [c] (split_on c t) = t.
Proof.
  induction t as [|x t IH]; auto. cbn [split_on].
  destruct (Ascii.eqb_spec x c) as [->|N].
  - destruct (split_on c t) as [|w ws] eqn:E; [destruct (split_on_nonempty c t E)|].
    change (join [c] ([] :: w :: ws)) with ([] ++ [c] ++ join [c] (w :: ws)). rewrite IH. auto.
  - destruct (split_on c t) as [|w ws] eqn:E; [destruct (split_on_nonempty c t E)|].
    destruct ws; cbn [join] in *; rewrite <- IH; auto.
Qed.

Lemma split_pieces_free c t : Forall (free c) (split_on c t).
Proof.
  induction t as [|x t IH]; cbn [split_on]; [repeat constructor; intros []|].
  destruct (Ascii.eqb_spec x c) as [->|N]; [constructor; auto; intros []|].
  destruct (split_on c t); inversion IH; subst; repeat constructor; auto.
  - intros [H|[]]; auto.
  - intros [H|H]; auto.
Qed.

(** A line end at the end of a line goes to the last piece. *)
Lemma split_snoc c t n : n <> c ->
  exists ws w, split_on c t = ws ++ [w] /\ split_on c (t ++ [n]) = ws ++ [w ++ [n]].
Proof.
  intro N. induction t as [|x t (ws & w & E1 & E2)].
  - exists [], []. cbn [app split_on]. destruct (Ascii.eqb_spec n c); [congruence|]. auto.
  - cbn [app split_on]. rewrite E1, E2. destruct (Ascii.eqb_spec x c).
    + exists ([] :: ws), w. auto.
    + destruct ws as [|w' ws]; cbn [app].
      * exists [], (x :: w). auto.
      * exists ((x :: w') :: ws), w. auto.
Qed.

Lemma raw_lines_cat ls : Forall (free newline) ls ->
  forall t, raw_lines (concat (map (fun l => l ++ [newline]) ls) ++ t) =
            map (fun l => l ++ [newline]) ls ++ raw_lines t.
Proof.
  intros H t. induction H as [|l ls Hl _ IH]; auto.
  cbn [map concat]. rewrite <- app_assoc.
  remember (concat (map (fun l0 => l0 ++ [newline]) ls) ++ t) as r.
  rewrite <- app_assoc. clear Heqr.
  enough (E : forall r, raw_lines (l ++ newline :: r) = (l ++ [newline]) :: raw_lines r).
  { cbn [app]. rewrite E, IH. auto. }
  clear - Hl. induction l as [|c l IHl]; intro r; cbn [app raw_lines].
  - rewrite Ascii.eqb_refl. auto.
  - destruct (Ascii.eqb_spec c newline) as [->|N]; [destruct Hl; left; auto|].
    rewrite IHl; auto. intro. apply Hl. right; auto.
Qed.

Lemma raw_lines_one l : l <> [] -> free newline l -> raw_lines l = [l].
Proof.
  induction l as [|c l IH]; intros N Hl; [congruence|]. cbn [raw_lines].
  destruct (Ascii.eqb_spec c newline) as [->|N']; [destruct Hl; left; auto|].
  destruct l as [|d l]; auto. rewrite IH; auto; [discriminate|].
  intro. apply Hl. right; auto.
Qed.

Section C27.
  Variable F : Type.
  Variable read_float : text -> option F.
  Variable round_float : F -> option Z.
  (** [float] ignores a line end after the number. *)
  Hypothesis float_line_end : forall t, read_float (t ++ [newline]) = read_float t.

  Notation means := (means read_float round_float).
  Notation header := (header read_float round_float).
  Notation css_line := (css_line read_float round_float).

  Definition add_location (d : columns F) (l : location F) : columns F :=
    mk_columns (c_xy d ++ [(l_x l, l_y l)]) (c_id d ++ [l_id l]) (c_branch d ++ [l_branch l])
               (c_length d ++ [l_length l]) (c_chainage d ++ [l_chainage l]).

  (** A line as it is read: with or without a line end. *)
  Definition ended (line raw : text) : Prop := raw = line \/ raw = line ++ [newline].

  Lemma split_ended line raw : ended line raw ->
    exists ws w w', split_on "," line = ws ++ [w] /\ split_on "," raw = ws ++ [w'] /\
                    read_float w' = read_float w.
  Proof.
    intros [->| ->].
    - destruct (rev (split_on "," line)) as [|w ws] eqn:E.
      { destruct (split_on_nonempty "," line). rewrite <- (rev_involutive (split_on _ _)), E. auto. }
      assert (E' : split_on "," line = rev ws ++ [w]).
      { rewrite <- (rev_involutive (split_on _ _)), E. auto. }
      exists (rev ws), w, w. auto.
    - destruct (split_snoc "," line newline) as (ws & w & E1 & E2); [discriminate|].
      exists ws, w, (w ++ [newline]). auto.
  Qed.

  Lemma line_fields line fs : split_on "," line = fs ->
    line = join (T ",") fs /\ Forall (free ",") fs.
  Proof.
    intros <-. split; [symmetry; apply (join_split "," line)|apply split_pieces_free].
  Qed.

  (** The three outcomes of a line. *)
  Lemma css_line_cases k d line raw : ended line raw ->
    (exists l, means line l /\ css_line k d raw = Ok (add_location d l)) \/
    (k = O /\ header line /\ (forall l, ~ means line l) /\ css_line k d raw = Ok d) \/
    ((forall l, ~ means line l) /\ ~ (k = O /\ header line) /\ css_line k d raw = Raise ValueError).
  Proof.
    intro E. destruct (split_ended line raw E) as (ws & w & w' & E1 & E2 & Ew).
    destruct (line_fields line (ws ++ [w]) E1) as [J FR].
    assert (M : forall l, means line l ->
      (exists id x y len br fx fy fl fc, ws = [id; x; y; len; br] /\ read_float x = Some fx /\
         read_float y = Some fy /\ read_float len = Some fl /\ read_float w = Some fc) \/
      (exists x y br len fx fy fl fc z, ws = [x; y; br; len] /\ read_float x = Some fx /\
         read_float y = Some fy /\ read_float len = Some fl /\ read_float w = Some fc /\
         round_float fc = Some z)).
    { intros l Hm. destruct Hm as [id x y len br ch fx fy fl fc Hf H1 H2 H3 H4
                                  |x y br len ch fx fy fl fc z Hf H1 H2 H3 H4 H5].
      - change (T ",") with [","] in E1. rewrite split_join in E1 by (auto; discriminate).
        change [id; x; y; len; br; ch] with ([id; x; y; len; br] ++ [ch]) in E1.
        apply app_inj_tail in E1. destruct E1 as [<- <-]. left. repeat eexists; eauto.
      - change (T ",") with [","] in E1. rewrite split_join in E1 by (auto; discriminate).
        change [x; y; br; len; ch] with ([x; y; br; len] ++ [ch]) in E1.
        apply app_inj_tail in E1. destruct E1 as [<- <-]. right. repeat eexists; eauto. }
    assert (Hd : header line ->
      (exists id x y len br, ws = [id; x; y; len; br] /\ read_float x = None) \/
      (exists x y br len fc z, ws = [x; y; br; len] /\ read_float x = None /\
          read_float w = Some fc /\ round_float fc = Some z)).
    { intros Hm. destruct Hm as [id x y len br ch Hf H1|x y br len ch fc z Hf H1 H2 H3].
      - change (T ",") with [","] in E1. rewrite split_join in E1 by (auto; discriminate).
        change [id; x; y; len; br; ch] with ([id; x; y; len; br] ++ [ch]) in E1.
        apply app_inj_tail in E1. destruct E1 as [<- <-]. left. repeat eexists; eauto.
      - change (T ",") with [","] in E1. rewrite split_join in E1 by (auto; discriminate).
        change [x; y; br; len; ch] with ([x; y; br; len] ++ [ch]) in E1.
        apply app_inj_tail in E1. destruct E1 as [<- <-]. right. repeat eexists; eauto. }
    unfold M_Import.css_line, split_line. rewrite E2.
    destruct ws as [|f1 [|f2 [|f3 [|f4 [|f5 [|f6 ws]]]]]]; cbn [app bind].
    1, 2, 3, 4: right; right; split; [intros l Hm; apply M in Hm;
      destruct Hm as [(?&?&?&?&?&?&?&?&?&X&_)|(?&?&?&?&?&?&?&?&?&X&_)]; discriminate|];
      split; [intros [_ Hm]; apply Hd in Hm;
        destruct Hm as [(?&?&?&?&?&X&_)|(?&?&?&?&?&?&X&_)]; discriminate|reflexivity].
    - (* five columns: x y br len w *)
      rewrite Ew. destruct (read_float w) as [fc|] eqn:Hc; cbn [of_option bind].
      2: { right. right. split; [intros l Hm; apply M in Hm;
             destruct Hm as [(?&?&?&?&?&?&?&?&?&X&_)|(?&?&?&?&?&?&?&?&?&X&_&_&_&Y&_)]; discriminate|].
           split; auto. intros [_ Hm]; apply Hd in Hm.
           destruct Hm as [(?&?&?&?&?&X&_)|(?&?&?&?&?&?&X&_&Y&_)]; discriminate. }
      destruct (round_float fc) as [z|] eqn:Hz; cbn [of_option bind].
      2: { right. right. split; [intros l Hm; apply M in Hm;
             destruct Hm as [(?&?&?&?&?&?&?&?&?&X&_)|(?&?&?&?&?&?&?&?&?&X&_&_&_&Y&Y')]; congruence|].
           split; auto. intros [_ Hm]; apply Hd in Hm.
           destruct Hm as [(?&?&?&?&?&X&_)|(?&?&?&?&?&?&X&_&Y&Y')]; congruence. }
      destruct (read_float f1) as [fx|] eqn:Hx.
      + destruct (read_float f2) as [fy|] eqn:Hy.
        * destruct (read_float f4) as [fl|] eqn:Hl.
          -- left. exists (mk_location fx fy (f3 ++ "_" :: show_Z z) (strip f3) fl fc). split.
             ++ rewrite J. apply five; auto.
             ++ cbn [of_option bind]. rewrite Ew. cbn [of_option bind]. reflexivity.
          -- right. right. split; [intros l Hm; apply M in Hm;
               destruct Hm as [(?&?&?&?&?&?&?&?&?&X&_)|(?&?&?&?&?&?&?&?&?&X&_&_&Y&_)]; [discriminate|injection X as <- <- <- <-; congruence]|].
             split; auto. intros [_ Hm]; apply Hd in Hm.
             destruct Hm as [(?&?&?&?&?&X&_)|(?&?&?&?&?&?&X&Y&_)]; [discriminate|injection X as <- <- <- <-; congruence].
        * right. right. split; [intros l Hm; apply M in Hm;
            destruct Hm as [(?&?&?&?&?&?&?&?&?&X&_)|(?&?&?&?&?&?&?&?&?&X&_&Y&_)]; [discriminate|injection X as <- <- <- <-; congruence]|].
          split; auto. intros [_ Hm]; apply Hd in Hm.
          destruct Hm as [(?&?&?&?&?&X&_)|(?&?&?&?&?&?&X&Y&_)]; [discriminate|injection X as <- <- <- <-; congruence].
      + assert (NM : forall l, ~ means line l).
        { intros l Hm; apply M in Hm;
            destruct Hm as [(?&?&?&?&?&?&?&?&?&X&_)|(?&?&?&?&?&?&?&?&?&X&Y&_)]; [discriminate|injection X as <- <- <- <-; congruence]. }
        destruct k; cbn [Nat.eqb of_option bind].
        * right. left. split; auto. split; [|split; auto].
          rewrite J. apply (header5 F read_float round_float f1 f2 f3 f4 w fc z); auto.
        * right. right. split; auto. split; auto. intros [X _]. discriminate.
    - (* six columns: id x y len br w *)
      destruct (read_float f2) as [fx|] eqn:Hx.
      + destruct (read_float f3) as [fy|] eqn:Hy; cbn [of_option bind].
        * destruct (read_float f4) as [fl|] eqn:Hl; cbn [of_option bind].
          -- rewrite Ew. destruct (read_float w) as [fc|] eqn:Hc; cbn [of_option bind].
             ++ left. exists (mk_location fx fy f1 (strip f5) fl fc). split; [|reflexivity].
                rewrite J. apply six; auto.
             ++ right. right. split; [intros l Hm; apply M in Hm;
               destruct Hm as [(?&?&?&?&?&?&?&?&?&X&_&_&_&Y)|(?&?&?&?&?&?&?&?&?&X&_)]; [congruence|discriminate]|].
               split; auto. intros [_ Hm]; apply Hd in Hm.
               destruct Hm as [(?&?&?&?&?&X&Y)|(?&?&?&?&?&?&X&_)]; [injection X as <- <- <- <- <-; congruence|discriminate].
          -- right. right. split; [intros l Hm; apply M in Hm;
               destruct Hm as [(?&?&?&?&?&?&?&?&?&X&_&_&Y&_)|(?&?&?&?&?&?&?&?&?&X&_)]; [injection X as <- <- <- <- <-; congruence|discriminate]|].
             split; auto. intros [_ Hm]; apply Hd in Hm.
             destruct Hm as [(?&?&?&?&?&X&Y)|(?&?&?&?&?&?&X&_)]; [injection X as <- <- <- <- <-; congruence|discriminate].
        * right. right. split; [intros l Hm; apply M in Hm;
            destruct Hm as [(?&?&?&?&?&?&?&?&?&X&_&Y&_)|(?&?&?&?&?&?&?&?&?&X&_)]; [injection X as <- <- <- <- <-; congruence|discriminate]|].
          split; auto. intros [_ Hm]; apply Hd in Hm.
          destruct Hm as [(?&?&?&?&?&X&Y)|(?&?&?&?&?&?&X&_)]; [injection X as <- <- <- <- <-; congruence|discriminate].
      + assert (NM : forall l, ~ means line l).
        { intros l Hm; apply M in Hm;
            destruct Hm as [(?&?&?&?&?&?&?&?&?&X&Y&_)|(?&?&?&?&?&?&?&?&?&X&_)]; [injection X as <- <- <- <- <-; congruence|discriminate]. }
        destruct k; cbn [Nat.eqb of_option bind].
        * right. left. split; auto. split; [|split; auto].
          rewrite J. apply header6; auto.
        * right. right. split; auto. split; auto. intros [X _]. discriminate.
    - (* more *)
      assert (NE : forall A (l : list A) (x y : A), ws ++ [w'] <> []) by (intros; destruct ws; discriminate).
      destruct (ws ++ [w']) as [|g gs] eqn:G; [destruct (NE _ [] w' w'); auto|].
      right. right. split; [intros l Hm; apply M in Hm;
        destruct Hm as [(?&?&?&?&?&?&?&?&?&X&_)|(?&?&?&?&?&?&?&?&?&X&_)]; discriminate|].
      split; auto. intros [_ Hm]; apply Hd in Hm.
      destruct Hm as [(?&?&?&?&?&X&_)|(?&?&?&?&?&?&X&_)]; discriminate.
  Qed.

  Lemma add_locations d ls : fold_left add_location ls d =
    mk_columns (c_xy d ++ map (fun l => (l_x l, l_y l)) ls) (c_id d ++ map l_id ls)
               (c_branch d ++ map l_branch ls) (c_length d ++ map l_length ls)
               (c_chainage d ++ map l_chainage ls).
  Proof.
    revert d. induction ls as [|l ls IH]; intro d; cbn [fold_left map].
    - rewrite !app_nil_r. destruct d; auto.
    - rewrite IH. unfold add_location. cbn [c_xy c_id c_branch c_length c_chainage].
      rewrite <- !app_assoc. auto.
  Qed.

  Lemma css_lines_rest k : forall raws lines d, Forall2 ended lines raws ->
    (exists ls, Forall2 means lines ls /\
       css_lines read_float round_float (S k) d raws = Ok (fold_left add_location ls d)) \/
    (Exists (fun line => forall l, ~ means line l) lines /\
       css_lines read_float round_float (S k) d raws = Raise ValueError).
  Proof.
    revert k. enough (H : forall raws lines, Forall2 ended lines raws -> forall k d,
    (exists ls, Forall2 means lines ls /\
       css_lines read_float round_float (S k) d raws = Ok (fold_left add_location ls d)) \/
    (Exists (fun line => forall l, ~ means line l) lines /\
       css_lines read_float round_float (S k) d raws = Raise ValueError)) by auto.
    intros raws lines H. induction H as [|line raw lines raws E _ IH]; intros k d.
    - left. exists []. split; auto.
    - cbn [css_lines]. destruct (css_line_cases (S k) d line raw E) as [(l & Hm & ->)|[(X & _)|(Hn & _ & ->)]].
      + cbn [bind]. destruct (IH (S k) (add_location d l)) as [(ls & H2 & ->)|(H2 & ->)].
        * left. exists (l :: ls). split; auto.
        * right. split; auto.
      + discriminate.
      + right. cbn [bind]. split; auto.
  Qed.

  (** The data lines of a file: all lines but a header on the first. *)
  Definition data_lines (lines data : list text) : Prop :=
    data = lines /\ (forall h t, lines = h :: t -> ~ header h) \/
    exists h, lines = h :: data /\ header h.

  Lemma means_split line l : means line l ->
    (exists id x y len br ch fx fy fl fc, split_on "," line = [id; x; y; len; br; ch] /\
       read_float x = Some fx /\ read_float y = Some fy /\
       read_float len = Some fl /\ read_float ch = Some fc /\
       l = mk_location fx fy id (strip br) fl fc) \/
    (exists x y br len ch fx fy fl fc z, split_on "," line = [x; y; br; len; ch] /\
       read_float x = Some fx /\ read_float y = Some fy /\
       read_float len = Some fl /\ read_float ch = Some fc /\ round_float fc = Some z /\
       l = mk_location fx fy (br ++ "_" :: show_Z z) (strip br) fl fc).
  Proof.
    intros [id x y len br ch fx fy fl fc Hf H1 H2 H3 H4|x y br len ch fx fy fl fc z Hf H1 H2 H3 H4 H5];
      change (T ",") with [","]; rewrite split_join by (auto; discriminate).
    - left. exists id, x, y, len, br, ch, fx, fy, fl, fc. repeat (split; auto).
    - right. exists x, y, br, len, ch, fx, fy, fl, fc, z. repeat (split; auto).
  Qed.

  Lemma means_unique line a b : means line a -> means line b -> a = b.
  Proof.
    intros Ha Hb. apply means_split in Ha. apply means_split in Hb.
    destruct Ha as [(id&x&y&len&br&ch&fx&fy&fl&fc&E&H1&H2&H3&H4& ->)
                   |(x&y&br&len&ch&fx&fy&fl&fc&z&E&H1&H2&H3&H4&H5& ->)];
    destruct Hb as [(id'&x'&y'&len'&br'&ch'&fx'&fy'&fl'&fc'&E'&H1'&H2'&H3'&H4'& ->)
                   |(x'&y'&br'&len'&ch'&fx'&fy'&fl'&fc'&z'&E'&H1'&H2'&H3'&H4'&H5'& ->)];
    rewrite E in E'; try discriminate.
    - injection E' as <- <- <- <- <- <-. congruence.
    - injection E' as <- <- <- <- <-. congruence.
  Qed.

  Lemma header_not_means line l : header line -> ~ means line l.
  Proof.
    intros Hh Hm. apply means_split in Hm.
    destruct Hh as [id x y len br ch Hf H1|x y br len ch fc z Hf H1 H2 H3];
      change (T ",") with [","] in Hm; rewrite split_join in Hm by (auto; discriminate);
      destruct Hm as [(id'&x'&y'&len'&br'&ch'&fx'&fy'&fl'&fc'&E'&H1'&_)
                   |(x'&y'&br'&len'&ch'&fx'&fy'&fl'&fc'&z'&E'&H1'&_)]; try discriminate.
    - injection E' as <- <- <- <- <- <-. congruence.
    - injection E' as <- <- <- <- <-. congruence.
  Qed.

  Lemma css_file_lines lines raws : Forall2 ended lines raws -> forall data, data_lines lines data ->
    (exists ls, Forall2 means data ls /\
       css_lines read_float round_float 0 no_columns raws = Ok (columns_of ls)) \/
    (Exists (fun line => forall l, ~ means line l) data /\
       css_lines read_float round_float 0 no_columns raws = Raise ValueError).
  Proof.
    intros H data Hd. destruct H as [|line raw lines raws E H].
    - destruct Hd as [[-> _]|(h & X & _)]; [|discriminate]. left. exists []. split; auto.
    - cbn [css_lines].
      destruct (css_line_cases 0 no_columns line raw E) as [(l & Hm & ->)|[(_ & Hh & Hn & ->)|(Hn & Hh & ->)]];
        cbn [bind].
      + destruct Hd as [[-> _]|(h & X & Hh)].
        2:{ injection X as -> ->. destruct (header_not_means _ _ Hh Hm). }
        destruct (css_lines_rest 0 raws lines (add_location no_columns l) H) as [(ls & H2 & ->)|(H2 & ->)].
        * left. exists (l :: ls). split; auto.
          change (fold_left add_location ls (add_location no_columns l))
            with (fold_left add_location (l :: ls) no_columns). rewrite add_locations. auto.
        * right. auto.
      + destruct Hd as [[-> Hd]|(h & X & _)].
        { destruct (Hd _ _ eq_refl Hh). }
        injection X as -> ->.
        destruct (css_lines_rest 0 raws data no_columns H) as [(ls & H2 & ->)|(H2 & ->)].
        * left. exists ls. split; auto. rewrite add_locations. auto.
        * right. auto.
      + right. split; auto. destruct Hd as [[-> _]|(h & X & Hh')]; auto.
        injection X as -> ->. destruct Hh. auto.
  Qed.

  (** ** Every data line gives one location, in order; a line that means
      nothing is an error and never left out. *)
  Theorem C27_location_file_is_read_completely :
    forall (lines : list text) (last : text) (data : list text),
      Forall (free newline) lines -> free newline last ->
      (* the text: terminated lines, and a last one without line end if not empty *)
      let t := concat (map (fun l => l ++ [newline]) lines) ++ last in
      let all := lines ++ match last with [] => [] | _ => [last] end in
      data_lines all data ->
      (forall ls, Forall2 means data ls ->
         css_file read_float round_float (Some t) = Ok (columns_of ls)) /\
      (forall cols, css_file read_float round_float (Some t) = Ok cols ->
         exists ls, Forall2 means data ls /\ cols = columns_of ls) /\
      ((exists k line, nth_error data k = Some line /\ forall l, ~ means line l) ->
         css_file read_float round_float (Some t) = Raise ValueError).
  Proof.
    intros lines last data Hl Hlast t all Hd.
    assert (E : Forall2 ended all (raw_lines t)).
    { unfold t, all. rewrite raw_lines_cat by auto. apply Forall2_app.
      - clear. induction lines; constructor; auto. right. auto.
      - destruct last as [|c last]; [constructor|]. rewrite raw_lines_one by (auto; discriminate).
        constructor; auto. left. auto. }
    unfold css_file.
    destruct (css_file_lines all (raw_lines t) E data Hd) as [(ls & H2 & ->)|(H2 & ->)].
    - split; [|split].
      + intros ls' H3. f_equal. f_equal. clear - H2 H3 float_line_end.
        revert ls' H3. induction H2 as [|line l data ls Hm _ IH]; intros ls' H3; inversion H3; subst; auto.
        f_equal; [|apply IH; auto]. clear - Hm H1 float_line_end.
        apply (means_unique line); auto.
      + intros cols X. injection X as <-. exists ls. auto.
      + intros (k & line & Hk & Hn). exfalso.
        assert (exists l, means line l) as (l & Hm).
        { clear - H2 Hk. revert k Hk. induction H2; intros [|k] Hk; try discriminate; cbn in Hk.
          - injection Hk as <-. eauto.
          - eauto. }
        apply (Hn l Hm).
    - split; [|split].
      + intros ls H3. exfalso. clear - H2 H3. revert ls H3.
        induction H2 as [line data Hn|line data _ IH]; intros ls H3; inversion H3; subst; eauto.
        apply (Hn _ H1).
      + discriminate.
      + auto.
  Qed.
End C27.
Print Assumptions C27_location_file_is_read_completely.

(** A missing file is reported. *)
Theorem C27_missing_file :
  forall F rf rd, css_file (F := F) rf rd None = Raise OSError.
Proof. reflexivity. Qed.
Print Assumptions C27_missing_file.

(** A concrete reader of plain decimals for examples. *)
Definition round_q (q : Q) : option Z := Some (round_even q).

Definition nl (ls : list string) : text := concat (map (fun s => T s ++ [newline]) ls).

Local Open Scope string_scope.

Example C27_case :
  css_file read_decimal round_q
    (Some (nl ["name,x,y,length,branch,offset"; "a, 1.5, 2, 100, rhine , 50.25"; "3,4,maas,10,7.5"]))
  = Ok (mk_columns [((15#10)%Q, 2%Q); (3%Q, 4%Q)] [T "a"; T "maas_8"] [T "rhine"; T "maas"]
                   [100%Q; 10%Q] [(5025#100)%Q; (75#10)%Q]).
Proof. vm_compute. reflexivity. Qed.

(** The header of the five-column layout, and an empty line at the end of the
    file, stop the reader. *)
Theorem C27_legacy_header_refuted :
  css_file read_decimal round_q (Some (nl ["X,Y,BranchID,Length,Chainage"; "3,4,maas,10,7.5"]))
  = Raise ValueError /\
  css_file read_decimal round_q (Some (nl ["name,x,y,length,branch,offset"; "a,1,2,100,rhine,50"; ""]))
  = Raise ValueError /\
  css_file read_decimal round_q (Some (nl ["3,4,maas,10,7.5"])) <> Raise ValueError.
Proof. vm_compute. repeat split; discriminate. Qed.
Print Assumptions C27_legacy_header_refuted.

(** Two locations of the legacy layout can get the same id. *)
Example C27_legacy_ids_collide :
  css_file read_decimal round_q (Some (nl ["3,4,maas,1,7.6"; "3,5,maas,1,8.4"]))
  = Ok (mk_columns [(3%Q, 4%Q); (3%Q, 5%Q)] [T "maas_8"; T "maas_8"] [T "maas"; T "maas"]
                   [1%Q; 1%Q] [(76#10)%Q; (84#10)%Q]).
Proof. vm_compute. reflexivity. Qed.
