(** Theorems for C43: the D-Flow 1D roughness file, written and read back. *)
From Coq Require Import String List Ascii ZArith QArith Bool Lia.
From Verif Require Import PyBase Num Spec L_Num L_List Text L_Text Fixed L_Fixed M_Ini M_Import T_Import
  M_Friction M_Network L_Network T_NetFile M_Export L_Export T_Definitions T_Sobek.
Import ListNotations.
Local Open Scope char_scope.

(** ** The lines of the file *)

(** A block: a header line, more lines, and blanks that start the next line. *)
Definition block := (text * list text * text)%type.
Definition block_text (b : block) : text := let '(h, ls, q) := b in lns (h :: ls) ++ q.
Fixpoint shift (p : text) (bs : list block) : list text :=
  match bs with
  | [] => []
  | (h, ls, q) :: bs' => (p ++ h) :: ls ++ shift q bs'
  end.
Fixpoint last_blanks (p : text) (bs : list block) : text :=
  match bs with [] => p | (_, _, q) :: bs' => last_blanks q bs' end.

Lemma shift_text bs : forall p, p ++ concat (map block_text bs) = lns (shift p bs) ++ last_blanks p bs.
Proof.
  induction bs as [|[[h ls] q] bs IH]; intro p; cbn [map concat shift last_blanks].
  - apply app_nil_r.
  - cbn [block_text]. rewrite !lns_cons, lns_app. unfold ln. rewrite <- !app_assoc, <- IH. reflexivity.
Qed.

Lemma shift_app a b : forall p, shift p (a ++ b) = shift p a ++ shift (last_blanks p a) b.
Proof.
  induction a as [|[[h ls] q] a IH]; intro p; cbn [app shift last_blanks]; auto. rewrite IH, app_assoc. auto.
Qed.
Lemma last_blanks_app a b : forall p, last_blanks p (a ++ b) = last_blanks (last_blanks p a) b.
Proof. induction a as [|[[h ls] q] a IH]; intro p; cbn [app last_blanks]; auto. Qed.

Lemma file_lines_end ls q : Forall (free newline) ls -> free newline q ->
  file_lines (lns ls ++ q) = ls ++ match q with [] => [] | _ => [q] end.
Proof.
  intros F Fq. destruct q as [|c q].
  - rewrite !app_nil_r. apply file_lines_lns. auto.
  - apply file_lines_last; auto. discriminate.
Qed.

Definition setting (key value : text) : text := blanks 8 ++ key ++ T "= " ++ value.

Section C43.
  Variable double : num -> Prop.
  Variable rnd : Q -> num.
  Variable show_float : num -> text.
  Variable read_float : text -> option num.
  Hypothesis FC : float_codec double rnd show_float read_float.
  (* the format [.4]: four significant digits *)
  Variable show4 : num -> text.
  Variable near4 : num -> num -> Prop.
  Hypothesis show4_text : forall x, number_text (show4 x).
  Hypothesis read4 : forall x, exists v, read_float (show4 x) = Some v /\ near4 x v.

  Definition table_of (section : text) (c : xs) : option (list num * list num) := tassoc (x_tables c) section.
  Definition levels_of (section : text) (c : xs) : list num :=
    match table_of section c with Some tab => fst tab | None => [] end.
  Definition values_of (section : text) (c : xs) : list num :=
    match table_of section c with Some tab => snd tab | None => [] end.
  Definition has_section (section : text) (c : xs) : bool :=
    match table_of section c with Some _ => true | None => false end.

  Definition branch_block (section : text) (c : xs) : block :=
    (T "[BranchProperties]",
     [setting (T "branchId              ") (x_branch c); setting (T "roughnessType         ") (T "1");
      setting (T "functionType          ") (T "2");
      setting (T "numLevels             ") (show_Z (Z.of_nat (length (levels_of section c))));
      setting (T "levels                ") (numbers 4 (levels_of section c))], []).
  Definition values_text (l : list num) : text := join (T " ") (map show4 l).
  Definition def_block (section : text) (c : xs) : block :=
    (T "[Definition]",
     [setting (T "branchId              ") (x_branch c);
      setting (T "chainage              ") (show_float (x_chainage c));
      setting (T "values                ") (values_text (values_of section c)); []], blanks 4).

  (** The first cross-section of every branch that has the section. *)
  Fixpoint firsts (section : text) (css : list xs) (seen : list text) : list xs :=
    match css with
    | [] => []
    | c :: css' =>
        if has_section section c && negb (existsb (teqb (x_branch c)) seen)
        then c :: firsts section css' (seen ++ [x_branch c])
        else firsts section css' seen
    end.
  Definition blocks (section : text) (css : list xs) : list block :=
    map (branch_block section) (firsts section css []) ++
    map (def_block section) (filter (has_section section) css).

  Definition general_lines (section : text) : list text :=
    [T "[General]"; setting (T "majorVersion          ") (T "1"); setting (T "minorVersion          ") (T "0");
     setting (T "fileType              ") (T "roughness"); []; blanks 4 ++ T "[Content]";
     setting (T "sectionId             ") section; setting (T "flowDirection         ") (T "False");
     setting (T "interpolate           ") (T "1"); setting (T "globalType            ") (T "1");
     setting (T "globalValue           ") (T "45"); []].

  Lemma branch_sec_blocks section css : forall seen,
    branch_sec css section seen = concat (map block_text (map (branch_block section) (firsts section css seen))).
  Proof.
    induction css as [|c css IH]; intro seen; auto. cbn [branch_sec firsts]. unfold has_section, table_of.
    destruct (tassoc (x_tables c) section) as [tab|] eqn:Et; [|apply IH].
    destruct (existsb (teqb (x_branch c)) seen); cbn [negb andb]; auto.
    cbn [map concat]. rewrite IH. unfold branch_block, block_text. rewrite app_nil_r.
    unfold levels_of, table_of. rewrite Et. unfold lns. cbn [map concat]. rewrite !app_nil_r. reflexivity.
  Qed.

  Lemma definition_sec_blocks section css :
    definition_sec show_float show4 css section =
    concat (map block_text (map (def_block section) (filter (has_section section) css))).
  Proof.
    unfold definition_sec. induction css as [|c css IH]; auto. cbn [map concat filter]. rewrite IH.
    unfold has_section at 2, table_of. destruct (tassoc (x_tables c) section) as [tab|] eqn:Et; auto.
    cbn [map concat]. f_equal. unfold def_block, block_text, values_of, table_of. rewrite Et. unfold lns. cbn [map concat].
    rewrite !app_nil_r, <- !app_assoc. reflexivity.
  Qed.

  (** Lines of the file before the last, unfinished, line. *)
  Definition all_lines (section : text) (css : list xs) : list text :=
    general_lines section ++ shift (blanks 4) (blocks (lower section) css).

  Lemma written section css :
    run_writes (write_roughness_fm1d show_float show4 css section) =
    (lns (all_lines section css) ++ last_blanks (blanks 4) (blocks (lower section) css), None).
  Proof.
    unfold write_roughness_fm1d. cbn [run_writes fst snd].
    assert (G : roughness_general section = lns (general_lines section) ++ blanks 4).
    { unfold roughness_general, general_lines, lns, setting. cbn [map concat]. rewrite <- !app_assoc. reflexivity. }
    rewrite G, branch_sec_blocks, definition_sec_blocks, app_nil_r.
    unfold all_lines. rewrite lns_app, <- !app_assoc. f_equal. f_equal.
    rewrite <- shift_text. unfold blocks. rewrite map_app, concat_app. reflexivity.
  Qed.

  (** What the file has to be given. *)
  Definition rough_ok (c : xs) : Prop := good_value (x_branch c) /\ double (x_chainage c).

  Lemma blanks_free c n : c <> " " -> free c (blanks n).
  Proof. intros H I. apply repeat_spec in I. congruence. Qed.
  Lemma setting_free key v : freeb newline key = true -> free newline v -> free newline (setting key v).
  Proof.
    intros H Fv. unfold setting. repeat apply free_app; auto; try (apply freeb_free; auto; reflexivity).
  Qed.

  Lemma values_text_good l : good_value (values_text l).
  Proof.
    assert (F : Forall number_text (map show4 l)).
    { apply Forall_forall. intros t I. apply in_map_iff in I. destruct I as (x & <- & _). auto. }
    unfold values_text. split; [apply numbers_trimmed; auto|].
    split; apply numbers_free; auto using not_number_eq, not_number_newline; discriminate.
  Qed.

  Lemma shift_free bs : forall p, free newline p ->
    Forall (fun b : block => free newline (fst (fst b)) /\ Forall (free newline) (snd (fst b)) /\ free newline (snd b)) bs ->
    Forall (free newline) (shift p bs) /\ free newline (last_blanks p bs).
  Proof.
    induction bs as [|[[h ls] q] bs IH]; intros p Fp F; cbn [shift last_blanks]; [auto|].
    inversion F as [|? ? (A & B & C) F']; subst. cbn in A, B, C. destruct (IH q C F') as [I1 I2]. split; auto.
    constructor; [apply free_app; auto|]. apply Forall_app. auto.
  Qed.

  Lemma firsts_in section css : forall seen c, In c (firsts section css seen) ->
    In c css /\ has_section section c = true /\ ~ In (x_branch c) seen.
  Proof.
    induction css as [|a css IH]; intros seen c I; [destruct I|]. cbn [firsts] in I.
    destruct (has_section section a && negb (existsb (teqb (x_branch a)) seen)) eqn:E.
    - apply andb_prop in E. destruct E as [E1 E2]. destruct I as [<-|I].
      + split; [left; auto|]. split; auto. intro X. apply negb_true_iff in E2.
        rewrite <- not_true_iff_false in E2. apply E2. apply existsb_exists. exists (x_branch a). rewrite teqb_refl. auto.
      + apply IH in I. destruct I as (I1 & I2 & I3). split; [right; auto|]. split; auto.
        intro X. apply I3. apply in_or_app. auto.
    - apply IH in I. destruct I as (I1 & I2 & I3). split; [right; auto|]. auto.
  Qed.

  Lemma blocks_free section css : Forall rough_ok css ->
    Forall (fun b : block => free newline (fst (fst b)) /\ Forall (free newline) (snd (fst b)) /\ free newline (snd b))
      (blocks section css).
  Proof.
    intro F. rewrite Forall_forall in F. unfold blocks. apply Forall_app. split.
    - apply Forall_forall. intros b I. apply in_map_iff in I. destruct I as (c & <- & I).
      apply firsts_in in I. destruct I as (I & _). apply F in I. destruct I as ((_ & _ & N) & _).
      unfold branch_block. cbn [fst snd]. split; [apply freeb_free; reflexivity|]. split; [|intros []].
      repeat (apply Forall_cons; [apply setting_free; [reflexivity|]|]); [auto| | | | |constructor].
      + apply freeb_free; reflexivity.
      + apply freeb_free; reflexivity.
      + apply show_Z_value.
      + apply numbers_value.
    - apply Forall_forall. intros b I. apply in_map_iff in I. destruct I as (c & <- & I).
      apply filter_In in I. destruct I as (I & _). apply F in I. destruct I as ((_ & _ & N) & _).
      unfold def_block. cbn [fst snd]. split; [apply freeb_free; reflexivity|].
      split; [|apply blanks_free; discriminate].
      repeat (apply Forall_cons; [try apply setting_free; [reflexivity|]|]); [auto| | |].
      + apply number_value, (fc_text _ _ _ _ FC).
      + apply values_text_good.
      + constructor; [intros []|constructor].
  Qed.

  Lemma lines_of_file section css : free newline section -> Forall rough_ok css ->
    exists q, spaces q /\
      file_lines (fst (run_writes (write_roughness_fm1d show_float show4 css section))) =
      all_lines section css ++ match q with [] => [] | _ => [q] end.
  Proof.
    intros Fs F. rewrite written. cbn [fst].
    destruct (shift_free (blocks (lower section) css) (blanks 4)) as [S1 S2]; auto.
    { apply blanks_free. discriminate. }
    { apply blocks_free. auto. }
    exists (last_blanks (blanks 4) (blocks (lower section) css)). split.
    - assert (G : forall bs p, spaces p -> Forall (fun b : block => spaces (snd b)) bs -> spaces (last_blanks p bs)).
      { induction bs as [|[[h ls] q] bs IH]; intros p Sp Fb; auto. inversion Fb; subst. cbn [last_blanks]. auto. }
      apply G; [apply blanks_spaces|]. unfold blocks. apply Forall_app. split; apply Forall_forall; intros b I;
        apply in_map_iff in I; destruct I as (c & <- & I); [constructor|apply blanks_spaces].
    - apply file_lines_end; auto. unfold all_lines. apply Forall_app. split; auto.
      unfold general_lines.
      repeat (apply Forall_cons; [try (apply freeb_free; reflexivity); try (apply setting_free; [reflexivity|auto])|]);
        constructor.
  Qed.

  (** ** Reading *)

  Variables (br : text) (ch : num).
  Notation info_fuel := (roughness_info read_float).
  Definition info (ls : list text) := info_fuel (length ls) ls br ch.

  Lemma length_tl {A} (l : list A) : (length (tl l) <= length l)%nat.
  Proof. destruct l; cbn; lia. Qed.

  Lemma info_any : forall f1 f2 ls L V, (length ls <= f1)%nat -> (length ls <= f2)%nat ->
    info_fuel f1 ls br ch L V = info_fuel f2 ls br ch L V.
  Proof.
    induction f1 as [|f1 IH]; intros f2 ls L V H1 H2.
    - destruct ls; [|cbn in H1; lia]. destruct f2; reflexivity.
    - destruct ls as [|l rest]; [destruct f2; reflexivity|]. destruct f2 as [|f2]; [cbn in H2; lia|].
      cbn [length] in H1, H2. cbn [roughness_info].
      assert (R : forall m L V, (length m <= length rest)%nat -> info_fuel f1 m br ch L V = info_fuel f2 m br ch L V)
        by (intros; apply IH; lia).
      pose proof (length_tl rest) as T1. pose proof (length_tl (tl rest)) as T2.
      pose proof (length_tl (tl (tl rest))) as T3. pose proof (length_tl (skipn 3 (tl rest))) as T4.
      assert (T5 : (length (skipn 3 (tl rest)) <= length (tl rest))%nat) by (rewrite skipn_length; lia).
      destruct (teqb (lower (strip l)) (T "[branchproperties]")).
      { destruct (value_of (hd [] rest)); cbn [bind]; auto. destruct (teqb _ br); [|apply R; lia].
        cbv zeta. destruct (value_of _); cbn [bind]; auto. destruct (floats_of read_float _); cbn [bind]; auto.
        apply R. lia. }
      destruct (teqb (lower (strip l)) (T "[definition]")).
      { destruct (value_of (hd [] rest)); cbn [bind]; auto. destruct (teqb _ br); [|apply R; lia].
        destruct (value_of (hd [] (tl rest))); cbn [bind]; auto. destruct (float_of read_float _); cbn [bind]; auto.
        destruct (neqb _ ch); [|apply R; lia]. destruct (value_of _); cbn [bind]; auto.
        destruct (floats_of read_float _); cbn [bind]; auto. apply R. lia. }
      apply R. lia.
  Qed.

  Lemma info_fuel_info f ls L V : (length ls <= f)%nat -> info_fuel f ls br ch L V = info ls L V.
  Proof. intro H. apply info_any; auto. Qed.

  Lemma info_cons l rest L V : info (l :: rest) L V =
    if teqb (lower (strip l)) (T "[branchproperties]") then
      b <- value_of (hd [] rest) ;;
      if teqb (lower b) br then
        v <- value_of (hd [] (skipn 3 (tl rest))) ;; lv <- floats_of read_float v ;;
        info (tl (skipn 3 (tl rest))) (Some lv) V
      else info (tl rest) L V
    else if teqb (lower (strip l)) (T "[definition]") then
      b <- value_of (hd [] rest) ;;
      if teqb (lower b) br then
        c <- value_of (hd [] (tl rest)) ;; chf <- float_of read_float (lower c) ;;
        if neqb chf ch then
          v <- value_of (hd [] (tl (tl rest))) ;; vs <- floats_of read_float v ;;
          info (tl (tl (tl rest))) L (Some vs)
        else info (tl (tl rest)) L V
      else info (tl rest) L V
    else info rest L V.
  Proof.
    unfold info at 1. cbn [length roughness_info].
    pose proof (length_tl rest) as T1. pose proof (length_tl (tl rest)) as T2.
    pose proof (length_tl (tl (tl rest))) as T3. pose proof (length_tl (skipn 3 (tl rest))) as T4.
    assert (T5 : (length (skipn 3 (tl rest)) <= length (tl rest))%nat) by (rewrite skipn_length; lia).
    destruct (teqb (lower (strip l)) (T "[branchproperties]")).
    { destruct (value_of (hd [] rest)); cbn [bind]; auto. destruct (teqb _ br); [|apply info_fuel_info; lia].
      cbv zeta. destruct (value_of _); cbn [bind]; auto. destruct (floats_of read_float _); cbn [bind]; auto.
      apply info_fuel_info. lia. }
    destruct (teqb (lower (strip l)) (T "[definition]")).
    { destruct (value_of (hd [] rest)); cbn [bind]; auto. destruct (teqb _ br); [|apply info_fuel_info; lia].
      destruct (value_of (hd [] (tl rest))); cbn [bind]; auto. destruct (float_of read_float _); cbn [bind]; auto.
      destruct (neqb _ ch); [|apply info_fuel_info; lia]. destruct (value_of _); cbn [bind]; auto.
      destruct (floats_of read_float _); cbn [bind]; auto. apply info_fuel_info. lia. }
    reflexivity.
  Qed.

  (** Lines that are no block headers. *)
  Definition plain_line (l : text) : Prop :=
    teqb (lower (strip l)) (T "[branchproperties]") = false /\ teqb (lower (strip l)) (T "[definition]") = false.
  Lemma info_plain ls : forall rest L V, Forall plain_line ls -> info (ls ++ rest) L V = info rest L V.
  Proof.
    induction ls as [|l ls IH]; intros rest L V F; auto. inversion F as [|? ? [P1 P2] F']; subst.
    cbn [app]. rewrite info_cons, P1, P2. auto.
  Qed.

  Lemma setting_shape key v : good_key (key ++ T " ") = true -> exists c k, is_space c = false /\ free "=" (c :: k) /\
    lower_char c <> "[" /\ setting (key ++ T " ") v = blanks 8 ++ (c :: k) ++ "=" :: [" "] ++ v.
  Proof.
    intro G. destruct (key ++ T " ") as [|c k] eqn:E; [discriminate|]. cbn [good_key] in G.
    repeat (apply andb_prop in G; destruct G as [G ?]). apply negb_true_iff in G.
    exists c, k. split; auto. split; [apply freeb_free; auto|]. split.
    { intro X. rewrite X in *. discriminate. }
    reflexivity.
  Qed.

  Lemma setting_shape' key v : good_key key = true -> exists c k, is_space c = false /\ free "=" (c :: k) /\
    lower_char c <> "[" /\ setting key v = blanks 8 ++ (c :: k) ++ "=" :: [" "] ++ v.
  Proof.
    intro G. destruct key as [|c k]; [discriminate|]. cbn [good_key] in G.
    repeat (apply andb_prop in G; destruct G as [G ?]). apply negb_true_iff in G.
    exists c, k. split; auto. split; [apply freeb_free; auto|]. split.
    { intro X. rewrite X in *. discriminate. }
    reflexivity.
  Qed.

  Lemma setting_plain key v : good_key key = true -> plain_line (setting key v).
  Proof.
    intro G. destruct (setting_shape' key v G) as (c & k & H1 & H2 & H3 & ->).
    cbn [app]. destruct (strip_head (blanks 8) c (k ++ "=" :: " " :: v)) as (u & E); auto using blanks_spaces.
    unfold plain_line. rewrite E.
    change (T "[branchproperties]") with ("[" :: T "branchproperties]").
    change (T "[definition]") with ("[" :: T "definition]"). unfold lower. cbn [map teqb].
    rewrite (proj2 (Ascii.eqb_neq _ _) H3). auto.
  Qed.

  Lemma setting_value key v : good_key key = true -> good_value v -> value_of (setting key v) = Ok v.
  Proof.
    intros G (Tv & Fv & _). destruct (setting_shape' key v G) as (c & k & H1 & H2 & H3 & ->).
    apply value_of_line; auto using blanks_spaces. repeat constructor.
  Qed.

  Lemma header_line p t : spaces p -> trimmed t -> strip (p ++ t) = t.
  Proof. intros. apply strip_lpad; auto. Qed.

  (** What the two loops find. *)
  Definition opt_rel (R : num -> num -> Prop) (x : option (list num)) (y : option (list num)) : Prop :=
    match x, y with Some a, Some b => Forall2 R a b | None, None => True | _, _ => False end.
  Definition level_search (section : text) (cs : list xs) (L : option (list num)) : option (list num) :=
    fold_left (fun L c => if teqb (lower (x_branch c)) br then Some (levels_of section c) else L) cs L.
  Definition matches (c : xs) : bool := teqb (lower (x_branch c)) br && neqb (x_chainage c) ch.
  Definition value_search (section : text) (cs : list xs) (V : option (list num)) : option (list num) :=
    fold_left (fun V c => if matches c then Some (values_of section c) else V) cs V.

  Lemma level_search_cons section c cs L : level_search section (c :: cs) L =
    level_search section cs (if teqb (lower (x_branch c)) br then Some (levels_of section c) else L).
  Proof. reflexivity. Qed.
  Lemma value_search_cons section c cs V : value_search section (c :: cs) V =
    value_search section cs (if teqb (lower (x_branch c)) br && neqb (x_chainage c) ch
                             then Some (values_of section c) else V).
  Proof. reflexivity. Qed.

  Lemma read_branch_blocks section cs : Forall rough_ok cs -> forall p rest L V Ls, spaces p -> opt_rel (printed rnd 4) Ls L ->
    exists L', opt_rel (printed rnd 4) (level_search section cs Ls) L' /\
      info (shift p (map (branch_block section) cs) ++ rest) L V = info rest L' V.
  Proof.
    induction 1 as [|c cs (Gb & Dc) F IH]; intros p rest L V Ls Sp R.
    - exists L. auto.
    - cbn [map]. unfold branch_block at 1. cbn [shift app]. rewrite info_cons, (header_line p) by (auto; apply trimmedb_trimmed; reflexivity).
      replace (teqb (lower (T "[BranchProperties]")) (T "[branchproperties]")) with true by reflexivity. cbv iota.
      cbn [hd tl skipn]. rewrite setting_value by (auto; reflexivity). cbn [bind].
      rewrite level_search_cons.
      destruct (teqb (lower (x_branch c)) br).
      + rewrite setting_value by (try reflexivity; apply numbers_value). cbn [bind].
        destruct (read_column double rnd show_float read_float FC (levels_of section c)) as (lv & -> & Fl). cbn [bind].
        apply (IH [] rest (Some lv) V (Some (levels_of section c))); [constructor|exact Fl].
      + destruct (IH [] rest L V Ls) as (L' & R' & E); [constructor|exact R|]. exists L'. split; auto.
        rewrite <- E.
        match goal with |- info (?a :: ?b :: ?c0 :: ?d :: ?r) _ _ = _ =>
          change (a :: b :: c0 :: d :: r) with ([a; b; c0; d] ++ r) end.
        apply info_plain. repeat constructor; apply setting_plain; reflexivity.
  Qed.

  Lemma neqb_same v x : same v x -> neqb v ch = neqb x ch.
  Proof.
    destruct v, x; cbn; try tauto. intro H. destruct ch; auto.
    destruct (Qeq_bool q q1) eqn:E, (Qeq_bool q0 q1) eqn:E0; auto.
    - apply Qeq_bool_true in E. apply Qeq_bool_false in E0. destruct E0. rewrite <- H. auto.
    - apply Qeq_bool_true in E0. apply Qeq_bool_false in E. destruct E. rewrite H. auto.
  Qed.

  Lemma read_def_blocks section cs : Forall rough_ok cs -> forall p rest L V Vs, spaces p -> opt_rel near4 Vs V ->
    exists V', opt_rel near4 (value_search section cs Vs) V' /\
      info (shift p (map (def_block section) cs) ++ rest) L V = info rest L V'.
  Proof.
    induction 1 as [|c cs (Gb & Dc) F IH]; intros p rest L V Vs Sp R.
    - exists V. auto.
    - cbn [map]. unfold def_block at 1. cbn [shift app]. rewrite info_cons, (header_line p) by (auto; apply trimmedb_trimmed; reflexivity).
      replace (teqb (lower (T "[Definition]")) (T "[branchproperties]")) with false by reflexivity.
      replace (teqb (lower (T "[Definition]")) (T "[definition]")) with true by reflexivity. cbv iota.
      cbn [hd tl]. rewrite setting_value by (auto; reflexivity). cbn [bind].
      rewrite value_search_cons.
      assert (PL : forall ls v L V, Forall plain_line ls ->
        info (ls ++ [] :: shift (blanks 4) (map (def_block section) cs) ++ v) L V =
        info (shift (blanks 4) (map (def_block section) cs) ++ v) L V).
      { intros ls v L0 V0 Fl. rewrite info_plain by auto. change ([] :: ?a) with ([[]] ++ a).
        apply info_plain. repeat constructor. }
      destruct (teqb (lower (x_branch c)) br); cbn [andb].
      + pose proof (fc_text _ _ _ _ FC (x_chainage c)) as Nt.
        rewrite setting_value by (try reflexivity; apply number_value; auto). cbn [bind].
        rewrite number_lower by auto. destruct (read_show_float FC (x_chainage c) Dc) as (v & -> & Sv). cbn [bind].
        rewrite (neqb_same v (x_chainage c) Sv). destruct (neqb (x_chainage c) ch).
        * rewrite setting_value by (try reflexivity; apply values_text_good). cbn [bind].
          destruct (read_numbers (read_float := read_float) show4 near4 (values_of section c)) as (vs & E & Fv).
          { intros x _. split; auto. destruct (read4 x) as (w & E & N). exists w. unfold float_of. rewrite E. auto. }
          unfold values_text. rewrite E. cbn [bind].
          destruct (IH (blanks 4) rest L (Some vs) (Some (values_of section c))) as (V' & R' & E');
            [apply blanks_spaces|exact Fv|]. exists V'. split; [assumption|]. rewrite <- E'. apply (PL [] rest). constructor.
        * destruct (IH (blanks 4) rest L V Vs) as (V' & R' & E'); [apply blanks_spaces|exact R|].
          exists V'. split; [assumption|]. rewrite <- E'.
          apply (PL [setting (T "values                ") (values_text (values_of section c))] rest).
          repeat constructor; apply setting_plain; reflexivity.
      + destruct (IH (blanks 4) rest L V Vs) as (V' & R' & E'); [apply blanks_spaces|exact R|].
        exists V'. split; [assumption|]. rewrite <- E'.
        apply (PL [setting (T "chainage              ") (show_float (x_chainage c));
                   setting (T "values                ") (values_text (values_of section c))] rest).
        repeat constructor; apply setting_plain; reflexivity.
  Qed.

  Lemma read_file section css : free newline section -> Forall rough_ok css ->
    exists L V, info (file_lines (fst (run_writes (write_roughness_fm1d show_float show4 css section)))) None None = Ok (L, V) /\
      opt_rel (printed rnd 4) (level_search (lower section) (firsts (lower section) css []) None) L /\
      opt_rel near4 (value_search (lower section) (filter (has_section (lower section)) css) None) V.
  Proof.
    intros Fs F. destruct (lines_of_file section css Fs F) as (q & Sq & ->).
    unfold all_lines. rewrite <- app_assoc. rewrite info_plain.
    2: { unfold general_lines.
         repeat (apply Forall_cons; [try (apply setting_plain; reflexivity); try (split; reflexivity)|]); constructor. }
    unfold blocks. rewrite shift_app, <- app_assoc.
    assert (F1 : Forall rough_ok (firsts (lower section) css [])).
    { apply Forall_forall. intros c I. apply firsts_in in I. rewrite Forall_forall in F. apply F. tauto. }
    assert (F2 : Forall rough_ok (filter (has_section (lower section)) css)).
    { apply Forall_forall. intros c I. apply filter_In in I. rewrite Forall_forall in F. apply F. tauto. }
    edestruct (read_branch_blocks (lower section) _ F1 (blanks 4)) with (Ls := @None (list num)) (L := @None (list num))
      as (L & RL & ->); [apply blanks_spaces|exact I|].
    edestruct (read_def_blocks (lower section) _ F2) with (Vs := @None (list num)) (V := @None (list num))
      as (V & RV & ->); [|exact I|].
    { clear. set (p := blanks 4). assert (Sp : spaces p) by apply blanks_spaces. clearbody p. revert p Sp.
      induction (firsts (lower section) css []) as [|c cs IH]; intros p Sp; auto. cbn [map]. unfold branch_block at 1.
      cbn [last_blanks]. apply IH. constructor. }
    exists L, V. split; auto. destruct q as [|a q]; [reflexivity|].
    rewrite info_cons.
    assert (E : strip (a :: q) = []).
    { unfold strip, strip_by. rewrite <- (app_nil_r (a :: q)), dropwhile_all by auto. reflexivity. }
    rewrite E. reflexivity.
  Qed.

  Variable round2 : num -> num.
  Lemma get_info content name : parse_cssname read_float round2 name = Ok (br, ch) ->
    get_roughness_info read_float round2 content name = info (file_lines content) None None.
  Proof. intro E. unfold get_roughness_info. rewrite E. reflexivity. Qed.
End C43.

Lemma split_last_name c b t : free c t -> split_last c (b ++ c :: t) = Some (b, t).
Proof.
  intro F. induction b as [|x b IH]; cbn [app split_last].
  - assert (N : split_last c t = None).
    { clear -F. induction t as [|x t IH]; auto. cbn [split_last]. rewrite IH by (intro X; apply F; right; auto).
      destruct (Ascii.eqb_spec x c) as [->|]; auto. destruct F. left; auto. }
    rewrite N, Ascii.eqb_refl. reflexivity.
  - rewrite IH. reflexivity.
Qed.

(** ** One block per branch, one definition per cross-section *)

Lemma firsts_nodup section css : forall seen, NoDup (map x_branch (firsts section css seen)).
Proof.
  induction css as [|c css IH]; intro seen; cbn [firsts]; [constructor|].
  destruct (has_section section c && negb (existsb (teqb (x_branch c)) seen)) eqn:E; auto.
  cbn [map]. constructor; auto. intro I. apply in_map_iff in I. destruct I as (d & Ed & I).
  apply firsts_in in I. destruct I as (_ & _ & N). apply N. rewrite Ed. apply in_or_app. right. left. auto.
Qed.

Lemma firsts_all section css : forall seen c, In c css -> has_section section c = true -> ~ In (x_branch c) seen ->
  In (x_branch c) (map x_branch (firsts section css seen)).
Proof.
  induction css as [|a css IH]; intros seen c I H N; [destruct I|]. cbn [firsts].
  destruct (has_section section a && negb (existsb (teqb (x_branch a)) seen)) eqn:E.
  - cbn [map]. destruct (teqb (x_branch a) (x_branch c)) eqn:Eq.
    + apply teqb_eq in Eq. left. auto.
    + destruct I as [->|I]; [left; auto|]. right. apply IH; auto. intro X. apply in_app_or in X.
      destruct X as [X|[X|[]]]; auto. rewrite X, teqb_refl in Eq. discriminate.
  - destruct I as [->|I]; [|apply IH; auto]. rewrite H in E. cbn [andb] in E. apply negb_false_iff in E.
    apply existsb_exists in E. destruct E as (b & Ib & Eb). apply teqb_eq in Eb. subst b. contradiction.
Qed.

(** The first cross-section in the list is the one whose levels are written. *)
Lemma firsts_first section css c : forall seen, In c (firsts section css seen) ->
  exists before after, css = before ++ c :: after /\
    forall d, In d before -> x_branch d = x_branch c -> has_section section d = false.
Proof.
  induction css as [|a css IH]; intros seen I; [destruct I|]. cbn [firsts] in I.
  destruct (has_section section a && negb (existsb (teqb (x_branch a)) seen)) eqn:E.
  - destruct I as [<-|I]; [exists [], css; split; auto; intros d []|].
    destruct (IH _ I) as (b & e & -> & H). exists (a :: b), e. split; auto.
    intros d [<-|Id]; auto. intro X. apply firsts_in in I. destruct I as (_ & _ & N). destruct N.
    apply in_or_app. right. left. auto.
  - destruct (IH _ I) as (b & e & -> & H). exists (a :: b), e. split; auto.
    intros d [<-|Id]; auto. intro X. apply firsts_in in I. destruct I as (_ & _ & N).
    destruct (has_section section a); auto. cbn [andb] in E. apply negb_false_iff in E.
    apply existsb_exists in E. destruct E as (b' & Ib & Eb). apply teqb_eq in Eb. subst b'. rewrite X in Ib. contradiction.
Qed.

Section C43_theorems.
  Variable double : num -> Prop.
  Variable rnd : Q -> num.
  Variable show_float : num -> text.
  Variable read_float : text -> option num.
  Hypothesis FC : float_codec double rnd show_float read_float.
  Variable show4 : num -> text.
  Variable near4 : num -> num -> Prop.
  Hypothesis show4_text : forall x, number_text (show4 x).
  Hypothesis read4 : forall x, exists v, read_float (show4 x) = Some v /\ near4 x v.
  Variable round2 : num -> num.
  Notation rough_ok := (rough_ok double).
  Definition roughness_file (css : list xs) (section : text) : text :=
    fst (run_writes (write_roughness_fm1d show_float show4 css section)).

  (** The file: general lines, one block for every branch that has the section (levels of the
      first cross-section there), one block for every cross-section that has it, in list order,
      and a last line of blanks. *)
  Theorem C43_file_structure : forall css section, free newline section -> Forall rough_ok css ->
    snd (run_writes (write_roughness_fm1d show_float show4 css section)) = None /\
    exists bs tail, spaces tail /\
      roughness_file css section =
        lns (general_lines section ++
             shift (blanks 4) (map (branch_block (lower section)) bs ++
               map (def_block show_float show4 (lower section)) (filter (has_section (lower section)) css))) ++ tail /\
      NoDup (map x_branch bs) /\
      (forall b, In b (map x_branch bs) <->
                 exists c, In c css /\ has_section (lower section) c = true /\ x_branch c = b) /\
      (forall c, In c bs -> exists before after, css = before ++ c :: after /\
         has_section (lower section) c = true /\
         forall d, In d before -> x_branch d = x_branch c -> has_section (lower section) d = false).
  Proof.
    intros css section Fs F. split; [rewrite written; reflexivity|].
    exists (firsts (lower section) css []), (last_blanks (blanks 4) (blocks show_float show4 (lower section) css)).
    split; [|split; [|split; [|split]]].
    - assert (G : forall bs p, spaces p -> Forall (fun b : block => spaces (snd b)) bs -> spaces (last_blanks p bs)).
      { induction bs as [|[[h ls] q] bs IH]; intros p Sp Fb; auto. inversion Fb; subst. cbn [last_blanks]. auto. }
      apply G; [apply blanks_spaces|]. unfold blocks. apply Forall_app. split; apply Forall_forall; intros b I;
        apply in_map_iff in I; destruct I as (c & <- & I); [constructor|apply blanks_spaces].
    - unfold roughness_file. rewrite written. reflexivity.
    - apply firsts_nodup.
    - intro b. split.
      + intro I. apply in_map_iff in I. destruct I as (c & <- & I). apply firsts_in in I. exists c. tauto.
      + intros (c & I & H & <-). apply firsts_all; auto.
    - intros c I. destruct (firsts_first _ _ _ _ I) as (b & e & E & H). exists b, e. split; auto. split; auto.
      apply firsts_in in I. tauto.
  Qed.

  (** Reading the tables of a cross-section back from the file. *)
  Theorem C43_roughness_round_trip : forall css c section levels frictions suffix r q,
    free newline section -> Forall rough_ok css -> In c css ->
    table_of (lower section) c = Some (levels, frictions) ->
    x_name c = x_branch c ++ T "_" ++ suffix -> free "_" suffix ->
    read_float suffix = Some r -> x_chainage c = Fin q -> same (round2 r) (Fin q) ->
    lower (x_branch c) = x_branch c ->
    (forall d, In d css -> lower (x_branch d) = x_branch c -> x_branch d = x_branch c) ->
    (forall d, In d css -> x_branch d = x_branch c -> has_section (lower section) d = true ->
               levels_of (lower section) d = levels) ->
    (forall d, In d css -> x_branch d = x_branch c -> has_section (lower section) d = true ->
               same (x_chainage d) (x_chainage c) -> values_of (lower section) d = frictions) ->
    exists lv vs,
      get_roughness_info read_float round2 (roughness_file css section) (x_name c) = Ok (Some lv, Some vs) /\
      Forall2 (printed rnd 4) levels lv /\ Forall2 near4 frictions vs.
  Proof.
    intros css c section levels frictions suffix r q Fs F Ic Et En Fsu Er Eq Er2 Lb Ub Ul Uv.
    set (sec := lower section) in *.
    destruct (read_file double rnd show_float read_float FC show4 near4 show4_text read4 (x_branch c) (round2 r)
                section css Fs F) as (L & V & E & RL & RV).
    fold sec in RL, RV.
    assert (Hc : has_section sec c = true) by (unfold has_section; rewrite Et; auto).
    assert (EL : level_search (x_branch c) sec (firsts sec css []) None = Some levels).
    { assert (G : forall cs acc, (forall d, In d cs -> In d css /\ has_section sec d = true) ->
        (acc = Some levels \/ In (x_branch c) (map x_branch cs)) ->
        level_search (x_branch c) sec cs acc = Some levels).
      { induction cs as [|d cs IH]; intros acc Sub H.
        - destruct H as [->|[]]. reflexivity.
        - rewrite level_search_cons. apply IH; [intros; apply Sub; right; auto|].
          destruct (Sub d (or_introl eq_refl)) as [Id Hd].
          destruct (teqb (lower (x_branch d)) (x_branch c)) eqn:Eb.
          + apply teqb_eq in Eb. left. f_equal. apply Ul; auto.
          + destruct H as [H|[H|H]]; auto. rewrite H, Lb, teqb_refl in Eb. discriminate. }
      apply G; [intros d Id; apply firsts_in in Id; tauto|]. right. apply firsts_all; auto. }
    assert (EV : value_search (x_branch c) (round2 r) sec (filter (has_section sec) css) None = Some frictions).
    { assert (Mc : neqb (x_chainage c) (round2 r) = true).
      { rewrite Eq. destruct (round2 r); try contradiction. cbn in Er2 |- *. apply Qeq_bool_iff. symmetry. auto. }
      assert (G : forall cs acc, (forall d, In d cs -> In d css /\ has_section sec d = true) ->
        (acc = Some frictions \/ In c cs) ->
        value_search (x_branch c) (round2 r) sec cs acc = Some frictions).
      { induction cs as [|d cs IH]; intros acc Sub H.
        - destruct H as [->|[]]. reflexivity.
        - rewrite value_search_cons. apply IH; [intros; apply Sub; right; auto|].
          destruct (Sub d (or_introl eq_refl)) as [Id Hd].
          destruct (teqb (lower (x_branch d)) (x_branch c)) eqn:Eb; cbn [andb].
          + apply teqb_eq in Eb. destruct (neqb (x_chainage d) (round2 r)) eqn:Ec.
            * left. f_equal. apply Uv; auto. rewrite Eq. rewrite Eq in Mc.
              destruct (round2 r), (x_chainage d); try discriminate; cbn in *; try contradiction.
              apply Qeq_bool_iff in Ec. rewrite Ec. auto.
            * destruct H as [H|[H|H]]; auto. subst d. congruence.
          + destruct H as [H|[H|H]]; auto. rewrite H, Lb, teqb_refl in Eb. discriminate. }
      apply G; [intros d Id; apply filter_In in Id; tauto|]. right. apply filter_In. auto. }
    rewrite EL in RL. rewrite EV in RV. destruct L as [lv|], V as [vs|]; try contradiction.
    exists lv, vs. split; auto. unfold roughness_file. rewrite <- E.
    apply get_info. unfold parse_cssname. rewrite En. change (T "_" ++ suffix) with ("_" :: suffix).
    rewrite split_last_name by auto. cbn [of_option bind fst snd]. unfold float_of. rewrite Er. reflexivity.
  Qed.

  (** A cross-section on a branch with a capital in its name is never found. *)
  Theorem C43_capital_branch_refuted : forall css c section suffix r,
    free newline section -> Forall rough_ok css -> In c css ->
    x_name c = x_branch c ++ T "_" ++ suffix -> free "_" suffix -> read_float suffix = Some r ->
    lower (x_branch c) <> x_branch c ->
    get_roughness_info read_float round2 (roughness_file css section) (x_name c) = Ok (None, None).
  Proof.
    intros css c section suffix r Fs F Ic En Fsu Er Lb.
    destruct (read_file double rnd show_float read_float FC show4 near4 show4_text read4 (x_branch c) (round2 r)
                section css Fs F) as (L & V & E & RL & RV).
    assert (N : forall d : xs, teqb (lower (x_branch d)) (x_branch c) = false).
    { intro d. destruct (teqb (lower (x_branch d)) (x_branch c)) eqn:X; auto. apply teqb_eq in X. destruct Lb.
      rewrite <- X. apply lower_idem. }
    assert (EL : forall cs acc, level_search (x_branch c) (lower section) cs acc = acc).
    { induction cs as [|d cs IH]; intro acc; auto. rewrite level_search_cons, N. auto. }
    assert (EV : forall cs acc, value_search (x_branch c) (round2 r) (lower section) cs acc = acc).
    { induction cs as [|d cs IH]; intro acc; auto. rewrite value_search_cons, N. auto. }
    rewrite EL in RL. rewrite EV in RV. destruct L, V; try contradiction.
    rewrite <- E. apply get_info. unfold parse_cssname. rewrite En. change (T "_" ++ suffix) with ("_" :: suffix).
    rewrite split_last_name by auto. cbn [of_option bind fst snd]. unfold float_of. rewrite Er. reflexivity.
  Qed.
End C43_theorems.
Print Assumptions C43_file_structure.
Print Assumptions C43_roughness_round_trip.
Print Assumptions C43_capital_branch_refuted.

Definition example_low : xs :=
  mk_xs (T "waal_1000.0") (T "waal") (Fin 1000) [Fin (1 # 3); Fin 2] [Fin 10; Fin 20] [Fin 10; Fin 30]
    (Fin (5 # 2)) (Fin 0) (Fin 120) (Fin 3000) NaN
    [(T "main", Fin 10); (T "floodplain1", Fin 20); (T "floodplain2", Fin 0)]
    [(T "main", ([Fin 1; Fin 2], [Fin 45; Fin 40]))]
    (mk_volumes [Fin 1] [Fin 2] [Fin 3] [Fin 4] [Fin 5] [Fin 6] [Fin 7] [Fin 8] [Fin 9] [Fin 10] [NaN]).
Example C43_example : rough_ok three_decimals example_low /\
  match get_roughness_info read_number (fun x => x)
          (roughness_file (show_num 3) (show_num 3) [example_xs; example_low] (T "Main")) (T "waal_1000.0") with
  | Ok (Some lv, Some vs) => map (fun x => match x with Fin q => Qred q | _ => 0 end) lv = [1; 2]%Q /\
                             map (fun x => match x with Fin q => Qred q | _ => 0 end) vs = [45; 40]%Q
  | _ => False
  end.
Proof. split; [split; [apply good_valueb; reflexivity|vm_compute; reflexivity]|vm_compute; auto]. Qed.
