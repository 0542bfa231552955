(** Theorems for C42: the volume table, written and read back. *)
From Coq Require Import String List Ascii ZArith QArith Bool Lia.
From Verif Require Import PyBase Num Spec L_Num L_List Text L_Text Fixed L_Fixed M_Ini M_Import T_Import
  M_Friction M_Network L_Network T_NetFile M_Export L_Export T_Definitions T_Sobek.
Import ListNotations.
Local Open Scope char_scope.

Lemma firstn_snoc {A} n (l : list A) d : (n < length l)%nat -> firstn (S n) l = firstn n l ++ [nth n l d].
Proof. revert n. induction l as [|a l IH]; intros [|n] H; cbn in *; try lia; auto. f_equal. apply IH. lia. Qed.

Lemma map2_map_r {A B C D} (f : A -> B -> C) (g : D -> B) l m : map2 f l (map g m) = map2 (fun a d => f a (g d)) l m.
Proof. revert m. induction l as [|a l IH]; intros [|d m]; cbn; auto. f_equal. auto. Qed.

Section C42.
  Variable double : num -> Prop.
  Variable rnd : Q -> num.
  Variable show_float : num -> text.
  Variable read_float : text -> option num.
  Hypothesis FC : float_codec double rnd show_float read_float.

  Definition columns (c : xs) : list (list num) := volume_columns (x_volumes c).
  Definition steps (c : xs) : nat := length (v_z (x_volumes c)).

  Definition volumes_ok (c : xs) : Prop :=
    cell (x_name c) /\ trimmed (x_name c) /\
    Forall (fun col => length col = steps c /\ Forall double col) (columns c).

  Definition cells_at (c : xs) (i : nat) : list num := map (fun col => nth i col NaN) (columns c).
  Definition row_line (c : xs) (i : nat) : text := join (T ",") (x_name c :: map show_float (cells_at c i)).

  Lemma volume_row_line c i : volumes_ok c -> (i < steps c)%nat -> volume_row show_float c i = Ok (ln (row_line c i)).
  Proof.
    intros (_ & _ & F) H. unfold volume_row, row_line, cells_at. fold (columns c).
    assert (E : map_res (fun col => py_index col (Z.of_nat i)) (columns c) = Ok (map (fun col => nth i col NaN) (columns c))).
    { induction F as [|col cols [L _] F IH]; auto. cbn [map_res map].
      rewrite (py_index_nat col i (nth i col NaN)); [|apply nth_error_nth'; lia]. rewrite IH. auto. }
    rewrite E. reflexivity.
  Qed.

  Definition volume_lines (c : xs) : list text := map (row_line c) (seq 0 (steps c)).
  Definition header_text : text := hd [] (file_lines volume_header).
  Lemma header_text_line : volume_header = ln header_text.
  Proof. reflexivity. Qed.

  Lemma volumes_written css : Forall volumes_ok css ->
    run_writes (write_volumes show_float css) = (lns (header_text :: flat_map volume_lines css), None).
  Proof.
    intro F. unfold write_volumes. cbn [run_writes].
    assert (G : run_writes (flat_map (fun c => map (volume_row show_float c) (seq 0 (length (v_z (x_volumes c))))) css) =
      (lns (flat_map volume_lines css), None)).
    { induction F as [|c css Hc F IH]; auto. cbn [flat_map]. rewrite run_writes_app, IH.
      assert (E : map (volume_row show_float c) (seq 0 (length (v_z (x_volumes c)))) = map Ok (map ln (volume_lines c))).
      { unfold volume_lines. rewrite !map_map. apply map_ext_in. intros i I. apply in_seq in I.
        apply volume_row_line; auto. unfold steps in *. lia. }
      rewrite E, run_writes_ok. cbn [fst snd]. rewrite lns_app. auto. }
    rewrite G. cbn [fst snd]. rewrite header_text_line, lns_cons. reflexivity.
  Qed.

  Lemma cells_texts c i : Forall number_text (map show_float (cells_at c i)).
  Proof.
    apply Forall_forall. intros t I. apply in_map_iff in I. destruct I as (x & <- & _). apply (fc_text _ _ _ _ FC).
  Qed.

  Lemma row_cells c i : volumes_ok c -> Forall cell (x_name c :: map show_float (cells_at c i)).
  Proof.
    intros (N & _). constructor; auto. eapply Forall_impl; [|apply cells_texts]. apply number_cell.
  Qed.

  (** A row starts with the name and ends with a number. *)
  Lemma row_trimmed c i : volumes_ok c -> trimmed (row_line c i).
  Proof.
    intros (_ & Tn & _). unfold row_line, cells_at, columns, volume_columns. cbn [map].
    set (f := fun l : list num => show_float (nth i l NaN)).
    assert (E : join (T ",") (x_name c :: map show_float (map (fun col => nth i col NaN) (columns c))) =
      (x_name c ++ "," :: join (T ",") (map show_float (map (fun col => nth i col NaN) (removelast (columns c))))
        ++ T ",") ++ show_float (nth i (v_flow_width (x_volumes c)) NaN)).
    { unfold columns, volume_columns. cbn [map removelast join]. rewrite <- !app_assoc. cbn [app].
      rewrite <- !app_assoc. reflexivity. }
    unfold columns, volume_columns in E. cbn [map] in E. rewrite E.
    destruct (fc_text _ _ _ _ FC (nth i (v_flow_width (x_volumes c)) NaN)) as [Nn Fn].
    split.
    - intros a t' X. destruct (x_name c) as [|b n]; cbn in X.
      + injection X as <- _. reflexivity.
      + injection X as <- _. destruct Tn as [Tn _]. eapply Tn. reflexivity.
    - intros a t' X. destruct (exists_last Nn) as (u & b & Y). rewrite Y in X, Fn. rewrite app_assoc in X.
      apply app_inj_tail in X. destruct X as [_ <-]. apply Forall_app in Fn. destruct Fn as [_ Fn].
      inversion Fn as [|? ? H _]; subst. apply number_char_facts in H. tauto.
  Qed.

  Lemma row_split c i : volumes_ok c ->
    split_on "," (strip (row_line c i)) = x_name c :: map show_float (cells_at c i).
  Proof.
    intro H. rewrite strip_id by (apply row_trimmed; auto). apply split_row; [discriminate|].
    apply row_cells. auto.
  Qed.

  Definition related (E cols : list (list num)) : Prop := Forall2 (Forall2 (fun x v => same v x)) E cols.
  Definition add_cells (E : list (list num)) (cs : list num) : list (list num) := map2 (fun e x => e ++ [x]) E cs.

  Lemma related_add E cols xs vs : related E cols -> Forall2 (fun x v => same v x) xs vs ->
    length E = length xs -> related (add_cells E xs) (map2 (fun col v => col ++ [v]) cols vs).
  Proof.
    intros R. revert xs vs. induction R as [|e col E cols He R IH]; intros xs vs F L.
    - constructor.
    - destruct F as [|x v xs vs Hx F]; [discriminate|]. cbn [add_cells map2]. constructor.
      + apply Forall2_app; auto.
      + apply IH; auto.
  Qed.

  Lemma read_row name c i E cols : volumes_ok c -> (i < steps c)%nat -> length E = 11%nat -> related E cols ->
    exists cols', volume_line read_float name cols (row_line c i) = Ok cols' /\
      related (if teqb (x_name c) name then add_cells E (cells_at c i) else E) cols'.
  Proof.
    intros H Hi L R. unfold volume_line. rewrite row_split by auto. cbv zeta. cbn [hd].
    destruct (teqb (x_name c) name) eqn:Q; [|eauto].
    assert (D : Forall double (cells_at c i)).
    { destruct H as (_ & _ & F). unfold cells_at. apply Forall_forall. intros x I. apply in_map_iff in I.
      destruct I as (col & <- & I). rewrite Forall_forall in F. destruct (F col I) as [Lc Dc].
      rewrite Forall_forall in Dc. apply Dc. apply nth_In. lia. }
    assert (G : forall pre l, Forall double l ->
      exists vs, map_res (fun j => v <- py_index (pre ++ map show_float l) (Z.of_nat (S j)) ;; float_of read_float v)
        (seq (length pre - 1) (length l)) = Ok vs /\ Forall2 (fun x v => same v x) l vs \/ pre = []).
    { intros pre l. revert pre. induction l as [|x l IH]; intros pre Dl.
      - exists []. left. split; constructor.
      - destruct pre as [|p pre]; [exists []; right; auto|]. inversion Dl as [|? ? Dx Dl']; subst.
        destruct (IH ((p :: pre) ++ [show_float x]) Dl') as (vs & [[Ev Fv]|Q0]); [|destruct pre; discriminate].
        destruct (read_show_float FC x Dx) as (v & Ex & Sx).
        exists (v :: vs). left. cbn [map length seq map_res].
        replace (S (length pre) - 1)%nat with (length pre) by lia.
        rewrite (py_index_nat _ (S (length pre)) (show_float x)).
        2: { cbn [app nth_error]. rewrite nth_error_app2, Nat.sub_diag by lia. reflexivity. }
        cbn [bind]. rewrite Ex. rewrite <- app_assoc in Ev. cbn [app] in Ev.
        replace (length (p :: pre ++ [show_float x]) - 1)%nat with (S (length pre)) in Ev
          by (cbn [length]; rewrite app_length; cbn; lia).
        cbn [app]. rewrite Ev. auto. }
    destruct (G [x_name c] (cells_at c i) D) as (vs & [[Ev Fv]|Q0]); [|discriminate].
    cbn [app length] in Ev. replace (1 - 1)%nat with O in Ev by reflexivity.
    replace (length (cells_at c i)) with 11%nat in Ev by reflexivity.
    rewrite Ev. cbn [bind]. eexists. split; [reflexivity|]. apply related_add; auto.
  Qed.

  Definition app_columns (E F : list (list num)) : list (list num) := map2 (fun e f => e ++ f) E F.

  Lemma add_cells_firstn c n E : volumes_ok c -> (n < steps c)%nat ->
    add_cells (app_columns E (map (firstn n) (columns c))) (cells_at c n) = app_columns E (map (firstn (S n)) (columns c)).
  Proof.
    intros (_ & _ & F) H. unfold cells_at, add_cells, app_columns. revert E.
    induction F as [|col cols [L _] F IH]; intros [|e E]; cbn [map map2]; auto. f_equal; [|apply IH].
    rewrite (firstn_snoc n col NaN) by lia. rewrite app_assoc. auto.
  Qed.

  Lemma read_css name c : volumes_ok c -> forall n E cols, (n <= steps c)%nat -> length E = 11%nat -> related E cols ->
    exists cols', fold_res (volume_line read_float name) (map (row_line c) (seq 0 n)) cols = Ok cols' /\
      related (if teqb (x_name c) name then app_columns E (map (firstn n) (columns c)) else E) cols'.
  Proof.
    intros H. induction n as [|n IH]; intros E cols Hn L R.
    - exists cols. split; auto. destruct (teqb (x_name c) name); auto. unfold columns, volume_columns. cbn [map firstn].
      do 12 (destruct E as [|? E]; try discriminate). cbn. rewrite !app_nil_r. auto.
    - destruct (IH E cols) as (cols1 & E1 & R1); auto; [lia|].
      rewrite seq_S. rewrite map_app. cbn [map Nat.add].
      assert (FR : forall l cols cols1, fold_res (volume_line read_float name) l cols = Ok cols1 -> forall m,
        fold_res (volume_line read_float name) (l ++ m) cols = fold_res (volume_line read_float name) m cols1).
      { clear. induction l as [|a l IHl]; cbn; intros cols cols1 E m; [congruence|].
        destruct (volume_line read_float name cols a); [|discriminate]. eauto. }
      rewrite (FR _ _ _ E1). cbn [fold_res].
      destruct (read_row name c n (if teqb (x_name c) name then app_columns E (map (firstn n) (columns c)) else E) cols1)
        as (cols2 & -> & R2); auto.
      { destruct (teqb (x_name c) name); auto. unfold app_columns. rewrite map2_length, map_length, L. reflexivity. }
      exists cols2. split; auto. destruct (teqb (x_name c) name); auto.
      rewrite add_cells_firstn in R2 by (auto; lia). auto.
  Qed.

  (** The columns of all cross-sections with that name, one after the other. *)
  Definition named_columns (name : text) (css : list xs) (E : list (list num)) : list (list num) :=
    fold_left (fun E c => if teqb (x_name c) name then app_columns E (columns c) else E) css E.

  Lemma named_cons name c css E : named_columns name (c :: css) E =
    named_columns name css (if teqb (x_name c) name then app_columns E (columns c) else E).
  Proof. reflexivity. Qed.

  Lemma read_all name css : Forall volumes_ok css -> forall E cols, length E = 11%nat -> related E cols ->
    exists cols', fold_res (volume_line read_float name) (flat_map volume_lines css) cols = Ok cols' /\
      related (named_columns name css E) cols'.
  Proof.
    induction 1 as [|c css Hc F IH]; intros E cols L R; [exists cols; auto|].
    cbn [flat_map]. destruct (read_css name c Hc (steps c) E cols) as (cols1 & E1 & R1); auto.
    assert (FR : forall l cols cols1, fold_res (volume_line read_float name) l cols = Ok cols1 -> forall m,
      fold_res (volume_line read_float name) (l ++ m) cols = fold_res (volume_line read_float name) m cols1).
    { clear. induction l as [|a l IHl]; cbn; intros cols cols1 E m; [congruence|].
      destruct (volume_line read_float name cols a); [|discriminate]. eauto. }
    unfold volume_lines at 1. rewrite (FR _ _ _ E1).
    rewrite named_cons.
    assert (A : map (firstn (steps c)) (columns c) = columns c).
    { destruct Hc as (_ & _ & Fc). rewrite <- (map_id (columns c)) at 2. apply map_ext_in. intros col I.
      rewrite Forall_forall in Fc. destruct (Fc col I) as [Lc _]. rewrite <- Lc. apply firstn_all. }
    rewrite A in R1. apply IH; auto. destruct (teqb (x_name c) name); auto.
    unfold app_columns. rewrite map2_length, L. reflexivity.
  Qed.

  Theorem C42_volume_table_round_trip : forall css name, Forall volumes_ok css -> name <> T "id" ->
    exists content cols, run_writes (write_volumes show_float css) = (content, None) /\
      get_volume_info read_float content name = Ok cols /\
      related (named_columns name css (repeat [] 11)) cols.
  Proof.
    intros css name F N. rewrite volumes_written by auto.
    destruct (read_all name css F (repeat [] 11) (repeat [] 11)) as (cols & E & R); auto.
    { repeat constructor. }
    eexists _, cols. split; [reflexivity|]. split; auto. unfold get_volume_info. rewrite file_lines_lns.
    - cbn [fold_res]. unfold volume_line at 1.
      replace (hd [] (split_on "," (strip header_text))) with (T "id") by reflexivity.
      destruct (teqb_spec (T "id") name) as [X|_]; [congruence|]. exact E.
    - constructor; [apply freeb_free; reflexivity|]. apply Forall_flat_map. eapply Forall_impl; [|exact F].
      intros c Hc. apply Forall_forall. intros l I. apply in_map_iff in I. destruct I as (i & <- & _).
      apply row_free. apply row_cells. auto.
  Qed.

  (** With distinct names these are the columns of that cross-section. *)
  Theorem C42_volumes_of_one : forall css c, Forall volumes_ok css -> NoDup (map x_name css) -> In c css ->
    x_name c <> T "id" ->
    exists content cols, run_writes (write_volumes show_float css) = (content, None) /\
      get_volume_info read_float content (x_name c) = Ok cols /\ related (columns c) cols.
  Proof.
    intros css c F ND I N. destruct (C42_volume_table_round_trip css (x_name c) F N) as (content & cols & W & G & R).
    exists content, cols. split; auto. split; auto.
    replace (columns c) with (named_columns (x_name c) css (repeat [] 11)); auto. clear - ND I.
    assert (Z : forall cs E, ~ In (x_name c) (map x_name cs) -> named_columns (x_name c) cs E = E).
    { induction cs as [|a cs IH]; intros E H; auto. cbn [map In] in H. rewrite named_cons.
      destruct (teqb_spec (x_name a) (x_name c)); [tauto|]. apply IH. tauto. }
    revert ND I. induction css as [|a css IH]; intros ND I; [destruct I|].
    cbn [map] in ND. inversion ND as [|? ? Na ND']; subst. rewrite named_cons. destruct I as [->|I].
    - rewrite teqb_refl. rewrite Z by auto. reflexivity.
    - destruct (teqb_spec (x_name a) (x_name c)) as [X|_]; [destruct Na; rewrite X; apply in_map; auto|].
      apply IH; auto.
  Qed.

  (** A cross-section called id cannot be looked up: the header is taken for
      one of its rows. *)
  Theorem C42_name_id_refuted : forall css, Forall volumes_ok css -> read_float (T "z") = None ->
    exists content, run_writes (write_volumes show_float css) = (content, None) /\
      get_volume_info read_float content (T "id") = Raise ValueError.
  Proof.
    intros css F Rz. rewrite volumes_written by auto. eexists. split; [reflexivity|].
    unfold get_volume_info. rewrite file_lines_lns.
    - cbn [fold_res]. unfold volume_line at 1.
      assert (H : split_on "," (strip header_text) = T "id" :: T "z" :: skipn 2 (split_on "," header_text))
        by (vm_compute; reflexivity).
      rewrite H. clear H. set (r := skipn 2 _). clearbody r. cbv zeta. cbn [hd]. rewrite teqb_refl. cbn [seq map_res]. rewrite py_index_1. cbn [bind].
      unfold float_of at 1. rewrite Rz. reflexivity.
    - constructor; [apply freeb_free; reflexivity|]. apply Forall_flat_map. eapply Forall_impl; [|exact F].
      intros c Hc. apply Forall_forall. intros l I. apply in_map_iff in I. destruct I as (i & <- & _).
      apply row_free. apply row_cells. auto.
  Qed.
End C42.
Print Assumptions C42_volume_table_round_trip.
Print Assumptions C42_volumes_of_one.
Print Assumptions C42_name_id_refuted.

Example C42_example : volumes_ok three_decimals example_xs /\
  get_volume_info read_number (fst (run_writes (write_volumes (show_num 3) [example_xs; example_xs]))) (T "Waal_1000.0")
  = Ok (map (fun col => match col with
                        | [Fin q] => let v := Fin (inject_Z (Qnum q * 1000) / 1000)%Q in [v; v]
                        | _ => [NaN; NaN] end)
            (columns example_xs)).
Proof.
  split; [|vm_compute; reflexivity].
  split; [apply cellb; reflexivity|]. split; [apply trimmedb_trimmed; reflexivity|].
  repeat (constructor; [split; [reflexivity|repeat constructor; vm_compute; reflexivity]|]). constructor.
Qed.
