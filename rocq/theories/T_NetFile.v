(** Theorems for C66 (network definition file), C67 (branch rule file) and C28
    (location file written and read back). *)
From Coq Require Import String List Ascii ZArith QArith Bool Lia Lqa.
From Verif Require Import PyBase Num Spec L_Num L_List Text L_Text Fixed L_Fixed M_Ini L_Ini M_Import T_Import
  M_Friction M_Network L_Network T_Rules.
Import ListNotations.
Local Open Scope char_scope.

(** * C66 *)

Definition line_key (line : text) : text := strip (hd [] (split_on "=" (lower (strip line)))).

Definition kx := T "gridpointx". Definition ky := T "gridpointy".
Definition ki := T "gridpointids". Definition ko := T "gridpointoffsets".

Section C66.
  Variable read_float : text -> option Q.
  Variable search : list Q -> Q -> nat.
  Notation block_line := (block_line read_float).
  Notation read_branch := (read_branch read_float search).
  Notation parse_network := (parse_network read_float search).

  Definition empty_tmp : tmp := mk_tmp None None None None None.

  (** The variables of the keys [ks] have the same values. *)
  Definition agree (ks : list text) (t t' : tmp) : Prop :=
    (In kx ks -> t_x t = t_x t') /\ (In ky ks -> t_y t = t_y t') /\
    (In ki ks -> t_cid t = t_cid t') /\ (In ko ks -> t_coff t = t_coff t' /\ t_cdis t = t_cdis t').

  Lemma keys_differ : kx <> ky /\ kx <> ki /\ kx <> ko /\ ky <> ki /\ ky <> ko /\ ki <> ko.
  Proof. repeat split; discriminate. Qed.

  Lemma block_line_agree ks t t' l : agree ks t t' ->
    (exists u u', block_line t l = Ok u /\ block_line t' l = Ok u' /\ agree (line_key l :: ks) u u') \/
    (exists e, block_line t l = Raise e /\ block_line t' l = Raise e).
  Proof.
    intros (A1 & A2 & A3 & A4). unfold M_Network.block_line. fold (line_key l). cbv zeta.
    fold kx ky ki ko. pose proof keys_differ as (D1 & D2 & D3 & D4 & D5 & D6).
    assert (R : forall T (k : T -> tmp -> tmp) (x : res T) (P : tmp -> tmp -> Prop),
      (forall v, P (k v t) (k v t')) ->
      (exists u u', (v <- x ;; Ok (k v t)) = Ok u /\ (v <- x ;; Ok (k v t')) = Ok u' /\ P u u') \/
      (exists e, (v <- x ;; Ok (k v t)) = Raise e /\ (v <- x ;; Ok (k v t')) = Raise e)).
    { intros T k [v|e] P H; cbn [bind]; [left|right]; eauto. }
    set (p := split_on "=" (lower (strip l))). set (key := line_key l).
    destruct (teqb_spec key kx) as [->|N1].
    { destruct (py_index p 1) as [v|e]; cbn [bind]; [|right; eauto].
      apply (R _ (fun l0 t => mk_tmp (Some l0) (t_y t) (t_cid t) (t_coff t) (t_cdis t))).
      intro u. unfold agree. cbn [t_x t_y t_cid t_coff t_cdis In].
      split; [auto|]. split; [intros [|]; [congruence|auto]|]. split; [intros [|]; [congruence|auto]|].
      intros [|]; [congruence|auto]. }
    destruct (teqb_spec key ky) as [->|N2].
    { destruct (py_index p 1) as [v|e]; cbn [bind]; [|right; eauto].
      apply (R _ (fun l0 t => mk_tmp (t_x t) (Some l0) (t_cid t) (t_coff t) (t_cdis t))).
      intro u. unfold agree. cbn [t_x t_y t_cid t_coff t_cdis In].
      split; [intros [|]; [congruence|auto]|]. split; [auto|]. split; [intros [|]; [congruence|auto]|].
      intros [|]; [congruence|auto]. }
    destruct (teqb_spec key ki) as [->|N3].
    { apply (R _ (fun v t => mk_tmp (t_x t) (t_y t) (Some (split_on ";" v)) (t_coff t) (t_cdis t))).
      intro u. unfold agree. cbn [t_x t_y t_cid t_coff t_cdis In].
      split; [intros [|]; [congruence|auto]|]. split; [intros [|]; [congruence|auto]|]. split; [auto|].
      intros [|]; [congruence|auto]. }
    destruct (teqb_spec key ko) as [->|N4].
    { destruct (py_index p 1) as [v|e]; cbn [bind]; [|right; eauto].
      apply (R _ (fun l0 t => mk_tmp (t_x t) (t_y t) (t_cid t) (Some l0) (Some (half_distances l0)))).
      intro u. unfold agree. cbn [t_x t_y t_cid t_coff t_cdis In].
      split; [intros [|]; [congruence|auto]|]. split; [intros [|]; [congruence|auto]|].
      split; [intros [|]; [congruence|auto]|]. auto. }
    left. exists t, t'. split; auto. split; auto. unfold agree. cbn [In].
    split; [intros [|]; [congruence|auto]|]. split; [intros [|]; [congruence|auto]|].
    split; [intros [|]; [congruence|auto]|]. intros [|]; [congruence|auto].
  Qed.

  Lemma block_agree block : forall ks t t', agree ks t t' ->
    (exists u u', fold_res block_line block t = Ok u /\ fold_res block_line block t' = Ok u' /\
       agree (rev (map line_key block) ++ ks) u u') \/
    (exists e, fold_res block_line block t = Raise e /\ fold_res block_line block t' = Raise e).
  Proof.
    induction block as [|l block IH]; intros ks t t' A; cbn [fold_res map rev].
    - left. eauto.
    - destruct (block_line_agree ks t t' l A) as [(u & u' & -> & -> & A')|(e & -> & ->)]; [|right; eauto].
      rewrite <- app_assoc. apply IH. auto.
  Qed.

  (** A block gives all four lines. *)
  Definition complete (block : list text) : Prop := incl [kx; ky; ki; ko] (map line_key block).

  Lemma block_complete block t t' : complete block ->
    fold_res block_line block t = fold_res block_line block t'.
  Proof.
    intro C. destruct (block_agree block [] t t') as [(u & u' & -> & -> & A)|(e & -> & ->)]; auto.
    { unfold agree. cbn. tauto. }
    f_equal. destruct A as (A1 & A2 & A3 & A4). rewrite app_nil_r in *.
    assert (I : forall k, In k [kx; ky; ki; ko] -> In k (rev (map line_key block))).
    { intros k H. apply in_rev. rewrite rev_involutive. apply C. auto. }
    destruct u, u'. cbn in *. destruct A4 as [-> ->]; [apply I; cbn; auto 10|].
    rewrite A1, A2, A3 by (apply I; cbn; auto 10). auto.
  Qed.

  (** What a block means on its own. *)
  Definition branch_of (br : rules) (idline : text) (block : list text) : res branch :=
    r <- read_branch br idline block empty_tmp ;; Ok (fst r).

  (** A file: branch blocks between other lines. *)
  Inductive item := Other (l : text) | Block (h idline : text) (block : list text).
  Definition item_lines (i : item) : list text :=
    match i with Other l => [l] | Block h idline block => h :: idline :: block end.
  Definition item_ok (i : item) : Prop :=
    match i with
    | Other l => lower (strip l) <> T "[branch]"
    | Block h _ block => lower (strip h) = T "[branch]" /\ length block = 10%nat /\ complete block
    end.
  Definition blocks (items : list item) : list (text * list text) :=
    flat_map (fun i => match i with Other _ => [] | Block _ id b => [(id, b)] end) items.

  Lemma read_branch_alone br idline block t : complete block ->
    read_branch br idline block t = read_branch br idline block empty_tmp.
  Proof.
    intro C. unfold M_Network.read_branch. destruct (py_index (split_on "=" idline) 1); cbn [bind]; auto.
    rewrite (block_complete block t empty_tmp C). auto.
  Qed.

  Lemma parse_network_items items : forall fuel br t acc,
    Forall item_ok items -> (length (flat_map item_lines items) <= fuel)%nat ->
    parse_network fuel br (flat_map item_lines items) t acc =
    (bs <- map_res (fun ib => branch_of br (fst ib) (snd ib)) (blocks items) ;;
     Ok (fold_left app_branch bs acc)).
  Proof.
    induction items as [|i items IH]; intros fuel br t acc F L.
    - destruct fuel; reflexivity.
    - inversion F as [|? ? Hi Hr]; subst. destruct i as [l|h idline block].
      + cbn [flat_map item_lines app blocks] in *. cbn [length] in L.
        destruct fuel; [lia|]. cbn [M_Network.parse_network].
        destruct (teqb_spec (lower (strip l)) (T "[branch]")) as [E|_]; [destruct Hi; auto|].
        apply IH; auto. lia.
      + destruct Hi as (E & Lb & C). cbn [flat_map item_lines app blocks] in *. cbn [length] in L.
        destruct fuel; [lia|]. cbn [M_Network.parse_network]. rewrite E, teqb_refl. cbn [hd tl].
        rewrite firstn_app, firstn_all2 by lia. rewrite Lb, Nat.sub_diag. cbn [firstn]. rewrite app_nil_r.
        rewrite skipn_app, skipn_all2 by lia. rewrite Lb, Nat.sub_diag. cbn [skipn app].
        rewrite read_branch_alone by auto. cbn [map_res fst snd]. unfold branch_of at 1.
        destruct (read_branch br idline block empty_tmp) as [r|e]; cbn [bind]; auto.
        rewrite IH; auto; [|rewrite app_length in L; lia].
        fold (blocks items). destruct (map_res _ (blocks items)); cbn [bind]; auto.
  Qed.

  (** Every block is read on its own and in file order. *)
  Theorem C66_branches_are_read_independently : forall br items,
    Forall item_ok items -> Forall (free newline) (flat_map item_lines items) ->
    parse_network_file read_float search br
      (concat (map (fun l => l ++ [newline]) (flat_map item_lines items))) =
    (bs <- map_res (fun ib => branch_of br (fst ib) (snd ib)) (blocks items) ;;
     Ok (fold_left app_branch bs no_branch)).
  Proof.
    intros br items F N. unfold parse_network_file. rewrite file_lines_concat by auto.
    apply parse_network_items; auto.
  Qed.

  (** ** One block *)

  Definition no_space (w : text) : Prop := w <> [] /\ Forall (fun c => is_space c = false) w.

  Lemma words_from_word w : forall cur t, Forall (fun c => is_space c = false) w ->
    words_from cur (w ++ t) = words_from (rev w ++ cur) t.
  Proof.
    induction w as [|c w IH]; intros cur t F; auto. inversion F; subst.
    cbn [app words_from]. rewrite H1, IH by auto. cbn [rev]. rewrite <- app_assoc. auto.
  Qed.

  Lemma words_join ws : Forall no_space ws -> forall cur, (ws <> [] \/ cur = []) ->
    words_from cur (join (T " ") ws) =
    match ws with [] => [] | w :: ws' => (rev cur ++ w) :: ws' end.
  Proof.
    induction 1 as [|w ws [Hn Hw] F IH]; intros cur Hc.
    - destruct Hc as [X| ->]; [congruence|reflexivity].
    - destruct ws as [|v ws].
      + cbn [join]. rewrite <- (app_nil_r w) at 1. rewrite words_from_word by auto. cbn [words_from].
        destruct (rev w ++ cur) eqn:E.
        * apply app_eq_nil in E. destruct E as [E _]. destruct w; [congruence|].
          cbn in E. destruct (rev w); discriminate.
        * rewrite <- E, rev_app_distr, rev_involutive. auto.
      + change (join (T " ") (w :: v :: ws)) with (w ++ T " " ++ join (T " ") (v :: ws)).
        rewrite words_from_word by auto.
        change (T " " ++ join (T " ") (v :: ws)) with (" " :: join (T " ") (v :: ws)). cbn [words_from].
        replace (is_space " ") with true by reflexivity. cbv iota.
        destruct (rev w ++ cur) eqn:E.
        { apply app_eq_nil in E. destruct E as [E _]. destruct w; [congruence|].
          cbn in E. destruct (rev w); discriminate. }
        rewrite <- E, rev_app_distr, rev_involutive. f_equal. rewrite IH by (left; discriminate).
        reflexivity.
  Qed.

  Lemma words_spaced ws : Forall no_space ws -> words (T " " ++ join (T " ") ws) = ws.
  Proof.
    intro F. unfold words. change (T " " ++ join (T " ") ws) with (" " :: join (T " ") ws). cbn [words_from].
    replace (is_space " ") with true by reflexivity. cbv iota. rewrite words_join by auto. destruct ws; reflexivity.
  Qed.

  (** A line [key = value]; the value is taken in lower case. *)
  Definition value_line (key value line : text) : Prop :=
    lower (strip line) = key ++ T " = " ++ value /\ free "=" value.

  Lemma value_line_parts key value line : free "=" key -> trimmed key -> value_line key value line ->
    split_on "=" (lower (strip line)) = [key ++ T " "; T " " ++ value] /\ line_key line = key.
  Proof.
    intros Fk Tk [E Fv].
    assert (P : split_on "=" (lower (strip line)) = [key ++ T " "; T " " ++ value]).
    { rewrite E. replace (key ++ T " = " ++ value) with ((key ++ T " ") ++ "=" :: (T " " ++ value))
        by (rewrite <- app_assoc; reflexivity).
      rewrite split_on_app by (apply free_app; [auto|intros [|[]]; discriminate]). f_equal.
      apply split_on_free. apply free_app; [intros [|[]]; discriminate|auto]. }
    split; auto. unfold line_key. rewrite P. cbn [hd]. apply strip_rpad; auto. repeat constructor.
  Qed.

  Lemma py_index_1 {A} (a b : A) l : py_index (a :: b :: l) 1 = Ok b.
  Proof. reflexivity. Qed.

  Lemma read_floats_ok ws qs : Forall no_space ws -> map read_float ws = map Some qs ->
    read_floats read_float (T " " ++ join (T " ") ws) = Ok qs.
  Proof.
    intros F E. unfold read_floats. rewrite words_spaced by auto. clear F. revert qs E.
    induction ws as [|w ws IH]; intros [|q qs] E; try discriminate; auto. cbn [map] in E.
    injection E as E1 E2. cbn [map_res]. rewrite E1. cbn [of_option bind]. rewrite (IH qs E2). auto.
  Qed.

  Definition other_line (l : text) : Prop :=
    line_key l <> kx /\ line_key l <> ky /\ line_key l <> ki /\ line_key l <> ko.

  Lemma block_other l t : other_line l -> block_line t l = Ok t.
  Proof.
    intros (N1 & N2 & N3 & N4). unfold M_Network.block_line. fold (line_key l). cbv zeta. fold kx ky ki ko.
    destruct (teqb_spec (line_key l) kx); [congruence|]. destruct (teqb_spec (line_key l) ky); [congruence|].
    destruct (teqb_spec (line_key l) ki); [congruence|]. destruct (teqb_spec (line_key l) ko); [congruence|]. auto.
  Qed.
  Lemma block_others ls t r : Forall other_line ls ->
    fold_res block_line (ls ++ r) t = fold_res block_line r t.
  Proof. induction 1; cbn [app fold_res]; auto. rewrite block_other; auto. Qed.

  Ltac key_line H :=
    let P := fresh in let K := fresh in
    apply value_line_parts in H; [|apply freeb_free; reflexivity|apply trimmedb_trimmed; reflexivity];
    destruct H as [P K]; unfold M_Network.block_line; rewrite P; cbn [hd]; unfold line_key in K; rewrite P in K;
    cbn [hd] in K; rewrite K; cbv zeta.

  (** A block with one line per key: the branch that it stands for. *)
  Theorem C66_branch_block : forall br idline idkey id o1 o2 o3 o4 o5 lx ly li lo wx wy wo x y ids off t,
    free "=" idkey -> free "=" id -> idline = idkey ++ "=" :: id ->
    value_line kx (join (T " ") wx) lx -> value_line ky (join (T " ") wy) ly ->
    value_line ki (join (T ";") ids) li -> value_line ko (join (T " ") wo) lo ->
    Forall no_space wx -> Forall no_space wy -> Forall no_space wo ->
    map read_float wx = map Some x -> map read_float wy = map Some y -> map read_float wo = map Some off ->
    ids <> [] -> Forall (free ";") ids -> Forall trimmed ids ->
    Forall (Forall other_line) [o1; o2; o3; o4; o5] ->
    read_branch br idline (o1 ++ lx :: o2 ++ ly :: o3 ++ li :: o4 ++ lo :: o5) t =
    (xy <- move_ends search off x y ;;
     b <- apply_rules br (strip id)
            (mk_branch (fst xy) (snd xy) ids (half_distances off) (repeat (strip id) (length x)) off) ;;
     Ok (b, mk_tmp (Some (b_x b)) (Some (b_y b)) (Some (b_cid b)) (Some (b_coff b)) (Some (b_cdis b)))).
  Proof.
    intros br idline idkey id o1 o2 o3 o4 o5 lx ly li lo wx wy wo x y ids off t
      Fk Fi -> Hx Hy Hi Ho Nx Ny No Ex Ey Eo Ni Fs Ts FO.
    inversion FO as [|? ? O1 FO2]; inversion FO2 as [|? ? O2 FO3]; inversion FO3 as [|? ? O3 FO4];
      inversion FO4 as [|? ? O4 FO5]; inversion FO5 as [|? ? O5 _]; subst.
    unfold M_Network.read_branch. rewrite split_on_app, (split_on_free "=" id) by auto.
    rewrite py_index_1. cbn [bind].
    assert (Bx : forall t, block_line t lx = Ok (mk_tmp (Some x) (t_y t) (t_cid t) (t_coff t) (t_cdis t))).
    { intro u. key_line Hx. replace (teqb kx (T "gridpointx")) with true by reflexivity.
      rewrite py_index_1. cbn [bind]. rewrite (read_floats_ok wx x Nx Ex). auto. }
    assert (By : forall t, block_line t ly = Ok (mk_tmp (t_x t) (Some y) (t_cid t) (t_coff t) (t_cdis t))).
    { intro u. key_line Hy. replace (teqb ky (T "gridpointx")) with false by reflexivity.
      replace (teqb ky (T "gridpointy")) with true by reflexivity.
      rewrite py_index_1. cbn [bind]. rewrite (read_floats_ok wy y Ny Ey). auto. }
    assert (Bi : forall t, exists c, map strip c = ids /\
      block_line t li = Ok (mk_tmp (t_x t) (t_y t) (Some c) (t_coff t) (t_cdis t))).
    { intro u. key_line Hi. replace (teqb ki (T "gridpointx")) with false by reflexivity.
      replace (teqb ki (T "gridpointy")) with false by reflexivity.
      replace (teqb ki (T "gridpointids")) with true by reflexivity.
      rewrite py_index_1. cbn [bind]. eexists. split; [|reflexivity].
      destruct ids as [|i ids]; [congruence|].
      replace (T " " ++ join (T ";") (i :: ids)) with (join [";"] ((" " :: i) :: ids))
        by (destruct ids; reflexivity).
      inversion Fs as [|? ? Fi1 Fi2]; subst. inversion Ts as [|? ? Ti1 Ti2]; subst.
      rewrite split_join; [|discriminate|constructor; auto; apply free_cons; auto; discriminate].
      cbn [map]. f_equal.
      - change (" " :: i) with ([" "] ++ i). apply strip_lpad; auto.
      - rewrite <- (map_id ids) at 2. apply map_ext_in. intros a Ha. apply strip_id.
        rewrite Forall_forall in Ti2. auto. }
    assert (Bo : forall t, block_line t lo = Ok (mk_tmp (t_x t) (t_y t) (t_cid t) (Some off) (Some (half_distances off)))).
    { intro u. key_line Ho. replace (teqb ko (T "gridpointx")) with false by reflexivity.
      replace (teqb ko (T "gridpointy")) with false by reflexivity.
      replace (teqb ko (T "gridpointids")) with false by reflexivity.
      replace (teqb ko (T "gridpointoffsets")) with true by reflexivity.
      rewrite py_index_1. cbn [bind]. rewrite (read_floats_ok wo off No Eo). auto. }
    rewrite block_others by auto. cbn [fold_res]. rewrite Bx.
    rewrite block_others by auto. cbn [fold_res]. rewrite By.
    rewrite block_others by auto. cbn [fold_res]. destruct (Bi (mk_tmp (t_x (mk_tmp (Some x) (t_y t) (t_cid t) (t_coff t) (t_cdis t)))
      (Some y) (t_cid (mk_tmp (Some x) (t_y t) (t_cid t) (t_coff t) (t_cdis t)))
      (t_coff (mk_tmp (Some x) (t_y t) (t_cid t) (t_coff t) (t_cdis t)))
      (t_cdis (mk_tmp (Some x) (t_y t) (t_cid t) (t_coff t) (t_cdis t))))) as (c & Ec & ->).
    rewrite block_others by auto. cbn [fold_res]. rewrite Bo.
    rewrite <- (app_nil_r o5), block_others by auto. cbn [fold_res bind].
    cbn [t_x t_y t_cid t_coff t_cdis of_option bind]. rewrite Ec. reflexivity.
  Qed.
End C66.
Print Assumptions C66_branches_are_read_independently.
Print Assumptions C66_branch_block.

(** A block without coordinates reuses those of the block before it, without a
    message. *)
Fixpoint scan (xp : list Q) (x : Q) : nat :=
  match xp with
  | _ :: ((b :: _) as xp') => if Qltb x b then 0%nat else S (scan xp' x)
  | _ => 0%nat
  end.
Definition file_of (ls : list string) : text := concat (map (fun l => T l ++ [newline]) ls).

Theorem C66_incomplete_block_refuted : exists b,
  parse_network_file read_decimal scan []
    (file_of ["[Branch]"; "id = A"; "gridPointX = 0.0 10.0 20.0"; "gridPointY = 0.0 0.0 0.0";
              "gridPointIds = a1;a2;a3"; "gridPointOffsets = 0.0 10.0 20.0"; ""; ""; ""; ""; ""; "";
              "[Branch]"; "id = B"; "gridPointIds = b1;b2;b3"; "gridPointOffsets = 0.0 10.0 20.0";
              ""; ""; ""; ""; ""; ""; ""; ""]%string) = Ok b /\
  b_bid b = [T "A"; T "A"; T "A"; T "B"; T "B"; T "B"] /\
  Forall2 Qeq (firstn 3 (b_y b)) (skipn 3 (b_y b)) /\
  map Qred (b_x b) = [1; 10; 19; 19 # 10; 10; 181 # 10]%Q.
Proof. eexists. split; [vm_compute; reflexivity|]. split; [reflexivity|]. split; vm_compute; [repeat constructor|reflexivity]. Qed.
Print Assumptions C66_incomplete_block_refuted.

(** * C67 *)

(** A line of a branch rule file. *)
Definition show_rule (e : text * (text * list text)) : text :=
  join (T ",") (fst e :: fst (snd e) :: snd (snd e)).

Definition plain (t : text) : Prop := trimmed t /\ free "," t /\ free newline t.
Definition plain_rule (e : text * (text * list text)) : Prop :=
  plain (fst e) /\ plain (fst (snd e)) /\ Forall plain (snd (snd e)) /\
  fst e <> [] /\ last (fst (snd e) :: snd (snd e)) [] <> [].

Lemma free_join c sep ts : free c sep -> Forall (free c) ts -> free c (join sep ts).
Proof.
  intros Hs F. induction F as [|t ts H F IH]; [intros []|]. destruct ts; auto.
  change (join sep (t :: t0 :: ts)) with (t ++ sep ++ join sep (t0 :: ts)).
  apply free_app; auto. apply free_app; auto.
Qed.

Lemma join_last sep ts t : ts <> [] -> exists p, join sep (ts ++ [t]) = p ++ sep ++ t.
Proof.
  induction ts as [|a ts IH]; intro N; [congruence|]. destruct ts as [|b ts].
  - exists a. reflexivity.
  - destruct IH as (p & E); [discriminate|]. exists (a ++ sep ++ p).
    change (join sep ((a :: b :: ts) ++ [t])) with (a ++ sep ++ join sep ((b :: ts) ++ [t])). rewrite E, <- !app_assoc. auto.
Qed.

Lemma rule_line_ok d e : plain_rule e -> rule_line d (show_rule e ++ [newline]) =
  Ok (tassoc_set d (fst e) (snd e)).
Proof.
  destruct e as (b & r & ex). intros (Pb & Pr & Pe & Nb & Nl). cbn [fst snd] in *. unfold rule_line, show_rule.
  cbn [fst snd].
  assert (TR : trimmed (join (T ",") (b :: r :: ex))).
  { split.
    - intros c tl Hc. destruct b as [|c' b]; [congruence|].
      change (join (T ",") ((c' :: b) :: r :: ex)) with (c' :: (b ++ T "," ++ join (T ",") (r :: ex))) in Hc.
      injection Hc as -> _. destruct Pb as [[Tb _] _]. eapply Tb. reflexivity.
    - intros c t' E. destruct (exists_last (l := r :: ex)) as (ts & t & El); [discriminate|].
      rewrite El in *. rewrite last_last in Nl.
      assert (Pt : plain t).
      { assert (F : Forall plain (ts ++ [t])) by (rewrite <- El; constructor; auto).
        apply Forall_app in F. destruct F as [_ F]. inversion F; auto. }
      destruct (join_last (T ",") (b :: ts) t) as (p & Ej); [discriminate|].
      change (b :: ts ++ [t]) with ((b :: ts) ++ [t]) in E. rewrite Ej in E.
      destruct (exists_last Nl) as (u & z & ->).
      rewrite !app_assoc in E. apply app_inj_tail in E. destruct E as [_ <-].
      destruct Pt as [[_ Tt] _]. eapply Tt. reflexivity. }
  rewrite strip_rpad; [|repeat constructor|auto].
  change (T ",") with [","]. rewrite split_join.
  - replace (py_index (b :: r :: ex) 0) with (Ok b) by reflexivity. cbn [bind].
    rewrite py_index_1. cbn [bind skipn].
    rewrite (strip_id b), (strip_id r) by (apply Pb || apply Pr).
    replace (map strip ex) with ex; auto. rewrite <- (map_id ex) at 1. apply map_ext_in.
    intros a Ha. symmetry. apply strip_id. rewrite Forall_forall in Pe. apply Pe. auto.
  - discriminate.
  - constructor; [apply Pb|]. constructor; [apply Pr|]. eapply Forall_impl; [|exact Pe]. intros a H. apply H.
Qed.

(** The rule file gives every branch its rule and exceptions; empty lines are
    passed over. *)
Theorem C67_rule_file_is_read_completely : forall es,
  Forall plain_rule es -> NoDup (map fst es) ->
  parse_rule_file (concat (map (fun l => l ++ [newline]) (flat_map (fun e => [show_rule e; []]) es))) = Ok es.
Proof.
  intros es F ND. unfold parse_rule_file.
  rewrite <- (app_nil_r (concat _)), raw_lines_cat.
  2: { apply Forall_flat_map. eapply Forall_impl; [|exact F]. intros (b & r & ex) (Pb & Pr & Pe & _).
       constructor; [|constructor; [intros []|constructor]]. unfold show_rule. cbn [fst snd] in *.
       apply free_join; [intros [|[]]; discriminate|].
       constructor; [apply Pb|]. constructor; [apply Pr|]. eapply Forall_impl; [|exact Pe]. intros a H. apply H. }
  cbn [raw_lines]. rewrite app_nil_r.
  assert (G : forall es d, Forall plain_rule es -> NoDup (map fst d ++ map fst es) ->
    fold_res rule_line (filter (fun l => Nat.ltb 1 (length l))
       (map (fun l => l ++ [newline]) (flat_map (fun e => [show_rule e; []]) es))) d = Ok (d ++ es)).
  { clear. induction es as [|e es IH]; intros d F ND; [rewrite app_nil_r; auto|].
    inversion F; subst. cbn [flat_map app map filter].
    destruct (Nat.ltb_spec 1 (length (show_rule e ++ [newline]))) as [_|B].
    2: { exfalso. destruct e as (b & r & ex). unfold show_rule in B. cbn [fst snd] in B.
         rewrite app_length in B. destruct ex; cbn [join length T list_ascii_of_string] in B; rewrite ?app_length in B; cbn [length] in B;
         destruct b; cbn [length] in B; try lia; destruct H1 as (_ & _ & _ & X & _); cbn in X; congruence. }
    cbn [length app Nat.ltb Nat.leb]. cbn [fold_res]. rewrite rule_line_ok by auto.
    assert (FR : tassoc d (fst e) = None).
    { destruct (tassoc d (fst e)) eqn:E; auto. exfalso.
      assert (I : In (fst e) (map fst d)).
      { clear - E. induction d as [|[k v] d IH]; cbn in *; [discriminate|].
        destruct (teqb_spec k (fst e)); auto. }
      cbn [map] in ND. apply NoDup_remove in ND. destruct ND as [_ N]. apply N. apply in_or_app. auto. }
    rewrite tassoc_set_fresh by auto. rewrite IH; auto.
    - rewrite <- app_assoc. cbn [app]. destruct e. auto.
    - rewrite map_app. cbn [map fst] in *. rewrite <- app_assoc. auto. }
  rewrite G; auto.
Qed.
Print Assumptions C67_rule_file_is_read_completely.

Example C67_example :
  parse_rule_file (file_of ["main, ignoreedges"; ""; "side,norule, p1 , p2"]%string)
  = Ok [(T "main", (T "ignoreedges", [])); (T "side", (T "norule", [T "p1"; T "p2"]))].
Proof. vm_compute. reflexivity. Qed.

(** What a line says: the fields without the blanks around them. *)
Definition rule_of (line : text) : option (text * (text * list text)) :=
  match map strip (split_on "," line) with
  | b :: r :: ex => Some (b, (r, ex))
  | _ => None
  end.
(** The lines that count: those with a character besides the line end. *)
Definition rule_lines (content : text) : list text := filter (fun l => Nat.ltb 1 (length l)) (raw_lines content).

Lemma strip_space_l c t : is_space c = true -> strip (c :: t) = strip t.
Proof. intro H. unfold strip, strip_by. cbn [dropwhile]. rewrite H. reflexivity. Qed.
Lemma strip_space_r t c : is_space c = true -> strip (t ++ [c]) = strip t.
Proof.
  intro H. unfold strip, strip_by. induction t as [|a t IH]; cbn [app dropwhile].
  - rewrite H. reflexivity.
  - destruct (is_space a); [exact IH|]. unfold rstrip_by. cbn [rev]. rewrite rev_app_distr. cbn [rev app dropwhile]. rewrite H. reflexivity.
Qed.
Lemma fields_space_l c t : is_space c = true -> map strip (split_on "," (c :: t)) = map strip (split_on "," t).
Proof.
  intro H. cbn [split_on]. destruct (Ascii.eqb_spec c ","); [subst c; discriminate|].
  pose proof (split_on_nonempty "," t). destruct (split_on "," t) as [|a l]; [congruence|]. cbn [map]. rewrite strip_space_l; auto.
Qed.
Lemma fields_space_r t c : is_space c = true -> map strip (split_on "," (t ++ [c])) = map strip (split_on "," t).
Proof.
  intro H. induction t as [|a t IH]; cbn [app].
  - rewrite fields_space_l by exact H. reflexivity.
  - cbn [split_on]. destruct (Ascii.eqb a ","); [cbn [map]; rewrite IH; reflexivity|].
    pose proof (split_on_nonempty "," t). pose proof (split_on_nonempty "," (t ++ [c])).
    destruct t as [|b t].
    + cbn [app split_on]. destruct (Ascii.eqb_spec c ","); [subst c; discriminate|]. cbn [map].
      change (a :: [c]) with ([a] ++ [c]). rewrite strip_space_r by exact H. reflexivity.
    + clear IH. cbn [app] in *.
      assert (G : forall t, exists x y l, split_on "," t = x :: l /\ split_on "," (t ++ [c]) = y :: map (fun f => f) (tl (split_on "," (t ++ [c]))) /\
        (l = [] -> y = x ++ [c] /\ tl (split_on "," (t ++ [c])) = []) /\
        (l <> [] -> y = x /\ map strip (tl (split_on "," (t ++ [c]))) = map strip l)).
      { clear -H. induction t as [|a t IH]; cbn [app split_on].
        - destruct (Ascii.eqb_spec c ","); [subst c; discriminate|]. exists [], [c], []. cbn. repeat split; congruence.
        - destruct IH as (x & y & l & E & E' & P & Q). rewrite map_id in E'.
          destruct (Ascii.eqb a ",").
          + exists [], [], (x :: l). cbn [tl]. rewrite map_id, E, E'. repeat split; try congruence.
            destruct l as [|l0 l].
            * destruct (P eq_refl) as [-> ->]. cbn [map]. rewrite strip_space_r by exact H. reflexivity.
            * destruct Q as [-> Q]; [discriminate|]. cbn [map]. rewrite Q. reflexivity.
          + rewrite E, E'. exists (a :: x), (a :: y), l. cbn [tl]. rewrite map_id. repeat split.
            * destruct (P ltac:(assumption)) as [-> _]. reflexivity.
            * apply P. assumption.
            * destruct (Q ltac:(assumption)) as [-> _]. reflexivity.
            * apply Q. assumption. }
      destruct (G (b :: t)) as (x & y & l & E & E' & P & Q). cbn [app] in *. rewrite map_id in E'. rewrite E, E'. cbn [map].
      destruct l as [|l0 l].
      * destruct (P eq_refl) as [-> ->]. change (a :: x ++ [c]) with ((a :: x) ++ [c]). rewrite strip_space_r by exact H. reflexivity.
      * destruct Q as [-> Q]; [discriminate|]. rewrite Q. reflexivity.
Qed.
Lemma fields_strip t : map strip (split_on "," (strip t)) = map strip (split_on "," t).
Proof.
  unfold strip at 2. unfold strip_by.
  assert (L : forall t, map strip (split_on "," (dropwhile is_space t)) = map strip (split_on "," t)).
  { clear. induction t as [|c t IH]; [reflexivity|]. cbn [dropwhile]. destruct (is_space c) eqn:E; [|reflexivity].
    rewrite fields_space_l; auto. }
  assert (R : forall t, map strip (split_on "," (rstrip_by is_space t)) = map strip (split_on "," t)).
  { clear. intro t. unfold rstrip_by. rewrite <- (rev_involutive t) at 2. induction (rev t) as [|c r IH]; [reflexivity|].
    cbn [dropwhile]. destruct (is_space c) eqn:E; [|reflexivity]. cbn [rev]. rewrite fields_space_r; auto. }
  rewrite R, L. reflexivity.
Qed.
Lemma rule_line_general d line : rule_line d line =
  match rule_of line with Some e => Ok (tassoc_set d (fst e) (snd e)) | None => Raise IndexError end.
Proof.
  unfold rule_line, rule_of. rewrite <- (fields_strip line). destruct (split_on "," (strip line)) as [|b [|r ex]] eqn:E.
  - destruct (split_on_nonempty "," (strip line) E).
  - reflexivity.
  - replace (py_index (b :: r :: ex) 0) with (Ok b) by reflexivity. cbn [bind]. rewrite py_index_1. reflexivity.
Qed.

(** C67, every file: it is refused just when a line has no comma, and else a
    branch has the rule and the exceptions of the last line that names it; other
    branches have none. *)
Theorem C67_every_rule_file : forall content,
  match parse_rule_file content with
  | Ok d => Forall (fun l => rule_of l <> None) (rule_lines content) /\
      forall b, tassoc d b = fold_left (fun o l => match rule_of l with
        | Some e => if teqb (fst e) b then Some (snd e) else o | None => o end) (rule_lines content) None
  | Raise e => e = IndexError /\ Exists (fun l => rule_of l = None) (rule_lines content)
  end.
Proof.
  intro content. unfold parse_rule_file. fold (rule_lines content).
  assert (G : forall ls d, match fold_res rule_line ls d with
    | Ok d' => Forall (fun l => rule_of l <> None) ls /\
        forall b, tassoc d' b = fold_left (fun o l => match rule_of l with
          | Some e => if teqb (fst e) b then Some (snd e) else o | None => o end) ls (tassoc d b)
    | Raise e => e = IndexError /\ Exists (fun l => rule_of l = None) ls
    end).
  { induction ls as [|l ls IH]; intro d; [split; [constructor|reflexivity]|]. cbn [fold_res fold_left]. rewrite rule_line_general.
    destruct (rule_of l) as [[b0 v]|] eqn:E; [|split; [reflexivity|constructor; exact E]]. cbn [fst snd].
    specialize (IH (tassoc_set d b0 v)). destruct (fold_res rule_line ls (tassoc_set d b0 v)) as [d'|e].
    - destruct IH as [F T0]. split; [constructor; [congruence|exact F]|]. intro b. rewrite T0. f_equal.
      destruct (teqb_spec b0 b) as [->|N]; [apply tassoc_set_same|apply tassoc_set_other; exact N].
    - destruct IH as [-> X]. split; [reflexivity|right; exact X]. }
  apply (G (rule_lines content) []).
Qed.
Print Assumptions C67_every_rule_file.

(** C67 refuted for a file that names a branch twice: the first line is lost
    without a message.  A line with blanks only is no empty line. *)
Theorem C67_branch_named_twice_refuted :
  parse_rule_file (file_of ["main, norule, p1"; "main, norule, p2"]%string) = Ok [(T "main", (T "norule", [T "p2"]))].
Proof. vm_compute. reflexivity. Qed.
Print Assumptions C67_branch_named_twice_refuted.
Theorem C67_blank_line_refuted :
  parse_rule_file (file_of ["main, norule, p1"; " "]%string) = Raise IndexError.
Proof. vm_compute. reflexivity. Qed.
Print Assumptions C67_blank_line_refuted.

(** * C28 *)

Section C28.
  (** [float] on a plain decimal text: correct rounding [rnd] of its value. *)
  Variable rnd : Q -> Q.
  Variable read_float : text -> option Q.
  Variable round_float : Q -> option Z.
  Hypothesis rnd_proper : forall a b, (a == b)%Q -> (rnd a == rnd b)%Q.
  Hypothesis float_decimal : forall t q, read_decimal t = Some q -> read_float t = Some (rnd q).
  Hypothesis float_line_end : forall t, read_float (t ++ [newline]) = read_float t.
  Hypothesis float_x : read_float (T "x") = None.

  (** A column as it is read back with [d] decimals. *)
  Definition read_back (d : nat) (col : list Q) (col' : list Q) : Prop :=
    Forall2 (fun q v => (v == rnd (rounded d q))%Q) col col'.

  Lemma float_fixed d q pad : d <> O -> Forall (fun c => is_space c = true) pad ->
    exists v, read_float (pad ++ show_fixed d q) = Some v /\ (v == rnd (rounded d q))%Q.
  Proof.
    intros Hd Hp. destruct (read_show_fixed_pad pad [] d q Hd Hp (Forall_nil _)) as (v & E & Hv).
    rewrite app_nil_r in E. exists (rnd v). split; [apply float_decimal; auto|apply rnd_proper; auto].
  Qed.

  (** A line that the generator writes for the row. *)
  Definition row_line (cid : text) (x y d : Q) (bid : text) (o : Q) : text :=
    cid ++ T ", " ++ show_fixed 4 x ++ T ", " ++ show_fixed 4 y ++ T ", " ++ show_fixed 2 d
        ++ T ", " ++ bid ++ T ", " ++ show_fixed 2 o.

  Lemma row_fields cid x y d bid o :
    row_line cid x y d bid o =
    join (T ",") [cid; " " :: show_fixed 4 x; " " :: show_fixed 4 y; " " :: show_fixed 2 d; " " :: bid;
                  " " :: show_fixed 2 o].
  Proof. reflexivity. Qed.

  Lemma not_fixed_comma : ~ fixed_char ",".
  Proof. intros [H|[H|H]]; [revert H; vm_compute; discriminate|discriminate|discriminate]. Qed.
  Lemma not_fixed_newline : ~ fixed_char newline.
  Proof. intros [H|[H|H]]; [revert H; vm_compute; discriminate|discriminate|discriminate]. Qed.

  Lemma row_means cid x y d bid o : free "," cid -> free "," bid -> trimmed bid ->
    exists l, means read_float round_float (row_line cid x y d bid o) l /\
      l_id l = cid /\ l_branch l = bid /\
      (l_x l == rnd (rounded 4 x))%Q /\ (l_y l == rnd (rounded 4 y))%Q /\
      (l_length l == rnd (rounded 2 d))%Q /\ (l_chainage l == rnd (rounded 2 o))%Q.
  Proof.
    intros Fc Fb Tb. rewrite row_fields.
    assert (SP : Forall (fun c => is_space c = true) [" "]) by (repeat constructor).
    destruct (float_fixed 4 x [" "]) as (vx & Ex & Hx); [lia|auto|].
    destruct (float_fixed 4 y [" "]) as (vy & Ey & Hy); [lia|auto|].
    destruct (float_fixed 2 d [" "]) as (vd & Ed & Hd); [lia|auto|].
    destruct (float_fixed 2 o [" "]) as (vo & Eo & Ho); [lia|auto|].
    exists (mk_location vx vy cid (strip (" " :: bid)) vd vo). split.
    - apply six; auto. pose proof not_fixed_comma. repeat constructor; auto;
        apply free_cons; try discriminate; auto; apply show_fixed_free; auto.
    - cbn [l_id l_branch l_x l_y l_length l_chainage]. split; auto. split; auto.
      change (" " :: bid) with ([" "] ++ bid). apply strip_lpad; auto.
  Qed.

  Fixpoint rows (b_cid' : list text) (b_x' b_y' b_cdis' : list Q) (b_bid' : list text) (b_coff' : list Q) : list text :=
    match b_cid', b_x', b_y', b_cdis', b_bid', b_coff' with
    | c :: cs, x :: xs, y :: ys, d :: ds, b :: bs, o :: os => row_line c x y d b o :: rows cs xs ys ds bs os
    | _, _, _, _, _, _ => []
    end.

  Lemma write_rows b n : aligned b n ->
    map_res (location_line b) (seq 0 n) =
    Ok (rows (b_cid b) (b_x b) (b_y b) (b_cdis b) (b_bid b) (b_coff b)).
  Proof.
    destruct b as [x y c d bi o]. intros (A1 & A2 & A3 & A4 & A5 & A6). cbn [b_x b_y b_cid b_cdis b_bid b_coff] in *.
    enough (G : forall n k px py pc pd pb po x y c d bi o,
      length px = k -> length py = k -> length pc = k -> length pd = k -> length pb = k -> length po = k ->
      length x = n -> length y = n -> length c = n -> length d = n -> length bi = n -> length o = n ->
      map_res (location_line (mk_branch (px ++ x) (py ++ y) (pc ++ c) (pd ++ d) (pb ++ bi) (po ++ o))) (seq k n)
      = Ok (rows c x y d bi o)) by (apply (G n O [] [] [] [] [] []); auto).
    clear. induction n as [|n IH]; intros k px py pc pd pb po x y c d bi o Kx Ky Kc Kd Kb Ko A1 A2 A3 A4 A5 A6.
    - destruct x, y, c, d, bi, o; try discriminate; reflexivity.
    - destruct x as [|x xs], y as [|y ys], c as [|c cs], d as [|d ds], bi as [|bi bs], o as [|o os]; try discriminate.
      cbn [seq map_res rows].
      assert (P : forall T (p : list T) a l, length p = k -> py_index (p ++ a :: l) (Z.of_nat k) = Ok a).
      { intros T p a l K. apply L_List.py_index_nat. rewrite nth_error_app2 by lia. rewrite K, Nat.sub_diag. auto. }
      unfold location_line at 1. cbn [b_x b_y b_cid b_cdis b_bid b_coff].
      rewrite !P by auto. cbn [bind]. fold (row_line c x y d bi o).
      assert (Q : forall T (p : list T) a l, p ++ a :: l = (p ++ [a]) ++ l) by (intros; rewrite <- app_assoc; auto).
      rewrite (Q _ px), (Q _ py), (Q _ pc), (Q _ pd), (Q _ pb), (Q _ po).
      rewrite IH; [reflexivity|rewrite app_length; cbn; lia ..| | | | | |]; cbn in *; lia.
  Qed.

  Theorem C28_location_file_round_trip : forall b n content,
    aligned b n ->
    Forall (fun c => free "," c /\ free newline c) (b_cid b) ->
    Forall (fun c => free "," c /\ free newline c /\ trimmed c) (b_bid b) ->
    write_locations b = Ok content ->
    exists c, css_file read_float round_float (Some content) = Ok c /\
      c_id c = b_cid b /\ c_branch c = b_bid b /\
      read_back 4 (b_x b) (map fst (c_xy c)) /\ read_back 4 (b_y b) (map snd (c_xy c)) /\
      read_back 2 (b_cdis b) (c_length c) /\ read_back 2 (b_coff b) (c_chainage c).
  Proof.
    intros b n content A Fc Fb W. unfold write_locations in W.
    pose proof A as (A1 & A2 & A3 & A4 & A5 & A6). rewrite A1, (write_rows b n A) in W. cbn [bind] in W.
    injection W as <-.
    set (ls := rows (b_cid b) (b_x b) (b_y b) (b_cdis b) (b_bid b) (b_coff b)).
    assert (G : exists locs, Forall2 (means read_float round_float) ls locs /\ Forall (free newline) ls /\
      map l_id locs = b_cid b /\ map l_branch locs = b_bid b /\
      read_back 4 (b_x b) (map l_x locs) /\ read_back 4 (b_y b) (map l_y locs) /\
      read_back 2 (b_cdis b) (map l_length locs) /\ read_back 2 (b_coff b) (map l_chainage locs)).
    { unfold ls. destruct b as [x y c d bi o]. unfold aligned in A. cbn [b_x b_y b_cid b_cdis b_bid b_coff] in *. clear A ls.
      revert x y c d bi o Fc Fb A1 A2 A3 A4 A5 A6.
      induction n as [|n IH]; intros x y c d bi o Fc Fb A1 A2 A3 A4 A5 A6.
      - destruct x, y, c, d, bi, o; try discriminate. exists []. cbn. repeat split; constructor.
      - destruct x as [|x xs], y as [|y ys], c as [|c cs], d as [|d ds], bi as [|bi bs], o as [|o os]; try discriminate.
        inversion Fc as [|? ? [Fc1 Fc2] Fc']; inversion Fb as [|? ? (Fb1 & Fb2 & Fb3) Fb']; subst.
        cbn in A1, A2, A3, A4, A5, A6.
        destruct (IH xs ys cs ds bs os) as (locs & M & N & E1 & E2 & E3 & E4 & E5 & E6); auto; try lia.
        destruct (row_means c x y d bi o Fc1 Fb1 Fb3) as (l & Ml & H1 & H2 & H3 & H4 & H5 & H6).
        exists (l :: locs). cbn [rows map]. split; [constructor; auto|]. split.
        + constructor; auto. rewrite row_fields. apply free_join; [intros [|[]]; discriminate|].
          pose proof not_fixed_newline. repeat constructor; auto;
            apply free_cons; try discriminate; auto; apply show_fixed_free; auto.
        + split; [congruence|]. split; [congruence|]. repeat split; constructor; auto. }
    destruct G as (locs & M & N & E1 & E2 & E3 & E4 & E5 & E6).
    set (hdr := T "name,x,y,length,branch,offset").
    assert (Hh : header read_float round_float hdr).
    { change hdr with (join (T ",") [T "name"; T "x"; T "y"; T "length"; T "branch"; T "offset"]).
      apply header6; auto. repeat constructor; apply freeb_free; reflexivity. }
    assert (R : css_file read_float round_float
        (Some (concat (map (fun l => l ++ [newline]) (hdr :: ls)))) =
        Ok (fold_left (add_location Q) locs no_columns)).
    { unfold css_file. rewrite <- (app_nil_r (concat _)).
      rewrite raw_lines_cat by (constructor; auto; apply freeb_free; reflexivity).
      cbn [raw_lines]. rewrite app_nil_r. cbn [map css_lines].
      destruct (css_line_cases Q read_float round_float float_line_end 0 no_columns hdr (hdr ++ [newline]))
        as [(l & Hm & _)|[(_ & _ & _ & ->)|(_ & Nh & _)]].
      - right. auto.
      - destruct (header_not_means Q read_float round_float hdr l Hh Hm).
      - cbn [bind].
        destruct (css_lines_rest Q read_float round_float float_line_end 0 (map (fun l => l ++ [newline]) ls) ls no_columns)
          as [(locs' & M' & ->)|(X & _)].
        + clear. induction ls; constructor; auto. right. auto.
        + f_equal. f_equal. clear - M M'. revert locs' M'.
          induction M as [|a l ls locs Ha M IH]; intros locs' M'; inversion M'; subst; auto.
          f_equal; auto. eapply means_unique; eauto.
        + exfalso. clear - M X. induction M; inversion X as [? ? N0|]; subst; auto. eapply N0; eauto.
      - exfalso. apply Nh. auto. }
    fold hdr. eexists. split; [exact R|]. rewrite add_locations. cbn [no_columns c_xy c_id c_branch c_length c_chainage app].
    split; auto. split; auto. rewrite !map_map. cbn [fst snd]. auto.
  Qed.
End C28.
Print Assumptions C28_location_file_round_trip.

Example C28_example :
  let b := mk_branch [1 # 3; 20] [5; 6] [T "p1"; T "p2"] [100; 200 # 3] [T "r"; T "r"] [0; 50] in
  match write_locations b with
  | Ok t => match css_file read_decimal (fun _ => None) (Some t) with
            | Ok c => (c_id c, c_branch c, map (fun p => Qred (fst p)) (c_xy c), map Qred (c_length c))
                      = (b_cid b, b_bid b, [3333 # 10000; 20]%Q, [100; 6667 # 100]%Q)
            | Raise _ => False
            end
  | Raise _ => False
  end.
Proof. vm_compute. reflexivity. Qed.

Example C28_decimal_hypotheses : read_decimal (T "x") = None /\
  forall t, read_decimal (t ++ [newline]) = read_decimal t.
Proof.
  split; [reflexivity|]. intro t. unfold read_decimal.
  replace (strip (t ++ [newline])) with (strip t); auto.
  unfold strip, strip_by. destruct (dropwhile_suffix is_space t) as (u & E).
  destruct (dropwhile is_space t) as [|c t'] eqn:D.
  - assert (A : Forall (fun c => is_space c = true) t).
    { clear - D. induction t as [|a t IH]; constructor; cbn in D; destruct (is_space a); auto; discriminate. }
    rewrite dropwhile_all by auto. reflexivity.
  - assert (A : dropwhile is_space (t ++ [newline]) = (c :: t') ++ [newline]).
    { clear - D. induction t as [|a t IH]; cbn in *; [discriminate|].
      destruct (is_space a); auto. injection D as -> ->. reflexivity. }
    rewrite A. symmetry. apply rstrip_by_all. repeat constructor.
Qed.

(** C28 refuted for a branch with a comma in its name: the generator writes the
    name as it is, and the file is refused when it is read. *)
Definition comma_file : text :=
  file_of ["[Branch]"; "id = A,B"; "gridPointX = 0.0 10.0 20.0"; "gridPointY = 0.0 0.0 0.0";
           "gridPointIds = a1;a2;a3"; "gridPointOffsets = 0.0 10.0 20.0"; ""; ""; ""; ""; ""; ""]%string.
Theorem C28_comma_in_the_name_refuted : exists b content,
  parse_network_file read_decimal scan [] comma_file = Ok b /\ write_locations b = Ok content /\
  css_file read_decimal (fun _ => None) (Some content) = Raise ValueError.
Proof. eexists. eexists. split; [vm_compute; reflexivity|]. split; vm_compute; reflexivity. Qed.
Print Assumptions C28_comma_in_the_name_refuted.
