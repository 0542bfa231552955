(** C127: the order of the lines of a configuration file. *)
From Coq Require Import String List Ascii ZArith Bool Lia Permutation.
From Verif Require Import PyBase Text L_Text M_Ini L_Ini T_Ini L_IniPrint T_Handwritten.
Import ListNotations.

(** ** Specification *)

(** Two sections with the same options, in any order and with any comments,
    blanks and remarks; two files with such sections, in any order. *)
Definition like_section (s s' : heading * list item) : Prop :=
  lower (h_name (fst s)) = lower (h_name (fst s')) /\ is_default s = is_default s' /\ Permutation (options (snd s)) (options (snd s')).
Definition reordered (doc doc' : document) : Prop :=
  exists ss, Permutation (d_sections doc) ss /\ Forall2 like_section ss (d_sections doc').

(** ** Dictionaries *)

Definition like_dict (d d' : inidict) : Prop :=
  forall s, match tassoc d s, tassoc d' s with
            | Some o, Some o' => Permutation o o'
            | None, None => True
            | _, _ => False
            end.

Lemma tassoc_perm {A} (d d' : list (text * A)) s : Permutation d d' -> NoDup (map fst d) -> tassoc d s = tassoc d' s.
Proof.
  intro P. induction P as [|[k v] l l' P IH|[k v] [k' v'] l|a b c P1 IH1 P2 IH2]; intro N; [reflexivity|..].
  - cbn [tassoc]. inversion N; subst. rewrite IH by assumption. reflexivity.
  - cbn [tassoc map fst] in *. inversion N as [|? ? N1 _]; subst. destruct (teqb_spec k' s) as [->|], (teqb_spec k s) as [->|]; try reflexivity.
    exfalso. apply N1. left. reflexivity.
  - rewrite IH1 by assumption. apply IH2. apply (Permutation_NoDup (Permutation_map fst P1)), N.
Qed.
Lemma keys_perm {A} (l l' : list (text * A)) : Permutation l l' -> distinct_keys l -> distinct_keys l'.
Proof. intros P. unfold distinct_keys. apply Permutation_NoDup, Permutation_map, P. Qed.
Lemma concat_perm {A B} (f : A -> list B) l l' : Permutation l l' -> Permutation (concat (map f l)) (concat (map f l')).
Proof.
  intro P. induction P; cbn [map concat]; [constructor|apply Permutation_app_head; assumption| |eapply Permutation_trans; eassumption].
  rewrite !app_assoc. apply Permutation_app_tail, Permutation_app_comm.
Qed.
Lemma filter_perm {A} (f : A -> bool) l l' : Permutation l l' -> Permutation (filter f l) (filter f l').
Proof.
  intro P. induction P; cbn [filter]; [constructor|destruct (f x); [constructor|]; assumption| |eapply Permutation_trans; eassumption].
  destruct (f x), (f y); try reflexivity. constructor.
Qed.

Section Read.
  Variable F : Type.
  Variable read_float : text -> option F.
  Notation config := (config F).

  Lemma writes_perm s ws ws' : Permutation ws ws' -> forall c : config, distinct_keys ws -> writes F c s ws = writes F c s ws'.
  Proof.
    intro P. induction P as [|[k v] l l' P IH|[k v] [k' v'] l|a b c' P1 IH1 P2 IH2]; intros c N; [reflexivity|..].
    - unfold writes in *. cbn [fold_left]. inversion N; subst. apply IH. assumption.
    - unfold writes. cbn [fold_left fst snd]. inversion N as [|? ? N1 _]; subst. rewrite write_comm; [reflexivity|].
      right. intro E. apply N1. left. cbn [fst]. congruence.
    - rewrite IH1 by assumption. apply IH2. apply (keys_perm _ _ P1), N.
  Qed.
  Lemma output_perm cwd o o' : Permutation o o' -> distinct_keys o -> forall i : ini F,
    fold_res (fun i kv => if teqb (lower (fst kv)) (lower outdir_key) then set_output_directory cwd i (parse_path (snd kv)) else Ok i) o i =
    fold_res (fun i kv => if teqb (lower (fst kv)) (lower outdir_key) then set_output_directory cwd i (parse_path (snd kv)) else Ok i) o' i.
  Proof.
    intro P. induction P as [|[k v] l l' P IH|[k v] [k' v'] l|a b c P1 IH1 P2 IH2]; intros N i; [reflexivity|..].
    - cbn [fold_res]. inversion N; subst. destruct (teqb _ _); [destruct (set_output_directory _ _ _)|]; cbn [bind]; auto.
    - cbn [fold_res fst snd]. inversion N as [|? ? N1 _]; subst. cbn [map fst] in N1.
      destruct (teqb_spec (lower k') (lower outdir_key)) as [E|]; destruct (teqb_spec (lower k) (lower outdir_key)) as [E'|]; try (exfalso; apply N1; left; congruence);
        cbn [bind]; try reflexivity; destruct (set_output_directory _ _ _); reflexivity.
    - rewrite IH1 by assumption. apply IH2. apply (keys_perm _ _ P1), N.
  Qed.

  Lemma dict_perm (tpl : config) cwd d d' (i : ini F) : like_dict d d' -> Forall (fun s => distinct_keys (snd s)) d ->
    read_dict read_float tpl cwd d i = read_dict read_float tpl cwd d' i.
  Proof.
    intros L D. assert (K : forall s o, tassoc d s = Some o -> distinct_keys o).
    { intros s o E. apply tassoc_In in E. rewrite Forall_forall in D. apply (D _ E). }
    assert (EP : forall s (c : config), extract_parameters read_float tpl d s c = extract_parameters read_float tpl d' s c).
    { intros s c. rewrite !extract_parameters_writes. specialize (L s). specialize (K s). destruct (tassoc d s) as [o|], (tassoc d' s) as [o'|]; try contradiction; [|reflexivity].
      apply writes_perm; [apply concat_perm, L|apply param_writes_distinct, K; reflexivity]. }
    assert (EI : extract_input_files tpl cwd d i = extract_input_files tpl cwd d' i).
    { rewrite !extract_input_files_eq. specialize (L (T "input")). specialize (K (T "input")).
      destruct (tassoc d (T "input")) as [o|], (tassoc d' (T "input")) as [o'|]; try contradiction; [|reflexivity]. cbv zeta.
      assert (P : Permutation (input_writes F tpl cwd (file_dir cwd i) (i_fs i) o) (input_writes F tpl cwd (file_dir cwd i) (i_fs i) o')) by apply concat_perm, L.
      rewrite <- (writes_perm (T "input") _ _ P (i_cfg i)) by (apply input_writes_distinct, K; reflexivity).
      destruct (tassoc (i_cfg i) (T "input")); [reflexivity|].
      destruct (input_writes F tpl cwd (file_dir cwd i) (i_fs i) o) as [|w ws]; [apply Permutation_nil in P; rewrite P; reflexivity|].
      destruct (input_writes F tpl cwd (file_dir cwd i) (i_fs i) o'); [apply Permutation_sym, Permutation_nil in P; discriminate|reflexivity]. }
    unfold read_dict. rewrite EI. destruct (extract_input_files tpl cwd d' i) as [i1|]; [|reflexivity]. cbn [bind]. cbv zeta. rewrite !EP.
    unfold extract_output_dir. specialize (L (T "output")). specialize (K (T "output")). destruct (tassoc d (T "output")) as [o|], (tassoc d' (T "output")) as [o'|]; try contradiction; [|reflexivity].
    apply output_perm; [exact L|apply K; reflexivity].
  Qed.
End Read.

(** ** Files *)

Lemma like_filter ss ss' (f : bool -> bool) : Forall2 like_section ss ss' ->
  Forall2 like_section (filter (fun s => f (is_default s)) ss) (filter (fun s => f (is_default s)) ss').
Proof.
  intro H. induction H as [|s s' l l' H G IH]; [constructor|]. cbn [filter]. destruct H as (H1 & H2 & H3). rewrite H2.
  destruct (f (is_default s')); [constructor; [repeat split; assumption|]|]; exact IH.
Qed.
Lemma defaults_perm doc doc' : reordered doc doc' -> Permutation (defaults_of doc) (defaults_of doc').
Proof.
  intros (ss & P & G). unfold defaults_of. eapply Permutation_trans; [apply concat_perm, filter_perm, P|].
  apply (like_filter _ _ (fun b => b)) in G. change (fun s => is_default s) with is_default in G.
  clear P. induction G as [|s s' l l' (_ & _ & H) G IH]; cbn [map concat]; [constructor|]. apply Permutation_app; assumption.
Qed.
Lemma inherited_perm d d' o o' : Permutation d d' -> Permutation o o' -> Permutation (inherited d o) (inherited d' o').
Proof.
  intros D O. unfold inherited. eapply Permutation_trans; [apply filter_perm, D|].
  erewrite filter_ext; [reflexivity|]. intros kv. cbn beta. f_equal.
  clear - O. induction O; cbn [existsb]; [reflexivity|congruence| |congruence]. destruct (teqb _ _), (teqb _ _); reflexivity.
Qed.
Lemma meaning_perm doc doc' : well_formed doc -> reordered doc doc' -> like_dict (meaning doc) (meaning doc').
Proof.
  intros W R s. pose proof (defaults_perm _ _ R) as DP. destruct R as (ss & P & G).
  unfold meaning. set (g := fun dd (x : heading * list item) => (lower (h_name (fst x)), options (snd x) ++ inherited dd (options (snd x)))).
  change (match tassoc (map (g (defaults_of doc)) (filter (fun s => negb (is_default s)) (d_sections doc))) s,
                tassoc (map (g (defaults_of doc')) (filter (fun s => negb (is_default s)) (d_sections doc'))) s with
          | Some o, Some o' => Permutation o o' | None, None => True | _, _ => False end).
  rewrite (tassoc_perm _ (map (g (defaults_of doc)) (filter (fun s => negb (is_default s)) ss))).
  - apply (like_filter _ _ negb) in G. set (u := filter _ ss) in *. set (v := filter _ (d_sections doc')) in *. clearbody u v.
    induction G as [|x y u v (H1 & _ & H3) G IH]; [exact Logic.I|].
    assert (ST : forall dd z w, tassoc (map (g dd) (z :: w)) s = if teqb (lower (h_name (fst z))) s then Some (options (snd z) ++ inherited dd (options (snd z))) else tassoc (map (g dd) w) s) by reflexivity.
    rewrite !ST, H1.
    destruct (teqb _ s); [|exact IH]. apply Permutation_app; [exact H3|]. apply inherited_perm; assumption.
  - apply Permutation_map, filter_perm, P.
  - rewrite map_map. unfold g. cbn [fst]. destruct W as (_ & _ & D). clear - D. induction (d_sections doc) as [|x l IH]; cbn [filter map] in *; [constructor|].
    inversion D as [|? ? D1 D2]; subst. destruct (negb (is_default x)); cbn [map]; [|apply IH; exact D2].
    constructor; [|apply IH; exact D2]. intro J. apply D1. apply in_map_iff in J. destruct J as (y & E & J). apply filter_In in J.
    rewrite <- E. apply (in_map (fun s => lower (h_name (fst s)))). tauto.
Qed.

(** ** C127 *)

(** Reading a file and reading it with its lines in another order have the same
    outcome: the same configuration, input files, output directory, and the same
    exception if there is one. *)
Theorem C127_order_of_the_lines :
  forall (F : Type) (read_float : text -> option F) (tpl : config F) cwd (i : ini F) doc doc', well_formed doc -> well_formed doc' -> reordered doc doc' ->
    read_inifile read_float tpl cwd (text_of_document doc) i = read_inifile read_float tpl cwd (text_of_document doc') i.
Proof.
  intros F read_float tpl cwd i doc doc' W W' R. unfold read_inifile.
  pose proof (get_inifile_params_keys _ _ (C91_file_is_read_as_written doc W)) as K.
  rewrite (C91_file_is_read_as_written doc W), (C91_file_is_read_as_written doc' W'). cbn [bind].
  apply dict_perm; [apply meaning_perm; assumption|]. apply K.
Qed.
Print Assumptions C127_order_of_the_lines.

(** Loading a file is reading the reordered text instead. *)
Theorem C127_load :
  forall (F : Type) (read_float : text -> option F) (tpl : config F) cwd (i : ini F) p doc doc', well_formed doc -> well_formed doc' -> reordered doc doc' ->
    lookup_file (files (i_fs i)) (resolve cwd p) = Some (text_of_document doc) ->
    load_configuration read_float tpl cwd i p =
      (i1 <- read_inifile read_float tpl cwd (text_of_document doc') (mk_ini (i_cfg i) (Some p) (i_fs i)) ;;
       read_inifile read_float tpl cwd (text_of_document doc') i1).
Proof.
  intros F read_float tpl cwd i p doc doc' W W' R L. unfold load_configuration. rewrite L.
  rewrite (C127_order_of_the_lines F read_float tpl cwd _ doc doc' W W' R). destruct (read_inifile _ _ _ _ _) as [i1|]; [|reflexivity]. cbn [bind].
  apply C127_order_of_the_lines; assumption.
Qed.
Print Assumptions C127_load.

(** ** A case *)

Definition plain_option (k v : string) : item := Opt (T k) (T " ") "=" (T " ") (T v) [] [].
Definition plain_heading (s : string) : heading := mk_heading (T s) [].
Definition first_order : document := mk_document []
  [(plain_heading "input", []); (plain_heading "output", [plain_option "OutputDirectory" "out"]);
   (plain_heading "parameters", [plain_option "LakeTimesteps" "4"; plain_option "MaximumPointsInProfile" "7"])].
Definition second_order : document := mk_document [T "# my project"]
  [(plain_heading "Parameters", [plain_option "MAXIMUMPOINTSINPROFILE" "7"; Note []; plain_option "LakeTimesteps" "4"]);
   (plain_heading "output", [plain_option "OutputDirectory" "out"]); (plain_heading "input", [])].
Ltac plain_first := let c := fresh "c" in let t := fresh "t" in let E := fresh "E" in
  intros c t E; vm_compute in E; injection E as <- <-; reflexivity.
Ltac plain_last := let c := fresh "c" in let t := fresh "t" in let E := fresh "E" in
  intros c t E; apply (f_equal (fun l => last l " "%char)) in E; rewrite last_last in E; vm_compute in E; subst c; reflexivity.
Ltac plain_char := match goal with E : T _ = ?c :: _ |- ?c <> _ => vm_compute in E; injection E as <- _; discriminate end.
Ltac plain_text :=
  repeat constructor; cbn [fst snd plain_heading]; unfold good_heading; cbn [h_name h_after];
  try (repeat split; [discriminate|apply freeb_free; reflexivity..]);
  try (cbn [good_item plain_option note]; repeat split; try (apply freeb_free; reflexivity); try (left; reflexivity); try (repeat constructor; fail); auto);
  try first [plain_first|plain_last|plain_char].
Lemma first_well_formed : well_formed first_order.
Proof.
  split; [constructor|]. split; [|repeat constructor; cbn; intuition discriminate]. plain_text. vm_compute. intuition discriminate.
Qed.
Lemma second_well_formed : well_formed second_order.
Proof.
  split; [constructor; [|constructor]; split; [apply freeb_free; reflexivity|right; exists [], "#"%char, (T " my project"); split; [reflexivity|split; [constructor|left; reflexivity]]]|].
  split; [|repeat constructor; cbn; intuition discriminate]. plain_text.
  vm_compute. intuition discriminate.
Qed.
(** The two files say the same, and the values are read. *)
Theorem C127_case :
  well_formed first_order /\ well_formed second_order /\ reordered first_order second_order /\
  exists i i', hand_load (text_of_document first_order) = Ok i /\ hand_load (text_of_document second_order) = Ok i' /\ i_cfg i = i_cfg i' /\
    get_parameter (i_cfg i) (T "MaximumPointsInProfile") = Ok (Some (VInt 7)) /\ get_parameter (i_cfg i) (T "LakeTimesteps") = Ok (Some (VInt 4)).
Proof.
  split; [exact first_well_formed|]. split; [exact second_well_formed|]. split.
  - exists (rev (d_sections first_order)). split; [apply Permutation_rev|]. cbn [first_order d_sections rev app second_order].
    constructor; [|constructor; [|constructor; [|constructor]]]; (split; [vm_compute; reflexivity|]); (split; [vm_compute; reflexivity|]);
      cbn [snd]; [vm_compute; constructor|reflexivity..].
  - eexists. eexists. split; [vm_compute; reflexivity|]. split; [vm_compute; reflexivity|]. vm_compute. repeat split.
Qed.
Print Assumptions C127_case.
