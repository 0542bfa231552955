(** Theorems for C22: which text of a configuration file switches a parameter on. *)
From Coq Require Import String List Ascii ZArith Bool Lia.
From Verif Require Import PyBase Text L_Text M_Ini L_Ini L_IniPrint T_Ini T_IniPrint T_Handwritten.
Import ListNotations.
Local Open Scope char_scope.

(** A text that means on: the word true in any capitals, with blanks around it. *)
Definition says_true (t : text) : Prop :=
  exists l w r, t = l ++ w ++ r /\ Forall (fun c => is_space c = true) l /\ Forall (fun c => is_space c = true) r /\
    lower w = T "true".

Lemma is_space_lower c : is_space (lower_char c) = is_space c.
Proof. destruct c as [[|] [|] [|] [|] [|] [|] [|] [|]]; vm_compute; reflexivity. Qed.

Lemma spaces_lower l : Forall (fun c => is_space c = true) l -> Forall (fun c => is_space c = true) (lower l).
Proof. induction 1; constructor; auto. rewrite is_space_lower; auto. Qed.

Lemma dropwhile_prefix p t : exists u, t = u ++ dropwhile p t /\ Forall (fun c => p c = true) u.
Proof.
  induction t as [|a t [u [E F]]]; [exists []; simpl; auto|]. simpl. destruct (p a) eqn:Ea.
  - exists (a :: u). split; [simpl; congruence|constructor; auto].
  - exists []. split; auto.
Qed.

Lemma strip_split t : exists l r, t = l ++ strip t ++ r /\ Forall (fun c => is_space c = true) l /\
  Forall (fun c => is_space c = true) r.
Proof.
  unfold strip, strip_by, rstrip_by. destruct (dropwhile_prefix is_space t) as (l & E & Fl).
  destruct (dropwhile_prefix is_space (rev (dropwhile is_space t))) as (r & E2 & Fr).
  exists l, (rev r). split; [|split; auto; apply Forall_rev; auto].
  rewrite E at 1. f_equal. rewrite <- rev_app_distr, <- E2, rev_involutive. reflexivity.
Qed.

Lemma lower_app a b : lower (a ++ b) = lower a ++ lower b.
Proof. apply map_app. Qed.

Lemma says_true_iff t : says_true t <-> strip (lower t) = T "true".
Proof.
  split.
  - intros (l & w & r & -> & Fl & Fr & W). rewrite !lower_app, W. apply strip_pad; auto using spaces_lower.
    apply trimmed_strip. reflexivity.
  - intros E. destruct (strip_split (lower t)) as (l & r & S & Fl & Fr). rewrite E in S.
    assert (N : lower t = l ++ T "true" ++ r) by auto. clear S E.
    unfold lower in N. apply map_eq_app in N. destruct N as (l0 & t1 & -> & <- & N).
    apply map_eq_app in N. destruct N as (w & r0 & -> & W & <-).
    exists l0, w, r0. split; auto. split; [|split; auto].
    + apply Forall_map in Fl. eapply Forall_impl; [|exact Fl]. intros c. cbn. rewrite is_space_lower. auto.
    + apply Forall_map in Fr. eapply Forall_impl; [|exact Fr]. intros c. cbn. rewrite is_space_lower. auto.
Qed.

(** A switch that the file has is on exactly if its text says true; any other
    text, also yes, on or 1, switches it off and does not keep the default. *)
Theorem C22_a_switch_is_on_exactly_for_true (F : Type) (read_float : text -> option F) (tpl : config F) (cwd : list text)
    (i i' : ini F) (p : path) (t : text) (d : inidict) (s k key : text) (v0 : value F) opts k' w :
  lookup_file (files (i_fs i)) (resolve cwd p) = Some t -> get_inifile_params t = Ok d ->
  load_configuration read_float tpl cwd i p = Ok i' -> k <> [] ->
  s = T "parameters" \/ s = T "debug" ->
  key_from_template tpl s k = Some (key, KBool) -> get_from (i_cfg i) s k = Ok v0 ->
  tassoc d s = Some opts -> find_key opts k = Some (k', w) ->
  exists b, get_from (i_cfg i') s k = Ok (VBool b) /\ (b = true <-> says_true w).
Proof.
  intros Hf Hp Hl Hk Hs Ht Hg Ho Hw. destruct (C24_loading_twice_is_loading_once F read_float tpl cwd i p) as [A _].
  rewrite A, Hf in Hl. unfold read_inifile in Hl. rewrite Hp in Hl. cbn [bind] in Hl.
  assert (Hd : Forall (fun s => distinct_keys (snd s)) d) by (apply (get_inifile_params_keys t); auto).
  rewrite (read_dict_values F read_float tpl cwd d _ i' s k key KBool v0 Hd Hl) by auto.
  unfold file_value. rewrite Ho, Hw. cbn [cast]. eexists. split; [reflexivity|].
  rewrite says_true_iff. destruct (teqb_spec (strip (lower w)) (T "true")) as [E|E]; split; auto; discriminate.
Qed.
Print Assumptions C22_a_switch_is_on_exactly_for_true.

(** The volume correction, on by default, after loading a file that switches it
    in several ways. *)
Definition correction_after (word : String.string) : option (value text) :=
  match hand_load (ini_text ["[input]"; "[output]"; "OutputDirectory = out"; "[parameters]"; String.append "SDCorrection = " word]%string) with
  | Ok i => match get_parameter (i_cfg i) (T "SDCorrection") with Ok v => v | Raise _ => None end
  | Raise _ => None
  end.
Theorem C22_switch_case :
  get_parameter template (T "SDCorrection") = Ok (Some (VBool true)) /\
  correction_after "true" = Some (VBool true) /\ correction_after "TRUE  # on" = Some (VBool true) /\
  correction_after "False" = Some (VBool false) /\
  correction_after "yes" = Some (VBool false) /\ correction_after "1" = Some (VBool false) /\
  correction_after "on" = Some (VBool false) /\ correction_after "" = Some (VBool false).
Proof. repeat split; vm_compute; reflexivity. Qed.
Print Assumptions C22_switch_case.
