(** Lemmas about the configuration model: dictionaries, writes, and the parser
    on printed configurations. *)
From Coq Require Import String List Ascii ZArith Bool Lia.
From Verif Require Import PyBase Text L_Text M_Ini.
Import ListNotations.

(** ** Dictionaries *)

Lemma tassoc_set_same {A} (d : list (text * A)) k v : tassoc (tassoc_set d k v) k = Some v.
Proof.
  induction d as [|[k' v'] d IH]; simpl; [rewrite teqb_refl; auto|].
  destruct (teqb k' k) eqn:E; simpl; rewrite E; auto.
Qed.

Lemma tassoc_set_other {A} (d : list (text * A)) k k' v : k <> k' ->
  tassoc (tassoc_set d k v) k' = tassoc d k'.
Proof.
  intros H. induction d as [|[k2 v2] d IH]; simpl.
  - destruct (teqb_spec k k'); auto. contradiction.
  - destruct (teqb_spec k2 k) as [->|]; simpl; auto.
    + destruct (teqb_spec k k'); auto. contradiction.
    + rewrite IH. auto.
Qed.

Lemma tassoc_set_id {A} (d : list (text * A)) k v : tassoc d k = Some v -> tassoc_set d k v = d.
Proof.
  induction d as [|[k' v'] d IH]; simpl; [discriminate|].
  destruct (teqb k' k); [intros [= ->]; auto|]. intros H. rewrite IH; auto.
Qed.

Lemma tassoc_set_twice {A} (d : list (text * A)) k v w :
  tassoc_set (tassoc_set d k v) k w = tassoc_set d k w.
Proof.
  induction d as [|[k' v'] d IH]; simpl; [rewrite teqb_refl; auto|].
  destruct (teqb k' k) eqn:E; simpl; rewrite E; congruence.
Qed.

Lemma tassoc_set_comm {A} (d : list (text * A)) k v k' v' : k <> k' -> tassoc d k <> None -> tassoc d k' <> None ->
  tassoc_set (tassoc_set d k v) k' v' = tassoc_set (tassoc_set d k' v') k v.
Proof.
  intros Hk. induction d as [|[k2 v2] d IH]; simpl; [congruence|].
  destruct (teqb_spec k2 k) as [E|N]; destruct (teqb_spec k2 k') as [E'|N']; simpl.
  - congruence.
  - destruct (teqb_spec k2 k); destruct (teqb_spec k2 k'); congruence.
  - destruct (teqb_spec k2 k); destruct (teqb_spec k2 k'); congruence.
  - intros. destruct (teqb_spec k2 k); destruct (teqb_spec k2 k'); try congruence.
    rewrite IH; auto.
Qed.

Lemma tassoc_set_fresh {A} (d : list (text * A)) k v : tassoc d k = None -> tassoc_set d k v = d ++ [(k, v)].
Proof.
  induction d as [|[k' v'] d IH]; simpl; auto.
  destruct (teqb k' k); [discriminate|]. intros H. rewrite IH; auto.
Qed.

Lemma tassoc_app {A} (d e : list (text * A)) k :
  tassoc (d ++ e) k = match tassoc d k with Some v => Some v | None => tassoc e k end.
Proof. induction d as [|[k' v'] d IH]; simpl; auto. destruct (teqb k' k); auto. Qed.

Lemma tassoc_set_last {A} (d : list (text * A)) k v w : tassoc d k = None ->
  tassoc_set (d ++ [(k, v)]) k w = d ++ [(k, w)].
Proof.
  induction d as [|[k' v'] d IH]; simpl; [rewrite teqb_refl; auto|].
  destruct (teqb k' k); [discriminate|]. intros H. rewrite IH; auto.
Qed.

Lemma tassoc_None {A} (d : list (text * A)) k : tassoc d k = None <-> ~ In k (map fst d).
Proof.
  induction d as [|[k' v'] d IH]; simpl; [tauto|].
  destruct (teqb_spec k' k) as [->|N]; split; intros H; try discriminate; try tauto.
Qed.

Lemma tassoc_In {A} (d : list (text * A)) k v : tassoc d k = Some v -> In (k, v) d.
Proof.
  induction d as [|[k' v'] d IH]; simpl; [discriminate|].
  destruct (teqb_spec k' k) as [->|]; [intros [= ->]; auto|auto].
Qed.

Lemma tassoc_complete {A} (d : list (text * A)) k v : NoDup (map fst d) -> In (k, v) d -> tassoc d k = Some v.
Proof.
  induction d as [|[k' v'] d IH]; simpl; [tauto|]. intros Hn. inversion Hn; subst.
  intros [[= -> ->]|Hin]; [rewrite teqb_refl; auto|].
  destruct (teqb_spec k' k) as [->|]; auto. exfalso. apply H1. apply (in_map fst) in Hin. auto.
Qed.

Lemma tassoc_set_keys {A} (d : list (text * A)) k v w : tassoc d k = Some w ->
  map fst (tassoc_set d k v) = map fst d.
Proof.
  induction d as [|[k' v'] d IH]; simpl; [discriminate|].
  destruct (teqb k' k); simpl; auto. intros H. rewrite IH; auto.
Qed.

Lemma NoDup_snoc {A} (l : list A) x : NoDup l -> ~ In x l -> NoDup (l ++ [x]).
Proof.
  induction 1; simpl; intros Hx; [constructor; auto; constructor|].
  constructor; [|apply IHNoDup; tauto]. rewrite in_app_iff. simpl. intros [|[|[]]]; subst; tauto.
Qed.

Lemma tassoc_set_NoDup {A} (d : list (text * A)) k v : NoDup (map fst d) -> NoDup (map fst (tassoc_set d k v)).
Proof.
  intros H. destruct (tassoc d k) eqn:E.
  - erewrite tassoc_set_keys; eauto.
  - rewrite tassoc_set_fresh by auto. rewrite map_app. simpl. apply NoDup_snoc; auto.
    apply tassoc_None. auto.
Qed.

(** ** find_key *)

Lemma find_key_lower {A} (d : list (text * A)) k k' : lower k = lower k' -> find_key d k = find_key d k'.
Proof. intros H. induction d as [|[x v] d IH]; simpl; auto. rewrite H, IH. auto. Qed.

Lemma find_key_spec {A} (d : list (text * A)) k ck v : find_key d k = Some (ck, v) ->
  lower ck = lower k /\ tassoc d ck = Some v.
Proof.
  induction d as [|[x w] d IH]; simpl; [discriminate|].
  destruct (teqb_spec (lower x) (lower k)) as [E|N].
  - intros [= -> ->]. split; auto. rewrite teqb_refl. auto.
  - intros H. destruct (IH H) as [H1 H2]. split; auto.
    destruct (teqb_spec x ck); [|auto]. subst. congruence.
Qed.

Lemma find_key_set_same {A} (d : list (text * A)) k ck v w : find_key d k = Some (ck, v) ->
  find_key (tassoc_set d ck w) k = Some (ck, w).
Proof.
  induction d as [|[x u] d IH]; simpl; [discriminate|].
  destruct (teqb (lower x) (lower k)) eqn:E.
  - intros [= -> ->]. rewrite teqb_refl. simpl. rewrite E. auto.
  - intros H. destruct (teqb_spec x ck) as [->|].
    + destruct (find_key_spec d k ck v H) as [H1 _]. rewrite H1, teqb_refl in E. discriminate.
    + simpl. rewrite E. auto.
Qed.

Lemma find_key_set_other {A} (d : list (text * A)) k ck w : lower ck <> lower k ->
  tassoc d ck <> None -> find_key (tassoc_set d ck w) k = find_key d k.
Proof.
  intros N. induction d as [|[x u] d IH]; simpl; [congruence|].
  destruct (teqb_spec x ck) as [->|]; simpl.
  - intros _. destruct (teqb_spec (lower ck) (lower k)); [contradiction|]. auto.
  - intros H. rewrite IH; auto.
Qed.

Lemma find_key_In {A} (d : list (text * A)) k ck v : find_key d k = Some (ck, v) -> In (ck, v) d.
Proof. intros H. apply find_key_spec in H. apply tassoc_In. tauto. Qed.

Lemma find_key_complete {A} (d : list (text * A)) k v : NoDup (map (fun x => lower (fst x)) d) -> In (k, v) d ->
  find_key d k = Some (k, v).
Proof.
  induction d as [|[x u] d IH]; simpl; [tauto|]. intros Hn. inversion Hn; subst.
  intros [[= -> ->]|Hin]; [rewrite teqb_refl; auto|].
  destruct (teqb_spec (lower x) (lower k)) as [E|]; auto. exfalso. apply H1. rewrite E.
  apply (in_map (fun x => lower (fst x))) in Hin. auto.
Qed.

Lemma lower_nonempty k k' : lower k = lower k' -> nonempty k = nonempty k'.
Proof. destruct k, k'; simpl; congruence. Qed.

Lemma find_key_nonempty {A} (d : list (text * A)) k ck v : find_key d k = Some (ck, v) -> nonempty ck = nonempty k.
Proof. intros H. apply find_key_spec in H. apply lower_nonempty. tauto. Qed.

Section WithFloats.
  Variable F : Type.

  Notation config := (config F).
  Notation section := (section F).
  Notation value := (value F).

  (** ** Writes *)

  Definition secwrite (sec : section) (k : text) (v : value) : section :=
    match find_key sec k with
    | Some (ckey, e) => if nonempty ckey then tassoc_set sec ckey (mk_entry (e_kind e) (e_hint e) v) else sec
    | None => sec
    end.
  Definition write (c : config) (s k : text) (v : value) : config :=
    match tassoc c s with
    | Some sec => tassoc_set c s (secwrite sec k v)
    | None => c
    end.

  Lemma set_config_value_write c s k v sec : tassoc c s = Some sec ->
    exists b, set_config_value c s k v = Ok (write c s k v, b).
  Proof.
    intros H. unfold set_config_value, write, secwrite. rewrite H.
    destruct (find_key sec k) as [[ck e]|].
    - destruct (nonempty ck); [eauto|]. exists false. rewrite tassoc_set_id; auto.
    - exists false. rewrite tassoc_set_id; auto.
  Qed.

  Lemma set_config_value_cases c s k v :
    (tassoc c s = None /\ set_config_value c s k v = Raise KeyError /\ write c s k v = c) \/
    (exists b, set_config_value c s k v = Ok (write c s k v, b)).
  Proof.
    destruct (tassoc c s) as [sec|] eqn:E.
    - right. eapply set_config_value_write; eauto.
    - left. unfold set_config_value, write. rewrite E. auto.
  Qed.

  Lemma write_section_same c s k v sec : tassoc c s = Some sec -> tassoc (write c s k v) s = Some (secwrite sec k v).
  Proof. intros H. unfold write. rewrite H. apply tassoc_set_same. Qed.

  Lemma write_section_other c s k v s' : s <> s' -> tassoc (write c s k v) s' = tassoc c s'.
  Proof. intros H. unfold write. destruct (tassoc c s); auto. apply tassoc_set_other. auto. Qed.

  Lemma secwrite_same sec k v ck e : find_key sec k = Some (ck, e) -> nonempty k = true ->
    find_key (secwrite sec k v) k = Some (ck, mk_entry (e_kind e) (e_hint e) v).
  Proof.
    intros H Hk. unfold secwrite. rewrite H. rewrite (find_key_nonempty _ _ _ _ H), Hk.
    eapply find_key_set_same; eauto.
  Qed.

  Lemma secwrite_other sec k v k' : lower k <> lower k' -> find_key (secwrite sec k v) k' = find_key sec k'.
  Proof.
    intros N. unfold secwrite. destruct (find_key sec k) as [[ck e]|] eqn:E; auto.
    destruct (nonempty ck); auto. destruct (find_key_spec _ _ _ _ E) as [H1 H2].
    apply find_key_set_other; congruence.
  Qed.

  Lemma secwrite_twice sec k v : secwrite (secwrite sec k v) k v = secwrite sec k v.
  Proof.
    unfold secwrite at 2 3. destruct (find_key sec k) as [[ck e]|] eqn:E.
    - destruct (nonempty ck) eqn:En.
      + unfold secwrite. rewrite (find_key_set_same _ _ _ _ _ E), En. simpl. apply tassoc_set_twice.
      + unfold secwrite. rewrite E, En. auto.
    - unfold secwrite. rewrite E. auto.
  Qed.

  Lemma secwrite_comm sec k v k' v' : lower k <> lower k' ->
    secwrite (secwrite sec k v) k' v' = secwrite (secwrite sec k' v') k v.
  Proof.
    intros N.
    assert (A : forall sec k v k' v', lower k <> lower k' -> secwrite (secwrite sec k v) k' v' =
      match find_key sec k' with
      | Some (ck, e) => if nonempty ck then tassoc_set (secwrite sec k v) ck (mk_entry (e_kind e) (e_hint e) v')
                        else secwrite sec k v
      | None => secwrite sec k v
      end).
    { intros. unfold secwrite at 1. rewrite secwrite_other by auto. auto. }
    rewrite A, A by auto. unfold secwrite. destruct (find_key sec k) as [[ck e]|] eqn:E; destruct (find_key sec k') as [[ck' e']|] eqn:E'; auto.
    destruct (nonempty ck), (nonempty ck'); auto.
    destruct (find_key_spec _ _ _ _ E) as [H1 H2]. destruct (find_key_spec _ _ _ _ E') as [H3 H4].
    apply tassoc_set_comm; congruence.
  Qed.

  Lemma get_write_same c s k v k' v0 : get_from c s k = Ok v0 -> nonempty k = true -> lower k = lower k' ->
    get_from (write c s k v) s k' = Ok v.
  Proof.
    intros Hg Hk Hl. unfold get_from in *. destruct (tassoc c s) as [sec|] eqn:E; [|discriminate].
    rewrite (write_section_same _ _ _ _ _ E). rewrite (find_key_lower _ k' k) by auto.
    destruct (find_key sec k) as [[ck e]|] eqn:Ef; [|discriminate].
    rewrite (secwrite_same _ _ _ _ _ Ef) by auto. reflexivity.
  Qed.

  Lemma get_write_other c s k v s' k' : s <> s' \/ lower k <> lower k' ->
    get_from (write c s k v) s' k' = get_from c s' k'.
  Proof.
    intros H. unfold get_from. destruct (text_dec s s') as [<-|N].
    - destruct (tassoc c s) as [sec|] eqn:E.
      + rewrite (write_section_same _ _ _ _ _ E), secwrite_other; auto. destruct H; congruence.
      + unfold write. rewrite E, E. auto.
    - rewrite write_section_other by auto. auto.
  Qed.

  Lemma write_twice c s k v : write (write c s k v) s k v = write c s k v.
  Proof.
    unfold write at 2 3. destruct (tassoc c s) as [sec|] eqn:E.
    - unfold write. rewrite tassoc_set_same, secwrite_twice, tassoc_set_twice. auto.
    - unfold write. rewrite E. auto.
  Qed.

  Lemma write_comm c s k v s' k' v' : s <> s' \/ lower k <> lower k' ->
    write (write c s k v) s' k' v' = write (write c s' k' v') s k v.
  Proof.
    intros H. destruct (text_dec s s') as [<-|N].
    - destruct H as [H|H]; [congruence|]. unfold write.
      destruct (tassoc c s) as [sec|] eqn:E; [|rewrite E; auto].
      rewrite !tassoc_set_same, !tassoc_set_twice, secwrite_comm; auto.
    - assert (A : forall c s k v s' k' v', s <> s' -> write (write c s k v) s' k' v' =
        match tassoc c s' with
        | Some sec => tassoc_set (write c s k v) s' (secwrite sec k' v')
        | None => write c s k v
        end).
      { intros. unfold write at 1. rewrite write_section_other by auto. auto. }
      rewrite A, A by auto. unfold write. destruct (tassoc c s) as [sec|] eqn:E; destruct (tassoc c s') as [sec'|] eqn:E'; auto.
      apply tassoc_set_comm; congruence.
  Qed.

  (** Batches of writes into one section. *)
  Definition writes (c : config) (s : text) (ws : list (text * value)) : config :=
    fold_left (fun c kv => write c s (fst kv) (snd kv)) ws c.

  Definition distinct_keys {A} (ws : list (text * A)) : Prop := NoDup (map (fun kv => lower (fst kv)) ws).

  Lemma writes_stable_other c s k v ws : write c s k v = c ->
    ~ In (lower k) (map (fun kv : text * value => lower (fst kv)) ws) -> write (writes c s ws) s k v = writes c s ws.
  Proof.
    revert c. induction ws as [|[k' v'] ws IH]; simpl; intros c H Hn; auto.
    apply IH; [|tauto]. rewrite write_comm by (right; intros E; apply Hn; left; auto). rewrite H. auto.
  Qed.

  Lemma writes_stable c s ws : distinct_keys ws ->
    Forall (fun kv => write (writes c s ws) s (fst kv) (snd kv) = writes c s ws) ws.
  Proof.
    revert c. induction ws as [|[k v] ws IH]; intros c H; constructor; inversion H; subst.
    - simpl. apply writes_stable_other; auto. apply write_twice.
    - simpl. apply IH. auto.
  Qed.

  Lemma writes_stable_id c s ws : Forall (fun kv => write c s (fst kv) (snd kv) = c) ws -> writes c s ws = c.
  Proof. induction 1 as [|[k v] ws H _ IH]; simpl; auto. simpl in H. rewrite H. auto. Qed.

  Lemma write_stable_setsec c s k v s2 sec2 : write c s k v = c -> s <> s2 -> tassoc c s2 <> None ->
    write (tassoc_set c s2 sec2) s k v = tassoc_set c s2 sec2.
  Proof.
    intros H N Hs. unfold write in *. rewrite tassoc_set_other by auto.
    destruct (tassoc c s) as [sec|] eqn:E; auto.
    rewrite tassoc_set_comm; [|congruence|congruence|congruence]. rewrite H. auto.
  Qed.

  Lemma write_stable_writes c s k v s2 ws : write c s k v = c -> s <> s2 ->
    write (writes c s2 ws) s k v = writes c s2 ws.
  Proof.
    revert c. induction ws as [|[k' v'] ws IH]; simpl; intros c H N; auto.
    apply IH; auto. rewrite write_comm by auto. rewrite H. auto.
  Qed.

  Lemma writes_section c s ws s' : s <> s' -> tassoc (writes c s ws) s' = tassoc c s'.
  Proof.
    intros N. revert c. induction ws as [|[k v] ws IH]; simpl; intros c; auto.
    rewrite IH. apply write_section_other. auto.
  Qed.

  Lemma write_sections c s k v s' : (tassoc (write c s k v) s' = None) <-> tassoc c s' = None.
  Proof.
    destruct (text_dec s s') as [<-|N].
    - unfold write. destruct (tassoc c s) eqn:E; [|rewrite E; tauto]. rewrite tassoc_set_same. split; discriminate.
    - rewrite write_section_other by auto. tauto.
  Qed.

  Lemma writes_sections c s ws s' : (tassoc (writes c s ws) s' = None) <-> tassoc c s' = None.
  Proof.
    revert c. induction ws as [|[k v] ws IH]; simpl; intros c; [tauto|].
    rewrite IH. apply write_sections.
  Qed.

  Lemma get_writes_other c s ws s' k : s <> s' \/ ~ In (lower k) (map (fun kv : text * value => lower (fst kv)) ws) ->
    get_from (writes c s ws) s' k = get_from c s' k.
  Proof.
    revert c. induction ws as [|[k' v] ws IH]; simpl; intros c H; auto.
    rewrite IH by tauto. apply get_write_other. destruct H as [H|H]; [auto|].
    destruct (text_dec s s') as [<-|]; [|auto]. right. intros E. apply H. left; auto.
  Qed.

  Lemma get_writes_same c s ws k v v0 : distinct_keys ws -> In (k, v) ws -> nonempty k = true ->
    get_from c s k = Ok v0 -> forall k', lower k' = lower k -> get_from (writes c s ws) s k' = Ok v.
  Proof.
    intros Hd Hin Hk Hg k' Hl. revert c Hg. induction ws as [|[k2 v2] ws IH]; [destruct Hin|].
    inversion Hd; subst. intros c Hg. simpl. destruct Hin as [[= -> ->]|Hin].
    - rewrite get_writes_other by (right; rewrite Hl; auto). eapply get_write_same; eauto.
    - apply IH; auto. rewrite get_write_other; auto. right. intros E. apply H1. simpl. rewrite E.
      apply (in_map (fun kv => lower (fst kv))) in Hin. auto.
  Qed.

  (** ** extract_parameters is a batch of writes *)

  Variable read_float : text -> option F.

  Definition param_writes (tpl : config) (s : text) (opts : list (text * text)) : list (text * value) :=
    concat (map (fun kv => match key_from_template tpl s (fst kv) with
                           | None => []
                           | Some (key, kd) => match cast read_float kd (snd kv) with
                                               | Some v => [(key, v)]
                                               | None => []
                                               end
                           end) opts).

  Lemma extract_parameters_writes tpl d s c :
    extract_parameters read_float tpl d s c =
    match tassoc d s with None => c | Some opts => writes c s (param_writes tpl s opts) end.
  Proof.
    unfold extract_parameters. destruct (tassoc d s) as [opts|]; auto.
    revert c. induction opts as [|[k t] opts IH]; simpl; intros c; auto.
    unfold param_writes, writes. simpl. rewrite fold_left_app. fold (param_writes tpl s opts).
    rewrite IH. unfold writes. f_equal. simpl.
    destruct (key_from_template tpl s k) as [[key kd]|]; auto.
    destruct (cast read_float kd t) as [v|]; auto. simpl.
    destruct (set_config_value_cases c s key v) as [(_ & -> & ->)|[b ->]]; auto.
  Qed.

  Lemma key_from_template_lower (tpl : config) s k key kd : key_from_template tpl s k = Some (key, kd) -> lower key = lower k.
  Proof.
    unfold key_from_template. destruct (tassoc tpl s) as [sec|]; [|discriminate].
    destruct (find_key sec k) as [[x e]|] eqn:E; [|discriminate]. simpl. intros [= <- _].
    apply find_key_spec in E. apply E.
  Qed.

  Lemma param_writes_keys (tpl : config) s opts k : In k (map (fun kv : text * value => lower (fst kv)) (param_writes tpl s opts)) ->
    In k (map (fun kv => lower (fst kv)) opts).
  Proof.
    unfold param_writes. induction opts as [|[k' t] opts IH]; simpl; auto.
    rewrite map_app, in_app_iff. intros [H|H]; [|auto]. left.
    destruct (key_from_template tpl s k') as [[key kd]|] eqn:E; [|destruct H].
    destruct (cast read_float kd t); [|destruct H]. simpl in H. destruct H as [<-|[]].
    symmetry. eapply key_from_template_lower; eauto.
  Qed.

  Lemma param_writes_distinct tpl s opts : distinct_keys opts -> distinct_keys (param_writes tpl s opts).
  Proof.
    unfold distinct_keys. induction opts as [|[k t] opts IH]; simpl; intros H; [constructor|].
    inversion H; subst. unfold param_writes. simpl. fold (param_writes tpl s opts). rewrite map_app.
    destruct (key_from_template tpl s k) as [[key kd]|] eqn:E; simpl; auto.
    destruct (cast read_float kd t); simpl; auto. constructor; auto.
    intros Hin. apply param_writes_keys in Hin. rewrite (key_from_template_lower _ _ _ _ _ E) in Hin. auto.
  Qed.

  Lemma param_writes_In tpl s opts k t key kd v : In (k, t) opts -> key_from_template tpl s k = Some (key, kd) ->
    cast read_float kd t = Some v -> In (key, v) (param_writes tpl s opts).
  Proof.
    intros Hin Hk Hc. unfold param_writes. apply in_concat. exists [(key, v)]. split; [|left; auto].
    apply in_map_iff. exists (k, t). simpl. rewrite Hk, Hc. auto.
  Qed.

  Lemma param_writes_inv tpl s opts k : In (lower k) (map (fun kv : text * value => lower (fst kv)) (param_writes tpl s opts)) ->
    exists k' t key kd v, In (k', t) opts /\ lower k' = lower k /\ key_from_template tpl s k' = Some (key, kd) /\
      cast read_float kd t = Some v.
  Proof.
    unfold param_writes. rewrite concat_map, map_map. intros H. apply in_concat in H.
    destruct H as (l & Hl & Hk). apply in_map_iff in Hl. destruct Hl as ([k' t] & <- & Hin). simpl in Hk.
    destruct (key_from_template tpl s k') as [[key kd]|] eqn:E; [|destruct Hk].
    destruct (cast read_float kd t) as [v|] eqn:Ec; [|destruct Hk]. simpl in Hk. destruct Hk as [Hk|[]].
    exists k', t, key, kd, v. repeat split; auto. rewrite <- Hk. symmetry. eapply key_from_template_lower; eauto.
  Qed.

  (** What a file section makes of one parameter. *)
  Definition read_option (kd : kind) (opts : list (text * text)) (k : text) (old : value) : value :=
    match find_key opts k with
    | Some (_, t) => match cast read_float kd t with Some v => v | None => old end
    | None => old
    end.

  Lemma get_param_writes tpl s opts c k key kd v0 : distinct_keys opts -> nonempty k = true ->
    key_from_template tpl s k = Some (key, kd) -> get_from c s k = Ok v0 ->
    get_from (writes c s (param_writes tpl s opts)) s k = Ok (read_option kd opts k v0).
  Proof.
    intros Hd Hk Ht Hg. unfold read_option.
    destruct (find_key opts k) as [[k' t]|] eqn:Ef.
    - destruct (find_key_spec _ _ _ _ Ef) as [Hl _]. apply find_key_In in Ef.
      assert (Ht' : key_from_template tpl s k' = Some (key, kd)).
      { rewrite <- Ht. unfold key_from_template. destruct (tassoc tpl s); auto. rewrite (find_key_lower _ k' k); auto. }
      destruct (cast read_float kd t) as [v|] eqn:Ec.
      + assert (Hlk : lower k = lower key) by (symmetry; eapply key_from_template_lower; eauto).
        eapply get_writes_same; eauto using param_writes_distinct, param_writes_In.
        * rewrite <- Hk. symmetry. apply lower_nonempty. auto.
        * unfold get_from in *. destruct (tassoc c s); [|discriminate]. rewrite (find_key_lower _ key k); eauto.
      + rewrite get_writes_other; auto. right. intros Hin. apply param_writes_inv in Hin.
        destruct Hin as (k2 & t2 & key2 & kd2 & v2 & Hin2 & Hl2 & Hk2 & Hc2).
        assert (E2 : find_key opts k2 = Some (k2, t2)) by (apply find_key_complete; auto).
        assert (E1 : find_key opts k' = Some (k', t)) by (apply find_key_complete; auto).
        rewrite (find_key_lower _ k2 k') in E2 by congruence. rewrite E1 in E2. inversion E2; subst k2 t2.
        rewrite Ht' in Hk2. inversion Hk2; subst. congruence.
    - rewrite get_writes_other; auto. right. intros Hin. apply param_writes_inv in Hin.
      destruct Hin as (k2 & t2 & key2 & kd2 & v2 & Hin2 & Hl2 & _).
      assert (E2 : find_key opts k2 = Some (k2, t2)) by (apply find_key_complete; auto).
      rewrite (find_key_lower _ k2 k) in E2 by auto. congruence.
  Qed.
End WithFloats.

(** ** Keys of a dictionary read from a file are lower case and distinct. *)

Definition lower_keys {A} (d : list (text * A)) : Prop := Forall (fun kv => lower (fst kv) = fst kv) d.

Lemma lower_keys_set {A} (d : list (text * A)) k v : lower_keys d -> lower_keys (tassoc_set d (lower k) v).
Proof.
  unfold lower_keys. induction 1 as [|[k' v'] d H Hd IH]; simpl; [repeat constructor; apply lower_idem|].
  simpl in H. destruct (teqb k' (lower k)); constructor; auto.
Qed.

Lemma lower_distinct {A} (d : list (text * A)) : lower_keys d -> NoDup (map fst d) -> distinct_keys d.
Proof.
  unfold distinct_keys, lower_keys. intros H. replace (map (fun kv => lower (fst kv)) d) with (map fst d); auto.
  induction H; simpl; congruence.
Qed.

Lemma fold_res_inv {A B} (P : B -> Prop) (f : B -> A -> res B) l b b' :
  (forall b x b', P b -> f b x = Ok b' -> P b') -> P b -> fold_res f l b = Ok b' -> P b'.
Proof.
  intros Hf. revert b. induction l as [|x l IH]; simpl; intros b Hb H; [congruence|].
  destruct (f b x) as [b1|] eqn:E; [|discriminate]. apply (IH b1); auto. apply (Hf b x b1); auto.
Qed.

Lemma read_options_keys l opts : read_options l = Ok opts -> distinct_keys opts.
Proof.
  intros H. cut (lower_keys opts /\ NoDup (map fst opts)); [intros [H1 H2]; apply lower_distinct; auto|].
  unfold read_options in H. revert H. apply (fold_res_inv (fun o => lower_keys o /\ NoDup (map fst o))); [|split; constructor].
  intros o [k v] o' [P1 P2] Hs. cbn [fst snd] in Hs.
  destruct (interpolate_percent v) as [w|e]; cbn [bind] in Hs; [|discriminate]. inversion Hs; subst.
  split; [apply lower_keys_set|apply tassoc_set_NoDup]; auto.
Qed.

Lemma get_inifile_params_keys t d : get_inifile_params t = Ok d ->
  lower_keys d /\ NoDup (map fst d) /\ Forall (fun s => distinct_keys (snd s)) d.
Proof.
  unfold get_inifile_params. destruct (parse_ini t) as [secs|e]; cbn [bind]; [|discriminate].
  cbv zeta. set (defaults := match tassoc secs (T "DEFAULT") with Some x => x | None => [] end).
  apply (fold_res_inv (fun d => lower_keys d /\ NoDup (map fst d) /\ Forall (fun s => distinct_keys (snd s)) d));
    [|repeat split; constructor].
  intros b [name own] b' (H1 & H2 & H3) Hb. cbn [fst snd] in Hb.
  destruct (teqb name (T "DEFAULT")); [inversion Hb; subst; auto|].
  destruct (read_options (with_defaults defaults own)) as [opts|e] eqn:Eo; cbn [bind] in Hb; [|discriminate].
  inversion Hb; subst. apply read_options_keys in Eo.
  split; [apply lower_keys_set; auto|]. split; [apply tassoc_set_NoDup; auto|].
  clear - H3 Eo. induction H3 as [|[k v] b Hk Hb IH]; simpl; [repeat constructor; auto|].
  destruct (teqb k (lower name)); constructor; auto.
Qed.
