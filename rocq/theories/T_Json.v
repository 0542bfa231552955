(** Theorems for C93 (a polygon file is read as it is written), and C37 and C38
    with the cache as text. *)
From Coq Require Import String List Ascii ZArith QArith Bool Lia.
From Verif Require Import PyBase Num Text L_Text M_Classify M_Polygon M_Json L_Json T_Cache.
Import ListNotations.
Local Open Scope char_scope.

(** * json.load *)

(** A file is read if and only if it is a JSON document, and then as the value
    it denotes; [document_text] is the grammar in L_Json.v. *)
Theorem C93_reader :
  forall t v, loads t = Ok v <-> document_text t v.
Proof. split; [apply loads_sound|apply loads_complete]. Qed.
Print Assumptions C93_reader.

(** What json.dump writes denotes the value it was given. *)
Theorem C93_writer :
  forall v, writable v -> loads (dump v) = Ok v.
Proof. exact loads_dump. Qed.
Print Assumptions C93_writer.

(** * Polygon files *)

Definition good_suffix (name : text) : Prop := suffix name = T ".json" \/ suffix name = T ".geojson".

Lemma good_suffix_test name : good_suffix name ->
  negb (teqb (suffix name) (T ".json") || teqb (suffix name) (T ".geojson")) = false.
Proof. intros [->| ->]; reflexivity. Qed.

(** A file that is no JSON document is refused. *)
Theorem C93_no_document_is_refused :
  forall lower_str float_of name t, good_suffix name ->
    (forall v, ~ document_text t v) ->
    j_from_file lower_str float_of name (Some t) = Raise PolygonError.
Proof.
  intros lo fl name t G N. unfold j_from_file. rewrite good_suffix_test by auto.
  destruct (loads t) as [v|] eqn:E; [|reflexivity]. apply loads_sound in E. destruct (N v E).
Qed.
Print Assumptions C93_no_document_is_refused.

(** A file of which the end is missing is refused, wherever it is cut. *)
Theorem C93_cut_off_file_is_refused :
  forall lower_str float_of name t d p q, good_suffix name ->
    document_text t (JObj d) -> t = p ++ q -> (exists c, In c q /\ is_blank c = false) ->
    j_from_file lower_str float_of name (Some p) = Raise PolygonError.
Proof.
  intros lo fl name t d p q G D E C. unfold j_from_file. rewrite good_suffix_test by auto.
  rewrite (cut_off_fails t (JObj d) p q); eauto.
Qed.
Print Assumptions C93_cut_off_file_is_refused.

(** ** The features of a file *)

Definition plain_ascii (t : text) : Prop := Forall (fun c => (N_of_ascii c < 128)%N) t.

(** A property value in the file. *)
Inductive value_json : value -> json -> Prop :=
| vj_null : value_json VNull JNull
| vj_int z : value_json (VInt z) (JInt z)
| vj_true : value_json (VInt 1) (JBool true)
| vj_false : value_json (VInt 0) (JBool false)
| vj_str t : value_json (VStr t) (JStr (codes t))
| vj_arr l : l <> [] -> value_json VMany (JArr l)
| vj_obj d : d <> [] -> value_json VMany (JObj d).

Definition pair_json (kv : text * value) (jv : str * json) : Prop :=
  fst jv = codes (fst kv) /\ plain_ascii (fst kv) /\ value_json (snd kv) (snd jv).

(** The properties of a feature: an object with distinct names, or none. *)
Inductive props_json : option dict -> option json -> Prop :=
| pj_missing : props_json None None
| pj_null : props_json None (Some JNull)
| pj_some d jd : Forall2 pair_json d jd -> NoDup (map fst jd) -> props_json (Some d) (Some (JObj jd)).

Section Rings.
  (** How a ring is written does not matter. *)
  Variable ring_json : ring -> json.

  Inductive geometry_json : geometry -> option json -> Prop :=
  | gj_polygon rings g : dict_get (key "type") g = Some (JStr (key "Polygon")) ->
      dict_get (key "coordinates") g = Some (JArr (map ring_json rings)) ->
      geometry_json (GPolygon rings) (Some (JObj g))
  | gj_multi parts g : dict_get (key "type") g = Some (JStr (key "MultiPolygon")) ->
      dict_get (key "coordinates") g = Some (JArr (map (fun p => JArr (map ring_json p)) parts)) ->
      geometry_json (GMultiPolygon parts) (Some (JObj g))
  | gj_other s g : dict_get (key "type") g = Some (JStr s) -> s <> key "Polygon" -> s <> key "MultiPolygon" ->
      geometry_json GOther (Some (JObj g))
  | gj_null : geometry_json GNull (Some JNull)
  | gj_missing : geometry_json GMissing None.

  (** A feature; other members ("type", "id", ...) may be there. *)
  Definition feature_json (f : feature) (v : json) : Prop :=
    exists d, v = JObj d /\ props_json (f_props f) (dict_get (key "properties") d) /\
      geometry_json (f_geometry f) (dict_get (key "geometry") d).

  (** A file with these features. *)
  Definition features_json (fs : list feature) (v : json) : Prop :=
    exists d l, v = JObj d /\ dict_get (key "features") d = Some (JArr l) /\ Forall2 feature_json fs l.

  (** A polygon that was read: its ring and its properties, found under the
      name in lower case. *)
  Definition read_polygon (p : polygon) (q : j_polygon) : Prop :=
    jp_coordinates q = ring_json (p_ring p) /\
    (forall k, match lookup k (p_props p), dict_get (codes k) (jp_props q) with
               | Some v, Some j => value_json v j
               | None, None => True
               | _, _ => False
               end).

  Definition same_outcome {A B} (R : A -> B -> Prop) (x : res A) (y : res B) : Prop :=
    match x, y with Ok a, Ok b => R a b | Raise e, Raise e' => e = e' | _, _ => False end.

  Lemma codes_inj a b : codes a = codes b -> a = b.
  Proof.
    revert b. induction a as [|x a IH]; intros [|y b] E; try discriminate E; [reflexivity|].
    unfold codes in E. cbn [map] in E. apply cons_inj in E. destruct E as [E1 E2].
    f_equal; [|apply IH; exact E2].
    rewrite <- (ascii_N_embedding x), <- (ascii_N_embedding y). f_equal. exact E1.
  Qed.

  Lemma seqb_codes a b : seqb (codes a) (codes b) = teqb a b.
  Proof.
    destruct (teqb_spec a b) as [->|N]; [apply seqb_refl|].
    destruct (seqb (codes a) (codes b)) eqn:E; [|reflexivity].
    apply seqb_eq in E. apply codes_inj in E. contradiction.
  Qed.

  (** The value of the last pair with a key. *)
  Fixpoint last_get {A} (k : str) (l : list (str * A)) : option A :=
    match l with
    | [] => None
    | (k', v) :: l' => match last_get k l' with Some v' => Some v' | None => if seqb k' k then Some v else None end
    end.

  Lemma dict_get_set {A} k k' (v : A) d :
    dict_get k (dict_set k' v d) = if seqb k' k then Some v else dict_get k d.
  Proof.
    induction d as [|[k2 v2] d IH]; cbn.
    - reflexivity.
    - destruct (seqb k2 k') eqn:E.
      + apply seqb_eq in E. subst k2. cbn. destruct (seqb k' k); reflexivity.
      + cbn. rewrite IH. destruct (seqb k2 k) eqn:E2; [|reflexivity].
        destruct (seqb k' k) eqn:E3; [|reflexivity].
        apply seqb_eq in E2. apply seqb_eq in E3. subst. rewrite seqb_refl in E. discriminate.
  Qed.

  Lemma dict_get_of {A} k (l : list (str * A)) : dict_get k (dict_of l) = last_get k l.
  Proof.
    unfold dict_of.
    assert (G : forall acc, dict_get k (fold_left (fun d kv => dict_set (fst kv) (snd kv) d) l acc)
                            = match last_get k l with Some v => Some v | None => dict_get k acc end).
    { induction l as [|[k' v] l IH]; intros acc; [reflexivity|]. cbn [fold_left fst snd last_get].
      rewrite IH, dict_get_set. destruct (last_get k l); [reflexivity|]. destruct (seqb k' k); reflexivity. }
    rewrite G. destruct (last_get k l); reflexivity.
  Qed.

  Variable lower_str : str -> str.
  Variable float_of : text -> num.
  Hypothesis lower_ascii : forall t, plain_ascii t -> lower_str (codes t) = codes (lower t).

  Lemma props_read d jd : Forall2 pair_json d jd -> forall k,
    match lookup k (lower_keys d), dict_get (codes k) (dict_of (map (fun kv => (lower_str (fst kv), snd kv)) jd)) with
    | Some v, Some j => value_json v j
    | None, None => True
    | _, _ => False
    end.
  Proof.
    intros F k. rewrite dict_get_of. induction F as [|[k1 v1] [k2 j2] d jd (E & A & V) F IH]; [exact I|].
    cbn [fst snd] in E, A, V. cbn [lower_keys map fst snd lookup last_get]. fold (lower_keys d).
    rewrite E, lower_ascii, seqb_codes by auto.
    destruct (lookup k (lower_keys d)) as [v|].
    - destruct (last_get (codes k) _) as [j|]; [exact IH|destruct IH].
    - destruct (last_get (codes k) _) as [j|]; [destruct IH|]. destruct (teqb (lower k1) k); [exact V|exact I].
  Qed.

  Lemma feature_read f v : feature_json f v ->
    same_outcome read_polygon (polygon_of_feature f) (j_polygon_of_feature lower_str v).
  Proof.
    intros (d & -> & P & G). unfold polygon_of_feature, j_polygon_of_feature.
    cbn [j_get bind]. inversion P as [E1 E2|E1 E2|raw jd F N E1 E2].
    - reflexivity.
    - reflexivity.
    - pose proof (props_read raw jd F) as R.
      pose proof (R (T "name")) as Rn. change (codes (T "name")) with (key "name") in Rn.
      cbn [bind].
      destruct (lookup (T "name") (lower_keys raw)) as [nv|], (dict_get (key "name") _) as [nj|]; try destruct Rn; try reflexivity;
      (cbn [j_item]; inversion G as [rings g Gt Gc Eg1 Eg2|parts g Gt Gc Eg1 Eg2|s g Gt N1 N2 Eg1 Eg2|Eg1 Eg2|Eg1 Eg2];
       try reflexivity; cbn [bind j_item]; rewrite Gt; cbn [bind j_is];
      [ change (seqb (key "Polygon") (key "Polygon")) with true; cbn [orb negb]; rewrite Gc; cbn [bind j_len];
        rewrite map_length; destruct rings as [|r [|r2 rs]]; cbn; try reflexivity; split; auto
      | change (seqb (key "MultiPolygon") (key "Polygon")) with false;
        change (seqb (key "MultiPolygon") (key "MultiPolygon")) with true; cbn [orb negb]; rewrite Gc; cbn [bind j_len];
        rewrite map_length; destruct parts as [|p ps]; [reflexivity|];
        destruct ps as [|p2 ps]; cbn;
        [ destruct p as [|r rs]; cbn; [reflexivity|split; auto]
        | rewrite map_length; destruct p as [|r [|r2 rs]]; cbn; try reflexivity; split; auto ]
      | destruct (seqb s (key "Polygon")) eqn:Es; [apply seqb_eq in Es; contradiction|];
        destruct (seqb s (key "MultiPolygon")) eqn:Es2; [apply seqb_eq in Es2; contradiction|]; reflexivity ]).
  Qed.

  Lemma features_read fs l : Forall2 feature_json fs l ->
    same_outcome (Forall2 read_polygon) (map_res polygon_of_feature fs) (map_res (j_polygon_of_feature lower_str) l).
  Proof.
    intros F. induction F as [|f v fs l H F IH]; cbn [map_res]; [constructor|].
    apply feature_read in H. unfold same_outcome in *.
    destruct (polygon_of_feature f), (j_polygon_of_feature lower_str v); try contradiction; auto.
    destruct (map_res polygon_of_feature fs), (map_res (j_polygon_of_feature lower_str) l); try contradiction; auto.
  Qed.

  Lemma truthy_json v j : value_json v j -> j_truthy float_of j = truthy v.
  Proof.
    intros H. inversion H; subst; try reflexivity.
    - cbn. unfold Qeq_bool. cbn. rewrite Z.mul_1_r. destruct z; reflexivity.
    - destruct t; reflexivity.
    - destruct l; [contradiction|reflexivity].
    - destruct d; [contradiction|reflexivity].
  Qed.

  Lemma hashable_json v j : value_json v j -> j_hashable j = hashable v.
  Proof. intros H. inversion H; reflexivity. Qed.

  Lemma Zeq_bool_eqb x y : Zeq_bool x y = Z.eqb x y.
  Proof. destruct (Z.eqb_spec x y) as [->|N]; [apply Zeq_is_eq_bool; auto|]. destruct (Zeq_bool x y) eqn:E; auto. apply Zeq_bool_eq in E. contradiction. Qed.

  Lemma eqb_json v j v' j' : value_json v j -> value_json v' j' ->
    hashable v = true -> hashable v' = true -> j_eqb float_of j j' = value_eqb v v'.
  Proof.
    intros H H' X X'. inversion H; subst; try discriminate X; inversion H'; subst; try discriminate X'; try reflexivity;
      try (cbn; unfold Qeq_bool; cbn [Qnum Qden inject_Z]; rewrite Zeq_bool_eqb, ?Z.mul_1_r; reflexivity).
    cbn. apply seqb_codes.
  Qed.

  Lemma distinct_json vs js : Forall2 value_json vs js -> forallb hashable vs = true ->
    j_distinct float_of js = distinct vs.
  Proof.
    intros F. induction F as [|v j vs js V F IH]; [reflexivity|]. cbn [forallb]. intros X.
    apply andb_true_iff in X. destruct X as [X Xs]. cbn [j_distinct distinct]. rewrite IH by auto. f_equal. f_equal.
    clear IH. induction F as [|v' j' vs js V' F IH]; [reflexivity|]. cbn [existsb].
    cbn [forallb] in Xs. apply andb_true_iff in Xs. destruct Xs as [X' Xs].
    rewrite IH by auto. f_equal. apply eqb_json; auto.
  Qed.

  Lemma set_polygons_read ps qs : Forall2 read_polygon ps qs ->
    same_outcome (Forall2 read_polygon) (set_polygons ps) (j_set_polygons float_of qs).
  Proof.
    intros F. unfold set_polygons, j_set_polygons.
    assert (N : Forall2 value_json (map (fun p => get (T "name") (p_props p)) ps)
                  (map (fun p => match dict_get (key "name") (jp_props p) with Some v => v | None => JNull end) qs)).
    { induction F as [|p q ps qs [_ R] F IH]; cbn [map]; constructor; [|exact IH].
      specialize (R (T "name")). change (codes (T "name")) with (key "name") in R. unfold get.
      destruct (lookup (T "name") (p_props p)), (dict_get (key "name") (jp_props q)); try contradiction; auto. constructor. }
    set (vs := map (fun p => get (T "name") (p_props p)) ps) in *.
    set (js := map (fun p => match dict_get (key "name") (jp_props p) with Some v => v | None => JNull end) qs) in *.
    assert (E1 : forallb (j_truthy float_of) js = forallb truthy vs).
    { clear F. induction N as [|v j vs js V N IH]; [reflexivity|]. cbn. rewrite IH, (truthy_json v j V). reflexivity. }
    assert (E2 : forallb j_hashable js = forallb hashable vs).
    { clear F E1. induction N as [|v j vs js V N IH]; [reflexivity|]. cbn. rewrite IH, (hashable_json v j V). reflexivity. }
    rewrite E1, E2. destruct (negb (forallb truthy vs)); [reflexivity|].
    destruct (forallb hashable vs) eqn:H; cbn [negb]; [|reflexivity].
    rewrite (distinct_json vs js N H). destruct (negb (distinct vs)); [reflexivity|exact F].
  Qed.
End Rings.

(** A polygon file is read with exactly its features: the model that reads the
    text behaves as the model of M_Polygon.v does on the features, with the same
    rings, the same property values and the same errors.  C35, C36 and C68 are
    about the latter. *)
Theorem C93_file_is_read_as_written :
  forall ring_json lower_str float_of,
    (forall t, plain_ascii t -> lower_str (codes t) = codes (lower t)) ->
    forall name t v fs, document_text t v -> features_json ring_json fs v ->
      same_outcome (Forall2 (read_polygon ring_json))
        (from_file name (Features (Some fs)))
        (j_from_file lower_str float_of name (Some t)).
Proof.
  intros rj lo fl L name t v fs D (d & l & -> & G & F).
  unfold from_file, j_from_file.
  destruct (negb (teqb (suffix name) (T ".json") || teqb (suffix name) (T ".geojson"))); [reflexivity|].
  rewrite (loads_complete t _ D). cbn [j_get bind]. rewrite G.
  destruct fs as [|f fs].
  - inversion F; subst. reflexivity.
  - assert (X : j_truthy fl (JArr l) = true) by (inversion F; reflexivity).
    rewrite X. cbn [negb j_iter bind].
    pose proof (features_read rj lo L _ _ F) as R. unfold same_outcome in R.
    unfold polygons_from_geojson_data.
    destruct (map_res polygon_of_feature (f :: fs)) as [ps|e], (map_res (j_polygon_of_feature lo) l) as [qs|e'];
      try contradiction; cbn [bind].
    + apply set_polygons_read; auto.
    + exact R.
Qed.
Print Assumptions C93_file_is_read_as_written.

(** ** Whatever the document is *)

(** The first item of a list, or the first character of a text. *)
Inductive first_item : json -> json -> Prop :=
| fi_list r l : first_item (JArr (r :: l)) r
| fi_text c s : first_item (JStr (c :: s)) (JStr [c]).
Inductive single : json -> Prop :=
| si_list r : single (JArr [r])
| si_text c : single (JStr [c])
| si_object kv : single (JObj [kv]).

(** A feature that gives a polygon: an object with properties of which one is
    called name, and with the geometry type Polygon or MultiPolygon. *)
Definition accepted_feature (lower_str : str -> str) (f : json) (p : j_polygon) : Prop :=
  exists fd raw g c,
    f = JObj fd /\ dict_get (key "properties") fd = Some (JObj raw) /\
    jp_props p = dict_of (map (fun kv => (lower_str (fst kv), snd kv)) raw) /\
    dict_get (key "name") (jp_props p) <> None /\
    dict_get (key "geometry") fd = Some (JObj g) /\ dict_get (key "coordinates") g = Some c /\
    ((dict_get (key "type") g = Some (JStr (key "Polygon")) /\ single c /\ first_item c (jp_coordinates p)) \/
     (dict_get (key "type") g = Some (JStr (key "MultiPolygon")) /\
      exists q, first_item c q /\ (single c \/ single q) /\ first_item q (jp_coordinates p))).

Lemma j_first_item v r : j_first v = Ok r <-> first_item v r.
Proof.
  split.
  - destruct v as [| | | |s|l|d]; cbn; try discriminate.
    + destruct s; [discriminate|]. intros [= <-]. constructor.
    + destruct l; [discriminate|]. intros [= <-]. constructor.
  - intros []; reflexivity.
Qed.

Lemma j_len_single v n : j_len v = Ok n -> (Nat.eqb n 1 = true <-> single v).
Proof.
  destruct v as [| | | |s|l|d]; cbn; try discriminate; intros [= <-].
  - destruct s as [|a [|b s]]; cbn; split; try discriminate; try (intros X; inversion X; fail); auto; constructor.
  - destruct l as [|a [|b l]]; cbn; split; try discriminate; try (intros X; inversion X; fail); auto; constructor.
  - destruct d as [|a [|b d]]; cbn; split; try discriminate; try (intros X; inversion X; fail); auto; constructor.
Qed.

Lemma first_len v r : first_item v r -> exists n, j_len v = Ok n.
Proof. intros []; cbn; eauto. Qed.

(** A polygon is read from exactly these features; all other features make the
    file unreadable. *)
Theorem C93_accepted_features :
  forall lower_str f p,
    j_polygon_of_feature lower_str f = Ok p <-> accepted_feature lower_str f p.
Proof.
  intros lo f p. split.
  - unfold j_polygon_of_feature. destruct f as [| | | |?|?|fd]; cbn [j_get bind]; try discriminate.
    destruct (dict_get (key "properties") fd) as [raw|] eqn:Ep; cbn [bind]; [|discriminate].
    destruct raw as [| | | |?|?|raw]; try discriminate.
    destruct (dict_get (key "name") _) as [nv|] eqn:En; [|discriminate].
    cbn [j_item]. destruct (dict_get (key "geometry") fd) as [g|] eqn:Eg; cbn [bind]; [|discriminate].
    destruct g as [| | | |?|?|g]; cbn [j_item bind]; try discriminate.
    destruct (dict_get (key "type") g) as [t|] eqn:Et; cbn [bind]; [|discriminate].
    destruct (j_is t (key "Polygon")) eqn:J1; cbn [orb negb].
    + destruct t as [| | | |t|?|?]; try discriminate J1. apply seqb_eq in J1. subst t.
      destruct (dict_get (key "coordinates") g) as [c|] eqn:Ec; cbn [bind]; [|discriminate].
      destruct (j_len c) as [n|] eqn:El; cbn [bind]; [|discriminate].
      destruct (Nat.eqb n 1) eqn:E1; cbn [negb]; [|discriminate].
      destruct (j_first c) as [r|] eqn:F; cbn [bind]; [|discriminate]. intros [= <-].
      exists fd, raw, g, c. cbn [jp_props jp_coordinates]. repeat split; auto; [congruence|].
      left. split; auto. split; [apply (j_len_single c n); auto|apply j_first_item; auto].
    + destruct (j_is t (key "MultiPolygon")) eqn:J2; cbn [orb negb]; [|discriminate].
      destruct t as [| | | |t|?|?]; try discriminate J2. apply seqb_eq in J2. subst t.
      destruct (dict_get (key "coordinates") g) as [c|] eqn:Ec; cbn [bind]; [|discriminate].
      destruct (j_len c) as [n|] eqn:El; cbn [bind]; [|discriminate].
      intros R. exists fd, raw, g, c.
      assert (X : exists q r, first_item c q /\ (single c \/ single q) /\ first_item q r /\
                    p = mk_j_polygon r (dict_of (map (fun kv => (lo (fst kv), snd kv)) raw))).
      { destruct (Nat.eqb n 1) eqn:E1.
        - destruct (j_first c) as [q|] eqn:F; cbn [bind] in R; [|discriminate R].
          destruct (j_first q) as [r|] eqn:F2; cbn [bind] in R; [|discriminate R]. injection R as <-.
          exists q, r. split; [apply j_first_item; auto|]. split; [left; apply (j_len_single c n); auto|].
          split; [apply j_first_item; auto|reflexivity].
        - destruct (j_first c) as [q|] eqn:F; cbn [bind] in R; [|discriminate R].
          destruct (j_len q) as [m|] eqn:Em; cbn [bind] in R; [|discriminate R].
          destruct (Nat.eqb m 1) eqn:E2; cbn [negb] in R; [|discriminate R].
          destruct (j_first q) as [r|] eqn:F2; cbn [bind] in R; [|discriminate R]. injection R as <-.
          exists q, r. split; [apply j_first_item; auto|]. split; [right; apply (j_len_single q m); auto|].
          split; [apply j_first_item; auto|reflexivity]. }
      destruct X as (q & r & F1 & Sg & F2 & ->). cbn [jp_props jp_coordinates]. repeat split; auto; [congruence|].
      right. split; auto. exists q. auto.
  - intros (fd & raw & g & c & -> & Ep & Pp & En & Eg & Ec & X).
    unfold j_polygon_of_feature. cbn [j_get bind]. rewrite Ep. cbn [bind]. rewrite <- Pp.
    destruct (dict_get (key "name") (jp_props p)) as [nv|]; [|congruence].
    cbn [j_item]. rewrite Eg. cbn [bind j_item].
    destruct p as [r props]; cbn [jp_props jp_coordinates] in *.
    destruct X as [(Et & Sg & F)|(Et & q & F & Sg & F2)]; rewrite Et; cbn [bind j_is]; rewrite ?Ec; cbn [bind].
    + change (seqb (key "Polygon") (key "Polygon")) with true. cbn [orb negb].
      destruct (first_len c r F) as (n & El). rewrite El. cbn [bind].
      destruct (Nat.eqb n 1) eqn:E1; [|apply (j_len_single c n El) in Sg; congruence].
      apply j_first_item in F. cbn [negb]. rewrite F. reflexivity.
    + change (seqb (key "MultiPolygon") (key "Polygon")) with false.
      change (seqb (key "MultiPolygon") (key "MultiPolygon")) with true. cbn [orb negb].
      destruct (first_len c q F) as (n & El). destruct (first_len q r F2) as (m & Em).
      apply j_first_item in F, F2. rewrite El. cbn [bind]. rewrite F. cbn [bind]. rewrite Em. cbn [bind]. rewrite F2. cbn [bind].
      destruct (Nat.eqb n 1) eqn:E1; [reflexivity|]. destruct Sg as [Sg|Sg].
      * apply (j_len_single c n El) in Sg. congruence.
      * apply (j_len_single q m Em) in Sg. rewrite Sg. reflexivity.
Qed.
Print Assumptions C93_accepted_features.

Definition polygon_name (p : j_polygon) : json :=
  match dict_get (key "name") (jp_props p) with Some v => v | None => JNull end.

(** A value that counts as given, and equal values: numbers by their value,
    where true is 1 and false is 0. *)
Inductive stands_for (float_of : text -> num) : json -> num -> Prop :=
| sf_int z : stands_for float_of (JInt z) (Fin (inject_Z z))
| sf_true : stands_for float_of (JBool true) (Fin 1)
| sf_false : stands_for float_of (JBool false) (Fin 0)
| sf_float t : stands_for float_of (JFloat t) (float_of t).
Definition given (float_of : text -> num) (v : json) : Prop :=
  v <> JNull /\ v <> JStr [] /\ v <> JArr [] /\ v <> JObj [] /\ (forall q, stands_for float_of v (Fin q) -> ~ q == 0).
Inductive equal_values (float_of : text -> num) : json -> json -> Prop :=
| ev_null : equal_values float_of JNull JNull
| ev_text s : equal_values float_of (JStr s) (JStr s)
| ev_number a b x y : stands_for float_of a (Fin x) -> stands_for float_of b (Fin y) -> x == y -> equal_values float_of a b
| ev_inf a b : stands_for float_of a PInf -> stands_for float_of b PInf -> equal_values float_of a b
| ev_minus_inf a b : stands_for float_of a NInf -> stands_for float_of b NInf -> equal_values float_of a b.

Lemma stands_number fl v x : stands_for fl v x <-> j_number fl v = Some x.
Proof.
  split; [intros []; reflexivity|]. destruct v as [|[]|z|t| | |]; cbn; try discriminate; intros [= <-]; constructor.
Qed.

Lemma truthy_given fl v : j_truthy fl v = true <-> given fl v.
Proof.
  unfold given.
  assert (N : forall x, j_number fl v = Some x ->
      (match x with Fin q => negb (Qeq_bool q 0) | _ => true end = true <-> forall q, stands_for fl v (Fin q) -> ~ q == 0)).
  { intros x E. split.
    - intros H q S0. apply stands_number in S0. rewrite E in S0. injection S0 as ->.
      apply negb_true_iff in H. apply Qeq_bool_neq. exact H.
    - intros H. destruct x as [q| | |]; auto. apply negb_true_iff. apply not_true_iff_false. intros X.
      apply Qeq_bool_iff in X. apply (H q); auto. apply stands_number. exact E. }
  destruct v as [|b|z|t|s|l|d].
  - split; [discriminate|]. intros [X _]. congruence.
  - cbn in N |- *. rewrite (N _ eq_refl). intuition discriminate.
  - cbn in N |- *. rewrite (N _ eq_refl). intuition discriminate.
  - cbn in N |- *. specialize (N _ eq_refl). destruct (fl t) as [q| | |]; rewrite N; intuition discriminate.
  - destruct s; cbn; [split; [discriminate|intuition congruence]|].
    split; [intros _|auto]. repeat split; try discriminate. intros q X. inversion X.
  - destruct l; cbn; [split; [discriminate|intuition congruence]|].
    split; [intros _|auto]. repeat split; try discriminate. intros q X. inversion X.
  - destruct d; cbn; [split; [discriminate|intuition congruence]|].
    split; [intros _|auto]. repeat split; try discriminate. intros q X. inversion X.
Qed.

Lemma eqb_equal fl a b : j_eqb fl a b = true <-> equal_values fl a b.
Proof.
  assert (G : match j_number fl a, j_number fl b with
              | Some (Fin x), Some (Fin y) => Qeq_bool x y
              | Some PInf, Some PInf | Some NInf, Some NInf => true
              | _, _ => false
              end = true -> equal_values fl a b).
  { destruct (j_number fl a) as [x|] eqn:Ea; [|discriminate]. destruct (j_number fl b) as [y|] eqn:Eb; [|destruct x; discriminate].
    apply stands_number in Ea, Eb. destruct x, y; try discriminate; intros H.
    - apply Qeq_bool_iff in H. eapply ev_number; eauto.
    - apply ev_inf; auto.
    - apply ev_minus_inf; auto. }
  split.
  - intros H. unfold j_eqb in H.
    destruct a as [| | | |s| |], b as [| | | |t| |]; try (apply G; exact H).
    + constructor.
    + apply seqb_eq in H. subst. constructor.
  - intros X. inversion X as [|s|? ? x y A B E|? ? A B|? ? A B]; subst.
    + reflexivity.
    + apply seqb_refl.
    + apply stands_number in A, B. unfold j_eqb. rewrite A, B. apply Qeq_bool_iff in E.
      destruct a, b; try discriminate; exact E.
    + apply stands_number in A, B. unfold j_eqb. rewrite A, B. destruct a, b; try discriminate; reflexivity.
    + apply stands_number in A, B. unfold j_eqb. rewrite A, B. destruct a, b; try discriminate; reflexivity.
Qed.

(** The names are given and are no lists or objects, and no two are equal. *)
Definition proper_names (float_of : text -> num) (ps : list j_polygon) : Prop :=
  Forall (fun p => given float_of (polygon_name p) /\
                   (forall l, polygon_name p <> JArr l) /\ (forall d, polygon_name p <> JObj d)) ps /\
  forall i j p q, (i < j)%nat -> nth_error ps i = Some p -> nth_error ps j = Some q ->
    ~ equal_values float_of (polygon_name p) (polygon_name q).

Lemma hashable_plain v : j_hashable v = true <-> (forall l, v <> JArr l) /\ (forall d, v <> JObj d).
Proof.
  destruct v; cbn; split; intros H; auto; try (split; discriminate); try discriminate H; destruct H as [A B];
    [exfalso; eapply A; reflexivity|exfalso; eapply B; reflexivity].
Qed.

Definition names_by_tests (fl : text -> num) (ps : list j_polygon) : Prop :=
  Forall (fun p => j_truthy fl (polygon_name p) = true /\ j_hashable (polygon_name p) = true) ps /\
  forall i j p q, (i < j)%nat -> nth_error ps i = Some p -> nth_error ps j = Some q ->
    j_eqb fl (polygon_name p) (polygon_name q) = false.

Lemma proper_tests fl ps : names_by_tests fl ps <-> proper_names fl ps.
Proof.
  unfold names_by_tests, proper_names. rewrite !Forall_forall. split; intros [A B]; split.
  - intros p I. rewrite <- truthy_given, <- hashable_plain. auto.
  - intros i j p q L Ei Ej X. apply eqb_equal in X. rewrite (B i j p q) in X by auto. discriminate X.
  - intros p I. rewrite truthy_given, hashable_plain. auto.
  - intros i j p q L Ei Ej. apply not_true_iff_false. rewrite eqb_equal. eapply B; eauto.
Qed.

Lemma distinct_names fl ps :
  j_distinct fl (map polygon_name ps) = true <->
  (forall i j p q, (i < j)%nat -> nth_error ps i = Some p -> nth_error ps j = Some q ->
     j_eqb fl (polygon_name p) (polygon_name q) = false).
Proof.
  induction ps as [|a ps IH]; cbn [map j_distinct].
  - split; [|reflexivity]. intros _ [|i] j p q L E; discriminate E.
  - rewrite andb_true_iff, IH, negb_true_iff. split.
    + intros [X H] i j p q L Ei Ej. destruct j as [|j]; [lia|]. cbn in Ej. destruct i as [|i].
      * cbn in Ei. injection Ei as <-. apply nth_error_In in Ej.
        destruct (j_eqb fl (polygon_name a) (polygon_name q)) eqn:Y; [|reflexivity].
        rewrite <- X. symmetry. apply existsb_exists. exists (polygon_name q). split; [apply in_map; auto|auto].
      * cbn in Ei. apply (H i j); auto. lia.
    + intros H. split.
      * destruct (existsb _ _) eqn:Y; [|reflexivity]. apply existsb_exists in Y. destruct Y as (v & I & Y).
        apply in_map_iff in I. destruct I as (q & <- & I). apply In_nth_error in I. destruct I as (j & Ej).
        rewrite <- Y. apply (H 0%nat (S j)); auto. lia.
      * intros i j p q L Ei Ej. apply (H (S i) (S j)); auto. lia.
Qed.

Lemma set_polygons_proper fl ps qs :
  j_set_polygons fl ps = Ok qs <-> qs = ps /\ proper_names fl ps.
Proof.
  rewrite <- proper_tests. unfold j_set_polygons, names_by_tests.
  change (map (fun p => match dict_get (key "name") (jp_props p) with Some v => v | None => JNull end) ps)
    with (map polygon_name ps).
  rewrite Forall_forall, <- distinct_names.
  assert (X : forall f, forallb f (map polygon_name ps) = true <-> forall p, In p ps -> f (polygon_name p) = true).
  { intros f. rewrite forallb_forall. split.
    - intros H p I. apply H. apply in_map. auto.
    - intros H v I. apply in_map_iff in I. destruct I as (p & <- & I). auto. }
  pose proof (X (j_truthy fl)) as X1. pose proof (X j_hashable) as X2.
  destruct (forallb (j_truthy fl) _); cbn [negb].
  - destruct (forallb j_hashable _); cbn [negb].
    + destruct (j_distinct fl _); cbn [negb].
      * split; [intros [= <-]|intros [-> _]]; auto. split; auto. split; auto.
        intros p I. split; [apply X1|apply X2]; auto.
      * split; [discriminate|]. intros (_ & _ & E). discriminate E.
    + split; [discriminate|]. intros (_ & H & _). assert (false = true) by (apply X2; intros p I; apply (H p I)). discriminate.
  - split; [discriminate|]. intros (_ & H & _). assert (false = true) by (apply X1; intros p I; apply (H p I)). discriminate.
Qed.

Lemma accepted_all lo l ps :
  map_res (j_polygon_of_feature lo) l = Ok ps <-> Forall2 (accepted_feature lo) l ps.
Proof.
  revert ps. induction l as [|f l IH]; intros ps; cbn [map_res].
  - split; [intros [= <-]; constructor|intros H; inversion H; reflexivity].
  - split.
    + destruct (j_polygon_of_feature lo f) as [p|] eqn:E; [|discriminate].
      destruct (map_res (j_polygon_of_feature lo) l) as [qs|] eqn:E2; [|discriminate].
      intros [= <-]. constructor; [apply C93_accepted_features; auto|apply IH; auto].
    + intros H. inversion H as [|? p ? qs A B]; subst. apply C93_accepted_features in A. apply IH in B.
      rewrite A, B. reflexivity.
Qed.

(** A file is read exactly if it is a document with a list of such features, of
    which the names are given and differ. *)
Theorem C93_accepted_files :
  forall lower_str float_of name t ps, good_suffix name ->
    (j_from_file lower_str float_of name (Some t) = Ok ps <->
     exists d l, document_text t (JObj d) /\ dict_get (key "features") d = Some (JArr l) /\ l <> [] /\
       Forall2 (accepted_feature lower_str) l ps /\ proper_names float_of ps).
Proof.
  intros lo fl name t ps G. unfold j_from_file. rewrite good_suffix_test by auto. split.
  - destruct (loads t) as [doc|] eqn:E; [|discriminate]. apply loads_sound in E.
    destruct doc as [| | | |?|?|d]; cbn [j_get bind]; try discriminate.
    destruct (dict_get (key "features") d) as [data|] eqn:D; cbn [bind]; [|discriminate].
    destruct (j_truthy fl data) eqn:Tr; cbn [negb]; [|discriminate].
    destruct (j_iter data) as [l|] eqn:It; cbn [bind]; [|discriminate].
    destruct (map_res (j_polygon_of_feature lo) l) as [qs|] eqn:M; cbn [bind]; [|discriminate].
    intros X. apply set_polygons_proper in X. destruct X as [-> P]. apply accepted_all in M.
    assert (Y : data = JArr l /\ l <> []).
    { destruct data as [| | | |s|l'|d']; cbn in It; try discriminate It; injection It as <-.
      - destruct s; [discriminate Tr|]. inversion M as [|? ? ? ? A]. destruct A as (? & ? & ? & ? & A & _). discriminate A.
      - split; auto. intros ->. discriminate Tr.
      - destruct d'; [discriminate Tr|]. inversion M as [|? ? ? ? A]. destruct A as (? & ? & ? & ? & A & _). discriminate A. }
    destruct Y as [-> N]. exists d, l. auto.
  - intros (d & l & D & F & N & A & P). rewrite (loads_complete _ _ D). cbn [j_get bind]. rewrite F. cbn [bind].
    assert (Tr : j_truthy fl (JArr l) = true) by (destruct l; [congruence|reflexivity]).
    rewrite Tr. cbn [negb j_iter bind]. apply accepted_all in A. rewrite A. cbn [bind]. apply set_polygons_proper. auto.
Qed.
Print Assumptions C93_accepted_files.

(** The digits of an escape. *)
Definition hex_digits : list (ascii * N) :=
  [("0", 0%N); ("1", 1%N); ("2", 2%N); ("3", 3%N); ("4", 4%N); ("5", 5%N); ("6", 6%N); ("7", 7%N); ("8", 8%N); ("9", 9%N);
   ("a", 10%N); ("b", 11%N); ("c", 12%N); ("d", 13%N); ("e", 14%N); ("f", 15%N);
   ("A", 10%N); ("B", 11%N); ("C", 12%N); ("D", 13%N); ("E", 14%N); ("F", 15%N)].
Theorem C93_hex_digits : forall c n, hex_value c = Some n <-> In (c, n) hex_digits.
Proof.
  intros c n. split.
  - destruct c as [[] [] [] [] [] [] [] []]; vm_compute; try discriminate; intros [= <-]; tauto.
  - unfold hex_digits. intros H. cbn [In] in H.
    repeat (destruct H as [H|H]; [apply pair_equal_spec in H; destruct H as [<- <-]; reflexivity|]). destruct H.
Qed.
Print Assumptions C93_hex_digits.

(** A file as another program writes it, with blanks, line ends, an escape and
    members that are not used. *)
Definition example_file : text := T
"{ ""type"": ""FeatureCollection"",
  ""features"": [
    { ""type"": ""Feature"", ""properties"": { ""Name"": ""Waal \u00fc"", ""SECTION"": 2 },
      ""geometry"": {""type"":""Polygon"",""coordinates"":[[[0,0.5],[1e3,-2],[4,5]]]} } ] }
".

Definition example_ring : json :=
  JArr [JArr [JInt 0; JFloat (T "0.5")]; JArr [JFloat (T "1e3"); JInt (-2)]; JArr [JInt 4; JInt 5]].

Theorem C93_case :
  (exists v, loads example_file = Ok v /\
     features_json (fun _ => example_ring)
       [mk_feature (Some [(T "Name", VStr (T "Waal " ++ [ascii_of_N 252])); (T "SECTION", VInt 2)]) (GPolygon [[]])] v) /\
  j_from_file (fun s => map (fun n => if (N.leb 65 n && N.leb n 90)%bool then (n + 32)%N else n) s) (fun _ => NaN)
    (T "sections.geojson") (Some example_file)
  = Ok [mk_j_polygon example_ring
          [(key "name", JStr (key "Waal " ++ [252%N])); (key "section", JInt 2)]] /\
  (forall n, (n < 60)%nat -> loads (firstn n example_file) = Raise JSONDecodeError).
Proof.
  split; [|split].
  - eexists. split; [vm_compute; reflexivity|].
    do 2 eexists. split; [reflexivity|]. split; [vm_compute; reflexivity|].
    constructor; [|constructor]. eexists. split; [reflexivity|]. split.
    + cbn [f_props].
      match goal with |- props_json _ ?x => let y := eval vm_compute in x in change x with y end.
      apply pj_some.
      * constructor; [|constructor; [|constructor]].
        -- split; [reflexivity|]. split; [repeat constructor|]. apply (vj_str (T "Waal " ++ [ascii_of_N 252])).
        -- split; [reflexivity|]. split; [repeat constructor|]. apply vj_int.
      * constructor; [|constructor; [|constructor]]; intros H; repeat (destruct H as [H|H]; [discriminate H|]); destruct H.
    + match goal with |- geometry_json _ _ ?x => let y := eval vm_compute in x in change x with y end.
      apply gj_polygon; vm_compute; reflexivity.
  - vm_compute. reflexivity.
  - intros n L.
    assert (X : forallb (fun n => match loads (firstn n example_file) with Raise JSONDecodeError => true | _ => false end) (seq 0 60) = true)
      by (vm_compute; reflexivity).
    rewrite forallb_forall in X. specialize (X n ltac:(apply in_seq; lia)).
    destruct (loads (firstn n example_file)) as [|[]]; try discriminate X. reflexivity.
Qed.
Print Assumptions C93_case.

(** * The cache as text *)

(** Labels that a cache file can hold: texts, numbers and null. *)
Definition plain_labels (l : list value) : Prop := Forall (fun v => v <> VMany) l.
Definition plain_call (k : call) : Prop :=
  forall f e, c_labels k = Ok (f, e) -> plain_labels f /\ plain_labels e.

(** The text of a time is a JSON number from which the time is read back. *)
Definition time_texts (time_repr : Z -> text) (time_of : text -> option Z) : Prop :=
  forall z, json_text (time_repr z) (JFloat (time_repr z)) /\ time_of (time_repr z) = Some z.

Lemma ascii_not_surrogate c : high (N_of_ascii c) = false.
Proof. destruct c as [[] [] [] [] [] [] [] []]; reflexivity. Qed.

Lemma proper_codes t : proper (codes t).
Proof.
  induction t as [|c t IH]; [exact I|]. unfold codes. cbn [map proper]. fold (codes t).
  split; [|split; [exact IH|]].
  - destruct c as [[] [] [] [] [] [] [] []]; reflexivity.
  - destruct (codes t); [exact I|]. rewrite ascii_not_surrogate. intros [H _]. discriminate H.
Qed.

Lemma writable_value v : v <> VMany -> writable (json_of_value v).
Proof. destruct v; intros H; try constructor; [apply proper_codes|contradiction]. Qed.

Lemma value_back v : v <> VMany -> value_of_json (json_of_value v) = v.
Proof.
  destruct v as [|z|t|]; intros H; try reflexivity. cbn. f_equal. unfold codes. rewrite map_map.
  rewrite <- (map_id t) at 2. apply map_ext. apply ascii_N_embedding.
Qed.

Lemma labels_back l : plain_labels l -> labels_of_json (JArr (map json_of_value l)) = l.
Proof.
  intros H. cbn. rewrite map_map. induction H as [|v l V H IH]; [reflexivity|]. cbn. rewrite value_back, IH by auto. reflexivity.
Qed.

Section Cache.
  Variable time_repr : Z -> text.
  Variable time_of : text -> option Z.
  Hypothesis Times : time_texts time_repr time_of.

  Lemma cache_writable m f e : plain_labels f -> plain_labels e -> writable (cache_json time_repr m f e).
  Proof.
    intros F E. unfold cache_json.
    assert (A : forall l, plain_labels l -> writable (JArr (map json_of_value l))).
    { intros l H. constructor. induction H; constructor; auto using writable_value. }
    assert (ND : forall a b : str, a <> b -> NoDup [a; b]).
    { intros a b H. constructor; [intros [X|[]]; auto|constructor; [intros []|constructor]]. }
    constructor.
    - repeat apply Forall_cons; cbn [fst snd]; try apply Forall_nil; (split; [apply proper_codes|]); auto.
      constructor.
      + repeat apply Forall_cons; cbn [fst snd]; try apply Forall_nil; (split; [apply proper_codes|]).
        * constructor. apply Times.
        * constructor.
      + apply ND. discriminate.
    - cbn [map fst]. constructor; [intros [X|[X|[]]]; discriminate X|]. apply ND. discriminate.
  Qed.

  (** A cache file gives back what was written. *)
  Lemma load_cache_text m f e : plain_labels f -> plain_labels e ->
    exists jm, load_cache (cache_text time_repr m f e) = Ok (jm, (f, e)) /\
      forall m', same_meta time_of m' jm = meta_eqb m' m.
  Proof.
    intros F E. unfold load_cache, cache_text. rewrite loads_dump by (apply cache_writable; auto).
    cbn [bind]. unfold cache_json at 1 2 3.
    eexists. split.
    - cbn [j_get bind].
      change (dict_get (key "faces") _) with (Some (JArr (map json_of_value f))).
      change (dict_get (key "edges") _) with (Some (JArr (map json_of_value e))).
      cbn iota. rewrite !labels_back by auto. cbn [dict_get]. change (seqb (key "meta") (key "meta")) with true. cbn iota. reflexivity.
    - intros m'. unfold same_meta. cbn [length].
      change (dict_get (key "last_modified") _) with (Some (JFloat (time_repr (fst m)))).
      change (dict_get (key "file_size") _) with (Some (JInt (snd m))). cbn iota.
      destruct (Times (fst m)) as [_ ->]. unfold meta_eqb. reflexivity.
  Qed.

  Lemma cache_text_ends m f e : exists t, cache_text time_repr m f e = t ++ ["}"].
  Proof. unfold cache_text, cache_json. cbn [dump]. eexists ("{" :: _). reflexivity. Qed.

  (** A cache file that was not written to its end cannot be read. *)
  Lemma cut_cache m f e n : plain_labels f -> plain_labels e ->
    (n < length (cache_text time_repr m f e))%nat ->
    load_cache (firstn n (cache_text time_repr m f e)) = Raise JSONDecodeError.
  Proof.
    intros F E L. unfold load_cache.
    rewrite (cut_off_fails (cache_text time_repr m f e) (cache_json time_repr m f e)
               (firstn n (cache_text time_repr m f e)) (skipn n (cache_text time_repr m f e))); auto.
    - exists [], (cache_text time_repr m f e), []. repeat split; try constructor.
      + cbn. rewrite app_nil_r. reflexivity.
      + apply json_text_dump. apply cache_writable; auto.
    - symmetry. apply firstn_skipn.
    - left. eexists. reflexivity.
    - destruct (cache_text_ends m f e) as (t & Et). rewrite Et in L |- *. rewrite app_length in L. cbn in L.
      exists "}". split; [|reflexivity]. rewrite skipn_app. apply in_or_app. right.
      replace (n - length t)%nat with 0%nat by lia. left. reflexivity.
  Qed.

  (** The directory with texts and the directory of M_Polygon.v. *)
  Definition agree (d : directory) (c : caches) : Prop :=
    forall n, match d n, c n with
              | None, None => True
              | Some t, Some (Whole m f e) => t = cache_text time_repr m f e /\ plain_labels f /\ plain_labels e
              | Some t, Some Truncated => load_cache t = Raise JSONDecodeError
              | _, _ => False
              end.

  (** The event that a call with this number of written characters is. *)
  Definition event_of (kc : call * option nat) : event :=
    match snd kc, c_labels (fst kc) with
    | None, _ => Called (fst kc)
    | Some n, Ok (f, e) =>
        if Nat.ltb n (length (cache_text time_repr (c_meta (fst kc)) f e)) then Interrupted During (fst kc)
        else Interrupted After (fst kc)
    | Some _, Raise _ => Interrupted After (fst kc)
    end.

  Lemma agree_remove d c name : agree d c ->
    agree (fun n => if teqb n name then None else d n) (fun n => if teqb n name then None else c n).
  Proof. intros A n. specialize (A n). destruct (teqb n name); [exact I|exact A]. Qed.

  Lemma agree_put d c name m f e : agree d c -> plain_labels f -> plain_labels e ->
    agree (put_file name (cache_text time_repr m f e) d) (put_cache name (Whole m f e) c).
  Proof. intros A F E n. unfold put_file, put_cache. specialize (A n). destruct (teqb n name); auto. Qed.

  Lemma agree_cut d c name m f e k : agree d c -> plain_labels f -> plain_labels e ->
    (k < length (cache_text time_repr m f e))%nat ->
    agree (put_file name (firstn k (cache_text time_repr m f e)) d) (put_cache name Truncated c).
  Proof.
    intros A F E L n. unfold put_file, put_cache. specialize (A n). destruct (teqb n name); auto. apply cut_cache; auto.
  Qed.

  Lemma call_agrees d c k : agree d c -> plain_call k ->
    snd (get_gridpoints_text time_repr time_of None d k) = snd (get_gridpoints c k) /\
    agree (fst (get_gridpoints_text time_repr time_of None d k)) (fst (get_gridpoints c k)).
  Proof.
    intros A P. unfold get_gridpoints_text, get_gridpoints.
    pose proof (A (cache_name (c_file k) (c_prop k))) as An.
    destruct (d (cache_name (c_file k) (c_prop k))) as [t|], (c (cache_name (c_file k) (c_prop k))) as [[m f e|]|];
      try contradiction.
    - destruct (c_force k).
      + destruct (c_labels k) as [[f' e']|x] eqn:Lk; cbn [fst snd]; split; auto.
        * apply agree_put; [apply agree_remove; auto|apply (P _ _ Lk)|apply (P _ _ Lk)].
        * apply agree_remove; auto.
      + destruct An as (-> & F & E). destruct (load_cache_text m f e F E) as (jm & -> & M). rewrite M.
        destruct (meta_eqb (c_meta k) m); cbn [fst snd]; [split; auto|].
        destruct (c_labels k) as [[f' e']|x] eqn:Lk; cbn [fst snd]; split; auto.
        apply agree_put; [auto|apply (P _ _ Lk)|apply (P _ _ Lk)].
    - destruct (c_force k).
      + destruct (c_labels k) as [[f' e']|x] eqn:Lk; cbn [fst snd]; split; auto.
        * apply agree_put; [apply agree_remove; auto|apply (P _ _ Lk)|apply (P _ _ Lk)].
        * apply agree_remove; auto.
      + rewrite An. cbn [fst snd]. split; auto.
    - destruct (c_labels k) as [[f' e']|x] eqn:Lk; cbn [fst snd]; split; auto.
      apply agree_put; [auto|apply (P _ _ Lk)|apply (P _ _ Lk)].
  Qed.

  Lemma whole_cut n d k : (forall f e, c_labels k = Ok (f, e) ->
      (length (cache_text time_repr (c_meta k) f e) <= n)%nat) ->
    get_gridpoints_text time_repr time_of (Some n) d k = get_gridpoints_text time_repr time_of None d k.
  Proof.
    intros H. unfold get_gridpoints_text. destruct (c_labels k) as [[f e]|x]; [|reflexivity].
    rewrite firstn_all2 by (apply H; reflexivity). reflexivity.
  Qed.

  Lemma put_file_twice name t d c s : agree (put_file name t d) (put_cache name s c) ->
    agree (put_file name t (fun n => if teqb n name then None else d n)) (put_cache name s c).
  Proof.
    intros A n. specialize (A n). unfold put_file, put_cache in *. destruct (teqb n name); exact A.
  Qed.

  Lemma event_agrees d c k n : agree d c -> plain_call k ->
    exists at_, event_of (k, Some n) = Interrupted at_ k /\
    agree (fst (get_gridpoints_text time_repr time_of (Some n) d k)) (interrupted at_ c k).
  Proof.
    intros A P. unfold event_of. cbn [fst snd]. destruct (c_labels k) as [[f' e']|x] eqn:Lk.
    - destruct (P _ _ Lk) as [F' E'].
      destruct (Nat.ltb_spec n (length (cache_text time_repr (c_meta k) f' e'))) as [Ln|Ln].
      + exists During. split; [reflexivity|]. unfold get_gridpoints_text, interrupted. rewrite Lk.
        pose proof (A (cache_name (c_file k) (c_prop k))) as An.
        destruct (d (cache_name (c_file k) (c_prop k))) as [t|], (c (cache_name (c_file k) (c_prop k))) as [[m f e|]|];
          try contradiction.
        * destruct (c_force k).
          -- cbn [fst]. apply put_file_twice. apply agree_cut; auto.
          -- destruct An as (-> & F & E). destruct (load_cache_text m f e F E) as (jm & -> & M). rewrite M.
             destruct (meta_eqb (c_meta k) m); cbn [fst]; [exact A|apply agree_cut; auto].
        * destruct (c_force k).
          -- cbn [fst]. apply put_file_twice. apply agree_cut; auto.
          -- rewrite An. cbn [fst]. exact A.
        * cbn [fst]. destruct (c_force k); apply agree_cut; auto.
      + exists After. split; [reflexivity|]. unfold interrupted.
        rewrite whole_cut by (intros f e X; rewrite Lk in X; injection X as <- <-; exact Ln).
        apply call_agrees; auto.
    - exists After. split; [reflexivity|]. unfold interrupted.
      rewrite whole_cut by (intros f e X; rewrite Lk in X; discriminate X). apply call_agrees; auto.
  Qed.

  Lemma histories_agree es : forall d c, agree d c -> Forall (fun kc => plain_call (fst kc)) es ->
    history_text time_repr time_of d es = history c (map event_of es).
  Proof.
    induction es as [|[k o] es IH]; intros d c A P; [reflexivity|].
    inversion P as [|? ? Pk Pr]; subst. cbn [fst] in Pk. destruct o as [n|]; cbn [history_text map].
    - destruct (event_agrees d c k n A Pk) as (at_ & -> & A'). cbn [history]. apply IH; auto.
    - destruct (call_agrees d c k A Pk) as [E A']. unfold event_of at 1. cbn [fst snd history].
      rewrite E. f_equal. apply IH; auto.
  Qed.
End Cache.

(** A cache file holds the labels that were written into it, as texts that
    json.load reads back, together with the time and size of the 2D file. *)
Theorem C37_cache_text_round_trip :
  forall time_repr time_of, time_texts time_repr time_of ->
  forall m f e, plain_labels f -> plain_labels e ->
    exists jm, load_cache (cache_text time_repr m f e) = Ok (jm, (f, e)) /\
      forall m', same_meta time_of m' jm = true <-> m' = m.
Proof.
  intros tr to H m f e F E. destruct (load_cache_text tr to H m f e F E) as (jm & L & M).
  exists jm. split; [exact L|]. intros m'. rewrite M. apply meta_eqb_eq.
Qed.
Print Assumptions C37_cache_text_round_trip.

(** The label that a value in a cache file stands for. *)
Inductive label_json : json -> value -> Prop :=
| lj_null : label_json JNull VNull
| lj_true : label_json (JBool true) (VInt 1)
| lj_false : label_json (JBool false) (VInt 0)
| lj_int z : label_json (JInt z) (VInt z)
| lj_text t : label_json (JStr (codes t)) (VStr t).

(** Whatever the cache file holds: its labels are handed on only if it is an
    object with the time and size of the 2D file as it is now, and no other
    entries in its meta data; else they are determined anew, or the call fails. *)
Theorem C37_any_cache_file :
  forall time_repr time_of d k t,
    d (cache_name (c_file k) (c_prop k)) = Some t -> c_force k = false ->
    snd (get_gridpoints_text time_repr time_of None d k) <> c_labels k ->
    (exists x, snd (get_gridpoints_text time_repr time_of None d k) = Raise x /\ load_cache t = Raise x) \/
    (exists doc md f e tm,
       document_text t (JObj doc) /\ dict_get (key "meta") doc = Some (JObj md) /\ length md = 2%nat /\
       dict_get (key "last_modified") md = Some (JFloat tm) /\ time_of tm = Some (fst (c_meta k)) /\
       dict_get (key "file_size") md = Some (JInt (snd (c_meta k))) /\
       (forall l vs, dict_get (key "faces") doc = Some (JArr l) -> Forall2 label_json l vs -> f = vs) /\
       (forall l vs, dict_get (key "edges") doc = Some (JArr l) -> Forall2 label_json l vs -> e = vs) /\
       snd (get_gridpoints_text time_repr time_of None d k) = Ok (f, e)).
Proof.
  intros tr to d k t Ed Ef. unfold get_gridpoints_text. rewrite Ed, Ef.
  assert (LJ : forall j l vs, j = JArr l -> Forall2 label_json l vs -> labels_of_json j = vs).
  { intros j l vs -> F. cbn. induction F as [|x v l vs X F IH]; [reflexivity|]. cbn. rewrite IH. f_equal.
    destruct X; try reflexivity. cbn. f_equal. unfold codes. rewrite map_map. rewrite <- (map_id t0) at 2.
    apply map_ext. apply ascii_N_embedding. }
  destruct (load_cache t) as [[m [f e]]|x] eqn:El; cbn [snd]; [|intros _; left; eauto].
  destruct (same_meta to (c_meta k) m) eqn:Em.
  - intros _. right. cbn [snd]. unfold load_cache in El. destruct (loads t) as [doc|] eqn:Lt; [|discriminate El].
    apply loads_sound in Lt. destruct doc as [| | | |?|?|doc]; cbn [j_get bind] in El; try discriminate El.
    injection El as Hm <- <-.
    unfold same_meta in Em. destruct m as [| | | |?|?|md]; try discriminate Em.
    apply andb_true_iff in Em. destruct Em as [L Em]. apply Nat.eqb_eq in L.
    destruct (dict_get (key "last_modified") md) as [[| | |tm| | |]|] eqn:M1; try discriminate Em.
    destruct (dict_get (key "file_size") md) as [[| |z| | | |]|] eqn:M2; try discriminate Em.
    apply andb_true_iff in Em. destruct Em as [Et Es]. destruct (to tm) as [x|] eqn:Ex; [|discriminate Et].
    apply Z.eqb_eq in Et, Es. subst x z.
    assert (Gm : dict_get (key "meta") doc = Some (JObj md)).
    { destruct (dict_get (key "meta") doc) as [v|]; [congruence|discriminate Hm]. }
    eexists doc, md, _, _, tm. repeat split; auto; intros l vs E F; rewrite E; eapply LJ; eauto.
  - destruct (c_labels k) as [[f' e']|x]; cbn [snd]; congruence.
Qed.
Print Assumptions C37_any_cache_file.

(** Every history of calls with the cache as text, with interruptions after any
    number of written characters, gives the results of the model of
    M_Polygon.v, for which C37 and C38 are stated. *)
Theorem C38_cache_as_text :
  forall time_repr time_of, time_texts time_repr time_of ->
  forall es, Forall (fun kc => plain_call (fst kc)) es ->
    history_text time_repr time_of (fun _ => None) es = history (fun _ => None) (map (event_of time_repr) es).
Proof. intros tr to H es P. apply histories_agree; auto. intros n. exact I. Qed.
Print Assumptions C38_cache_as_text.

(** A cache file of which any characters at the end are missing is noticed. *)
Theorem C38_cut_off_cache_is_noticed :
  forall time_repr time_of, time_texts time_repr time_of ->
  forall m f e n, plain_labels f -> plain_labels e -> (n < length (cache_text time_repr m f e))%nat ->
    load_cache (firstn n (cache_text time_repr m f e)) = Raise JSONDecodeError.
Proof. intros tr to H m f e n F E L. exact (cut_cache tr to H m f e n F E L). Qed.
Print Assumptions C38_cut_off_cache_is_noticed.

(** Times in whole seconds meet the condition on the texts of times; and a
    history with a cut in the middle of the cache file. *)
Definition seconds_repr (z : Z) : text := show_Z z ++ T ".0".
Definition seconds_of (t : text) : option Z := parse_Z (firstn (length t - 2) t).

Lemma seconds_texts : time_texts seconds_repr seconds_of.
Proof.
  intros z. split.
  - assert (F : fraction_text (T ".0")) by (apply (fr_digits ["0"]); split; [discriminate|repeat constructor]).
    assert (X : exists s w, show_Z z = s ++ w /\ sign_text s /\ whole_text w).
    { destruct z as [|p|p].
      - exists [], ["0"]. repeat split; constructor.
      - exists [], (T (DecimalString.NilZero.string_of_uint (Pos.to_uint p))). repeat split; [constructor|apply show_pos_whole].
      - exists ["-"], (T (DecimalString.NilZero.string_of_uint (Pos.to_uint p))). repeat split; [constructor|apply show_pos_whole]. }
    destruct X as (s & w & E & Hs & Hw). unfold seconds_repr. rewrite E.
    pose proof (jt_float s w (T ".0") [] Hs Hw F ex_none ltac:(discriminate)) as J.
    rewrite app_nil_r in J. rewrite <- app_assoc. exact J.
  - unfold seconds_of, seconds_repr. rewrite app_length. change (length (T ".0")) with 2%nat.
    replace (length (show_Z z) + 2 - 2)%nat with (length (show_Z z)) by lia.
    rewrite firstn_app, firstn_all, Nat.sub_diag, app_nil_r. apply parse_show_Z.
Qed.

Theorem C38_case_text :
  time_texts seconds_repr seconds_of /\
  (let k m labels := mk_call (T "map.nc") (T "region") false (m, 2)%Z (Ok (labels, [])) in
   let a := [VStr (T "a"); VNull] in let b := [VStr (T "b""\"); VInt 3] in
   cache_text seconds_repr (1, 2)%Z a []
     = T "{""meta"": {""last_modified"": 1.0, ""file_size"": 2}, ""faces"": [""a"", null], ""edges"": []}" /\
   history_text seconds_repr seconds_of (fun _ => None)
     [(k 1%Z a, None); (k 1%Z b, None); (k 2%Z b, None); (k 2%Z b, None); (k 3%Z a, Some 40%nat); (k 3%Z a, None)]
   = [Ok (a, []); Ok (a, []); Ok (b, []); Ok (b, []); Raise JSONDecodeError]).
Proof.
  split; [exact seconds_texts|]. vm_compute. split; reflexivity.
Qed.
Print Assumptions C38_case_text.
