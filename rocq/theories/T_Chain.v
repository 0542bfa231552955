(** Theorems for C86: the definition file of a run holds valid tables. *)
From Coq Require Import String List Ascii ZArith QArith Qabs Bool Lia Lqa.
From Verif Require Import PyBase Num Spec L_Num L_List Text L_Text Fixed L_Fixed M_Ini M_Friction M_Import M_Network
  M_Export L_Export T_Definitions M_Geometry T_Geometry M_Sections M_Cli M_Pipeline T_Pipeline M_Chain.
Import ListNotations.
Local Open Scope Q_scope.

(** What is assumed of the float nearest to a decimal number: it keeps the order,
    and up to 8000000000 it is at most 0.000001 off.  [F_Round] proves this of
    binary64. *)
Record precise (rnd : Q -> num) : Prop := {
  pr_order : forall a b v w, a <= b -> rnd a = Fin v -> rnd b = Fin w -> v <= w;
  pr_close : forall q, Qabs q <= 8000000000 -> exists v, rnd q = Fin v /\ Qabs (v - q) <= 1 # 1000000 }.

Definition usual (x : Q) : Prop := Qabs x <= 7000000000.
Definition tenth_mm : Q := 1 # 10000.
Definition near (x y : Q) : Prop := Qabs (y - x) <= tenth_mm.
(** More than 0.0002 between consecutive numbers. *)
Definition spread (l : list Q) : Prop :=
  forall i a b, nth_error l i = Some a -> nth_error l (S i) = Some b -> a + 2 * tenth_mm < b.

(** What a reader of the definition file finds for the cross-section [c]. *)
Record valid_entry (points : Z) (minw tol : Q) (c : css) (d : definition) : Prop := {
  ve_id : d_id d = s_name c;
  ve_table : exists z tw fw zs ts fs,
    s_z c = map Fin z /\ s_tw c = map Fin tw /\ s_fw c = map Fin fw /\
    d_levels d = map Fin zs /\ d_total_width d = map Fin ts /\ d_flow_width d = map Fin fs /\
    Forall2 near z zs /\ Forall2 near tw ts /\ Forall2 near fw fs /\
    length ts = length zs /\ length fs = length zs /\ (2 <= length zs)%nat /\ (Z.of_nat (length zs) <= points)%Z /\
    nondecreasing zs /\ nondecreasing ts /\ nondecreasing fs /\ rowwise Qle fs ts /\
    Forall (fun x => minw - tenth_mm <= x) ts /\ Forall (fun x => minw - tenth_mm <= x) fs /\
    (spread z -> strictly_increasing zs) /\ (spread tw -> strictly_increasing ts) /\ (spread fw -> strictly_increasing fs);
  ve_widths : exists m p m' p', nw_main (s_widths c) = Fin m /\ nw_fp1 (s_widths c) = Fin p /\
    d_main_width d = Fin m' /\ d_fp1_width d = Fin p' /\ near m m' /\ near p p';
  ve_crest : exists crest base crest' base', s_crest c = Fin crest /\ s_base c = Fin base /\
    d_sd_crest d = Fin crest' /\ d_sd_baselevel d = Fin base' /\ near crest crest' /\ base' == base /\
    base' <= crest' - tol + tenth_mm }.

Section C86.
  Variable double : num -> Prop.
  Variable rnd : Q -> num.
  Variable show_float : num -> text.
  Variable read_float : text -> option num.
  Hypothesis FC : float_codec double rnd show_float read_float.
  Hypothesis P : precise rnd.

  Lemma close_4 q : usual q -> exists v, rnd (rounded 4 q) = Fin v /\ near q v.
  Proof.
    intro U. pose proof (rounded_error 4 q) as E.
    assert (E4 : (1 # 2) / inject_Z (pow10 4) == 1 # 20000) by reflexivity. rewrite E4 in E. clear E4.
    unfold usual in U. apply Qabs_Qle_condition in E, U.
    destruct (pr_close _ P (rounded 4 q)) as (v & Ev & C).
    { apply Qabs_Qle_condition. split; lra. }
    exists v. split; [exact Ev|]. unfold near, tenth_mm. apply Qabs_Qle_condition in C. apply Qabs_Qle_condition. lra.
  Qed.

  Lemma same_fin v q : same v (Fin q) -> exists p, v = Fin p /\ p == q.
  Proof. destruct v; cbn; try contradiction. intro E. eauto. Qed.

  (** The numbers of a printed column. *)
  Lemma printed_column zs vs : Forall usual zs -> Forall2 (printed rnd 4) (map Fin zs) vs ->
    exists qs, vs = map Fin qs /\ Forall2 near zs qs /\ length qs = length zs /\
      Forall2 (fun z q => exists v, rnd (rounded 4 z) = Fin v /\ q == v) zs qs.
  Proof.
    intros U. revert vs. induction U as [|z zs Uz U IH]; intros vs F; inversion F as [|? v ? vs' Pv Fv]; subst.
    - exists []. repeat split; constructor.
    - destruct (IH vs' Fv) as (qs & -> & N & L & R). cbn in Pv.
      destruct (close_4 z Uz) as (w & Ew & Nw). rewrite Ew in Pv. destruct (same_fin _ _ Pv) as (q & -> & Eq).
      exists (q :: qs). split; [reflexivity|]. split; [|split; [cbn; congruence|]].
      + constructor; [|exact N]. unfold near in *. rewrite Eq. exact Nw.
      + constructor; [exists w; auto|exact R].
  Qed.

  Lemma order_4 a b p q v w : a <= b -> rnd (rounded 4 a) = Fin v -> p == v -> rnd (rounded 4 b) = Fin w -> q == w -> p <= q.
  Proof.
    intros L Ev Ep Ew Eq. rewrite Ep, Eq. exact (pr_order _ P (rounded 4 a) (rounded 4 b) v w (rounded_mono 4 a b L) Ev Ew).
  Qed.

  Lemma column_order zs qs : Forall2 (fun z q => exists v, rnd (rounded 4 z) = Fin v /\ q == v) zs qs ->
    nondecreasing zs -> nondecreasing qs.
  Proof.
    intros F N i j a b L Ea Eb.
    assert (G : forall k x, nth_error qs k = Some x -> exists z v, nth_error zs k = Some z /\ rnd (rounded 4 z) = Fin v /\ x == v).
    { clear - F. induction F as [|z q zs qs (v & Ev & Eq) F IH]; intros [|k] x E; try discriminate; cbn in E |- *.
      - injection E as <-. exists z, v. auto.
      - apply IH. exact E. }
    destruct (G i a Ea) as (za & va & E1 & E2 & E3). destruct (G j b Eb) as (zb & vb & E4 & E5 & E6).
    eapply order_4; eauto.
  Qed.

  Lemma column_spread zs qs : Forall2 near zs qs -> spread zs -> strictly_increasing qs.
  Proof.
    intros F Sp.
    assert (N : forall k x, nth_error qs k = Some x -> exists z, nth_error zs k = Some z /\ near z x).
    { clear - F. induction F as [|z q zs qs Nq F IH]; intros [|k] x E; try discriminate; cbn in E |- *.
      - injection E as <-. eauto.
      - apply IH. exact E. }
    assert (Step : forall i a b, nth_error qs i = Some a -> nth_error qs (S i) = Some b -> a < b).
    { intros i a b Ea Eb. destruct (N i a Ea) as (za & E1 & N1). destruct (N (S i) b Eb) as (zb & E2 & N2).
      pose proof (Sp i za zb E1 E2) as H. unfold near, tenth_mm in *. apply Qabs_Qle_condition in N1, N2. lra. }
    intros i j a b L. revert a b. induction L as [|j L IH]; intros a b Ea Eb; [eapply Step; eauto|].
    destruct (nth_error qs j) as [c|] eqn:Ec.
    - pose proof (IH a c Ea eq_refl). pose proof (Step j c b Ec Eb). lra.
    - apply nth_error_None in Ec. assert (nth_error qs (S j) = None) by (apply nth_error_None; lia). congruence.
  Qed.

  Lemma column_rows fw tw fs ts : Forall2 (fun z q => exists v, rnd (rounded 4 z) = Fin v /\ q == v) fw fs ->
    Forall2 (fun z q => exists v, rnd (rounded 4 z) = Fin v /\ q == v) tw ts -> rowwise Qle fw tw -> rowwise Qle fs ts.
  Proof.
    intros F1 F2 R. revert fs ts F1 F2. induction R as [|f t fw tw L R IH]; intros fs ts F1 F2;
      inversion F1 as [|? ? ? ? (v & Ev & Ep) F1']; inversion F2 as [|? ? ? ? (w & Ew & Eq) F2']; subst; constructor.
    - eapply order_4; eauto.
    - apply IH; auto.
  Qed.

  Lemma column_min m zs qs : Forall2 near zs qs -> Forall (fun x => m <= x) zs -> Forall (fun x => m - tenth_mm <= x) qs.
  Proof.
    intros F. induction F as [|z q zs qs N F IH]; intro M; constructor; inversion M; subst; auto.
    unfold near in N. apply Qabs_Qle_condition in N. lra.
  Qed.

  Lemma strict_nondec l : strictly_increasing l -> nondecreasing l.
  Proof.
    intros S i j a b L Ea Eb. destruct (Nat.eq_dec i j) as [<-|N].
    - rewrite Ea in Eb. injection Eb as <-. lra.
    - apply Qlt_le_weak. eapply (S i j); eauto. lia.
  Qed.

  (** The numbers of a cross-section are of a usual size. *)
  Record usual_css (c : css) : Prop := {
    us_z : forall x, In (Fin x) (s_z c) -> usual x;
    us_tw : forall x, In (Fin x) (s_tw c) -> usual x;
    us_fw : forall x, In (Fin x) (s_fw c) -> usual x;
    us_main : forall x, nw_main (s_widths c) = Fin x -> usual x;
    us_fp1 : forall x, nw_fp1 (s_widths c) = Fin x -> usual x;
    us_crest : forall x, s_crest c = Fin x -> usual x }.

  (** C86.  Every list of cross-sections that are valid, as C80 shows of the
      generated ones. *)
  Theorem C86_definition_file_is_valid : forall (l : list (place * css)) st minw tol,
    Forall (fun e => good_value (s_name (snd e)) /\ double (s_extra_flow (snd e)) /\ double (s_base (snd e)) /\
                     usual_css (snd e) /\
                     exists len s faces zc, valid_css st minw tol len s faces zc (snd e)) l ->
    exists ds, parse_definition_file read_float (definition_file show_float l) = Ok ds /\
      Forall2 (fun e d => valid_entry (st_points st) minw tol (snd e) d) l ds.
  Proof.
    intros l st minw tol H.
    set (xl := map (fun e => as_exported (fst e) (snd e)) l).
    assert (W : Forall (writable double) xl).
    { unfold xl. apply Forall_map. eapply Forall_impl; [|exact H]. intros [p c] (G & D1 & D2 & _). cbn [fst snd] in *.
      split; [exact G|]. split; [exact D1|]. split; [exact D2|].
      exists (nw_main (s_widths c)), (nw_fp1 (s_widths c)), (nw_fp2 (s_widths c)). repeat split. }
    destruct (C39_definition_file_round_trip double rnd show_float read_float FC xl W) as (content & ds & Ew & Ep & F).
    exists ds. unfold definition_file. fold xl. rewrite Ew. cbn [fst]. split; [exact Ep|].
    unfold xl in F. clear Ew Ep W xl. revert ds F. induction H as [|[p c] l Hc H IH]; intros ds F;
      cbn [map] in F; inversion F as [|? d ? ds' X F']; subst; constructor; [|apply IH; exact F'].
    cbn [snd fst] in *. clear F F' IH H.
    destruct Hc as (_ & _ & _ & [Uz Ut Uf Um Up Uc] & len & s & faces & zc &
      z & tw & fw & z1 & tw1 & fw1 & w & crest & base & Ez & Et & Ef & S1 & S2 & S3 & M1 & M2 & RW & L1 & L2 & L3 & L4 &
      _ & _ & _ & _ & _ & _ & _ & _ & _ & _ & Ew & _ & _ & _ & Ec & Eb & Hb & _).
    destruct X as [X1 X2 X3 X4 X5 X6 X7 X8 (wm & Wm & X9) (w1 & W1 & X10)].
    cbn [x_name x_z x_flow_width x_total_width x_crest x_extra_flow_area x_extra_total_area x_base x_widths as_exported] in *.
    assert (US : forall col l, col = map Fin l -> (forall x, In (Fin x) col -> usual x) -> Forall usual l).
    { intros col l' -> Hu. apply Forall_forall. intros x I. apply Hu. apply in_map. exact I. }
    rewrite Ez in X2. rewrite Ef in X3. rewrite Et in X4.
    destruct (printed_column z _ (US _ _ Ez Uz) X2) as (zs & Kz & Nz & Lz & Rz).
    destruct (printed_column fw _ (US _ _ Ef Uf) X3) as (fs & Kf & Nf & Lf & Rf).
    destruct (printed_column tw _ (US _ _ Et Ut) X4) as (ts & Kt & Nt & Lt & Rt).
    split.
    - exact X1.
    - exists z, tw, fw, zs, ts, fs.
      do 3 (split; [assumption|]). split; [exact Kz|]. split; [exact Kt|]. split; [exact Kf|].
      do 3 (split; [assumption|]). split; [congruence|]. split; [congruence|]. split; [congruence|]. split; [congruence|].
      split; [eapply column_order; [exact Rz|apply strict_nondec; exact S1]|].
      split; [eapply column_order; [exact Rt|apply strict_nondec; exact S2]|].
      split; [eapply column_order; [exact Rf|apply strict_nondec; exact S3]|].
      split; [eapply column_rows; eauto|].
      split; [eapply column_min; eauto|]. split; [eapply column_min; eauto|].
      split; [apply column_spread; auto|]. split; [apply column_spread; auto|]. apply column_spread; auto.
    - rewrite Ew in *. cbn [nw_main nw_fp1 lift] in *.
      change (tassoc _ (T "main")) with (Some (Fin (w_main w))) in Wm. injection Wm as <-.
      change (tassoc _ (T "floodplain1")) with (Some (Fin (w_fp1 w))) in W1. injection W1 as <-.
      destruct (close_4 (w_main w) (Um _ eq_refl)) as (m' & Em & Nm). destruct (close_4 (w_fp1 w) (Up _ eq_refl)) as (p' & Epp & Np).
      cbn in X9, X10. rewrite Em in X9. rewrite Epp in X10.
      destruct (same_fin _ _ X9) as (a & Ea & Qa). destruct (same_fin _ _ X10) as (b & Eb' & Qb).
      exists (w_main w), (w_fp1 w), a, b. do 4 (split; [auto|]). unfold near in *. rewrite Qa, Qb. auto.
    - rewrite Ec in X5. rewrite Eb in X8. destruct (close_4 crest (Uc _ Ec)) as (c' & Ec' & Nc).
      cbn in X5. rewrite Ec' in X5. destruct (same_fin _ _ X5) as (a & Ea & Qa). destruct (same_fin _ _ X8) as (b & Eb' & Qb).
      exists crest, base, a, b. do 4 (split; [auto|]). unfold near in *. split; [rewrite Qa; exact Nc|]. split; [exact Qb|].
      rewrite Qa, Qb. apply Qabs_Qle_condition in Nc. lra.
  Qed.
End C86.
Print Assumptions C86_definition_file_is_valid.

(** Exact numbers are precise. *)
Lemma exact_precise : precise Fin.
Proof.
  split; [intros a b v w L E F; injection E as ->; injection F as ->; exact L|].
  intros q _. exists q. split; [reflexivity|]. setoid_replace (q - q) with 0 by ring. vm_compute. discriminate.
Qed.

(** A generated cross-section that meets the hypotheses. *)
Example C86_case : exists c zc len,
  generate_cross_section (fun x => x) (fun _ _ => Fin 0) (fun _ => Raise ValueError) (fun x => x)
    example_settings (T "css") (Fin 10) 0 3 example_selection = Ok (Some c) /\
  good_value (s_name c) /\ three_decimals (s_extra_flow c) /\ three_decimals (s_base c) /\ usual_css c /\
  valid_css example_settings (1 # 2) (1 # 2) len example_selection example_faces zc c.
Proof.
  destruct C80_hypotheses_case as (H1 & H2 & H3 & H4 & H5 & H6).
  assert (G : exists c, generate_cross_section (fun x => x) (fun _ _ => Fin 0) (fun _ => Raise ValueError) (fun x => x)
      example_settings (T "css") (Fin 10) 0 3 example_selection = Ok (Some c) /\
      three_decimals (s_extra_flow c) /\ three_decimals (s_base c) /\ usual_css c).
  { eexists. split; [vm_compute; reflexivity|]. split; [vm_compute; reflexivity|]. split; [vm_compute; reflexivity|].
    split; cbn [s_z s_tw s_fw s_widths s_crest nw_main nw_fp1]; intros x I.
    1-3: cbn [In] in I; repeat (destruct I as [I|I]; [injection I as <-; vm_compute; discriminate|]); destruct I.
    all: injection I as <-; vm_compute; discriminate. }
  destruct G as (c & G & D1 & D2 & U). exists c, [1; 2; 3], 10. split; [exact G|].
  destruct (C80_generated_cross_section_is_valid (fun x => x) (fun _ _ => Fin 0) (fun _ => Raise ValueError) (fun x => x)
    example_settings (T "css") 0 1 3 0 1 (1 # 100) (3 # 100) 10 (1 # 2) (1 # 2) false example_selection example_faces
    (example_face 0) [1; 2; 3]) as (c' & G' & N & V); auto; try reflexivity; try lia.
  - vm_compute. discriminate.
  - intros g crest total flow E. discriminate E.
  - exists 0%nat, (example_face 0). split; [lia|]. split; [intros; lia|]. split; [left; reflexivity|].
    split; [exact H6|reflexivity].
  - rewrite G in G'. injection G' as <-. rewrite N. split; [apply good_valueb; reflexivity|]. auto.
Qed.

(** C86, refuted: two levels of a generated cross-section that differ can be
    equal in the file.  Ten faces with the water levels 1, 2 and 2.00001. *)
Definition close_levels : list Q := [1; 2; 200001 # 100000].
Definition close_face (i : nat) : face :=
  mkFace 20 (inject_Z (Z.of_nat i) / 10) (map (fun z => z - inject_Z (Z.of_nat i) / 10) close_levels)
    (map Fin close_levels) [1; 1; 1] (M_Geometry.LInt (if Nat.ltb i 6 then 1 else 2)).
Definition close_faces : list face := map close_face (seq 0 10).
Definition close_selection : selection :=
  mk_selection (repeat (Fin 0) 10) (repeat (Fin 0) 10) (map (fun f => Fin (f_area f)) close_faces)
    (map (fun f => Fin (f_bed f)) close_faces) (map (fun f => map Fin (f_depth f)) close_faces)
    (map f_level close_faces) (map (fun f => map Fin (f_vel f)) close_faces) (map f_section close_faces)
    [[Fin 40; Fin 41; Fin 42]; [Fin 20; NaN; Fin 22]] (repeat [] 10) (repeat false 10) None
    [Fin 0; Fin 0] [Fin 0; Fin 0] [T "main"; T "floodplain1"].
Definition close_settings : settings :=
  mk_settings (mkParams 0 1 1 (Fin (1 # 100)) (Fin (3 # 100)) false) (Fin (1 # 2)) 20 false (Fin (1 # 2)) 0.

Theorem C86_equal_levels_refuted : forall double rnd show_float read_float p,
  float_codec double rnd show_float read_float -> double (Fin 0) -> double (Fin (-1 # 2)) ->
  exists c d x y,
    generate_cross_section (fun x => x) (fun _ _ => Fin 0) (fun _ => Raise ValueError) (fun x => x)
      close_settings (T "css") (Fin 10) 0 3 close_selection = Ok (Some c) /\
    nth_error (s_z c) 11 = Some (Fin 2) /\ nth_error (s_z c) 12 = Some (Fin (200001 # 100000)) /\
    parse_definition_file read_float (definition_file show_float [(p, c)]) = Ok [d] /\
    nth_error (d_levels d) 11 = Some x /\ nth_error (d_levels d) 12 = Some y /\ same x y.
Proof.
  intros double rnd show_float read_float p FC D0 D1.
  assert (G : exists c, generate_cross_section (fun x => x) (fun _ _ => Fin 0) (fun _ => Raise ValueError) (fun x => x)
      close_settings (T "css") (Fin 10) 0 3 close_selection = Ok (Some c) /\
      s_name c = T "css" /\ s_extra_flow c = Fin 0 /\ s_base c = Fin (-1 # 2) /\
      nth_error (s_z c) 11 = Some (Fin 2) /\ nth_error (s_z c) 12 = Some (Fin (200001 # 100000))).
  { eexists. split; [vm_compute; reflexivity|]. repeat split. }
  destruct G as (c & G & N & E1 & E2 & Z1 & Z2).
  destruct (C39_definition_file_round_trip double rnd show_float read_float FC [as_exported p c]) as (content & ds & W & Pd & F).
  { constructor; [|constructor]. unfold writable, as_exported. cbn [x_name x_extra_flow_area x_base].
    rewrite N, E1, E2. split; [apply good_valueb; reflexivity|]. split; [exact D0|]. split; [exact D1|].
    exists (nw_main (s_widths c)), (nw_fp1 (s_widths c)), (nw_fp2 (s_widths c)). repeat split. }
  inversion F as [|? d ? ds' X F']; subst. inversion F'; subst.
  pose proof (e_levels _ _ _ X) as L. cbn [x_z as_exported] in L.
  assert (H : forall k z, nth_error (s_z c) k = Some z -> exists v, nth_error (d_levels d) k = Some v /\ printed rnd 4 z v).
  { clear - L. induction L as [|a b l m H L IH]; intros [|k] z E; try discriminate; cbn in E |- *.
    - injection E as <-. eauto.
    - apply IH. exact E. }
  destruct (H _ _ Z1) as (x & Ex & Px). destruct (H _ _ Z2) as (y & Ey & Py).
  exists c, d, x, y. split; [exact G|]. split; [exact Z1|]. split; [exact Z2|]. split.
  - unfold definition_file. cbn [map fst snd]. rewrite W. exact Pd.
  - split; [exact Ex|]. split; [exact Ey|]. cbn in Px, Py.
    apply same_trans with (rnd (rounded 4 2)); [exact Px|]. apply same_sym. eapply same_trans; [exact Py|].
    apply (fc_proper _ _ _ _ FC). reflexivity.
Qed.
Print Assumptions C86_equal_levels_refuted.
