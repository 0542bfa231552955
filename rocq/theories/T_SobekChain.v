(** Theorems for C94: the SOBEK 3 geometry file of a run holds valid tables. *)
From Coq Require Import String List Ascii ZArith QArith Qabs Bool Lia Lqa.
From Verif Require Import PyBase Num Spec L_Num L_List Text L_Text Fixed L_Fixed M_Ini M_Friction M_Import M_Network
  M_Export L_Export T_Definitions T_Sobek M_Geometry T_Geometry M_Sections M_Cli M_Pipeline T_Pipeline M_Chain T_Chain
  T_RoughChain.
Import ListNotations.
Local Open Scope Q_scope.

(** A reader of the file: a meta row opens a cross-section, the geometry rows
    after it are its table. *)
Definition is_meta (r : list text) : bool := teqb (nth 2 r []) (T "meta").
Fixpoint entries (rows : list (list text)) : list (list text * list (list text)) :=
  match rows with
  | [] => []
  | r :: rows' =>
      if is_meta r then
        let fix table rs := match rs with
                            | g :: rs' => if is_meta g then [] else g :: table rs'
                            | [] => []
                            end in (r, table rows') :: entries rows'
      else entries rows'
  end.
Definition table_of : list (list text) -> list (list text) :=
  fix table rs := match rs with
                  | g :: rs' => if is_meta g then [] else g :: table rs'
                  | [] => []
                  end.

Definition reads (read_float : text -> option num) (t : text) (q : Q) : Prop :=
  exists p, read_float t = Some (Fin p) /\ p == q.

(** The level [z] of row [i], raised by (i + 1) * 0.00001. *)
Definition micro : Q := 1 # 1000000.
Definition raised_near (i : nat) (z v : Q) : Prop :=
  Qabs (v - (z + inject_Z (Z.of_nat (S i)) * (1 # 100000))) <= 2 * micro.

(** What a reader of the file finds for the cross-section [c]. *)
Record valid_sobek (read_float : text -> option num) (show_float : num -> text) (points : Z) (minw tol : Q)
    (p : place) (c : css) (e : list text * list (list text)) : Prop := {
  vs_name : nth 0 (fst e) [] = s_name c /\ Forall (fun r => nth 0 r [] = s_name c) (snd e);
  vs_place : nth 7 (fst e) [] = pl_branch p /\ nth 8 (fst e) [] = show_float (pl_chainage p);
  vs_table : exists z tw fw zs ts fs,
    s_z c = map Fin z /\ s_tw c = map Fin tw /\ s_fw c = map Fin fw /\
    map (fun r => read_float (nth 3 r [])) (snd e) = map (fun x => Some (Fin x)) zs /\
    map (fun r => read_float (nth 4 r [])) (snd e) = map (fun x => Some (Fin x)) ts /\
    map (fun r => read_float (nth 5 r [])) (snd e) = map (fun x => Some (Fin x)) fs /\
    length zs = length z /\ length ts = length z /\ length fs = length z /\
    (2 <= length z)%nat /\ (Z.of_nat (length z) <= points)%Z /\
    (forall i a b, nth_error z i = Some a -> nth_error zs i = Some b -> raised_near i a b) /\
    Forall2 Qeq ts tw /\ Forall2 Qeq fs fw /\
    strictly_increasing zs /\ strictly_increasing ts /\ strictly_increasing fs /\ rowwise Qle fs ts /\
    Forall (fun x => minw <= x) ts /\ Forall (fun x => minw <= x) fs;
  vs_widths : exists m q1 q2, nw_main (s_widths c) = Fin m /\ nw_fp1 (s_widths c) = Fin q1 /\ nw_fp2 (s_widths c) = Fin q2 /\
    reads read_float (nth 9 (fst e) []) m /\ reads read_float (nth 10 (fst e) []) q1 /\
    reads read_float (nth 11 (fst e) []) q2;
  vs_dike : if nltb (Fin 0) (pl_extra_volume p) then
      nth 13 (fst e) [] = T "1" /\ exists crest base, s_crest c = Fin crest /\ s_base c = Fin base /\
        reads read_float (nth 14 (fst e) []) crest /\ reads read_float (nth 15 (fst e) []) base /\ base <= crest - tol
    else nth 13 (fst e) [] = T "0" /\ Forall (fun k => nth k (fst e) [] = []) [14; 15; 16; 17]%nat }.

Lemma entries_meta r rows : is_meta r = true -> entries (r :: rows) = (r, table_of rows) :: entries rows.
Proof. intros E. cbn [entries]. rewrite E. reflexivity. Qed.

Lemma entries_skip g rows : Forall (fun r => is_meta r = false) g -> entries (g ++ rows) = entries rows.
Proof. intros F. induction F as [|r g E F IH]; [reflexivity|]. cbn [app entries]. rewrite E. exact IH. Qed.

Lemma table_app g rows : Forall (fun r => is_meta r = false) g ->
  (match rows with [] => True | r :: _ => is_meta r = true end) -> table_of (g ++ rows) = g.
Proof.
  intros F H. induction F as [|r g E F IH].
  - destruct rows as [|r rows]; [reflexivity|]. cbn. rewrite H. reflexivity.
  - cbn [app table_of]. fold table_of. rewrite E. f_equal. exact IH.
Qed.

Section C94.
  Variable double : num -> Prop.
  Variable rnd : Q -> num.
  Variable show_float : num -> text.
  Variable read_float : text -> option num.
  Hypothesis FC : float_codec double rnd show_float read_float.
  Hypothesis P : precise rnd.

  Lemma geoms_not_meta c : forall z tw fw, Forall (fun r => is_meta r = false) (geom_rows show_float c z tw fw).
  Proof. induction z as [|a z IH]; intros [|t tw] [|f fw]; constructor; auto. Qed.

  Lemma entries_rows l : entries (flat_map (sobek_rows show_float) l) =
    map (fun c => (meta_fields show_float c,
                   geom_rows show_float c (raised_levels (x_z c)) (x_total_width c) (x_flow_width c))) l.
  Proof.
    induction l as [|c l IH]; [reflexivity|]. cbn [flat_map map]. unfold sobek_rows at 1. cbn [app].
    rewrite entries_meta by reflexivity. rewrite entries_skip by apply geoms_not_meta. rewrite IH. f_equal. f_equal.
    apply table_app; [apply geoms_not_meta|]. destruct l; reflexivity.
  Qed.

  Lemma same_reads x q : double x -> x = Fin q -> reads read_float (show_float x) q.
  Proof.
    intros D ->. destruct (fc_repr _ _ _ _ FC _ D) as (v & E & S0). destruct (same_fin _ _ S0) as (p & -> & Ep). exists p. auto.
  Qed.

  Lemma read_columns c : forall zs ts fs, length ts = length zs -> length fs = length zs ->
    let rows := geom_rows show_float c (map Fin zs) (map Fin ts) (map Fin fs) in
    map (fun r => read_float (nth 3 r [])) rows = map (fun x => read_float (show_num 8 (Fin x))) zs /\
    map (fun r => read_float (nth 4 r [])) rows = map (fun x => read_float (show_float (Fin x))) ts /\
    map (fun r => read_float (nth 5 r [])) rows = map (fun x => read_float (show_float (Fin x))) fs /\
    Forall (fun r => nth 0 r [] = x_name c) rows.
  Proof.
    induction zs as [|z zs IH]; intros [|t ts] [|f fs] L1 L2; try discriminate; [repeat split; constructor|].
    destruct (IH ts fs) as (A & B & C & D); [cbn in L1; lia|cbn in L2; lia|].
    cbn [map geom_rows]. cbv zeta in *. rewrite A, B, C. repeat split; auto.
  Qed.

  Lemma read_widths ts : Forall (fun x => double (Fin x)) ts ->
    exists vs, map (fun x => read_float (show_float (Fin x))) ts = map (fun x => Some (Fin x)) vs /\ Forall2 Qeq vs ts.
  Proof.
    intros F. induction F as [|x ts D F (vs & E & Q1)]; [exists []; split; constructor|].
    destruct (same_reads (Fin x) x D eq_refl) as (v & Ev & Hv). exists (v :: vs). cbn [map]. rewrite Ev, E. auto.
  Qed.

  Lemma read_level q : Qabs q <= 7100000000 -> exists v, read_float (show_num 8 (Fin q)) = Some (Fin v) /\ Qabs (v - q) <= 2 * micro.
  Proof.
    intros U. cbn [show_num]. destruct (read_show_fixed 8 q) as (d & E & Hd); [lia|].
    pose proof (rounded_error 8 q) as R. assert (E8 : (1 # 2) / inject_Z (pow10 8) == 1 # 200000000) by reflexivity.
    rewrite E8 in R. apply Qabs_Qle_condition in R, U.
    destruct (pr_close _ P d) as (v & Ev & C). { apply Qabs_Qle_condition. rewrite Hd. split; lra. }
    exists v. rewrite (fc_decimal _ _ _ _ FC _ _ E), Ev. split; [reflexivity|].
    unfold micro. apply Qabs_Qle_condition in C. rewrite Hd in C. apply Qabs_Qle_condition. lra.
  Qed.

  Lemma raised_fin z : raised_levels (map Fin z) =
    map Fin (map2 (fun v k => v + inject_Z (Z.of_nat k) * (1 # 100000)) z (seq 1 (length z))).
  Proof.
    unfold raised_levels. rewrite map_length. generalize 1%nat. induction z as [|a z IH]; intro k; [reflexivity|].
    cbn [length seq map map2 nadd]. rewrite IH. reflexivity.
  Qed.

  Lemma read_levels z : (Z.of_nat (length z) <= 1000000)%Z -> Forall usual z ->
    let rs := map2 (fun v k => v + inject_Z (Z.of_nat k) * (1 # 100000)) z (seq 1 (length z)) in
    exists vs, map (fun x => read_float (show_num 8 (Fin x))) rs = map (fun x => Some (Fin x)) vs /\ length vs = length z /\
      forall i a b, nth_error z i = Some a -> nth_error vs i = Some b -> raised_near i a b.
  Proof.
    intros L U.
    assert (G : forall k, (Z.of_nat k + Z.of_nat (length z) <= 1000001)%Z ->
      let rs := map2 (fun v k => v + inject_Z (Z.of_nat k) * (1 # 100000)) z (seq k (length z)) in
      exists vs, map (fun x => read_float (show_num 8 (Fin x))) rs = map (fun x => Some (Fin x)) vs /\ length vs = length z /\
        forall i a b, nth_error z i = Some a -> nth_error vs i = Some b ->
          Qabs (b - (a + inject_Z (Z.of_nat (k + i)) * (1 # 100000))) <= 2 * micro).
    { clear L. induction U as [|a z Ua U IH]; intros k L.
      - exists []. repeat split. intros [|i] a b E; discriminate E.
      - cbn [length] in L. destruct (IH (S k)) as (vs & E & Lv & N); [lia|].
        cbn [length seq map2 map]. cbv zeta in E. rewrite E.
        destruct (read_level (a + inject_Z (Z.of_nat k) * (1 # 100000))) as (v & Ev & Hv).
        { unfold usual in Ua. apply Qabs_Qle_condition in Ua. apply Qabs_Qle_condition.
          assert (K : 0 <= inject_Z (Z.of_nat k) <= 1000001).
          { split; [change 0 with (inject_Z 0)|change 1000001 with (inject_Z 1000001)]; rewrite <- Zle_Qle; lia. }
          lra. }
        rewrite Ev. exists (v :: vs). split; [reflexivity|]. split; [cbn; lia|].
        intros [|i] x y Ex Ey; cbn in Ex, Ey.
        + injection Ex as <-. injection Ey as <-. rewrite Nat.add_0_r. exact Hv.
        + replace (k + S i)%nat with (S k + i)%nat by lia. apply N; auto. }
    destruct (G 1%nat) as (vs & E & Lv & N); [lia|]. exists vs. split; [exact E|]. split; [exact Lv|]. exact N.
  Qed.

  Lemma raised_strict z vs : length vs = length z -> strictly_increasing z ->
    (forall i a b, nth_error z i = Some a -> nth_error vs i = Some b -> raised_near i a b) -> strictly_increasing vs.
  Proof.
    intros L St N i j a b Lt Ea Eb.
    destruct (nth_error z i) as [x|] eqn:Ex; [|apply nth_error_None in Ex; assert (nth_error vs i <> None) by congruence;
      rewrite nth_error_Some in *; lia].
    destruct (nth_error z j) as [y|] eqn:Ey; [|apply nth_error_None in Ey; assert (nth_error vs j <> None) by congruence;
      rewrite nth_error_Some in *; lia].
    pose proof (N i x a Ex Ea) as H1. pose proof (N j y b Ey Eb) as H2. pose proof (St i j x y Lt Ex Ey) as H3.
    unfold raised_near, micro in *. apply Qabs_Qle_condition in H1, H2.
    assert (K : inject_Z (Z.of_nat (S i)) + 1 <= inject_Z (Z.of_nat (S j))).
    { change 1 with (inject_Z 1). rewrite <- inject_Z_plus, <- Zle_Qle. lia. }
    lra.
  Qed.

  Lemma eq_strict l m : Forall2 Qeq l m -> strictly_increasing m -> strictly_increasing l.
  Proof.
    intros F St i j a b L Ea Eb.
    assert (G : forall k x, nth_error l k = Some x -> exists y, nth_error m k = Some y /\ x == y).
    { clear - F. induction F as [|x y l m E F IH]; intros [|k] v Ev; try discriminate; cbn in Ev |- *; eauto.
      injection Ev as <-. eauto. }
    destruct (G i a Ea) as (x & Ex & Hx). destruct (G j b Eb) as (y & Ey & Hy). rewrite Hx, Hy. eapply (St i j); eauto.
  Qed.
  Lemma eq_min m l l' : Forall2 Qeq l l' -> Forall (fun x => m <= x) l' -> Forall (fun x => m <= x) l.
  Proof. intros F. induction F; intros G; inversion G; subst; constructor; auto. rewrite H. auto. Qed.
  Lemma eq_rows a b c d : Forall2 Qeq a c -> Forall2 Qeq b d -> rowwise Qle c d -> rowwise Qle a b.
  Proof.
    intros F. revert b d. induction F as [|x y a c E F IH]; intros b d G R; inversion R as [|? d1 ? d' Hle R']; subst;
      inversion G as [|b1 ? b' ? Eb G']; subst; constructor.
    - rewrite E, Eb. exact Hle.
    - eapply IH; eauto.
  Qed.

  (** The numbers that are printed with str. *)
  Record printable (c : css) : Prop := {
    pb_tw : Forall double (s_tw c); pb_fw : Forall double (s_fw c);
    pb_main : double (nw_main (s_widths c)); pb_fp1 : double (nw_fp1 (s_widths c)); pb_fp2 : double (nw_fp2 (s_widths c));
    pb_crest : double (s_crest c); pb_base : double (s_base c) }.

  (** C94.  Every list of cross-sections that are valid, as C80 shows of the
      generated ones. *)
  Theorem C94_sobek_file_is_valid : forall (l : list (place * css)) st minw tol,
    (st_points st <= 1000000)%Z ->
    Forall (fun e => T_Sobek.cell (s_name (snd e)) /\ T_Sobek.cell (pl_branch (fst e)) /\ printable (snd e) /\
                     (forall x, In (Fin x) (s_z (snd e)) -> usual x) /\
                     exists len s faces zc, valid_css st minw tol len s faces zc (snd e)) l ->
    exists es, entries (tl (map (split_on ","%char) (file_lines (sobek_file show_float l)))) = es /\
      Forall2 (fun e x => valid_sobek read_float show_float (st_points st) minw tol (fst e) (snd e) x) l es.
  Proof.
    intros l st minw tol Hp H.
    set (xl := map (fun e => as_exported (fst e) (snd e)) l).
    assert (W : Forall sobek_ok xl).
    { unfold xl. apply Forall_map. eapply Forall_impl; [|exact H].
      intros [p c] (N & B & _ & _ & len & s & faces & zc & z & tw & fw & z1 & tw1 & fw1 & w & crest & base &
        Ez & Et & Ef & _ & _ & _ & _ & _ & _ & L1 & L2 & _). cbn [fst snd] in *.
      split; [exact N|]. split; [exact B|]. cbn [as_exported x_total_width x_z x_flow_width].
      rewrite Ez, Et, Ef, !map_length. auto. }
    destruct (C41_file_rows show_float (fc_text _ _ _ _ FC) xl W) as (content & Ew & Er).
    unfold sobek_file. fold xl. rewrite Ew. cbn [fst]. rewrite Er. cbn [tl]. rewrite entries_rows.
    eexists. split; [reflexivity|]. unfold xl. rewrite map_map. clear Ew Er W xl.
    induction H as [|[p c] l Hc H IH]; cbn [map]; constructor; [|exact IH].
    clear IH H. cbn [fst snd] in *.
    destruct Hc as (_ & _ & [Dt Df Dm D1 D2 Dc Db] & Uz & len & s & faces & zc &
      z & tw & fw & z1 & tw1 & fw1 & w & crest & base & Ez & Et & Ef & S1 & S2 & S3 & M1 & M2 & RW & L1 & L2 & L3 & L4 &
      _ & _ & _ & _ & _ & _ & _ & _ & _ & _ & Ew & _ & _ & _ & Ec & Eb & Hb & _).
    cbn [x_z x_total_width x_flow_width as_exported]. rewrite Ez, Et, Ef in *. rewrite raised_fin.
    assert (UZ : Forall usual z) by (apply Forall_forall; intros x I; apply Uz; apply in_map; exact I).
    destruct (read_levels z) as (zs & Kz & Lz & Nz); [lia|exact UZ|]. cbv zeta in Kz.
    set (rs := map2 (fun v k => v + inject_Z (Z.of_nat k) * (1 # 100000)) z (seq 1 (length z))) in *.
    assert (Lr : length rs = length z) by (unfold rs; rewrite map2_length, seq_length; lia). clearbody rs.
    rewrite Forall_map in Dt, Df.
    destruct (read_widths tw Dt) as (ts & Kt & Qt). destruct (read_widths fw Df) as (fs & Kf & Qf).
    pose proof (Forall2_len _ _ _ Qt) as Lt. pose proof (Forall2_len _ _ _ Qf) as Lf.
    destruct (read_columns (as_exported p c) rs tw fw) as (C3 & C4 & C5 & C0); [lia|lia|]. cbv zeta in C3, C4, C5, C0.
    split; cbn [fst snd].
    - split; [reflexivity|exact C0].
    - split; reflexivity.
    - exists z, tw, fw, zs, ts, fs. rewrite C3, C4, C5. do 6 (split; [assumption|]).
      split; [assumption|]. split; [lia|]. split; [lia|]. do 5 (split; [assumption|]).
      split; [eapply raised_strict; eauto|]. split; [eapply eq_strict; eauto|]. split; [eapply eq_strict; eauto|].
      split; [eapply eq_rows; eauto|]. split; eapply eq_min; eauto.
    - rewrite Ew in *. cbn [nw_main nw_fp1 nw_fp2 lift] in *.
      exists (w_main w), (w_fp1 w), (w_fp2 w). do 3 (split; [reflexivity|]).
      unfold meta_fields, show_width. cbn [nth as_exported x_widths]. rewrite Ew. cbn [nw_main nw_fp1 nw_fp2 lift].
      change (tassoc _ (T "main")) with (Some (Fin (w_main w))).
      change (tassoc _ (T "floodplain1")) with (Some (Fin (w_fp1 w))).
      change (tassoc _ (T "floodplain2")) with (Some (Fin (w_fp2 w))).
      split; [apply same_reads; auto|]. split; apply same_reads; auto.
    - unfold meta_fields, has_dike. cbn [as_exported x_extra_total_volume x_crest x_base x_extra_total_area].
      destruct (nltb (Fin 0) (pl_extra_volume p)); cbn [nth].
      + split; [reflexivity|]. exists crest, base. do 2 (split; [assumption|]). rewrite Eb. cbn [isnan]. rewrite Eb in Db.
        split; [apply same_reads; auto|]. split; [apply same_reads; auto|]. exact Hb.
      + split; [reflexivity|]. repeat constructor.
  Qed.
End C94.
Print Assumptions C94_sobek_file_is_valid.

(** A generated cross-section that meets the hypotheses. *)
Theorem C94_case : exists c len zc,
  generate_cross_section (fun x => x) (fun _ _ => Fin 0) (fun _ => Raise ValueError) (fun x => x)
    example_settings (T "css") (Fin 10) 0 3 example_selection = Ok (Some c) /\
  T_Sobek.cell (s_name c) /\ printable three_decimals c /\ (forall x, In (Fin x) (s_z c) -> usual x) /\
  valid_css example_settings (1 # 2) (1 # 2) len example_selection example_faces zc c /\
  (st_points example_settings <= 1000000)%Z.
Proof.
  destruct C86_case as (c & zc & len & G & N & _ & _ & U & V).
  exists c, len, zc. split; [exact G|].
  assert (E : exists c, generate_cross_section (fun x => x) (fun _ _ => Fin 0) (fun _ => Raise ValueError) (fun x => x)
    example_settings (T "css") (Fin 10) 0 3 example_selection = Ok (Some c) /\ T_Sobek.cell (s_name c) /\ printable three_decimals c).
  { eexists. split; [vm_compute; reflexivity|]. split; [split; apply freeb_free; reflexivity|].
    split; cbn [s_tw s_fw s_widths s_crest s_base nw_main nw_fp1 nw_fp2];
      repeat (constructor; [vm_compute; reflexivity|]); try constructor; vm_compute; reflexivity. }
  destruct E as (c' & G' & C & Pr). rewrite G in G'. injection G' as <-.
  split; [exact C|]. split; [exact Pr|]. split; [apply (us_z _ U)|]. split; [exact V|]. vm_compute. discriminate.
Qed.
Print Assumptions C94_case.
