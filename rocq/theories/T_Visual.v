(** Theorems for C82 (what a figure shows), C83 (a figure for every
    cross-section) and C84 (the cross-sections of a branch). *)
From Coq Require Import String List Ascii ZArith QArith Bool Lia Lqa.
From Verif Require Import PyBase Num Spec L_Num L_List Text L_Text Fixed L_Fixed M_Ini M_Import T_Import
  M_Friction M_Classify T_Variance M_Network L_Network T_NetFile M_Export L_Export T_Definitions T_Sobek T_Volumes T_Roughness M_Run M_Visual.
From Verif Require T_Friction.
Import ListNotations.
Local Open Scope Q_scope.

(** * The crest level *)

Definition cropped : string := "SD Crest Level (cropped)".
Definition uncropped : string := "SD Crest Level".

(** The crest is drawn where it is if it lies between two levels of the
    cross-section; otherwise at the lowest or highest level, and the label says so. *)
Theorem C82_crest_level : forall d ls, d_levels d = map Fin ls -> ls <> [] ->
  exists style label q, sd_plot_info d = Ok (style, label, Fin q) /\
    (exists l, In l ls /\ l <= q) /\ (exists l, In l ls /\ q <= l) /\
    match d_sd_crest d with
    | Fin c => if existsb (fun l => Qle_bool l c) ls && existsb (fun l => Qle_bool c l) ls
               then q = c /\ label = uncropped /\ style = "--"%string
               else In q ls /\ label = cropped /\ style = "-"%string
    | _ => In q ls /\ label = cropped /\ style = "-"%string
    end.
Proof.
  intros d ls E N. unfold sd_plot_info. rewrite E. destruct ls as [|a ls]; [congruence|]. cbn [map].
  replace (py_index (Fin a :: map Fin ls) 0) with (Ok (Fin a)) by reflexivity. cbn [bind].
  destruct (py_max_fin (a :: a :: ls)) as (hi & Eh & Ih & Mh); [discriminate|].
  destruct (py_min_fin (a :: a :: ls)) as (lo & El & Il & Ml); [discriminate|].
  cbn [map] in Eh, El. rewrite Eh, El. cbn [bind].
  assert (Ih' : In hi (a :: ls)) by (destruct Ih as [<-|Ih]; [left; auto|exact Ih]).
  assert (Il' : In lo (a :: ls)) by (destruct Il as [<-|Il]; [left; auto|exact Il]).
  assert (Mh' : forall x, In x (a :: ls) -> x <= hi) by (intros; apply Mh; right; auto).
  assert (Ml' : forall x, In x (a :: ls) -> lo <= x) by (intros; apply Ml; right; auto).
  clear Ih Il Mh Ml Eh El.
  destruct (d_sd_crest d) as [c| | |]; cbn [nleb].
  - destruct (Qle_bool c hi) eqn:Ec.
    + destruct (Qle_bool lo c) eqn:Ed; [|].
      * exists "--"%string, uncropped, c. split; [reflexivity|].
        assert (H1 : existsb (fun l => Qle_bool l c) (a :: ls) = true) by (apply existsb_exists; eauto).
        assert (H2 : existsb (fun l => Qle_bool c l) (a :: ls) = true) by (apply existsb_exists; eauto).
        apply Qle_bool_iff in Ec. apply Qle_bool_iff in Ed.
        split; [eauto|]. split; [eauto|]. rewrite H1, H2. cbn [andb]. auto.
      * exists "-"%string, cropped, lo. split; [reflexivity|].
        assert (H1 : existsb (fun l => Qle_bool l c) (a :: ls) = false).
        { apply Bool.not_true_is_false. intro H. apply existsb_exists in H. destruct H as (l & I & H).
          apply Qle_bool_iff in H. apply Bool.not_true_iff_false in Ed. apply Ed. apply Qle_bool_iff.
          specialize (Ml' l I). lra. }
        split; [exists lo; split; auto; lra|]. split; [exists lo; split; auto; lra|]. rewrite H1. cbn [andb]. auto.
    + exists "-"%string, cropped, hi. split; [reflexivity|].
      assert (H2 : existsb (fun l => Qle_bool c l) (a :: ls) = false).
      { apply Bool.not_true_is_false. intro H. apply existsb_exists in H. destruct H as (l & I & H).
        apply Qle_bool_iff in H. apply Bool.not_true_iff_false in Ec. apply Ec. apply Qle_bool_iff.
        specialize (Mh' l I). lra. }
      split; [exists hi; split; auto; lra|]. split; [exists hi; split; auto; lra|].
      rewrite H2, andb_false_r. auto.
  - exists "-"%string, cropped, hi. split; [reflexivity|].
    split; [exists hi; split; auto; lra|]. split; [exists hi; split; auto; lra|]. auto.
  - exists "-"%string, cropped, hi. split; [reflexivity|].
    split; [exists hi; split; auto; lra|]. split; [exists hi; split; auto; lra|]. auto.
  - exists "-"%string, cropped, lo. split; [reflexivity|].
    split; [exists lo; split; auto; lra|]. split; [exists lo; split; auto; lra|]. auto.
Qed.

Print Assumptions C82_crest_level.

(** * The lowest water level of the 2D model *)

(** [z] is the level of the first row with a 2D volume; without such a row it is
    the first level. *)
Definition lowest_2d (zs vols : list num) (z : num) : Prop :=
  (exists i v, nth_error zs i = Some z /\ nth_error vols i = Some v /\ v <> NaN /\
     forall j w, (j < i)%nat -> nth_error vols j = Some w -> w = NaN) \/
  (Forall (eq NaN) vols /\ nth_error zs 0 = Some z).

Lemma first_true_spec l : match first_true l with
  | Some i => nth_error l i = Some true /\ forall j b, (j < i)%nat -> nth_error l j = Some b -> b = false
  | None => Forall (eq false) l
  end.
Proof.
  induction l as [|[|] l IH]; cbn [first_true]; [constructor| |].
  - split; [reflexivity|]. intros; lia.
  - destruct (first_true l) as [i|]; cbn [option_map].
    + destruct IH as [A B]. split; [exact A|]. intros [|j] b H E; cbn in E; [congruence|]. apply (B j); [lia|auto].
    + constructor; auto.
Qed.

Lemma lowest_water_level_spec vd : length (column 0 vd) = length (column 1 vd) -> column 0 vd <> [] ->
  exists z, lowest_water_level vd = Ok z /\ lowest_2d (column 0 vd) (column 1 vd) z.
Proof.
  unfold lowest_water_level. generalize (column 0 vd) as zs, (column 1 vd) as vs. clear vd. intros zs vs L N.
  destruct vs as [|v vs]; [exfalso; destruct zs; [apply N; reflexivity|discriminate L]|].
  unfold argmax_bool. cbn [map]. cbn [bind].
  pose proof (first_true_spec (map (fun x => negb (isnan x)) (v :: vs))) as S. cbn [map] in S.
  set (m := negb (isnan v) :: map (fun x => negb (isnan x)) vs) in *.
  destruct (first_true m) as [i|].
  - destruct S as [A B]. assert (Hi : (i < length m)%nat) by (apply nth_error_Some; congruence).
    assert (Lm : length m = length zs) by (unfold m; cbn; rewrite map_length; cbn in L; lia).
    destruct (nth_error zs i) as [z|] eqn:Ez; [|apply nth_error_None in Ez; lia].
    exists z. split; [apply py_index_nat; auto|]. left. exists i.
    change m with (map (fun x => negb (isnan x)) (v :: vs)) in A, B.
    rewrite nth_error_map in A. destruct (nth_error (v :: vs) i) as [w|] eqn:Ew; [|discriminate].
    exists w. split; [exact Ez|]. split; [reflexivity|]. split.
    + intros ->. discriminate A.
    + intros j u Hj Eu. specialize (B j (negb (isnan u)) Hj). rewrite nth_error_map, Eu in B.
      specialize (B eq_refl). destruct u; try discriminate; reflexivity.
  - destruct zs as [|z zs]; [congruence|]. exists z. split; [reflexivity|]. right. split; [|reflexivity].
    change m with (map (fun x => negb (isnan x)) (v :: vs)) in S. apply Forall_forall. intros u I.
    rewrite Forall_forall in S. specialize (S (negb (isnan u)) (in_map (fun x => negb (isnan x)) _ u I)).
    destruct u; try discriminate; reflexivity.
Qed.

(** * The panels *)

Definition finite (x : num) : Prop := exists q, x = Fin q.

(** The outline of a profile on one side of the axis ([s] is -1 or 1): from the
    axis at the lowest row outwards to half the width at every level. *)
Definition outline (s : Q) (ws zs x y : list num) : Prop :=
  exists x0 xs z0, x = Fin x0 :: xs /\ x0 == 0 /\ y = z0 :: zs /\ nth_error zs 0 = Some z0 /\
    Forall2 (fun w p => exists q r, w = Fin q /\ p = Fin r /\ r == s * (q / 2)) ws xs.

(** A horizontal line of width [w], centred on the axis, lower than all levels. *)
Definition bar (w : num) (zs : list num) (x y : list num) : Prop :=
  exists q a b h, w = Fin q /\ x = [Fin a; Fin b] /\ y = [Fin h; Fin h] /\ a == - b /\ b - a == q /\
    Forall (fun z => exists v, z = Fin v /\ h < v) zs.

Record geometry_shown (d : definition) (vd : list (list num)) (g : list shape) : Prop := {
  gs_outlines : forall s ws, In s [-1; 1] -> In ws [d_total_width d; d_flow_width d] ->
    exists x y, In (Line "" x y) g /\ outline s ws (d_levels d) x y;
  gs_storage : exists z low high, In (Area "Storage" z low high) g /\
    outline 1 (d_flow_width d) (d_levels d) low z /\ outline 1 (d_total_width d) (d_levels d) high z;
  gs_main : exists x y, In (Line "Main section" x y) g /\ bar (d_main_width d) (d_levels d) x y;
  gs_floodplain : exists x y, In (Line "Floodplain section" x y) g /\
    bar (nadd (d_main_width d) (d_fp1_width d)) (d_levels d) x y;
  gs_low : exists x y z, In (Line "Lowest water level in 2D" x y) g /\ lowest_2d (column 0 vd) (column 1 vd) z /\
    y <> [] /\ Forall (eq z) y;
  gs_crest : exists label style z x, sd_plot_info d = Ok (style, label, z) /\ In (Line label x [z; z]) g;
  gs_only : forall sh, In sh g ->
    (exists s ws x y, In s [-1; 1] /\ In ws [d_total_width d; d_flow_width d] /\
       sh = Line "" x y /\ outline s ws (d_levels d) x y) \/
    (exists s label z low high, In s [-1; 1] /\ sh = Area label z low high /\
       outline s (d_flow_width d) (d_levels d) low z /\ outline s (d_total_width d) (d_levels d) high z) \/
    (exists x y, sh = Line "Main section" x y /\ bar (d_main_width d) (d_levels d) x y) \/
    (exists x y, sh = Line "Floodplain section" x y /\ bar (nadd (d_main_width d) (d_fp1_width d)) (d_levels d) x y) \/
    (exists x y z, sh = Line "Lowest water level in 2D" x y /\ lowest_2d (column 0 vd) (column 1 vd) z /\ Forall (eq z) y) \/
    (exists label style z x, sd_plot_info d = Ok (style, label, z) /\ sh = Line label x [z; z]) }.

Lemma finite_list l : Forall finite l -> exists qs, l = map Fin qs.
Proof.
  induction 1 as [|x l (q & ->) _ (qs & ->)]; [exists []; reflexivity|]. exists (q :: qs). reflexivity.
Qed.
Lemma half_fin s q : exists r, half_width s (Fin q) = Fin r /\ r == s * (q / 2).
Proof.
  unfold half_width. cbn. eexists. split; [reflexivity|]. cbn. field.
Qed.
Lemma outline_of s ws zs z0 : Forall finite ws -> nth_error zs 0 = Some z0 ->
  outline s ws zs (map (half_width s) (Fin 0 :: ws)) (z0 :: zs).
Proof.
  intros F Z. destruct (half_fin s 0) as (r0 & E0 & H0). cbn [map]. rewrite E0.
  exists r0, (map (half_width s) ws), z0. split; [reflexivity|]. split; [rewrite H0; field|].
  split; [reflexivity|]. split; [exact Z|].
  induction F as [|w ws (q & ->) F IH]; cbn [map]; constructor; auto.
  destruct (half_fin s q) as (r & E & H). exists q, r. auto.
Qed.

Lemma plot_geometry_spec d vd : Forall finite (d_levels d) -> d_levels d <> [] ->
  Forall finite (d_total_width d) -> Forall finite (d_flow_width d) ->
  length (d_total_width d) = length (d_levels d) -> length (d_flow_width d) = length (d_levels d) ->
  finite (d_main_width d) -> finite (d_fp1_width d) ->
  length (column 0 vd) = length (column 1 vd) -> column 0 vd <> [] ->
  exists g, plot_geometry d (Ok vd) None = Ok g /\ geometry_shown d vd g.
Proof.
  intros Fz Nz Ft Ff Lt Lf (wm & Em) (w1 & E1) Lv Nv.
  destruct (lowest_water_level_spec vd Lv Nv) as (low & El & Sl).
  destruct (finite_list _ Fz) as (zs & Ez). destruct (finite_list _ Ft) as (ts & Et).
  assert (Nzs : zs <> []) by (intros ->; apply Nz; rewrite Ez; reflexivity).
  destruct (C82_crest_level d zs Ez Nzs) as (style & label & crest & Ec & _).
  unfold plot_geometry. destruct (d_levels d) as [|z0 zr] eqn:Ed; [congruence|].
  replace (py_index (z0 :: zr) 0) with (Ok z0) by reflexivity. cbn [bind]. rewrite El. cbn [bind].
  assert (LL : forall A (f : num -> A) l, length l = length (z0 :: zr) -> length (map f (Fin 0 :: l)) = length (z0 :: z0 :: zr))
    by (intros; rewrite map_length; cbn in *; lia).
  unfold area, line. rewrite !LL by auto. rewrite !Nat.eqb_refl. cbn [andb bind].
  destruct zs as [|q0 qr]; [congruence|]. cbn [map] in Ez. injection Ez as Ez0 Ezr.
  destruct (py_min_fin (q0 :: q0 :: qr)) as (bot & Eb & Ib & Mb); [discriminate|]. cbn [map] in Eb.
  rewrite Ez0, Ezr. rewrite Eb. cbn [bind].
  destruct (py_max_fin (0 :: ts)) as (top & Ew & _); [discriminate|]. cbn [map] in Ew. rewrite <- Et in Ew. rewrite Ew. cbn [bind].
  rewrite <- Ez0, <- Ezr.
  rewrite !LL by auto.
  replace (length (map (fun _ : num => low) (z0 :: z0 :: zr))) with (length (z0 :: z0 :: zr)) by (rewrite map_length; reflexivity).
  rewrite Nat.eqb_refl. cbn [bind]. rewrite Ec. cbn [bind fst snd app].
  eexists. split; [reflexivity|].
  assert (HB : forall w q, w = Fin q -> bar w (z0 :: zr) [nmul (Fin (- 1 # 2)) w; nmul (Fin (1 # 2)) w]
            [nsub (Fin bot) (Fin (1 # 4)); nsub (Fin bot) (Fin (1 # 4))]).
  { intros w q ->. exists q, ((- 1 # 2) * q), ((1 # 2) * q), (bot - (1 # 4)). split; [reflexivity|].
    split; [reflexivity|]. split; [reflexivity|]. split; [ring|]. split; [ring|].
    rewrite Ez0, Ezr. change (Fin q0 :: map Fin qr) with (map Fin (q0 :: qr)). apply Forall_map. apply Forall_forall.
    intros v I. exists v. split; [reflexivity|]. specialize (Mb v (or_intror I)). lra. }
  split.
  - intros s ws Hs Hw. exists (map (half_width s) (Fin 0 :: ws)), (z0 :: z0 :: zr).
    split; [|rewrite Ed; apply outline_of; [destruct Hw as [<-|[<-|[]]]; auto|reflexivity]].
    destruct Hs as [<-|[<-|[]]], Hw as [<-|[<-|[]]]; cbn [In]; tauto.
  - exists (z0 :: z0 :: zr), (map (half_width 1) (Fin 0 :: d_flow_width d)), (map (half_width 1) (Fin 0 :: d_total_width d)).
    split; [cbn [In]; tauto|]. rewrite Ed. split; apply outline_of; auto.
  - eexists _, _. split; [cbn [In]; do 6 right; left; reflexivity|]. rewrite Ed. eapply HB; eauto.
  - eexists _, _. split; [cbn [In]; do 7 right; left; reflexivity|]. rewrite Ed. rewrite Em, E1. eapply HB; reflexivity.
  - eexists _, _, low. split; [cbn [In]; do 8 right; left; reflexivity|]. split; [exact Sl|].
    split; [discriminate|]. apply Forall_map. apply Forall_forall. auto.
  - exists label, style, (Fin crest). eexists. split; [exact Ec|]. cbn [In]. do 9 right. left. reflexivity.
  - assert (O : forall s ws, Forall finite ws -> outline s ws (d_levels d) (map (half_width s) (Fin 0 :: ws)) (z0 :: z0 :: zr))
      by (intros; rewrite Ed; apply outline_of; auto).
    assert (IM : In (-1) [-1; 1]) by (left; reflexivity). assert (IP : In 1 [-1; 1]) by (right; left; reflexivity).
    assert (IT : In (d_total_width d) [d_total_width d; d_flow_width d]) by (left; reflexivity).
    assert (IF : In (d_flow_width d) [d_total_width d; d_flow_width d]) by (right; left; reflexivity).
    intros sh I. cbn [In] in I.
    destruct I as [<-|[<-|[<-|[<-|[<-|[<-|[<-|[<-|[<-|[<-|[]]]]]]]]]]].
    + right; left. eexists (-1), _, _, _, _. split; [exact IM|]. split; [reflexivity|]. split; apply O; auto.
    + left. exists (-1), (d_total_width d). eexists _, _. split; [exact IM|]. split; [exact IT|]. split; [reflexivity|]. apply O; auto.
    + left. exists (-1), (d_flow_width d). eexists _, _. split; [exact IM|]. split; [exact IF|]. split; [reflexivity|]. apply O; auto.
    + right; left. eexists 1, _, _, _, _. split; [exact IP|]. split; [reflexivity|]. split; apply O; auto.
    + left. exists 1, (d_total_width d). eexists _, _. split; [exact IP|]. split; [exact IT|]. split; [reflexivity|]. apply O; auto.
    + left. exists 1, (d_flow_width d). eexists _, _. split; [exact IP|]. split; [exact IF|]. split; [reflexivity|]. apply O; auto.
    + right; right; left. eexists _, _. split; [reflexivity|]. rewrite Ed. eapply HB; eauto.
    + right; right; right; left. eexists _, _. split; [reflexivity|]. rewrite Ed, Em, E1. eapply HB; reflexivity.
    + do 4 right; left. eexists _, _, low. split; [reflexivity|]. split; [exact Sl|]. apply Forall_map. apply Forall_forall. auto.
    + do 5 right. exists label, style, (Fin crest). eexists. split; [exact Ec|]. reflexivity.
Qed.

(** What a label of the volume graph stands for. *)
Inductive kind := Filled | Drawn.
Definition volume_label : list (string * kind * (volumes -> list num)) :=
  [("1D Total Volume (incl. SD)"%string, Filled, v_total_corrected);
   ("1D Total Volume (excl. SD)"%string, Filled, v_total);
   ("1D Flow Volume (incl. SD)"%string, Filled, v_flow_corrected);
   ("1D Flow Volume (excl. SD)"%string, Filled, v_flow);
   ("2D Total Volume"%string, Drawn, v_fm_total);
   ("2D Flow Volume"%string, Drawn, v_fm_flow)].
Definition label_of (s : shape) : string := match s with Line l _ _ => l | Area l _ _ _ => l end.

(** [s] shows the values [ys] at the levels [zs]; areas start at zero. *)
Definition shows_values (k : kind) (zs ys : list num) (s : shape) : Prop :=
  let agree := Forall2 (fun x v => same v x) in
  match k, s with
  | Drawn, Line _ x y => agree zs x /\ agree ys y
  | Filled, Area _ z low high => agree zs z /\ Forall (eq (Fin 0)) low /\ length low = length z /\ agree ys high
  | _, _ => False
  end.

Definition wrong_label : string := "1D Flow Volume (incl. SD)".

Lemma lengths_related E cols k : related E cols -> length (nth k E []) = length (nth k cols []).
Proof.
  intro R. revert k. induction R as [|e c E cols H R IH]; intros [|k]; cbn; auto. induction H; cbn; auto.
Qed.
Lemma column_related E cols k : related E cols -> Forall2 (fun x v => same v x) (nth k E []) (nth k cols []).
Proof. intro R. revert k. induction R as [|e c E cols H R IH]; intros [|k]; cbn; auto. Qed.

Lemma finite_same l m : Forall finite l -> Forall2 (fun x v => same v x) l m -> Forall finite m.
Proof.
  intros F H. induction H as [|x v l m S H IH]; constructor; inversion F as [|? ? (q & ->) F']; subst; auto.
  destruct v; try contradiction. eexists. reflexivity.
Qed.

Lemma plot_volume_spec d V cols ls : d_levels d = map Fin ls -> ls <> [] ->
  related (volume_columns V) cols ->
  Forall (fun col => length col = length (v_z V)) (volume_columns V) -> v_z V <> [] -> Forall finite (v_z V) ->
  exists p, plot_volume d (Ok cols) = Ok p /\
    (forall l k sel, In (l, k, sel) volume_label -> l <> wrong_label ->
       (exists s, In s p /\ label_of s = l) /\
       (forall s, In s p -> label_of s = l -> shows_values k (v_z V) (sel V) s)) /\
    (exists s, In s p /\ label_of s = wrong_label /\ shows_values Filled (v_z V) (v_flow V) s) /\
    (forall s, In s p -> label_of s = wrong_label -> shows_values Filled (v_z V) (v_flow V) s) /\
    (exists z x y, In (Line "Lowest water level in 2D" x y) p /\ lowest_2d (column 0 cols) (column 1 cols) z /\
       Forall (eq z) x /\ Forall2 (fun a b => same b a) (v_fm_total V) y) /\
    (exists style label z x y, sd_plot_info d = Ok (style, label, z) /\ In (Line label x y) p /\
       Forall (eq z) x /\ Forall2 (fun a b => same b a) (v_fm_total V) y /\
       map label_of p = map (fun v => fst (fst v)) volume_label ++ ["Lowest water level in 2D"%string; label]).
Proof.
  intros Ez Nz R L N F.
  assert (C : forall k, (k < 11)%nat -> length (nth k cols []) = length (v_z V)).
  { intros k Hk. rewrite <- (lengths_related _ _ k R). rewrite Forall_forall in L. apply L. apply nth_In. exact Hk. }
  pose proof (fun k => column_related _ _ k R) as A.
  assert (C0 : length (column 0 cols) = length (v_z V)) by (apply (C 0%nat); lia).
  destruct (lowest_water_level_spec cols) as (low & El & Sl).
  { unfold column. rewrite !C by lia. reflexivity. }
  { intro X. rewrite X in C0. destruct (v_z V); [congruence|discriminate]. }
  destruct (C82_crest_level d ls Ez Nz) as (style & label & crest & Ec & _ & _ & Hl).
  assert (NL : label = cropped \/ label = uncropped).
  { destruct (d_sd_crest d); try tauto. destruct (_ && _) in Hl; tauto. }
  unfold plot_volume. cbn [bind]. rewrite El. cbn [bind]. unfold area, line.
  rewrite map_length. unfold column in *. rewrite !C by lia. rewrite Nat.eqb_refl. cbn [andb bind]. rewrite Ec. cbn [bind fst snd].
  pose proof (finite_same _ _ F (A 0%nat)) as Fz. destruct (finite_list _ Fz) as (zs & Eq).
  assert (Nzs : zs <> []) by (intros ->; rewrite Eq in C0; destruct (v_z V); [congruence|discriminate]).
  destruct (py_min_fin zs Nzs) as (mn & Emn & _). destruct (py_max_fin zs Nzs) as (mx & Emx & _).
  rewrite Eq, Emn, Emx, <- Eq. cbn [bind limits].
  eexists. split; [reflexivity|].
  assert (Z0 : forall l : list num, Forall (eq (Fin 0)) (map (fun _ => Fin 0) l)).
  { intro l. apply Forall_map. apply Forall_forall. auto. }
  assert (SV : forall l k, shows_values Filled (v_z V) (nth k (volume_columns V) [])
                (Area l (nth 0 cols []) (map (fun _ => Fin 0) (nth 0 cols [])) (nth k cols []))).
  { intros l k. cbn. split; [apply (A 0%nat)|]. split; [apply Z0|]. split; [apply map_length|apply A]. }
  assert (SD : forall l k, shows_values Drawn (v_z V) (nth k (volume_columns V) []) (Line l (nth 0 cols []) (nth k cols []))).
  { intros l k. cbn. split; [apply (A 0%nat)|apply A]. }
  assert (CE : forall (l : string) (v : num), Forall (eq v) (map (fun _ : num => v) (nth 1 cols []))).
  { intros l v. apply Forall_map. apply Forall_forall. auto. }
  split; [|split; [|split; [|split]]].
  - intros l k sel I Nw. cbn [volume_label In] in I.
    repeat (destruct I as [I|I]; [injection I as <- <- <-; try (exfalso; apply Nw; reflexivity);
      (split;
       [match goal with |- exists s, In s ?p /\ _ =>
          let d := constr:(Line "" [] []) in
          first [exists (nth 0 p d); split; [left; reflexivity|reflexivity]
                |exists (nth 1 p d); split; [right; left; reflexivity|reflexivity]
                |exists (nth 3 p d); split; [do 3 right; left; reflexivity|reflexivity]
                |exists (nth 4 p d); split; [do 4 right; left; reflexivity|reflexivity]
                |exists (nth 5 p d); split; [do 5 right; left; reflexivity|reflexivity]] end|]);
      intros s Is Es; cbn [In] in Is;
      repeat (destruct Is as [<-|Is]; [cbn [label_of] in Es;
        first [discriminate Es|exact (SV _ 5%nat)|exact (SV _ 6%nat)|exact (SV _ 8%nat)|exact (SD _ 1%nat)|exact (SD _ 2%nat)
              |exfalso; destruct NL; subst label; discriminate Es]|]); destruct Is|]); destruct I.
  - eexists. split; [right; right; left; reflexivity|]. split; [reflexivity|]. exact (SV _ 8%nat).
  - intros s Is Es; cbn [In] in Is.
    repeat (destruct Is as [<-|Is]; [cbn [label_of] in Es;
        first [discriminate Es|exact (SV _ 8%nat)|exfalso; destruct NL; subst label; discriminate Es]|]); destruct Is.
  - exists low. eexists _, _. split; [do 6 right; left; reflexivity|]. split; [exact Sl|].
    split; [apply (CE ""%string)|apply (A 1%nat)].
  - exists style, label, (Fin crest). eexists _, _. split; [reflexivity|]. split; [do 7 right; left; reflexivity|].
    split; [apply (CE ""%string)|]. split; [apply (A 1%nat)|]. reflexivity.
Qed.

(** The tables that the roughness graph draws. *)
Definition drawn_table (label : string) (r : res (option (list num) * option (list num))) : list shape :=
  match r with Ok (Some l, Some v) => [Line label l v] | _ => [] end.
(** Tables read for the roughness graph: as many values as levels, or not there. *)
Definition table_fits (r : res (option (list num) * option (list num))) : Prop :=
  match r with
  | Ok (Some l, Some v) => length l = length v
  | Ok _ => True
  | Raise e => e = FileNotFoundError
  end.

Lemma plot_roughness_spec d m fp1 ls : d_levels d = map Fin ls -> ls <> [] ->
  table_fits (Ok m) -> table_fits fp1 ->
  plot_roughness d (Ok m) fp1 None = Ok (drawn_table "Main channel" (Ok m) ++ drawn_table "Floodplain1" fp1).
Proof.
  intros Ez N F1 F2. unfold plot_roughness. cbn [bind]. rewrite Ez.
  destruct (py_min_fin ls N) as (mn & -> & _). destruct (py_max_fin ls N) as (mx & -> & _). unfold line.
  destruct m as [[l|] [v|]]; cbn [table_fits drawn_table app] in *; try rewrite F1, Nat.eqb_refl;
    (destruct fp1 as [[[l'|] [v'|]]|e]; cbn [table_fits drawn_table] in *; [try rewrite F2, Nat.eqb_refl| | | |subst e];
     cbn [bind limits app]; rewrite ?app_nil_r; reflexivity).
Qed.

(** * From the exported files to the figure *)

Section C82.
  Variable double : num -> Prop.
  Variable rnd : Q -> num.
  Variable show_float : num -> text.
  Variable read_float : text -> option num.
  Hypothesis FC : float_codec double rnd show_float read_float.
  Variable round2 : num -> num.

  (** A number that is finite when it is written with four decimals and read. *)
  Definition stays_finite (x : num) : Prop := exists q p, x = Fin q /\ rnd (rounded 4 q) = Fin p.

  Lemma printed_finite x v : stays_finite x -> printed rnd 4 x v -> finite v.
  Proof.
    intros (q & p & -> & E) P. cbn in P. rewrite E in P. destruct v; try contradiction. eexists. reflexivity.
  Qed.
  Lemma printed_finite_list l m : Forall stays_finite l -> Forall2 (printed rnd 4) l m -> Forall finite m.
  Proof.
    intros F H. induction H as [|x v l m P H IH]; constructor; inversion F; subst; auto. eapply printed_finite; eauto.
  Qed.

  (** A cross-section whose figure can be drawn. *)
  Record drawable (c : xs) : Prop := {
    dr_rows : x_z c <> [];
    dr_total : length (x_total_width c) = length (x_z c);
    dr_flow : length (x_flow_width c) = length (x_z c);
    dr_levels : Forall stays_finite (x_z c);
    dr_widths : Forall stays_finite (x_total_width c) /\ Forall stays_finite (x_flow_width c);
    dr_sections : forall s w, In s [T "main"; T "floodplain1"] -> tassoc (x_widths c) s = Some w -> stays_finite w;
    dr_volumes : v_z (x_volumes c) <> [] /\ Forall finite (v_z (x_volumes c)) }.

  Theorem C82_figure_shows_the_exported_data : forall css c files m,
    Forall (writable double) css -> Forall (volumes_ok double) css -> NoDup (map x_name css) -> In c css ->
    x_name c <> T "id" -> drawable c ->
    files css_definitions = Some (fst (run_writes (write_geometry_fm1d show_float css))) ->
    files volumes_file = Some (fst (run_writes (write_volumes show_float css))) ->
    roughness_of read_float round2 files roughness_main (x_name c) = Ok m -> table_fits (Ok m) ->
    table_fits (roughness_of read_float round2 files roughness_fp1 (x_name c)) ->
    exists ds d cols f,
      cross_sections read_float files = Ok ds /\ Forall2 (exported rnd) css ds /\
      In d ds /\ exported rnd c d /\
      volumes_of read_float files (x_name c) = Ok cols /\ related (columns c) cols /\
      draw read_float round2 files d None None = Ok f /\
      geometry_shown d cols (f_geometry f) /\
      (forall l k sel, In (l, k, sel) volume_label -> l <> wrong_label ->
         (exists s, In s (f_volume f) /\ label_of s = l) /\
         (forall s, In s (f_volume f) -> label_of s = l -> shows_values k (v_z (x_volumes c)) (sel (x_volumes c)) s)) /\
      (exists z x y, In (Line "Lowest water level in 2D" x y) (f_volume f) /\ lowest_2d (column 0 cols) (column 1 cols) z /\
         Forall (eq z) x /\ Forall2 (fun a b => same b a) (v_fm_total (x_volumes c)) y) /\
      (exists style label z x y, sd_plot_info d = Ok (style, label, z) /\ In (Line label x y) (f_volume f) /\
         Forall (eq z) x /\ Forall2 (fun a b => same b a) (v_fm_total (x_volumes c)) y /\
         map label_of (f_volume f) = map (fun v => fst (fst v)) volume_label ++ ["Lowest water level in 2D"%string; label]) /\
      f_roughness f = drawn_table "Main channel" (Ok m) ++
        drawn_table "Floodplain1" (roughness_of read_float round2 files roughness_fp1 (x_name c)).
  Proof.
    intros css c files m W V ND I Nid D Fd Fv Er T1 T2.
    destruct (C39_definition_file_round_trip double rnd show_float read_float FC css W) as (cd & ds & W1 & P1 & F2).
    destruct (C42_volumes_of_one double rnd show_float read_float FC css c V ND I Nid) as (cv & cols & W2 & P2 & R2).
    rewrite W1 in Fd. rewrite W2 in Fv. cbn [fst] in Fd, Fv.
    assert (G : exists d, In d ds /\ exported rnd c d).
    { clear - F2 I. induction F2 as [|a b l m H F IH]; [destruct I|]. destruct I as [->|I]; [exists b; split; [left|]; auto|].
      destruct (IH I) as (d & J & E). exists d. split; [right|]; auto. }
    destruct G as (d & Id & X).
    assert (Vo : volumes_of read_float files (x_name c) = Ok cols)
      by (unfold volumes_of, open_file; rewrite Fv; exact P2).
    pose proof (proj1 (Forall_forall _ _) V c I) as (_ & _ & Lc).
    destruct D as [Dr Dt Df Dl (Dw1 & Dw2) Dsc (Dv1 & Dv2)].
    assert (FL : forall l k, Forall2 (printed rnd 4) l k -> length k = length l)
      by (intros l k H; induction H; cbn; auto).
    pose proof (FL _ _ (e_levels _ _ _ X)) as L1. pose proof (FL _ _ (e_flow _ _ _ X)) as L2. pose proof (FL _ _ (e_total _ _ _ X)) as L3.
    pose proof (printed_finite_list _ _ Dl (e_levels _ _ _ X)) as G1.
    assert (N1 : d_levels d <> []) by (intro Y; rewrite Y in L1; destruct (x_z c); [congruence|discriminate]).
    destruct (finite_list _ G1) as (ls & Els).
    assert (Nls : ls <> []) by (intros ->; apply N1; rewrite Els; reflexivity).
    assert (Lcols : Forall (fun col => length col = length (v_z (x_volumes c))) (volume_columns (x_volumes c))).
    { eapply Forall_impl; [|exact Lc]. cbn. intros col (A & _). exact A. }
    assert (C01 : length (column 0 cols) = length (column 1 cols)).
    { unfold column. rewrite <- !(lengths_related _ _ _ R2). unfold columns. rewrite Forall_forall in Lcols.
      rewrite (Lcols (nth 0 (volume_columns (x_volumes c)) [])), (Lcols (nth 1 (volume_columns (x_volumes c)) [])); [reflexivity| |]; apply nth_In; cbn; lia. }
    assert (N0 : column 0 cols <> []).
    { intro Y. pose proof (lengths_related _ _ 0%nat R2) as Z. unfold column in Y. rewrite Y in Z. cbn in Z.
      destruct (v_z (x_volumes c)); [congruence|discriminate]. }
    destruct (e_main _ _ _ X) as (wm & Em & Pm). destruct (e_fp1 _ _ _ X) as (w1 & E1 & P1').
    destruct (plot_geometry_spec d cols) as (g & Eg & Sg); auto; try congruence.
    { exact (printed_finite_list _ _ Dw1 (e_total _ _ _ X)). }
    { exact (printed_finite_list _ _ Dw2 (e_flow _ _ _ X)). }
    { apply (printed_finite wm); auto. apply (Dsc (T "main")); auto. left. auto. }
    { apply (printed_finite w1); auto. apply (Dsc (T "floodplain1")); auto. right. left. auto. }
    destruct (plot_volume_spec d (x_volumes c) cols ls Els Nls R2 Lcols Dv1 Dv2) as (p & Ep & S1 & _ & _ & S3 & S2).
    exists ds, d, cols, (mk_figure g p (drawn_table "Main channel" (Ok m) ++
        drawn_table "Floodplain1" (roughness_of read_float round2 files roughness_fp1 (x_name c)))).
    split; [unfold cross_sections, open_file; rewrite Fd; exact P1|]. split; [exact F2|]. split; [exact Id|]. split; [exact X|].
    split; [exact Vo|]. split; [exact R2|]. split.
    - unfold draw. rewrite (e_id _ _ _ X), Vo, Eg. cbn [bind]. rewrite Ep. cbn [bind]. rewrite Er.
      rewrite (plot_roughness_spec d m _ ls Els Nls T1 T2). reflexivity.
    - split; [exact Sg|]. split; [exact S1|]. split; [exact S3|]. split; [exact S2|]. reflexivity.
  Qed.

  (** The graph labelled as flow volume with the summer dike shows the flow
      volume without it. *)
  Theorem C82_flow_volume_refuted : forall css c files m,
    Forall (writable double) css -> Forall (volumes_ok double) css -> NoDup (map x_name css) -> In c css ->
    x_name c <> T "id" -> drawable c ->
    files css_definitions = Some (fst (run_writes (write_geometry_fm1d show_float css))) ->
    files volumes_file = Some (fst (run_writes (write_volumes show_float css))) ->
    roughness_of read_float round2 files roughness_main (x_name c) = Ok m -> table_fits (Ok m) ->
    table_fits (roughness_of read_float round2 files roughness_fp1 (x_name c)) ->
    forall d f, exported rnd c d -> draw read_float round2 files d None None = Ok f ->
    forall s, In s (f_volume f) -> label_of s = wrong_label ->
      shows_values Filled (v_z (x_volumes c)) (v_flow (x_volumes c)) s.
  Proof.
    intros css c files m W V ND I Nid D Fd Fv Er T1 T2 d f X Ef.
    destruct (C42_volumes_of_one double rnd show_float read_float FC css c V ND I Nid) as (cv & cols & W2 & P2 & R2).
    rewrite W2 in Fv. cbn [fst] in Fv.
    assert (Vo : volumes_of read_float files (x_name c) = Ok cols)
      by (unfold volumes_of, open_file; rewrite Fv; exact P2).
    pose proof (proj1 (Forall_forall _ _) V c I) as (_ & _ & Lc).
    destruct D as [Dr Dt Df Dl (Dw1 & Dw2) Dsc (Dv1 & Dv2)].
    pose proof (printed_finite_list _ _ Dl (e_levels _ _ _ X)) as G1. destruct (finite_list _ G1) as (ls & Els).
    assert (Nls : ls <> []).
    { intros ->. pose proof (e_levels _ _ _ X) as Y. rewrite Els in Y. inversion Y. congruence. }
    assert (Lcols : Forall (fun col => length col = length (v_z (x_volumes c))) (volume_columns (x_volumes c))).
    { eapply Forall_impl; [|exact Lc]. cbn. intros col (A & _). exact A. }
    destruct (plot_volume_spec d (x_volumes c) cols ls Els Nls R2 Lcols Dv1 Dv2) as (p & Ep & _ & _ & S & _).
    unfold draw in Ef. rewrite (e_id _ _ _ X), Vo in Ef.
    destruct (plot_geometry d (Ok cols) None); [|discriminate]. cbn [bind] in Ef. rewrite Ep in Ef. cbn [bind] in Ef.
    destruct (plot_roughness _ _ _ _); [|discriminate]. injection Ef as <-. exact S.
  Qed.
End C82.
Print Assumptions C82_figure_shows_the_exported_data.
Print Assumptions C82_flow_volume_refuted.

(** * A figure for every cross-section *)

Section C83.
  Variable read_float : text -> option num.
  Variable round2 : num -> num.
  Notation loop := (figure_loop read_float round2).
  Notation draws files d := (draw read_float round2 files d None None).

  (** The post-processing of a run: every cross-section without a figure gets
      one; where drawing fails the cross-section is reported and the others are
      not affected; existing figures and other files stay. *)
  Theorem C83_a_figure_for_every_cross_section : forall files ds figs, NoDup (map d_id ds) ->
    (forall d, In d ds -> figs (d_id d) = None ->
       fst (loop files ds figs) (d_id d) = match draws files d with Ok f => Some f | Raise _ => None end) /\
    (forall id, figs id <> None \/ ~ In id (map d_id ds) -> fst (loop files ds figs) id = figs id) /\
    (forall id, In id (snd (loop files ds figs)) <->
       exists d e, In d ds /\ d_id d = id /\ figs id = None /\ draws files d = Raise e).
  Proof.
    intros files ds. induction ds as [|d ds IH]; intros figs ND.
    - split; [intros d []|]. split; [reflexivity|]. intro id. split; [intros []|intros (d & e & [] & _)].
    - cbn [map] in ND. inversion ND as [|? ? Nd ND']; subst. cbn [figure_loop].
      unfold figure_cross_section.
      destruct (figs (d_id d)) as [old|] eqn:Ef.
      + destruct (IH figs ND') as (A & B & C). cbn [fst snd app].
        split; [|split].
        * intros d' [<-|I] N; [congruence|]. apply A; auto.
        * intros id [H|H]; apply B; [left; auto|right; intro J; apply H; right; auto].
        * intro id. rewrite C. split.
          -- intros (d' & e & I & R). exists d', e. split; [right|]; auto.
          -- intros (d' & e & [<-|I] & E & N & R); [congruence|]. exists d', e. auto.
      + destruct (draws files d) as [f|e] eqn:Ed.
        * set (figs' := save (d_id d) f figs). destruct (IH figs' ND') as (A & B & C). cbn [fst snd app].
          assert (S1 : figs' (d_id d) = Some f) by (unfold figs', save; rewrite teqb_refl; reflexivity).
          assert (S2 : forall g, g <> d_id d -> figs' g = figs g).
          { intros g H. unfold figs', save. destruct (teqb_spec (d_id d) g); [congruence|reflexivity]. }
          split; [|split].
          -- intros d' [<-|I] N; [rewrite Ed, B, S1; [reflexivity|left; congruence]|].
             apply A; auto. rewrite S2; auto. intro X. apply Nd. rewrite <- X. apply in_map. auto.
          -- intros id H. destruct (teqb_spec id (d_id d)) as [->|X].
             ++ destruct H as [H|H]; [congruence|]. destruct H. left. reflexivity.
             ++ rewrite B; [apply S2; auto|]. rewrite S2 by auto. destruct H as [H|H]; [left; auto|right].
                intro J. apply H. right. auto.
          -- intro id. rewrite C. split.
             ++ intros (d' & e & I & E & N & R). exists d', e. split; [right; auto|]. split; [auto|]. split; [|auto].
                destruct (teqb_spec id (d_id d)) as [->|X]; [congruence|]. rewrite <- S2; auto.
             ++ intros (d' & e & [<-|I] & E & N & R); [congruence|]. exists d', e. split; [auto|]. split; [auto|]. split; [|auto].
                rewrite S2; auto. intro X. apply Nd. rewrite <- X, <- E. apply in_map. auto.
        * destruct (IH figs ND') as (A & B & C). cbn [fst snd app].
          split; [|split].
          -- intros d' [<-|I] N; [rewrite Ed, B, Ef; [reflexivity|right; auto]|]. apply A; auto.
          -- intros id H. apply B. destruct H as [H|H]; [left; auto|right]. intro J. apply H. right. auto.
          -- intro id. cbn [In]. rewrite C. split.
             ++ intros [<-|(d' & e' & I & R)]; [exists d, e; split; [left|]; auto|]. exists d', e'. split; [right|]; auto.
             ++ intros (d' & e' & [<-|I] & E & N & R); [left; auto|]. right. exists d', e'. auto.
  Qed.

  (** Figures of an earlier run are not replaced, whatever the new results are. *)
  Theorem C83_old_figures_are_kept_refuted : forall files ds figs d old, NoDup (map d_id ds) -> In d ds ->
    figs (d_id d) = Some old -> fst (loop files ds figs) (d_id d) = Some old.
  Proof.
    intros files ds figs d old ND I E. destruct (C83_a_figure_for_every_cross_section files ds figs ND) as (_ & B & _).
    rewrite B; [exact E|]. left. congruence.
  Qed.

  (** With [overwrite] the figure is replaced, and without [save_to_file] it is
      returned and the directory stays as it is. *)
  Theorem C83_one_figure : forall files figs d geometry roughness overwrite f,
    draw read_float round2 files d geometry roughness = Ok f -> (figs (d_id d) = None \/ overwrite = true) ->
    figure_cross_section read_float round2 files figs d geometry roughness true overwrite
      = (save (d_id d) f figs, None, false) /\
    figure_cross_section read_float round2 files figs d geometry roughness false overwrite = (figs, Some f, false).
  Proof.
    intros files figs d g r ow f E H. unfold figure_cross_section. rewrite E.
    destruct (figs (d_id d)); destruct H as [H| ->]; try discriminate; auto.
  Qed.

  (** The method that plots all cross-sections fails on the first one. *)
  Theorem C83_plot_cross_sections_refuted : forall files figs d ds,
    cross_sections read_float files = Ok (d :: ds) -> plot_cross_sections read_float files figs = Raise TypeError.
  Proof. intros files figs d ds E. unfold plot_cross_sections. rewrite E. reflexivity. Qed.

  (** A visualiser made without a logger cannot be made. *)
  Theorem C83_no_logger_refuted : visualise_output false = Raise AttributeError.
  Proof. reflexivity. Qed.
End C83.
Print Assumptions C83_a_figure_for_every_cross_section.
Print Assumptions C83_old_figures_are_kept_refuted.
Print Assumptions C83_one_figure.
Print Assumptions C83_plot_cross_sections_refuted.

(** * The cross-sections of a branch *)

Lemma unique_texts_In t l : In t (unique_texts l) <-> In t l.
Proof.
  unfold unique_texts. rewrite in_map_iff. split.
  - intros (s & <- & I). apply (proj1 (T_Friction.np_unique_In _ _)) in I. apply in_map_iff in I. destruct I as (u & <- & I).
    unfold T. rewrite list_ascii_of_string_of_list_ascii. exact I.
  - intro I. exists (string_of_list_ascii t). split; [apply list_ascii_of_string_of_list_ascii|].
    apply (proj2 (T_Friction.np_unique_In _ _)). apply in_map. exact I.
Qed.
Lemma unique_texts_NoDup l : NoDup (unique_texts l).
Proof.
  unfold unique_texts. apply FinFun.Injective_map_NoDup; [|apply T_Friction.np_unique_NoDup].
  intros a b H. apply (f_equal string_of_list_ascii) in H. unfold T in H.
  rewrite !string_of_list_ascii_of_string in H. exact H.
Qed.
Lemma unique_texts_one b l : l <> [] -> Forall (eq b) l -> unique_texts l = [b].
Proof.
  intros N F. pose proof (unique_texts_NoDup l) as ND. rewrite Forall_forall in F.
  assert (H : forall t, In t (unique_texts l) <-> t = b).
  { intro t. rewrite unique_texts_In. split; [intro I; symmetry; apply F; exact I|].
    intros ->. destruct l as [|a l]; [congruence|]. left. symmetry. apply F. left. reflexivity. }
  destruct (unique_texts l) as [|a [|a' r]].
  - exfalso. apply (proj2 (H b)). reflexivity.
  - f_equal. apply H. left. reflexivity.
  - exfalso. inversion ND as [|? ? Na _]; subst. apply Na. left.
    rewrite (proj1 (H a)), (proj1 (H a')); cbn; auto.
Qed.
Lemma unique_texts_many a b l : In a l -> In b l -> a <> b ->
  exists x y r, unique_texts l = x :: y :: r.
Proof.
  intros Ia Ib N. apply unique_texts_In in Ia. apply unique_texts_In in Ib.
  destruct (unique_texts l) as [|x [|y r]]; [destruct Ia| |eauto].
  destruct Ia as [<-|[]], Ib as [<-|[]]. congruence.
Qed.

Section C84.
  Variable read_float : text -> option num.

  (** A cross-section [branch]_[chainage] *)
  Definition named (b s : text) : text := b ++ T "_" ++ s.
  Definition good_name (id b : text) (ch : num) : Prop :=
    exists s, id = named b s /\ free "_"%char s /\ read_float s = Some ch.

  Lemma split_css_named id b ch : good_name id b ch -> split_css read_float id = Ok (id, ch, b).
  Proof.
    intros (s & -> & Fs & E). unfold split_css, named. change (T "_" ++ s) with ("_"%char :: s).
    assert (H : split_on "_"%char (b ++ "_"%char :: s) = split_on "_"%char b ++ [s]).
    { induction b as [|x b IH].
      - cbn [app]. cbn [split_on]. rewrite Ascii.eqb_refl. rewrite split_on_free by auto. reflexivity.
      - cbn [app split_on]. rewrite IH. destruct (Ascii.eqb x "_"); [reflexivity|].
        destruct (split_on "_"%char b) eqn:Eb; [exfalso; revert Eb; apply split_on_nonempty|]. reflexivity. }
    rewrite H, last_last, removelast_last. unfold float_of. rewrite E. cbn [of_option bind].
    change (T "_") with ["_"%char]. rewrite join_split. reflexivity.
  Qed.

  Lemma split_all cs : Forall (fun c => good_name (fst (fst c)) (snd c) (snd (fst c))) cs ->
    map_res (split_css read_float) (map (fun c => fst (fst c)) cs) = Ok cs.
  Proof.
    induction 1 as [|[[id ch] b] cs H F IH]; [reflexivity|]. cbn [map map_res fst snd] in *.
    rewrite (split_css_named id b ch H), IH. reflexivity.
  Qed.

  Lemma startswith_refl t : startswith t t = true.
  Proof. induction t as [|x t IH]; [reflexivity|]. cbn. rewrite Ascii.eqb_refl. exact IH. Qed.
  Lemma startswith_head t : startswith (hd [] (split_on "_"%char t)) t = true.
  Proof.
    induction t as [|x t IH]; [reflexivity|]. cbn [split_on]. destruct (Ascii.eqb x "_") eqn:E; [reflexivity|].
    destruct (split_on "_"%char t) as [|w ws] eqn:Es; cbn [hd startswith]; rewrite ?Ascii.eqb_refl; auto.
  Qed.

  (** If all cross-sections lie on one branch they are listed in file order,
      for the branch or the part of its name before the first underscore; any
      other name is refused. *)
  Theorem C84_one_branch_partial : forall cs b name, cs <> [] ->
    Forall (fun c => good_name (fst (fst c)) (snd c) (snd (fst c)) /\ snd c = b) cs ->
    if teqb name b || teqb name (hd [] (split_on "_"%char b)) then
      exists r, cross_sections_for_branch read_float (map (fun c => fst (fst c)) cs) name = Ok r /\
        Forall2 (fun c x => fst (fst x) = fst (fst c) /\ same (snd (fst x)) (snd (fst c)) /\ snd x = snd c) cs r
    else cross_sections_for_branch read_float (map (fun c => fst (fst c)) cs) name = Raise KeyError.
  Proof.
    intros cs b name N F. unfold cross_sections_for_branch. rewrite split_all.
    2: { eapply Forall_impl; [|exact F]. cbn. tauto. }
    cbn [bind]. unfold branch_names.
    assert (U : unique_texts (map snd cs) = [b]).
    { apply unique_texts_one; [destruct cs; [congruence|discriminate]|]. apply Forall_map. eapply Forall_impl; [|exact F].
      cbn. intros c (_ & E). auto. }
    rewrite U. unfold contiguous. cbn [map].
    set (h := hd [] (split_on "_"%char b)).
    rewrite (unique_texts_one h [h]) by (discriminate || (constructor; auto)).
    unfold known_branch. cbn [truth_equal bind].
    assert (S : forall a c : text, teqb a c = teqb c a).
    { intros a c. destruct (teqb_spec a c), (teqb_spec c a); congruence. }
    rewrite (S b name), (S h name).
    destruct (teqb name b) eqn:E1; cbn [orb bind].
    - apply teqb_eq in E1. subst name. cbn [filter]. rewrite startswith_refl.
      rewrite (unique_texts_one b [b]) by (discriminate || (constructor; auto)). cbn [chain_branches bind].
      eexists. split; [reflexivity|]. rewrite app_nil_r. unfold css_for_branch.
      clear N U. induction F as [|[[id ch] b'] cs (G & E) F IH]; [constructor|]. cbn [snd] in E. subst b'.
      cbn [filter snd]. rewrite startswith_refl. cbn [map fst snd]. constructor; auto. cbn. split; [reflexivity|]. split; [|reflexivity].
      destruct ch; cbn; auto. ring.
    - destruct (teqb name h) eqn:E2; [|reflexivity]. apply teqb_eq in E2. subst name. cbn [filter]. unfold h at 1.
      rewrite startswith_head. rewrite (unique_texts_one b [b]) by (discriminate || (constructor; auto)). cbn [chain_branches bind].
      eexists. split; [reflexivity|]. rewrite app_nil_r. unfold css_for_branch.
      clear N U E1. clear h. induction F as [|[[id ch] b'] cs (G & E) F IH]; [constructor|]. cbn [snd] in E. subst b'.
      cbn [filter snd]. rewrite startswith_refl. cbn [map fst snd]. constructor; auto. cbn. split; [reflexivity|]. split; [|reflexivity].
      destruct ch; cbn; auto. ring.
  Qed.

  (** Without cross-sections every name is refused. *)
  Theorem C84_no_cross_sections : forall name, cross_sections_for_branch read_float [] name = Raise KeyError.
  Proof. reflexivity. Qed.

  (** With cross-sections on two branches every request fails, also for a
      branch that exists. *)
  Theorem C84_two_branches_refuted : forall cs c1 c2 name,
    Forall (fun c => good_name (fst (fst c)) (snd c) (snd (fst c))) cs -> In c1 cs -> In c2 cs -> snd c1 <> snd c2 ->
    cross_sections_for_branch read_float (map (fun c => fst (fst c)) cs) name = Raise ValueError.
  Proof.
    intros cs c1 c2 name F I1 I2 N. unfold cross_sections_for_branch. rewrite split_all by auto. cbn [bind].
    unfold branch_names. destruct (unique_texts_many (snd c1) (snd c2) (map snd cs)) as (x & y & r & E); auto using in_map.
    rewrite E. reflexivity.
  Qed.

  (** The graph of the roughness along the one branch. *)
  Theorem C84_roughness_along_the_branch : forall round2 files ds cs b name,
    cross_sections read_float files = Ok ds -> map d_id ds = map (fun c => fst (fst c)) cs -> cs <> [] ->
    Forall (fun c => good_name (fst (fst c)) (snd c) (snd (fst c)) /\ snd c = b) cs ->
    (name = b \/ name = hd [] (split_on "_"%char b)) ->
    (forall c, In c cs -> exists l q qs,
       roughness_of read_float round2 files roughness_main (fst (fst c)) = Ok (l, Some (map Fin (q :: qs)))) ->
    exists x lo hi, roughness_longitudinal read_float round2 files name = Ok [Line "minimum" x lo; Line "maximum" x hi] /\
      length x = length cs /\ length lo = length cs /\ length hi = length cs /\
      forall i c, nth_error cs i = Some c ->
        exists u p s l qs, nth_error x i = Some u /\ same u (nmul (snd (fst c)) (Fin (1 # 1000))) /\
          nth_error lo i = Some (Fin p) /\ nth_error hi i = Some (Fin s) /\
          roughness_of read_float round2 files roughness_main (fst (fst c)) = Ok (l, Some (map Fin qs)) /\
          In p qs /\ In s qs /\ forall v, In v qs -> p <= v /\ v <= s.
  Proof.
    intros round2 files ds cs b name Ed Ei N F Hn Hr. unfold roughness_longitudinal. rewrite Ed. cbn [bind]. rewrite Ei.
    pose proof (C84_one_branch_partial cs b name N F) as P.
    replace (teqb name b || teqb name (hd [] (split_on "_"%char b))) with true in P.
    2: { destruct Hn as [->| ->]; rewrite teqb_refl, ?orb_true_r; reflexivity. }
    destruct P as (r & -> & R). cbn [bind].
    set (row := fun c : text * num * text => _).
    assert (G : exists rows, map_res row r = Ok rows /\
      Forall2 (fun c w => exists l qs p s, same (fst (fst w)) (nmul (snd (fst c)) (Fin (1 # 1000))) /\
        snd (fst w) = Fin p /\ snd w = Fin s /\
        roughness_of read_float round2 files roughness_main (fst (fst c)) = Ok (l, Some (map Fin qs)) /\
        In p qs /\ In s qs /\ forall v, In v qs -> p <= v /\ v <= s) cs rows).
    { clear N F Hn Ei Ed. induction R as [|c x cs r (E1 & E2 & E3) R IH]; [exists []; split; [reflexivity|constructor]|].
      destruct IH as (rows & Er & Fr); [intros; apply Hr; right; auto|].
      destruct (Hr c (or_introl eq_refl)) as (l & q & qs & Eq).
      destruct (py_min_fin (q :: qs)) as (mn & Emn & Imn & Mmn); [discriminate|].
      destruct (py_max_fin (q :: qs)) as (mx & Emx & Imx & Mmx); [discriminate|].
      exists ((nmul (snd (fst x)) (Fin (1 # 1000)), Fin mn, Fin mx) :: rows). split.
      - cbn [map_res]. unfold row at 1. rewrite E1, Eq. cbn [bind snd of_option]. rewrite Emn, Emx. cbn [bind]. rewrite Er. reflexivity.
      - constructor; [|exact Fr]. cbn [fst snd]. exists l, (q :: qs), mn, mx.
        split; [|split; [auto|]; split; [auto|]; split; [auto|]; split; [auto|]; split; [auto|]; auto].
        destruct (snd (fst x)), (snd (fst c)); cbn in E2 |- *; try contradiction; auto. rewrite E2. reflexivity. }
    destruct G as (rows & -> & Fr). cbn [bind].
    assert (L : length rows = length cs) by (clear - Fr; induction Fr; cbn; auto).
    destruct rows as [|w0 rows]; [destruct cs; [congruence|discriminate]|].
    eexists _, _, _. split; [reflexivity|]. rewrite !map_length. split; [auto|]. split; [auto|]. split; [auto|].
    clear - Fr. intros i c Ec. revert i Ec. set (ws := w0 :: rows) in *. clearbody ws.
    induction Fr as [|c' w cs ws (l & qs & p & s & H) Fr IH]; intros [|i] Ec; try discriminate; cbn [nth_error map] in *.
    - injection Ec as ->. destruct H as (H1 & H2 & H3 & H4 & H5 & H6 & H7).
      exists (fst (fst w)), p, s, l, qs. rewrite H2, H3. auto 10.
    - apply IH. exact Ec.
  Qed.
End C84.
Print Assumptions C84_one_branch_partial.
Print Assumptions C84_no_cross_sections.
Print Assumptions C84_two_branches_refuted.
Print Assumptions C84_roughness_along_the_branch.

(** The cross-sections of a branch name are those whose branch begins with it,
    in the order of the file. *)
Lemma startswith_app p t : startswith p t = true <-> exists r, t = p ++ r.
Proof.
  revert t. induction p as [|x p IH]; intro t; cbn [startswith].
  - split; [exists t; reflexivity|reflexivity].
  - destruct t as [|y t]; [split; [discriminate|intros (r & H); discriminate]|].
    rewrite andb_true_iff, IH. split.
    + intros (E & r & ->). apply Ascii.eqb_eq in E. subst y. exists r. reflexivity.
    + intros (r & H). injection H as -> ->. split; [apply Ascii.eqb_refl|exists r; reflexivity].
Qed.
Theorem C84_begins_with : forall (css : list (text * num * text)) b c,
  In c (css_for_branch css b) <-> In c css /\ exists r, snd c = b ++ r.
Proof. intros css b c. unfold css_for_branch. rewrite filter_In, startswith_app. reflexivity. Qed.
Print Assumptions C84_begins_with.

(** The chainage at the start of the branch after the branches [l], each ending
    at its last cross-section. *)
Inductive travelled (css : list (text * num * text)) : list text -> Q -> Prop :=
| travelled_none : travelled css [] 0
| travelled_next : forall l s n q b before t,
    css_for_branch css s = before ++ [(n, Fin q, b)] -> travelled css l t -> travelled css (l ++ [s]) (t + q).

(** The listing of several sub-branches, once the branch is accepted: every
    cross-section at its own chainage plus the length of the sub-branches before
    its own. *)
Theorem C84_running_chainage_partial : forall css subs,
  (forall c, In c css -> exists q, snd (fst c) = Fin q) ->
  (forall s, In s subs -> exists c r, In c css /\ snd c = s ++ r) ->
  exists l, chain_branches css subs (Fin 0) None = Ok l /\
    forall n b ch, (exists q, In (n, Fin q, b) l /\ q == ch) <->
      exists before s after q t r, subs = before ++ s :: after /\ In (n, Fin q, b) css /\ b = s ++ r /\
        travelled css before t /\ ch == q + t.
Proof.
  intros css subs HF HN.
  assert (LAST : forall s, In s subs -> exists before n q b, css_for_branch css s = before ++ [(n, Fin q, b)]).
  { intros s I. destruct (HN s I) as (c & r & J & E).
    assert (K : In c (css_for_branch css s)) by (apply C84_begins_with; eauto).
    destruct (exists_last (l := css_for_branch css s)) as (before & [[n v] b] & E'); [intro X; rewrite X in K; destruct K|].
    assert (In (n, v, b) css).
    { assert (X : In (n, v, b) (css_for_branch css s)) by (rewrite E'; apply in_or_app; right; left; reflexivity).
      apply C84_begins_with in X. tauto. }
    destruct (HF _ H) as (q & Eq). cbn in Eq. subst v. exists before, n, q, b. exact E'. }
  assert (G : forall todo done' run prev, subs = done' ++ todo ->
    (exists q t, run = Fin q /\ travelled css done' t /\
        match prev with
        | None => done' = [] /\ q == 0
        | Some p => exists l s n v b before, done' = l ++ [s] /\ p = css_for_branch css s /\
                      p = before ++ [(n, Fin v, b)] /\ q + v == t
        end) ->
    exists l, chain_branches css todo run prev = Ok l /\
      forall n b ch, (exists q, In (n, Fin q, b) l /\ q == ch) <->
        exists before s after q t r, todo = before ++ s :: after /\ In (n, Fin q, b) css /\ b = s ++ r /\
          travelled css (done' ++ before) t /\ ch == q + t).
  { assert (UN : forall l t u, travelled css l t -> travelled css l u -> t == u).
    { intros l t u H. revert u. induction H as [|l s n q b before t E H IH]; intros u K.
      - inversion K as [E|l' s' n' q' b' before' t' E' K' A B]; [reflexivity|]. destruct l'; discriminate.
      - inversion K as [A B|l' s' n' q' b' before' t' E' K' A B]; [destruct l; discriminate|].
        apply app_inj_tail in A. destruct A as [-> ->]. rewrite E in E'. apply app_inj_tail in E'. destruct E' as [_ E'].
        injection E' as _ <- _. rewrite (IH _ K'). reflexivity. }
    induction todo as [|s todo IH]; intros done' run prev E (q & t & -> & Tr & P).
    - exists []. split; [reflexivity|]. intros n b ch. split; [intros (q' & [] & _)|].
      intros (before & s & after & _ & _ & _ & X & _). destruct before; discriminate.
    - cbn [chain_branches].
      assert (HR : exists q', match prev with
                  | None => Ok (Fin q)
                  | Some b => c <- py_index b (-1) ;; Ok (nadd (Fin q) (snd (fst c)))
                  end = Ok (Fin q') /\ q' == t).
      { destruct prev as [p|].
        - destruct P as (l & s' & n & v & b & before & -> & Ep & Eb & Eq). exists (q + v). split; [|exact Eq].
          rewrite Eb. rewrite (py_index_last (n, Fin v, b)) by (destruct before; discriminate).
          rewrite app_length, app_nth2 by (cbn; lia). replace (length before + length [(n, Fin v, b)] - 1 - length before)%nat with 0%nat by (cbn; lia).
          reflexivity.
        - destruct P as (-> & Eq). exists q. split; [reflexivity|]. rewrite Eq. apply (UN []); [constructor|exact Tr]. }
      destruct HR as (q' & -> & Eq'). cbn [bind].
      assert (Is : In s subs) by (rewrite E; apply in_or_app; right; left; reflexivity).
      destruct (LAST s Is) as (bs & n0 & v0 & b0 & Es).
      destruct (IH (done' ++ [s]) (Fin q') (Some (css_for_branch css s))) as (rest & -> & HR).
      { rewrite <- app_assoc. exact E. }
      { exists q', (t + v0). split; [reflexivity|]. split; [econstructor; eauto|].
        exists done', s, n0, v0, b0, bs. split; [reflexivity|]. split; [reflexivity|]. split; [exact Es|]. rewrite Eq'. reflexivity. }
      cbn [bind]. eexists. split; [reflexivity|]. intros n b ch. split.
      + intros (x & I & Ex). apply in_app_or in I. destruct I as [I|I].
        * apply in_map_iff in I. destruct I as ([[n1 v1] b1] & E1 & I1). cbn [fst snd] in E1.
          apply C84_begins_with in I1. destruct I1 as (I1 & r & Er). cbn [snd] in Er.
          destruct (HF _ I1) as (y & Ey). cbn in Ey. subst v1. cbn in E1. injection E1 as <- <- <-.
          exists [], s, todo, y, t, r. split; [reflexivity|]. split; [exact I1|]. split; [exact Er|].
          rewrite app_nil_r. split; [exact Tr|]. rewrite <- Ex, Eq'. reflexivity.
        * destruct (proj1 (HR n b ch)) as (before & s1 & after & y & t1 & r & E1 & I1 & Er & T1 & Ec); [exists x; auto|].
          exists (s :: before), s1, after, y, t1, r. split; [rewrite E1; reflexivity|]. split; [exact I1|]. split; [exact Er|].
          rewrite <- app_assoc in T1. split; [exact T1|exact Ec].
      + intros (before & s1 & after & y & t1 & r & E1 & I1 & Er & T1 & Ec). destruct before as [|s0 before].
        * cbn in E1. injection E1 as <- <-. rewrite app_nil_r in T1. exists (y + q'). split.
          -- apply in_or_app. left. apply in_map_iff. exists (n, Fin y, b). split; [reflexivity|].
             apply C84_begins_with. split; [exact I1|]. exists r. exact Er.
          -- rewrite Ec, Eq', (UN _ _ _ Tr T1). reflexivity.
        * cbn in E1. injection E1 as <- E1. destruct (proj2 (HR n b ch)) as (x & I & Ex).
          { exists before, s1, after, y, t1, r. split; [exact E1|]. split; [exact I1|]. split; [exact Er|].
            rewrite <- app_assoc. split; [exact T1|exact Ec]. }
          exists x. split; [apply in_or_app; right; exact I|exact Ex]. }
  apply (G subs [] (Fin 0) None eq_refl). exists 0, 0. split; [reflexivity|]. split; [constructor|]. split; reflexivity.
Qed.
Print Assumptions C84_running_chainage_partial.

Definition plain (x : num) : num := match x with Fin q => Fin (Qred q) | _ => x end.

(** A sub-branch whose name begins with the name of another one is listed under
    both, the second time at a different chainage. *)
Theorem C84_listed_twice_refuted :
  let css := [(T "river_1_100", Fin 100, T "river_1"); (T "river_10_50", Fin 50, T "river_10")] in
  exists l, chain_branches css [T "river_1"; T "river_10"] (Fin 0) None = Ok l /\
    map (fun c => (fst (fst c), plain (snd (fst c)))) l =
      [(T "river_1_100", Fin 100); (T "river_10_50", Fin 50); (T "river_10_50", Fin 100)].
Proof. eexists. split; [reflexivity|]. vm_compute. reflexivity. Qed.
Print Assumptions C84_listed_twice_refuted.

(** * Cases *)

(** The files of a run with one cross-section; its figure. *)
Definition case_files : directory := fun f =>
  if teqb f css_definitions then Some (fst (run_writes (write_geometry_fm1d (show_num 3) [example_low])))
  else if teqb f volumes_file then Some (fst (run_writes (write_volumes (show_num 3) [example_low])))
  else if teqb f roughness_main then Some (roughness_file (show_num 3) (show_num 3) [example_low] (T "Main"))
  else None.
Definition plain_shape (s : shape) : shape :=
  match s with
  | Line l x y => Line l (map plain x) (map plain y)
  | Area l z a b => Area l (map plain z) (map plain a) (map plain b)
  end.
Example C82_case :
  writable three_decimals example_low /\ volumes_ok three_decimals example_low /\ drawable Fin example_low /\
  (exists m, roughness_of read_number (fun x => x) case_files roughness_main (x_name example_low) = Ok m /\ table_fits (Ok m)) /\
  table_fits (roughness_of read_number (fun x => x) case_files roughness_fp1 (x_name example_low)) /\
  match (ds <- cross_sections read_number case_files ;;
         match ds with
         | d :: _ => draw read_number (fun x => x) case_files d None None
         | [] => Raise KeyError
         end) with
  | Ok f =>
      map plain_shape (f_roughness f) = [Line "Main channel" [Fin 1; Fin 2] [Fin 45; Fin 40]] /\
      In (Area wrong_label [Fin 1] [Fin 0] [Fin 9]) (map plain_shape (f_volume f)) /\
      v_flow_corrected (x_volumes example_low) = [Fin 8] /\
      In (Line "2D Total Volume" [Fin 1] [Fin 2]) (map plain_shape (f_volume f)) /\
      In (Line cropped [Fin (-15); Fin 15] [Fin 2; Fin 2]) (map plain_shape (f_geometry f))
  | Raise _ => False
  end.
Proof.
  assert (FQ : forall q, stays_finite Fin (Fin q)) by (intro q; exists q, (rounded 4 q); auto).
  split; [|split; [|split; [|split; [|split]]]].
  - split; [apply good_valueb; reflexivity|]. split; [vm_compute; reflexivity|]. split; [exact I|].
    exists (Fin 10), (Fin 20), (Fin 0). split; [reflexivity|]. split; reflexivity.
  - split; [apply cellb; reflexivity|]. split; [apply trimmedb_trimmed; reflexivity|].
    repeat (apply Forall_cons; [split; [reflexivity|repeat constructor; vm_compute; reflexivity]|]). apply Forall_nil.
  - split; cbn [example_low x_z x_total_width x_flow_width x_volumes v_z]; try discriminate; try reflexivity.
    + auto.
    + auto.
    + intros s w [<-|[<-|[]]] E; vm_compute in E; injection E as <-; auto.
    + split; [discriminate|]. repeat constructor. eexists. reflexivity.
  - eexists. split; [vm_compute; reflexivity|]. vm_compute. reflexivity.
  - vm_compute. reflexivity.
  - vm_compute. split; [reflexivity|]. split; [auto 10|]. split; [reflexivity|]. split; auto 12.
Qed.

(** Two branches: no listing, although the branch exists. *)
Example C84_case :
  cross_sections_for_branch read_number [T "waal_10"; T "waal_25"] (T "waal")
    = Ok [(T "waal_10", nadd (Fin 10) (Fin 0), T "waal"); (T "waal_25", nadd (Fin 25) (Fin 0), T "waal")] /\
  cross_sections_for_branch read_number [T "waal_10"; T "rijn_10"] (T "waal") = Raise ValueError /\
  cross_sections_for_branch read_number [T "waal_10"; T "waal_25"] (T "rijn") = Raise KeyError.
Proof. vm_compute. auto. Qed.
