(** Further theorems for C19, C33, C41, C52, C69 and C76: details that the main
    theorems take from the model, in their own words. *)
From Coq Require Import String List Ascii ZArith QArith Bool Lia.
From Verif Require Import PyBase Num L_Num Spec L_Network Text L_Text M_Ini M_Polygon M_Friction M_Network M_Compare M_Import M_Geometry M_Classify M_Data M_Export
  T_Rules T_Exceptions T_Sobek T_Data.
Import ListNotations.

(** * C19: the area of a link is the average over its faces that are in the
    table of areas. *)
Lemma nanmean_skip l : nanmean l = nanmean (filter (fun x => negb (isnan x)) l).
Proof.
  unfold nanmean. replace (filter (fun x => negb (isnan x)) (filter (fun x => negb (isnan x)) l)) with (filter (fun x => negb (isnan x)) l); [reflexivity|].
  induction l as [|x l IH]; cbn [filter]; [reflexivity|]. destruct (negb (isnan x)) eqn:E; cbn [filter]; rewrite ?E; congruence.
Qed.

Theorem C19_area_of_a_link : forall area ef,
  link_area area ef = nanmean (flat_map (fun f => match area f with Some a => [a] | None => [] end) ef).
Proof.
  intros area ef. unfold link_area. rewrite nanmean_skip. rewrite (nanmean_skip (flat_map _ _)). f_equal.
  induction ef as [|f ef IH]; cbn [map flat_map filter]; [reflexivity|]. destruct (area f) as [a|]; cbn [app filter isnan negb]; [|exact IH].
  destruct (negb (isnan a)); rewrite IH; reflexivity.
Qed.
Print Assumptions C19_area_of_a_link.

(** * C52: exceptions in a rule file, without a rule. *)
Theorem C52_exceptions_of_the_rule_file : forall (br : rules) (id : text) (ex : list text) b n,
  tassoc br id = Some ([] : text, ex) -> aligned b n -> NoDup (b_cid b) -> NoDup ex -> incl ex (b_cid b) -> (length ex < n)%nat ->
  exists b', apply_rules br id b = Ok b' /\ points_at (not_excepted ex (b_cid b) n) b b' /\
    aligned b' (n - length ex) /\ (Qsum (b_cdis b') == Qsum (b_cdis b))%Q.
Proof.
  intros br id ex b n Hb A D De I L. destruct (C52_exceptions_conserve_length ex b n A D De I L) as (b' & E & P & A' & Q).
  exists b'. unfold apply_rules. rewrite Hb. cbn [nonempty bind].
  assert (E' : (if nonempty_list ex then apply_branch_exceptions ex b else Ok b) = Ok b') by (destruct ex; exact E).
  rewrite E'. cbn [bind]. destruct A' as (A1 & A2 & A3 & A4 & A5 & A6).
  rewrite A1, A2, A3, A4, A5, A6, !Nat.eqb_refl. cbn [andb]. unfold aligned. auto 12.
Qed.
Print Assumptions C52_exceptions_of_the_rule_file.

(** * C69: which rows are equal. *)
Theorem C69_equal_rows : forall a b,
  same_row a b = true <-> Forall2 (fun x y => neqb x y = true \/ (x = NaN /\ y = NaN)) a b.
Proof.
  assert (V : forall x y, same_value x y = true <-> neqb x y = true \/ (x = NaN /\ y = NaN)).
  { intros x y. unfold same_value. rewrite orb_true_iff, andb_true_iff. destruct x, y; cbn [isnan]; intuition discriminate. }
  induction a as [|x a IH]; intros [|y b]; cbn [same_row].
  - split; [constructor|reflexivity].
  - split; [discriminate|intro H; inversion H].
  - split; [discriminate|intro H; inversion H].
  - rewrite andb_true_iff, V, IH. split; [intros [H1 H2]; constructor; assumption|intro H; inversion H; auto].
Qed.
Print Assumptions C69_equal_rows.

(** * C76: before the polygons every face and every link is in the main section,
    and in no region. *)
Theorem C76_labels_before_the_polygons : forall f t l td, import_dflow2d f = Ok (t, l, td) ->
  Forall (fun s => s = LStr "main") (t_section t) /\ Forall (fun r => r = []) (t_region t) /\
  Forall (fun c => c = []) (t_class t) /\ Forall (fun b => b = false) (t_islake t) /\
  Forall (fun s => s = T "main") (l_section l) /\ Forall (fun r => r = []) (l_region l) /\ Forall (fun c => c = []) (l_class l).
Proof.
  intros f t l td H. unfold import_dflow2d in H.
  assert (C : forall A B (c : B) (xs : list A), Forall (fun x => x = c) (map (fun _ => c) xs)).
  { intros A B c xs. apply Forall_map, Forall_forall. auto. }
  step H t0 Ht. step H types Hty. step H l0 Hl. step H u Hu. step H r Hr. injection H as <- <- <-.
  unfold import_faces in Ht. step Ht x Hx. step Ht y0 Hy0. step Ht y Hy. step Ht a0 Ha0. step Ht a Ha. step Ht b0 Hb0. step Ht bb Hb. injection Ht as <-.
  unfold import_edges in Hl. step Hl ex Hex. step Hl ey Hey. step Hl efa Hef. step Hl en Hen. injection Hl as <-.
  cbn [t_section t_region t_class t_islake l_section l_region l_class].
  repeat split; apply C.
Qed.
Print Assumptions C76_labels_before_the_polygons.

(** * C33: the text of a label. *)
Theorem C33_label_texts : text_of VNull = T "None" /\ (forall z, text_of (VInt z) = show_Z z) /\ (forall t, text_of (VStr t) = t).
Proof. repeat split. Qed.
Print Assumptions C33_label_texts.

(** * C41: the columns, and the section widths in the meta row. *)
Theorem C41_header_and_section_widths : forall show_float c,
  header_fields = map T ["id"; "Name"; "Data_type"; "level"; "Total width"; "Flow width"; "Profile_type"; "branch"; "chainage";
    "width main channel"; "widthfloodplain 1"; "width floodplain 2"; "width sediment transport"; "Use Summerdike";
    "Crest level summerdike"; "Floodplainbaselevel behind summerdike"; "Flow area behind summerdike"; "Total area behind summerdike";
    "Use groundlayer"; "Ground layer depth"]%string /\
  forall k s, In (k, s) [(9, "main"); (10, "floodplain1"); (11, "floodplain2")]%nat%string ->
    (forall w, tassoc (x_widths c) (T s) = Some w -> nth k (meta_fields show_float c) [] = show_float w) /\
    (tassoc (x_widths c) (T s) = None -> nth k (meta_fields show_float c) [] = T "None").
Proof.
  intros show_float c. split; [vm_compute; reflexivity|].
  intros k s I. cbn [In] in I.
  destruct I as [E|[E|[E|[]]]]; injection E as <- <-; unfold meta_fields, show_width; (split; [intros w Hw|intro Hw]); cbn [nth]; rewrite Hw; reflexivity.
Qed.
Print Assumptions C41_header_and_section_widths.
