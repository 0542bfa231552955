(** Theorems for C85: the envelopes of the control volumes. *)
From Coq Require Import String List ZArith QArith Bool Lia Lqa.
From Verif Require Import PyBase Num L_List Text M_Ini M_Cli M_Import M_Geometry M_Pipeline M_Envelope.
Import ListNotations.
Local Open Scope Q_scope.

(** * Specification *)

Definition point2 : Type := Q * Q.
Definition position (p : point2) : list num := [Fin (fst p); Fin (snd p)].
(** Twice the signed area of the triangle: positive if [p] lies to the left of
    the line from [a] to [b]. *)
Definition cross (a b p : point2) : Q :=
  (fst b - fst a) * (snd p - snd a) - (snd b - snd a) * (fst p - fst a).
(** The sides of a ring, from each corner to the next. *)
Definition sides (ring : list point2) : list (point2 * point2) :=
  match ring with [] => [] | a :: r => combine ring (r ++ [a]) end.
(** A ring of at least three corners, counterclockwise, of which the inside is not
    empty, around all of the points: every point lies to the left of every side. *)
Definition encloses (ring ps : list point2) : Prop :=
  (3 <= length ring)%nat /\
  forall a b, In (a, b) (sides ring) -> (forall p, In p ps -> 0 <= cross a b p) /\ exists p, In p ps /\ 0 < cross a b p.

(** What is relied on of the convex hull routine: the indices that it gives are
    those of an enclosing ring; where there is none it raises one of its two
    exceptions. *)
Definition correct_hull (hull : list (list num) -> res (list nat)) : Prop :=
  forall l, match hull l with
            | Ok vs => exists ps ring, l = map position ps /\ encloses ring ps /\
                         Forall2 (fun i p => nth_error ps i = Some p) vs ring
            | Raise e => e = ValueError \/ e = QhullError
            end.

(** The coordinates of the faces have been rounded when their points were made. *)
Definition rounded_faces (clean : num -> num) (c : css) : Prop :=
  forall m, In m (s_faces c) -> map clean (m_coords m) = m_coords m.

(** The envelope [f] of the cross-section [c]. *)
Definition envelope_of (c : css) (f : envelope) : Prop :=
  e_name f = s_name c /\
  exists ps ring, corners c = map position ps /\ e_ring f = map position ring /\ incl ring ps /\ encloses ring ps.

(** A linear ring of GeoJSON ends where it begins. *)
Definition closed (ring : list (list num)) : Prop := exists p r, ring = p :: r ++ [p].

(** All faces on one line. *)
Definition on_one_line (c : css) : Prop :=
  exists a b d, ~ (a == 0 /\ b == 0) /\
    forall l, In l (corners c) -> exists x y, l = [Fin x; Fin y] /\ a * x + b * y == d.

(** * Lemmas *)

Lemma sides_corner ring : forall a b, In (a, b) (sides ring) -> In a ring /\ In b ring.
Proof.
  destruct ring as [|c r]; [intros ? ? []|]. intros a b I. cbn [sides] in I. split.
  - eapply in_combine_l; eauto.
  - apply in_combine_r in I. apply in_app_or in I. destruct I as [I|[<-|[]]]; [right; auto|left; auto].
Qed.

Lemma last_side c r d : In (d, c) (sides (c :: r ++ [d])).
Proof.
  cbn [sides]. change (c :: r ++ [d]) with ((c :: r) ++ [d]). rewrite <- app_assoc. cbn [app].
  assert (G : forall (l m : list point2) x y, length l = length m -> combine (l ++ [x]) (m ++ [y]) = combine l m ++ [(x, y)]).
  { induction l as [|a l IH]; intros [|b m] x y H; try discriminate; [reflexivity|]. cbn. rewrite IH by (cbn in H; lia). reflexivity. }
  change (r ++ [d; c]) with (r ++ [d] ++ [c]). rewrite app_assoc, (app_comm_cons r [d] c), G.
  - apply in_or_app. right. left. reflexivity.
  - rewrite app_length. cbn. lia.
Qed.

Section C85.
  Variable clean : num -> num.
  Variable hull : list (list num) -> res (list nat).
  Hypothesis H : correct_hull hull.

  Lemma make_envelope_spec c : rounded_faces clean c ->
    match make_envelope clean hull c with
    | Ok f => envelope_of c f
    | Raise e => hull (corners c) = Raise e /\ (e = ValueError \/ e = QhullError)
    end.
  Proof.
    intro R. unfold make_envelope. pose proof (H (corners c)) as C.
    destruct (hull (corners c)) as [vs|e]; cbn [bind]; [|auto].
    destruct C as (ps & ring & Ec & E & F).
    assert (M : map_res (fun i => py_index (corners c) (Z.of_nat i)) vs = Ok (map position ring)).
    { clear E. induction F as [|i p vs ring N F IH]; [reflexivity|]. cbn [map_res map].
      rewrite (py_index_nat (corners c) i (position p)); [rewrite IH; reflexivity|].
      rewrite Ec, nth_error_map, N. reflexivity. }
    rewrite M. cbn [bind]. split; [reflexivity|]. exists ps, ring.
    assert (I : incl ring ps).
    { intros p J. clear - F J. induction F as [|i q vs ring N F IH]; [destruct J|].
      destruct J as [->|J]; [eapply nth_error_In; eauto|auto]. }
    split; [exact Ec|]. split; [|split; [exact I|exact E]].
    cbn [e_ring]. rewrite map_map. apply map_ext_in. intros p J.
    assert (K : In (position p) (corners c)) by (rewrite Ec; apply in_map; auto).
    unfold corners in K. apply in_map_iff in K. destruct K as (m & Em & Im). rewrite <- Em. apply R. exact Im.
  Qed.

  (** With a hull for every cross-section the file has one envelope for each, in
      order, and nothing is reported. *)
  Theorem C85_envelopes_partial : forall before l,
    Forall (rounded_faces clean) l -> Forall (fun c => exists vs, hull (corners c) = Ok vs) l ->
    exists fs, export_envelopes clean hull before l = (Some fs, [], false) /\ Forall2 envelope_of l fs.
  Proof.
    intros before l R S. unfold export_envelopes.
    assert (G : exists fs, envelopes clean hull l = Ok (fs, []) /\ Forall2 envelope_of l fs).
    { induction R as [|c l Rc R IH]; [exists []; split; [reflexivity|constructor]|].
      inversion S as [|? ? (vs & Ev) S']; subst. destruct (IH S') as (fs & E & F). cbn [envelopes].
      pose proof (make_envelope_spec c Rc) as M. destruct (make_envelope clean hull c) as [f|e].
      - rewrite E. cbn. exists (f :: fs). split; [reflexivity|]. constructor; auto.
      - destruct M as (X & _). congruence. }
    destruct G as (fs & -> & F). exists fs. split; [reflexivity|exact F].
  Qed.

  (** The file is written if and only if there is a hull for every cross-section:
      the skipping of single cross-sections never takes place. *)
  Theorem C85_all_or_nothing_refuted : forall before l c e,
    Forall (rounded_faces clean) l -> In c l -> hull (corners c) = Raise e ->
    export_envelopes clean hull before l = (before, [], true).
  Proof.
    intros before l c e R I E. unfold export_envelopes.
    assert (G : exists e, envelopes clean hull l = Raise e).
    { induction R as [|c' l Rc R IH]; [destruct I|]. cbn [envelopes].
      pose proof (make_envelope_spec c' Rc) as M. destruct (make_envelope clean hull c') as [f|e'] eqn:Em.
      - destruct I as [->|I]; [unfold make_envelope in Em; rewrite E in Em; discriminate|].
        destruct (IH I) as (x & ->). exists x. reflexivity.
      - destruct M as (_ & [->| ->]); eexists; reflexivity. }
    destruct G as (x & ->). reflexivity.
  Qed.

  (** Faces on one line have no hull. *)
  Lemma line_no_hull c : on_one_line c -> exists e, hull (corners c) = Raise e.
  Proof.
    intros (a & b & d & N & L). pose proof (H (corners c)) as C. destruct (hull (corners c)) as [vs|e]; [|eauto].
    exfalso. destruct C as (ps & ring & Ec & (L3 & S) & F).
    assert (On : forall p, In p ps -> a * fst p + b * snd p == d).
    { intros p J. destruct (L (position p)) as (x & y & E & D); [rewrite Ec; apply in_map; auto|].
      unfold position in E. injection E as -> ->. exact D. }
    assert (I : incl ring ps).
    { intros p J. clear - F J. induction F as [|i q vs ring E F IH]; [destruct J|].
      destruct J as [->|J]; [eapply nth_error_In; eauto|auto]. }
    destruct ring as [|u [|v r]]; cbn in L3; [lia|lia|].
    destruct (S u v) as (_ & p & Ip & Pos); [left; reflexivity|].
    pose proof (On u (I u (or_introl eq_refl))) as Ou. pose proof (On v (I v (or_intror (or_introl eq_refl)))) as Ov.
    pose proof (On p Ip) as Op. unfold cross in Pos.
    set (dx := fst v - fst u) in *. set (dy := snd v - snd u) in *.
    set (ex := fst p - fst u) in *. set (ey := snd p - snd u) in *.
    assert (A1 : a * dx + b * dy == 0) by (unfold dx, dy; lra).
    assert (A2 : a * ex + b * ey == 0) by (unfold ex, ey; lra).
    assert (Z1 : a * (dx * ey - dy * ex) == 0).
    { setoid_replace (a * (dx * ey - dy * ex)) with ((a * dx + b * dy) * ey - dy * (a * ex + b * ey)) by ring. rewrite A1, A2. ring. }
    assert (Z2 : b * (dx * ey - dy * ex) == 0).
    { setoid_replace (b * (dx * ey - dy * ex)) with (dx * (a * ex + b * ey) - (a * dx + b * dy) * ex) by ring. rewrite A1, A2. ring. }
    apply N. split.
    - destruct (Qmult_integral _ _ Z1) as [X|X]; [exact X|]. rewrite X in Pos. lra.
    - destruct (Qmult_integral _ _ Z2) as [X|X]; [exact X|]. rewrite X in Pos. lra.
  Qed.

  (** One cross-section with all faces on one line, such as a channel that is one
      face wide: no envelope is written for any cross-section, and a file of an
      earlier run stays. *)
  Theorem C85_one_line_refuted : forall before l c,
    Forall (rounded_faces clean) l -> In c l -> on_one_line c ->
    export_envelopes clean hull before l = (before, [], true).
  Proof.
    intros before l c R I L. destruct (line_no_hull c L) as (e & E). eapply C85_all_or_nothing_refuted; eauto.
  Qed.

  (** No ring that is written is closed. *)
  Theorem C85_rings_are_open_refuted : forall before l fs skipped,
    Forall (rounded_faces clean) l -> export_envelopes clean hull before l = (Some fs, skipped, false) ->
    Forall (fun f => ~ closed (e_ring f)) fs.
  Proof.
    intros before l fs skipped R E. unfold export_envelopes in E.
    destruct (envelopes clean hull l) as [[fs' sk]|e] eqn:Ee; [|discriminate]. injection E as -> ->.
    revert fs skipped Ee. induction R as [|c l Rc R IH]; intros fs skipped Ee; cbn [envelopes] in Ee.
    - injection Ee as <- <-. constructor.
    - pose proof (make_envelope_spec c Rc) as M. destruct (make_envelope clean hull c) as [f|e].
      + destruct (envelopes clean hull l) as [[fs1 sk1]|e]; [|discriminate]. cbn in Ee. injection Ee as <- <-.
        constructor; [|eapply IH; reflexivity].
        destruct M as (_ & ps & ring & _ & Er & _ & (L3 & S)). rewrite Er. intros (p & r & Ep).
        destruct ring as [|c0 ring]; [discriminate|]. destruct (exists_last (l := ring)) as (m & d & Em).
        { intros ->. cbn in L3. lia. }
        rewrite Em in Ep. cbn [map] in Ep. injection Ep as E0 E1. rewrite map_app in E1.
        apply app_inj_tail in E1. destruct E1 as [_ E1]. cbn in E1.
        destruct (S d c0) as (_ & x & _ & Pos); [rewrite Em; apply last_side|].
        rewrite <- E0 in E1. unfold position in E1. injection E1 as X Y. unfold cross in Pos. rewrite X, Y in Pos. lra.
      + destruct M as (_ & [->| ->]); discriminate.
  Qed.
End C85.
Print Assumptions C85_envelopes_partial.
Print Assumptions C85_all_or_nothing_refuted.
Print Assumptions C85_one_line_refuted.
Print Assumptions C85_rings_are_open_refuted.

(** The points of a generated cross-section are rounded. *)
Theorem C85_generated_faces_are_rounded : forall smooth mean correction clean st name len centre nt s c,
  (forall x, clean (clean x) = clean x) ->
  generate_cross_section smooth mean correction clean st name len centre nt s = Ok (Some c) -> rounded_faces clean c.
Proof.
  intros smooth mean correction clean st name len centre nt s c I E. unfold generate_cross_section in E.
  destruct (Nat.ltb (length (s_x s)) 10); [discriminate|].
  destruct (build_cross_section_geometry _ _ _ _ _ _ _) as [r|e] in E; [|discriminate]. cbn [bind] in E.
  destruct r as [[[g [[crest total] flow]] [[z tw] fw]] [[z' tw'] fw']].
  repeat (match type of E with (bind ?x _ = _) => destruct x as [?|?]; [cbn [bind] in E|discriminate] end).
  injection E as <-. intros m J. cbn [s_faces] in J. unfold face_output_list in J.
  revert J. generalize (seq 0 (length (s_x s))) as is. induction is as [|i is IH]; cbn [points_until]; [intros []|].
  match goal with |- In m (match ?x with _ => _ end) -> _ => destruct x as [p|e] eqn:Ep; [|intros []] end.
  intros [<-|J]; [|auto].
  repeat (match type of Ep with (bind ?x _ = _) => destruct x as [?|?]; [cbn [bind] in Ep|discriminate] end).
  cbn in Ep. injection Ep as <-. cbn. rewrite !I. reflexivity.
Qed.
Print Assumptions C85_generated_faces_are_rounded.

(** * A hull routine and a control volume *)

Definition point_of (l : list num) : option point2 :=
  match l with [Fin x; Fin y] => Some (x, y) | _ => None end.
Definition leftb (ps : list point2) (e : point2 * point2) : bool :=
  forallb (fun p => Qle_bool 0 (cross (fst e) (snd e) p)) ps &&
  existsb (fun p => negb (Qle_bool (cross (fst e) (snd e) p) 0)) ps.
(** Proposes the first four points as the ring and tests them. *)
Definition four_points (l : list (list num)) : res (list nat) :=
  match map_res (fun c => match point_of c with Some p => Ok p | None => Raise ValueError end) l with
  | Raise e => Raise ValueError
  | Ok ps =>
      let ring := firstn 4 ps in
      if Nat.eqb (length ring) 4 && forallb (leftb ps) (sides ring) then Ok [0; 1; 2; 3]%nat else Raise QhullError
  end.
Lemma four_points_correct : correct_hull four_points.
Proof.
  intro l. unfold four_points.
  destruct (map_res _ l) as [ps|e] eqn:E; [|left; reflexivity].
  destruct (Nat.eqb (length (firstn 4 ps)) 4) eqn:E4; [|right; reflexivity].
  destruct (forallb (leftb ps) (sides (firstn 4 ps))) eqn:Ef; [|right; reflexivity]. cbn [andb].
  exists ps, (firstn 4 ps). split; [|split].
  - clear E4 Ef. revert ps E. induction l as [|c l IH]; intros ps E; cbn [map_res] in E; [injection E as <-; reflexivity|].
    destruct (point_of c) as [p|] eqn:Ep; [|discriminate].
    destruct (map_res _ l) as [qs|]; [|discriminate]. injection E as <-. cbn [map]. rewrite (IH qs eq_refl).
    f_equal. unfold point_of in Ep. destruct c as [|[x| | |] [|[y| | |] [|]]]; try discriminate. injection Ep as <-. reflexivity.
  - apply Nat.eqb_eq in E4. split; [lia|]. intros a b I. rewrite forallb_forall in Ef. specialize (Ef _ I).
    unfold leftb in Ef. cbn [fst snd] in Ef. apply andb_true_iff in Ef. destruct Ef as [A B]. split.
    + intros p J. rewrite forallb_forall in A. specialize (A p J). apply Qle_bool_iff in A. exact A.
    + apply existsb_exists in B. destruct B as (p & J & B). exists p. split; [exact J|].
      apply negb_true_iff in B. apply Qnot_le_lt. intro X. apply Qle_bool_iff in X. congruence.
  - apply Nat.eqb_eq in E4. destruct ps as [|p0 [|p1 [|p2 [|p3 r]]]]; try discriminate. cbn [firstn].
    repeat constructor.
Qed.

Definition face_at (x y : Q) : mask_point num face_props :=
  mk_mask [Fin x; Fin y] (mk_face_props (T "a_1") false (Fin 0) (T "") (M_Geometry.LInt 1)).
Definition css_at (name : string) (l : list (Q * Q)) : css :=
  mk_css (T name) [] [] [] [] [] [] (Fin 0) (Fin 0) (Fin 0) [] (mk_nwidths (Fin 0) (Fin 0) (Fin 0)) (Fin 0)
    (map (fun p => face_at (fst p) (snd p)) l) [].
Definition square_css : css := css_at "a_1" [(0, 0); (4, 0); (4, 4); (0, 4); (1, 1); (2, 1); (3, 2); (1, 3); (2, 2); (3, 3)].
Definition line_css : css := css_at "b_1" [(0, 0); (1, 0); (2, 0); (3, 0); (4, 0); (5, 0); (6, 0); (7, 0); (8, 0); (9, 0)].
Example C85_case :
  correct_hull four_points /\ rounded_faces (fun x => x) square_css /\ rounded_faces (fun x => x) line_css /\
  on_one_line line_css /\
  export_envelopes (fun x => x) four_points None [square_css] =
    (Some [mk_envelope (T "a_1") [[Fin 0; Fin 0]; [Fin 4; Fin 0]; [Fin 4; Fin 4]; [Fin 0; Fin 4]]], [], false) /\
  export_envelopes (fun x => x) four_points None [square_css; line_css] = (None, [], true).
Proof.
  split; [exact four_points_correct|].
  split; [intros m _; apply map_id|]. split; [intros m _; apply map_id|].
  split; [|split; reflexivity].
  exists 0, 1, 0. split; [intros (_ & X); discriminate X|].
  intros l I. unfold corners, line_css, css_at in I. cbn in I.
  repeat (destruct I as [<-|I]; [eexists _, _; split; [reflexivity|]; reflexivity|]). destruct I.
Qed.
