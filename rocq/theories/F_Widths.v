(** The checks of the section widths in binary64 arithmetic (Flocq), theorems for
    C16 with rounding.

    Same code as [check_flow_width] and [check_minimum_width] in M_Sections.v,
    cross_section.py 1446-1481, with IEEE 754 operations that round to nearest. *)
From Coq Require Import ZArith Reals List Bool Lia Lra.
From Flocq Require Import Core.Core IEEE754.BinarySingleNaN.
From Verif Require Import PyBase F_Require F_Volumes F_Arange.
Import ListNotations.
Local Open Scope R_scope.

(** The float literal 100. *)
Definition hundred : f64 := @B754_finite 53 1024 false 7036874417766400 (-46) eq_refl.

(** math.floor; nan is ValueError and the OverflowError of inf is taken so too. *)
Definition ffloor (x : f64) : res Z :=
  match x with
  | B754_zero _ => Ok 0%Z
  | B754_finite s m e _ =>
      let z := cond_Zopp s (Zpos m) in
      Ok (if Z.leb 0 e then z * 2 ^ e else z / 2 ^ (- e))%Z
  | _ => Raise ValueError
  end.
(** An integer as a float.  Python divides two integers with one rounding; the
    integers here are the floor of a float and so are floats themselves. *)
Definition of_Z (k : Z) : f64 := binary_normalize 53 1024 _ _ mode_NE k 0 false.

Definition ftotal (m a b : f64) : f64 := fadd (fadd (fadd fzero m) a) b.
(** cross_section.py 1446-1457: the main width afterwards *)
Definition fcheck_flow (last m a b : f64) : f64 :=
  let dif := fsub last (ftotal m a b) in if Bltb fzero dif then fadd m dif else m.
(** cross_section.py 1459-1481: main width and floodplain 1 afterwards *)
Definition fcheck_minimum (first m a : f64) : res (f64 * f64) :=
  k <- ffloor (fmul (fsub m first) hundred) ;;
  let dif := fdiv (of_Z k) hundred in
  let r := fsub dif tenth in
  if Bltb r fzero then Ok (fsub m r, fadd a r) else Ok (m, a).
Definition fchecks (first last m a b : f64) : res (f64 * f64) :=
  fcheck_minimum first (fcheck_flow last m a b) a.

(** * Errors *)

Lemma hundred_value : B2R hundred = 100.
Proof.
  cbn [B2R hundred]. unfold F2R. cbn [Fnum Fexp]. change (cond_Zopp false 7036874417766400) with 7036874417766400%Z.
  assert (E : IZR (2 ^ 46) * bpow radix2 (-46) = 1).
  { rewrite (IZR_Zpower radix2) by lia. rewrite <- bpow_plus. reflexivity. }
  change (2 ^ 46)%Z with 70368744177664%Z in E. lra.
Qed.
Lemma div100_rounds : rounds (fun x _ => fdiv x hundred) (fun x _ => x / 100).
Proof.
  assert (N : B2R hundred <> 0) by (rewrite hundred_value; lra).
  pose proof (fdiv_rounds hundred N) as R. rewrite hundred_value in R. exact R.
Qed.

Lemma ffloor_spec x : fin x -> exists k, ffloor x = Ok k /\ IZR k <= B2R x < IZR k + 1.
Proof.
  intros F. unfold fin in F. destruct x as [s|s| |s m e b]; try discriminate F.
  - exists 0%Z. split; [reflexivity|]. cbn. lra.
  - cbn [ffloor B2R]. eexists. split; [reflexivity|]. set (z := cond_Zopp s (Zpos m)). unfold F2R. cbn [Fnum Fexp].
    destruct (Z.leb_spec 0 e) as [H|H].
    + rewrite mult_IZR, (IZR_Zpower radix2) by exact H. lra.
    + assert (P : (0 < 2 ^ (- e))%Z) by (apply Z.pow_pos_nonneg; lia).
      assert (E : IZR z * bpow radix2 e = IZR z / IZR (2 ^ (- e))).
      { rewrite (IZR_Zpower radix2) by lia. rewrite bpow_opp. unfold Rdiv. rewrite Rinv_inv. reflexivity. }
      rewrite E. rewrite <- (Zfloor_div z (2 ^ (- e))) by lia. split; [apply Zfloor_lb|apply Zfloor_ub].
Qed.

Lemma of_Z_spec k : Rabs (IZR k) <= bpow radix2 30 -> fin (of_Z k) /\ Rabs (B2R (of_Z k) - IZR k) <= bpow radix2 (-23).
Proof.
  intros H. pose proof (binary_normalize_correct 53 1024 _ _ mode_NE k 0 false) as C. cbn [round_mode] in C.
  replace (F2R {| Fnum := k; Fexp := 0 |}) with (IZR k) in C by (unfold F2R; cbn; lra).
  fold big64 in C. rewrite Rlt_bool_true in C by (apply (rnd_small 30); [lia|exact H]).
  destruct C as (C1 & C2 & _). split; [exact C2|]. unfold of_Z. rewrite C1. apply (err 30); [lia|exact H].
Qed.

(** * The checks *)

(** A finite number of at most 2 ^ 20 (a thousand kilometres). *)
Definition width (x : f64) : Prop := fin x /\ Rabs (B2R x) <= bpow radix2 20.

(** C16 in binary64.  The sum of the three widths is the old sum or the largest
    flow width, whichever is larger, and the main channel is the narrowest flow
    width plus 10 cm wide, both up to 2 ^ -26 (1.5e-8 metre). *)
Theorem C16_section_widths_in_binary64 :
  forall first last m a b : f64,
    width first -> width last -> width m -> width a -> width b ->
    exists m' a', fchecks first last m a b = Ok (m', a') /\ fin m' /\ fin a' /\
      Rabs (B2R m' + B2R a' + B2R b - Rmax (B2R m + B2R a + B2R b) (B2R last)) <= bpow radix2 (-26) /\
      B2R first + 1 / 10 - bpow radix2 (-26) <= B2R m'.
Proof.
  intros first last m a b [F1 B1] [F2 B2] [F3 B3] [F4 B4] [F5 B5].
  set (u := bpow radix2 (-30)).
  assert (U0 : 0 < u) by apply bpow_gt_0.
  assert (E26 : bpow radix2 (-26) = 16 * u).
  { unfold u. change (-26)%Z with (4 + -30)%Z. rewrite bpow_plus. reflexivity. }
  assert (E23 : bpow radix2 (-23) = 128 * u).
  { unfold u. change (-23)%Z with (7 + -30)%Z. rewrite bpow_plus. reflexivity. }
  assert (E56 : / IZR (2 ^ 56) <= u) by (change (/ IZR (2 ^ 56)) with (bpow radix2 (-56)); apply bpow_le; lia).
  assert (M1 : bpow radix2 20 = 1048576) by reflexivity.
  assert (M2 : bpow radix2 23 = 8388608) by reflexivity.
  assert (M3 : bpow radix2 30 = 1073741824) by reflexivity.
  assert (U1 : u <= / 1024).
  { unfold u. change (/ 1024) with (bpow radix2 (-10)). apply bpow_le. lia. }
  rewrite M1 in B1, B2, B3, B4, B5. apply Rabs_le_inv in B1, B2, B3, B4, B5.
  assert (Op : forall op f x y, rounds op f -> fin x -> fin y -> Rabs (f (B2R x) (B2R y)) <= 8388608 ->
    fin (op x y) /\ - u <= B2R (op x y) - f (B2R x) (B2R y) <= u).
  { intros op f x y R Fx Fy H. destruct (op_err op f 23 x y R Fx Fy) as [F E]; [lia|lra|].
    split; [exact F|]. apply Rabs_le_inv in E. change (23 - 53)%Z with (-30)%Z in E. fold u in E. exact E. }
  assert (Z0 : B2R fzero = 0) by reflexivity.
  (* the sum *)
  destruct (Op fadd Rplus fzero m fadd_rounds) as [Fs1 Es1]; auto; [reflexivity|rewrite Z0; apply Rabs_le; lra|]. rewrite Z0 in Es1.
  destruct (Op fadd Rplus (fadd fzero m) a fadd_rounds) as [Fs2 Es2]; auto; [apply Rabs_le; lra|].
  destruct (Op fadd Rplus (fadd (fadd fzero m) a) b fadd_rounds) as [Fs3 Es3]; auto; [apply Rabs_le; lra|].
  fold (ftotal m a b) in Fs3, Es3. set (s := ftotal m a b) in *.
  destruct (Op fsub Rminus last s fsub_rounds) as [Fd Ed]; auto; [apply Rabs_le; lra|].
  unfold fchecks. set (m1 := fcheck_flow last m a b).
  assert (H1 : fin m1 /\ -5300000 <= B2R m1 <= 5300000 /\
               - (9 * u) <= B2R m1 + B2R a + B2R b - Rmax (B2R m + B2R a + B2R b) (B2R last) <= 9 * u).
  { unfold m1, fcheck_flow. fold s. cbv zeta. rewrite Bltb_correct by (auto; reflexivity). rewrite Z0.
    case Rlt_bool_spec; intro Hd.
    - destruct (Op fadd Rplus m (fsub last s) fadd_rounds) as [Fm Em]; auto; [apply Rabs_le; lra|].
      split; [exact Fm|]. split; [lra|]. unfold Rmax. destruct (Rle_dec _ _); lra.
    - split; [exact F3|]. split; [lra|]. unfold Rmax. destruct (Rle_dec _ _); lra. }
  destruct H1 as (Fm1 & Bm1 & T1). clearbody m1.
  (* the minimum *)
  unfold fcheck_minimum.
  destruct (Op fsub Rminus m1 first fsub_rounds) as [Fg Eg]; auto; [apply Rabs_le; lra|].
  destruct (op_err fmul Rmult 30 (fsub m1 first) hundred fmul_rounds) as [Fp Ep]; auto; try lia; [reflexivity| |].
  { rewrite hundred_value, M3. apply Rabs_le. lra. }
  rewrite hundred_value in Ep. change (30 - 53)%Z with (-23)%Z in Ep. rewrite E23 in Ep. apply Rabs_le_inv in Ep.
  destruct (ffloor_spec _ Fp) as (k & Ek & Bk). rewrite Ek. cbn [bind]. cbv zeta.
  destruct (of_Z_spec k) as [Fz Ez]; [rewrite M3; apply Rabs_le; lra|]. rewrite E23 in Ez. apply Rabs_le_inv in Ez.
  destruct (Op (fun x _ => fdiv x hundred) (fun x _ => x / 100) (of_Z k) fzero div100_rounds) as [Fq Eq]; auto; [reflexivity|apply Rabs_le; lra|].
  cbv beta in Fq, Eq. set (q := fdiv (of_Z k) hundred) in *.
  pose proof tenth_bounds as Tt.
  destruct (Op fsub Rminus q tenth fsub_rounds) as [Fr Er]; auto; [reflexivity|apply Rabs_le; lra|].
  set (r := fsub q tenth) in *. rewrite Bltb_correct by (auto; reflexivity). rewrite Z0.
  case Rlt_bool_spec; intro Hr.
  - destruct (Op fsub Rminus m1 r fsub_rounds) as [Fm2 Em2]; auto; [apply Rabs_le; lra|].
    destruct (Op fadd Rplus a r fadd_rounds) as [Fa2 Ea2]; auto; [apply Rabs_le; lra|].
    exists (fsub m1 r), (fadd a r). split; [reflexivity|]. split; [exact Fm2|]. split; [exact Fa2|].
    rewrite E26. split; [apply Rabs_le; lra|lra].
  - exists m1, a. split; [reflexivity|]. split; [exact Fm1|]. split; [exact F4|].
    rewrite E26. split; [apply Rabs_le; lra|lra].
Qed.
Print Assumptions C16_section_widths_in_binary64.

(** C16, refuted without tolerance.  Widths 8.7 and 2.4 and a flow width of
    443.1: the main channel becomes 440.7 and the three widths add up to
    443.09999999999997.  A main channel of 5.3 with a narrowest flow width of
    17.6 becomes 17.7, which is less than 17.6 + 0.1 in floats. *)
Theorem C16_widths_in_binary64_refuted :
  let f (m : positive) (e : Z) (b : SpecFloat.bounded 53 1024 m e = true) : f64 := B754_finite false m e b in
  let m := f 4897664594765414%positive (-49)%Z eq_refl in
  let a := f 5404319552844595%positive (-51)%Z eq_refl in
  let last := f 7795097636280730%positive (-44)%Z eq_refl in
  let m2 := f 5967269506265907%positive (-50)%Z eq_refl in
  let first := f 4953959590107546%positive (-48)%Z eq_refl in
  Bltb (ftotal (fcheck_flow last m a fzero) a fzero) last = true /\
  match fcheck_minimum first m2 fzero with
  | Ok (m', _) => Bltb m' (fadd first tenth) = true
  | Raise _ => False
  end.
Proof. vm_compute. split; reflexivity. Qed.
Print Assumptions C16_widths_in_binary64_refuted.
