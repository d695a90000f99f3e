(* Automatic sizes of any warped image in floating point (C140). *)
From Verif Require Import Py QuantModel QuantFloat FloatSizeModel FloatSizeProps.
From Coq Require Import Reals Lra ZArith Lia Floats.SpecFloat.
From Flocq Require Import Core.Core IEEE754.BinarySingleNaN.
From Flocq Require Import Relative.
Local Open Scope Z_scope.

(* a finite double *)
Definition finite_double (s : spec_float) : Prop := valid_binary 53 1024 s = true /\ is_finite_SF s = true.
Definition finite_matrix (m : fmatrix) : Prop :=
  finite_double (f11 m) /\ finite_double (f12 m) /\ finite_double (f13 m) /\
  finite_double (f21 m) /\ finite_double (f22 m) /\ finite_double (f23 m).
(* the exact right (or lower) end of the warped image: the largest of
   a x + b y + c over the corners of a w x h image *)
Definition reach (a b c : spec_float) (w h : Z) : R :=
  Rmax (Rmax (value c) (value a * IZR w + value c))
       (Rmax (value b * IZR h + value c) (value a * IZR w + value b * IZR h + value c)).
(* how large the numbers involved are *)
Definition extent (a b c : spec_float) (w h : Z) : R :=
  (Rabs (value a) * IZR w + Rabs (value b) * IZR h + Rabs (value c))%R.

Notation bf := (binary_float 53 1024).
Notation fx := (SpecFloat.fexp 53 1024).
Notation rnd := (round radix2 fx (round_mode mode_NE)).
Local Instance P53 : Prec_gt_0 53 := eq_refl.
Local Instance M1024 : Prec_lt_emax 53 1024 := eq_refl.
Local Instance vx : Valid_exp fx := FLT_exp_valid _ _.

Definition tiny : R := bpow radix2 (-1075).
Lemma tiny_pos : (0 < tiny)%R.
Proof. apply bpow_gt_0. Qed.
Lemma tiny_small : (tiny <= / 1000 / 2 ^ 53)%R.
Proof.
  apply Rle_trans with (bpow radix2 (-63)); [apply bpow_le; lia|]. rewrite pow53. cbn. lra.
Qed.

Lemma rnd_any x : (Rabs (rnd x - x) <= Rabs x / 2 ^ 53 + tiny)%R.
Proof.
  destruct (error_N_FLT radix2 (SpecFloat.emin 53 1024) 53 ltac:(lia) (fun z => negb (Z.even z)) x) as (eps & eta & A & B & _ & E).
  change (FLT_exp (SpecFloat.emin 53 1024) 53) with fx in E. change (ZnearestE) with (round_mode mode_NE) in E.
  change (Znearest (fun z : Z => negb (Z.even z))) with (round_mode mode_NE) in E. rewrite E.
  replace (x * (1 + eps) + eta - x)%R with (x * eps + eta)%R by ring.
  eapply Rle_trans; [apply Rabs_triang|]. apply Rplus_le_compat.
  - rewrite Rabs_mult. unfold Rdiv. apply Rmult_le_compat_l; [apply Rabs_pos|]. eapply Rle_trans; [exact A|].
    rewrite pow53. cbn. lra.
  - eapply Rle_trans; [exact B|]. unfold tiny. replace (-1075) with (-1 + -1074) by lia. rewrite bpow_plus. right. reflexivity.
Qed.
Lemma rnd_bounded x B : (Rabs x <= B)%R -> (B <= IZR (2 ^ 53))%R -> (Rabs (rnd x) < bpow radix2 1024)%R.
Proof.
  intros H HB. apply Rle_lt_trans with (IZR (2 ^ 53)).
  - apply abs_round_le_generic; try typeclasses eauto; [|lra].
    apply (generic_format_FLT radix2 (SpecFloat.emin 53 1024) 53). exists (Float radix2 1 53); [|cbn; lia|cbn; lia].
    unfold F2R. cbn [Fnum Fexp]. rewrite Rmult_1_l. rewrite <- IZR_Zpower by lia. reflexivity.
  - change 2 with (radix_val radix2). rewrite IZR_Zpower by lia. apply bpow_lt. reflexivity.
Qed.

Lemma mul_float (x y : bf) B : is_finite x = true -> is_finite y = true -> (Rabs (B2R x * B2R y) <= B)%R -> (B <= IZR (2 ^ 53))%R ->
  is_finite (Bmult mode_NE x y) = true /\ B2R (Bmult mode_NE x y) = rnd (B2R x * B2R y).
Proof.
  intros Fx Fy H HB. pose proof (Bmult_correct 53 1024 _ _ mode_NE x y) as M.
  rewrite Rlt_bool_true in M by (eapply rnd_bounded; eauto). destruct M as (M1 & M2 & _). now rewrite Fx, Fy in M2.
Qed.
Lemma add_float (x y : bf) B : is_finite x = true -> is_finite y = true -> (Rabs (B2R x + B2R y) <= B)%R -> (B <= IZR (2 ^ 53))%R ->
  is_finite (Bplus mode_NE x y) = true /\ B2R (Bplus mode_NE x y) = rnd (B2R x + B2R y).
Proof.
  intros Fx Fy H HB. pose proof (Bplus_correct 53 1024 _ _ mode_NE x y Fx Fy) as M.
  rewrite Rlt_bool_true in M by (eapply rnd_bounded; eauto). now destruct M as (M1 & M2 & _).
Qed.

Lemma row_float (a b c : spec_float) x y : finite_double a -> finite_double b -> finite_double c ->
  0 <= x < 2 ^ 53 -> 0 <= y < 2 ^ 53 -> (extent a b c x y <= IZR (2 ^ 52))%R ->
  exists v : bf, f_row a b c (sf_of_Z 53 1024 x, sf_of_Z 53 1024 y) = B2SF v /\ is_finite v = true /\
    (Rabs (B2R v - (value a * IZR x + value b * IZR y + value c)) <= (extent a b c x y + 1) / 2 ^ 51)%R.
Proof.
  intros (Va & Fa) (Vb & Fb) (Vc & Fc) Hx Hy HS.
  destruct (int_float 53 1024 _ _ x ltac:(lia)) as (Vx & Rx & Fx).
  destruct (int_float 53 1024 _ _ y ltac:(lia)) as (Vy & Ry & Fy).
  destruct (int_float 53 1024 _ _ 1 ltac:(lia)) as (V1 & R1 & F1).
  assert (X0 : (0 <= IZR x)%R) by (apply (IZR_le 0); lia). assert (Y0 : (0 <= IZR y)%R) by (apply (IZR_le 0); lia).
  unfold extent in *. unfold value in *.
  set (A := (SF2R radix2 a * IZR x)%R). set (B := (SF2R radix2 b * IZR y)%R). set (C := SF2R radix2 c) in *.
  assert (EA : (Rabs (SF2R radix2 a) * IZR x = Rabs A)%R) by (unfold A; rewrite Rabs_mult, (Rabs_pos_eq (IZR x)); auto).
  assert (EB : (Rabs (SF2R radix2 b) * IZR y = Rabs B)%R) by (unfold B; rewrite Rabs_mult, (Rabs_pos_eq (IZR y)); auto).
  rewrite EA, EB in *.
  pose proof (Rabs_pos A). pose proof (Rabs_pos B). pose proof (Rabs_pos C). pose proof tiny_pos. pose proof tiny_small as TS.
  assert (P52 : (IZR (2 ^ 53) = 2 * IZR (2 ^ 52))%R) by (rewrite <- mult_IZR; reflexivity).
  assert (P51 : (2 ^ 51 = 2 ^ 53 / 4)%R) by (change 53%nat with (S (S 51)); rewrite <- !tech_pow_Rmult; lra).
  assert (BIG : (1000 <= IZR (2 ^ 52))%R) by (apply IZR_le; lia).
  set (xa := SF2B a Va : bf). set (xb := SF2B b Vb : bf). set (xc := SF2B c Vc : bf).
  set (ix := SF2B (sf_of_Z 53 1024 x) Vx : bf). set (iy := SF2B (sf_of_Z 53 1024 y) Vy : bf). set (i1 := SF2B (sf_of_Z 53 1024 1) V1 : bf).
  assert (Ra : B2R xa = SF2R radix2 a) by apply B2R_SF2B. assert (Rb : B2R xb = SF2R radix2 b) by apply B2R_SF2B.
  assert (Rc : B2R xc = C) by apply B2R_SF2B. assert (Rix : B2R ix = IZR x) by (unfold ix; rewrite B2R_SF2B; exact Rx).
  assert (Riy : B2R iy = IZR y) by (unfold iy; rewrite B2R_SF2B; exact Ry). assert (Ri1 : B2R i1 = 1%R) by (unfold i1; rewrite B2R_SF2B; exact R1).
  destruct (mul_float xa ix (Rabs A)) as (M1 & M2); [unfold xa; now rewrite is_finite_SF2B|unfold ix; now rewrite is_finite_SF2B|rewrite Ra, Rix; apply Rle_refl|lra|].
  destruct (mul_float xb iy (Rabs B)) as (N1 & N2); [unfold xb; now rewrite is_finite_SF2B|unfold iy; now rewrite is_finite_SF2B|rewrite Rb, Riy; apply Rle_refl|lra|].
  destruct (mul_float xc i1 (Rabs C)) as (O1 & O2); [unfold xc; now rewrite is_finite_SF2B|unfold i1; now rewrite is_finite_SF2B|rewrite Rc, Ri1, Rmult_1_r; apply Rle_refl|lra|].
  rewrite Ra, Rix in M2. fold A in M2. rewrite Rb, Riy in N2. fold B in N2.
  rewrite Ri1, Rmult_1_r, round_generic in O2 by (try typeclasses eauto; apply generic_format_B2R). rewrite Rc in O2.
  set (p1 := Bmult mode_NE xa ix) in *. set (p2 := Bmult mode_NE xb iy) in *. set (p3 := Bmult mode_NE xc i1) in *.
  pose proof (rnd_any A) as EA1. rewrite <- M2 in EA1. pose proof (rnd_any B) as EB1. rewrite <- N2 in EB1.
  set (u := (/ 2 ^ 53)%R) in *. unfold Rdiv in EA1, EB1. fold u in EA1, EB1.
  assert (U : (0 < u <= / 1000)%R).
  { unfold u. split; [apply Rinv_0_lt_compat, pow_lt; lra|]. apply Rinv_le; [lra|]. rewrite pow53, P52. lra. }
  assert (TS' : (tiny <= u / 1000)%R) by (unfold u; lra).
  assert (uA : (0 <= Rabs A * u)%R) by (apply Rmult_le_pos; lra). assert (uB : (0 <= Rabs B * u)%R) by (apply Rmult_le_pos; lra).
  assert (uC : (0 <= Rabs C * u)%R) by (apply Rmult_le_pos; lra).
  assert (uA2 : (Rabs A * u <= Rabs A / 1000)%R) by (unfold Rdiv; apply Rmult_le_compat_l; lra).
  assert (uB2 : (Rabs B * u <= Rabs B / 1000)%R) by (unfold Rdiv; apply Rmult_le_compat_l; lra).
  assert (S1 : (Rabs (B2R p1 + B2R p2) <= (Rabs A + Rabs B) * (1 + / 1000) + / 1000)%R).
  { apply Rabs_le. apply Rabs_le_inv in EA1. apply Rabs_le_inv in EB1. pose proof (Rle_abs A). pose proof (Rle_abs (- A)). rewrite Rabs_Ropp in *.
    pose proof (Rle_abs B). pose proof (Rle_abs (- B)). rewrite Rabs_Ropp in *. lra. }
  destruct (add_float p1 p2 _ M1 N1 S1) as (Q1 & Q2); [lra|].
  set (s1 := Bplus mode_NE p1 p2) in *. pose proof (rnd_any (B2R p1 + B2R p2)) as ES. rewrite <- Q2 in ES. unfold Rdiv in ES. fold u in ES.
  assert (ES' : (Rabs (B2R s1 - (B2R p1 + B2R p2)) <= ((Rabs A + Rabs B) * (1 + / 1000) + / 1000) * u + tiny)%R).
  { eapply Rle_trans; [exact ES|]. apply Rplus_le_compat_r. apply Rmult_le_compat_r; lra. }
  assert (D1 : (Rabs (B2R s1 - (A + B)) <= (Rabs A + Rabs B) * u * (2 + / 1000) + u / 100)%R).
  { apply Rabs_le. apply Rabs_le_inv in EA1. apply Rabs_le_inv in EB1. apply Rabs_le_inv in ES'. lra. }
  assert (S2 : (Rabs (B2R s1 + B2R p3) <= (Rabs A + Rabs B) * (1 + / 100) + Rabs C + / 1000)%R).
  { rewrite O2. apply Rabs_le. apply Rabs_le_inv in D1. pose proof (Rle_abs A). pose proof (Rle_abs (- A)). rewrite Rabs_Ropp in *.
    pose proof (Rle_abs B). pose proof (Rle_abs (- B)). rewrite Rabs_Ropp in *. pose proof (Rle_abs C). pose proof (Rle_abs (- C)). rewrite Rabs_Ropp in *. lra. }
  destruct (add_float s1 p3 _ Q1 O1 S2) as (T1 & T2); [lra|].
  pose proof (rnd_any (B2R s1 + B2R p3)) as ET. rewrite <- T2 in ET. unfold Rdiv in ET. fold u in ET.
  assert (ET' : (Rabs (B2R (Bplus mode_NE s1 p3) - (B2R s1 + B2R p3)) <= ((Rabs A + Rabs B) * (1 + / 100) + Rabs C + / 1000) * u + tiny)%R).
  { eapply Rle_trans; [exact ET|]. apply Rplus_le_compat_r. apply Rmult_le_compat_r; lra. }
  exists (Bplus mode_NE s1 p3). split; [|split; [exact T1|]].
  - unfold f_row. cbn [fst snd]. rewrite <- (B2SF_SF2B 53 1024 a Va), <- (B2SF_SF2B 53 1024 b Vb), <- (B2SF_SF2B 53 1024 c Vc),
      <- (B2SF_SF2B 53 1024 _ Vx), <- (B2SF_SF2B 53 1024 _ Vy), <- (B2SF_SF2B 53 1024 _ V1).
    rewrite !(mul_equiv 53 1024 _ _), !(add_equiv 53 1024 _ _). reflexivity.
  - rewrite P51. replace ((Rabs A + Rabs B + Rabs C + 1) / (2 ^ 53 / 4))%R with ((Rabs A + Rabs B + Rabs C + 1) * u * 4)%R
      by (unfold u; field; apply pow_nonzero; lra).
    rewrite O2 in ET'. apply Rabs_le. apply Rabs_le_inv in ET'. apply Rabs_le_inv in D1. lra.
Qed.

Lemma max_float (x y : bf) : is_finite x = true -> is_finite y = true ->
  exists z : bf, f_max (B2SF x) (B2SF y) = B2SF z /\ is_finite z = true /\ B2R z = Rmax (B2R x) (B2R y).
Proof.
  intros Fx Fy. unfold f_max.
  assert (Nx : sf_nan (B2SF x) = false) by (destruct x; try discriminate; reflexivity).
  assert (Ny : sf_nan (B2SF y) = false) by (destruct y; try discriminate; reflexivity).
  rewrite Nx, Ny. change (SFleb (B2SF x) (B2SF y)) with (Bleb x y). rewrite Bleb_correct by auto.
  destruct (Rle_bool_spec (B2R x) (B2R y)) as [L|L].
  - exists y. rewrite Rmax_right by lra. auto.
  - exists x. rewrite Rmax_left by lra. auto.
Qed.

Lemma Rmax_close a b c d e : (Rabs (a - b) <= e -> Rabs (c - d) <= e -> Rabs (Rmax a c - Rmax b d) <= e)%R.
Proof.
  intros H1 H2. apply Rabs_le_inv in H1. apply Rabs_le_inv in H2. apply Rabs_le. unfold Rmax.
  destruct (Rle_dec a c), (Rle_dec b d); lra.
Qed.

Lemma axis_any a b c w h : finite_double a -> finite_double b -> finite_double c ->
  0 <= w < 2 ^ 53 -> 0 <= h < 2 ^ 53 -> (extent a b c w h <= IZR (2 ^ 52))%R ->
  exists n, f_ceil_int (f_maximum (map (f_row a b c) (f_corners (w, h)))) = Ok n /\
    (reach a b c w h - (extent a b c w h + 1) / 2 ^ 51 <= IZR n < reach a b c w h + (extent a b c w h + 1) / 2 ^ 51 + 1)%R.
Proof.
  intros Fa Fb Fc Hw Hh HS.
  assert (W0 : (0 <= IZR w)%R) by (apply (IZR_le 0); lia). assert (H0 : (0 <= IZR h)%R) by (apply (IZR_le 0); lia).
  assert (AW : (0 <= Rabs (value a) * IZR w)%R) by (apply Rmult_le_pos; [apply Rabs_pos|auto]).
  assert (BH : (0 <= Rabs (value b) * IZR h)%R) by (apply Rmult_le_pos; [apply Rabs_pos|auto]).
  assert (P : (0 < / 2 ^ 51)%R) by (apply Rinv_0_lt_compat, pow_lt; lra).
  set (e := ((extent a b c w h + 1) / 2 ^ 51)%R).
  assert (T : forall x y, (x = 0 \/ x = w) -> (y = 0 \/ y = h) ->
    exists v : bf, f_row a b c (sf_of_Z 53 1024 x, sf_of_Z 53 1024 y) = B2SF v /\ is_finite v = true /\
      (Rabs (B2R v - (value a * IZR x + value b * IZR y + value c)) <= e)%R).
  { intros x y Hx Hy. assert (L : (extent a b c x y <= extent a b c w h)%R).
    { unfold extent. destruct Hx as [-> | ->], Hy as [-> | ->]; lra. }
    destruct (row_float a b c x y Fa Fb Fc) as (v & E & F & G); [lia|lia|lra|]. exists v. split; [exact E|]. split; [exact F|].
    eapply Rle_trans; [exact G|]. unfold e, Rdiv. apply Rmult_le_compat_r; lra. }
  destruct (T 0 0) as (v0 & E0 & F0 & G0); auto. destruct (T w 0) as (v1 & E1 & F1 & G1); auto.
  destruct (T 0 h) as (v2 & E2 & F2 & G2); auto. destruct (T w h) as (v3 & E3 & F3 & G3); auto.
  unfold f_corners. cbv zeta. cbn [map fst snd]. rewrite E0, E1, E2, E3. unfold f_maximum. cbn [fold_left].
  destruct (max_float v0 v1 F0 F1) as (z1 & Z1 & Y1 & X1). rewrite Z1.
  destruct (max_float z1 v2 Y1 F2) as (z2 & Z2 & Y2 & X2). rewrite Z2.
  destruct (max_float z2 v3 Y2 F3) as (z3 & Z3 & Y3 & X3). rewrite Z3.
  exists (Zceil (B2R z3)). split; [apply ceil_float; exact Y3|].
  assert (D : (Rabs (B2R z3 - reach a b c w h) <= e)%R).
  { rewrite X3, X2, X1. unfold reach. rewrite Rmax_assoc. rewrite Rmult_0_r, Rplus_0_l in G0.
    apply Rmax_close; [apply Rmax_close; [apply Rmax_close|]|].
    - rewrite Rmult_0_r, Rplus_0_l in G0. exact G0.
    - rewrite Rmult_0_r, Rplus_0_r in G1. exact G1.
    - rewrite Rmult_0_r, Rplus_0_l in G2. exact G2.
    - exact G3. }
  apply Rabs_le_inv in D. pose proof (Zceil_ub (B2R z3)). pose proof (Zceil_lb (B2R z3)). lra.
Qed.

(* Any affine warp: the canvas ends where the warped image ends, rounded up, up to an
   error of 2^-51 of the numbers involved. *)
Theorem C140_warp_partial m w h :
  finite_matrix m -> 0 <= w < 2 ^ 53 -> 0 <= h < 2 ^ 53 ->
  (extent (f11 m) (f12 m) (f13 m) w h <= 2 ^ 52)%R -> (extent (f21 m) (f22 m) (f23 m) w h <= 2 ^ 52)%R ->
  exists w' h', auto_dsize_f (Some m) (w, h) = Ok (w', h') /\
    (let r := reach (f11 m) (f12 m) (f13 m) w h in let e := ((extent (f11 m) (f12 m) (f13 m) w h + 1) / 2 ^ 51)%R in
     r - e <= IZR w' < r + e + 1)%R /\
    (let r := reach (f21 m) (f22 m) (f23 m) w h in let e := ((extent (f21 m) (f22 m) (f23 m) w h + 1) / 2 ^ 51)%R in
     r - e <= IZR h' < r + e + 1)%R.
Proof.
  intros (A & B & C & D & E & F) Hw Hh X Y. assert (P : (2 ^ 52 = IZR (2 ^ 52))%R).
  { change (2 ^ 52)%Z with (2 ^ Z.of_nat 52)%Z. now rewrite <- pow_IZR. }
  rewrite P in X, Y. destruct (axis_any _ _ _ w h A B C Hw Hh X) as (n & N1 & N2). destruct (axis_any _ _ _ w h D E F Hw Hh Y) as (k & K1 & K2).
  exists n, k. cbv zeta. split; [|split; [exact N2|exact K2]]. unfold auto_dsize_f. rewrite N1. cbn [bind]. rewrite K1. reflexivity.
Qed.
Print Assumptions C140_warp_partial.

(* a quarter turn of a 20 x 10 image, moved into view *)
Definition one := S754_finite false (2 ^ 52) (-52).
Definition minus_one := S754_finite true (2 ^ 52) (-52).
Definition ten := S754_finite false (10 * 2 ^ 49) (-49).
Definition quarter_turn := FM (S754_zero false) minus_one ten one (S754_zero false) (S754_zero false).
Lemma one_value : value one = 1%R. Proof. rewrite (literal one _ _ eq_refl). cbn. lra. Qed.
Lemma ten_value : value ten = 10%R. Proof. rewrite (literal ten _ _ eq_refl). cbn. lra. Qed.
Lemma minus_one_value : value minus_one = (-1)%R.
Proof. unfold value, minus_one, SF2R, F2R. cbn. lra. Qed.
Example C140_warp_case : finite_matrix quarter_turn /\ (extent (f11 quarter_turn) (f12 quarter_turn) (f13 quarter_turn) 20 10 = 20)%R /\
  (extent (f21 quarter_turn) (f22 quarter_turn) (f23 quarter_turn) 20 10 = 20)%R /\
  reach (f11 quarter_turn) (f12 quarter_turn) (f13 quarter_turn) 20 10 = 10%R /\
  auto_dsize_f (Some quarter_turn) (20, 10) = Ok (10, 20).
Proof.
  split; [repeat split; reflexivity|]. unfold extent, reach. cbn [f11 f12 f13 f21 f22 f23 quarter_turn].
  rewrite one_value, ten_value, minus_one_value. change (value (S754_zero false)) with 0%R.
  replace (Rabs (-1)) with 1%R by (rewrite Rabs_left; lra). rewrite Rabs_R0, (Rabs_pos_eq 1), (Rabs_pos_eq 10) by lra.
  split; [lra|]. split; [lra|]. split; [|vm_compute; reflexivity].
  unfold Rmax. repeat destruct Rle_dec; lra.
Qed.
