(* Automatic sizes of scaled images in floating point (C140). *)
From Verif Require Import Py QuantModel QuantFloat FloatSizeModel.
From Coq Require Import Reals Lra ZArith Lia Floats.SpecFloat.
From Flocq Require Import Core.Core IEEE754.BinarySingleNaN.
From Flocq Require Import Relative.
Local Open Scope Z_scope.

(** ** Vocabulary *)

(* the real number a float stands for *)
Definition value (s : spec_float) : R := SF2R radix2 s.
(* a positive finite double *)
Definition factor (s : spec_float) : Prop :=
  valid_binary 53 1024 s = true /\ is_finite_SF s = true /\ (0 < value s)%R.
(* the matrix of a scaling by sx and sy; zeros of either sign *)
Definition scaling (sx sy : spec_float) (m : fmatrix) : Prop :=
  exists a b c d, m = FM sx (S754_zero a) (S754_zero b) (S754_zero c) sy (S754_zero d).
(* sizes and scaled sizes a double can count *)
Definition countable (s : spec_float) (n : Z) : Prop :=
  0 <= n < 2 ^ 53 /\ (value s * IZR n <= IZR (2 ^ 53))%R.
(* s is the number r up to half a unit in the last place *)
Definition close (s : spec_float) (r : R) : Prop := (Rabs (value s - r) <= r / 2 ^ 53)%R.

(** ** Proofs *)
Notation fx := (SpecFloat.fexp 53 1024).
Notation rnd := (round radix2 fx (round_mode mode_NE)).
Local Instance P53 : Prec_gt_0 53 := eq_refl.
Local Instance M1024 : Prec_lt_emax 53 1024 := eq_refl.
Local Instance vx : Valid_exp fx := FLT_exp_valid _ _.

Lemma ceil_float (v : binary_float 53 1024) : is_finite v = true -> f_ceil_int (B2SF v) = Ok (Zceil (B2R v)).
Proof.
  destruct v as [s|s| |s m e B]; intros F; try discriminate; cbn [B2SF f_ceil_int B2R].
  - f_equal. symmetry. apply (Zceil_IZR 0).
  - f_equal. replace (if s then Z.neg m else Z.pos m) with (cond_Zopp s (Z.pos m)) by (destruct s; reflexivity).
    set (n := cond_Zopp s (Z.pos m)). unfold F2R. cbn [Fnum Fexp]. destruct (Z.leb_spec 0 e) as [E|E].
    + rewrite <- IZR_Zpower by exact E. rewrite <- mult_IZR. symmetry. apply Zceil_IZR.
    + unfold Zceil. f_equal. rewrite <- (Z.opp_involutive e) at 2. rewrite bpow_opp.
      rewrite <- IZR_Zpower by lia. rewrite <- Ropp_mult_distr_l_reverse, <- opp_IZR. symmetry. apply Zfloor_div.
      cbn. apply Z.pow_nonzero; lia.
Qed.

Lemma pos_shape s : factor s -> exists m e, s = S754_finite false m e.
Proof.
  intros (V & F & P). destruct s as [b|b| |[|] m e]; try discriminate.
  - cbn in P. lra.
  - exfalso. unfold value in P. cbn [SF2R] in P. apply Rlt_not_le in P. apply P. apply F2R_le_0. cbn. lia.
  - eauto.
Qed.

(* the product of a factor and a size *)
Lemma product s n : factor s -> countable s n ->
  exists v : binary_float 53 1024, SFmul 53 1024 s (sf_of_Z 53 1024 n) = B2SF v /\ is_finite v = true /\
    B2R v = rnd (value s * IZR n) /\ (0 <= B2R v)%R /\ Bsign v = false.
Proof.
  intros Fs (Hn & Hc). pose proof Fs as (V & F & P).
  destruct (int_float 53 1024 _ _ n ltac:(lia)) as (V2 & R2 & F2). unfold value in *.
  exists (Bmult mode_NE (SF2B s V) (SF2B _ V2)).
  rewrite <- (mul_equiv 53 1024 _ _), !B2SF_SF2B. split; [reflexivity|].
  pose proof (Bmult_correct 53 1024 _ _ mode_NE (SF2B s V) (SF2B _ V2)) as M. rewrite !B2R_SF2B, R2 in M.
  assert (0 <= IZR n)%R by (apply (IZR_le 0); lia).
  assert (B : (0 <= SF2R radix2 s * IZR n)%R) by (apply Rmult_le_pos; lra).
  assert (RB : (0 <= rnd (SF2R radix2 s * IZR n) <= IZR (2 ^ 53))%R).
  { split.
    - apply round_ge_generic; try typeclasses eauto; [apply generic_format_0|exact B].
    - apply round_le_generic; try typeclasses eauto; [|exact Hc].
      apply (generic_format_FLT radix2 (SpecFloat.emin 53 1024) 53). exists (Float radix2 1 53); [|cbn; lia|cbn; lia].
      unfold F2R. cbn [Fnum Fexp]. rewrite Rmult_1_l. rewrite <- IZR_Zpower by lia. reflexivity. }
  rewrite Rlt_bool_true in M.
  - destruct M as (M1 & M2 & M3). rewrite !is_finite_SF2B, F, F2 in M2. split; [exact M2|]. split; [exact M1|]. split; [rewrite M1; lra|].
    rewrite M3 by (destruct (Bmult mode_NE (SF2B s V) (SF2B _ V2)); cbn in M2 |- *; congruence).
    assert (Sg : Bsign (SF2B s V) = false) by (destruct (pos_shape s Fs) as (m0 & e0 & ->); reflexivity). rewrite Sg.
    assert (Sn : forall x (Vx : valid_binary 53 1024 x = true), x = sf_of_Z 53 1024 n -> Bsign (SF2B x Vx) = false).
    { intros x Vx ->. destruct n as [|p|p]; [reflexivity| |lia].
      generalize Vx. intros Vx'. assert (Nz : (0 < SF2R radix2 (sf_of_Z 53 1024 (Z.pos p)))%R) by (rewrite R2; apply (IZR_lt 0); lia).
      destruct (sf_of_Z 53 1024 (Z.pos p)) as [b|b| |[|] q e]; try discriminate; cbn [SF2R] in Nz; try lra; [|reflexivity].
      exfalso. apply Rlt_not_le in Nz. apply Nz. apply F2R_le_0. cbn. lia. }
    rewrite (Sn _ V2 eq_refl). reflexivity.
  - rewrite Rabs_pos_eq by lra. apply Rle_lt_trans with (1 := proj2 RB).
    change 2 with (radix_val radix2). rewrite IZR_Zpower by lia. apply bpow_lt. reflexivity.
Qed.

Lemma zero_prod a s : is_finite_SF s = true -> exists b, SFmul 53 1024 (S754_zero a) s = S754_zero b.
Proof. destruct s; intros F; try discriminate; cbn; eauto. Qed.
Lemma prod_zero a s : is_finite_SF s = true -> exists b, SFmul 53 1024 s (S754_zero a) = S754_zero b.
Proof. destruct s; intros F; try discriminate; cbn; eauto. Qed.

Definition plain (x : spec_float) : Prop := x = S754_zero false \/ exists m e, x = S754_finite false m e.
Lemma plain_float (v : binary_float 53 1024) : is_finite v = true -> Bsign v = false -> plain (B2SF v).
Proof. destruct v as [[|]|b| |[|] m e B]; cbn; intros; try discriminate; [now left|right; eauto]. Qed.
Lemma plain_add x b : plain x -> SFadd 53 1024 x (S754_zero b) = x.
Proof. intros [-> |(m & e & ->)]; [destruct b|]; reflexivity. Qed.
Lemma add_plain x b : plain x -> SFadd 53 1024 (S754_zero b) x = x.
Proof. intros [-> |(m & e & ->)]; [destruct b|]; reflexivity. Qed.
Lemma plain_leb m e : SFleb (S754_finite false m e) (S754_zero false) = false.
Proof. reflexivity. Qed.
Lemma max_first x : plain x -> f_maximum [S754_zero false; x; S754_zero false; x] = x.
Proof.
  intros [-> |(m & e & ->)]; [reflexivity|]. unfold f_maximum. cbn [fold_left].
  unfold f_max. cbn [sf_nan]. change (SFleb (S754_zero false) (S754_finite false m e)) with true. cbn iota. rewrite plain_leb.
  cbn iota. cbn [sf_nan]. repeat match goal with |- context [if ?b then _ else _] => destruct b end; reflexivity.
Qed.
Lemma max_second x : plain x -> f_maximum [S754_zero false; S754_zero false; x; x] = x.
Proof.
  intros [-> |(m & e & ->)]; [reflexivity|]. unfold f_maximum. cbn [fold_left].
  unfold f_max. cbn [sf_nan]. change (SFleb (S754_zero false) (S754_zero false)) with true. cbn iota.
  change (SFleb (S754_zero false) (S754_finite false m e)) with true. cbn iota.
  cbn iota. cbn [sf_nan]. repeat match goal with |- context [if ?b then _ else _] => destruct b end; reflexivity.
Qed.

Definition fint := sf_of_Z 53 1024.
Lemma fint_finite n : 0 <= n < 2 ^ 53 -> is_finite_SF (fint n) = true.
Proof. intros H. now destruct (int_float 53 1024 _ _ n ltac:(lia)) as (_ & _ & F). Qed.

Lemma axis_x s w h a b : factor s -> countable s w -> 0 <= h < 2 ^ 53 ->
  f_ceil_int (f_maximum (map (f_row s (S754_zero a) (S754_zero b)) (f_corners (w, h)))) = Ok (Zceil (rnd (value s * IZR w))).
Proof.
  intros Fs C H. destruct (product s w Fs C) as (v & E & F & R & P & G). pose proof (plain_float v F G) as Pv.
  assert (Z0 : forall y, is_finite_SF y = true -> f_row s (S754_zero a) (S754_zero b) (fint 0, y) = S754_zero false).
  { intros y Fy. unfold f_row. cbn [fst snd]. destruct (zero_prod a y Fy) as (b1 & ->).
    destruct (zero_prod b (sf_of_Z 53 1024 1) eq_refl) as (b2 & ->).
    replace (SFmul 53 1024 s (fint 0)) with (S754_zero false) by (destruct (pos_shape s Fs) as (m & e & ->); reflexivity).
    rewrite !(plain_add (S754_zero false)) by (now left). reflexivity. }
  assert (Zv : forall y, is_finite_SF y = true -> f_row s (S754_zero a) (S754_zero b) (fint w, y) = B2SF v).
  { intros y Fy. unfold f_row. cbn [fst snd]. destruct (zero_prod a y Fy) as (b1 & ->).
    destruct (zero_prod b (sf_of_Z 53 1024 1) eq_refl) as (b2 & ->). unfold fint. rewrite E, !(plain_add (B2SF v)) by exact Pv. reflexivity. }
  unfold f_corners. cbv zeta. cbn [map fst snd]. fold fint.
  rewrite !Z0, !Zv by (try apply fint_finite; lia || assumption). rewrite max_first by exact Pv. rewrite ceil_float by exact F. now rewrite R.
Qed.

Lemma axis_y s w h a b : factor s -> countable s h -> 0 <= w < 2 ^ 53 ->
  f_ceil_int (f_maximum (map (f_row (S754_zero a) s (S754_zero b)) (f_corners (w, h)))) = Ok (Zceil (rnd (value s * IZR h))).
Proof.
  intros Fs C H. destruct (product s h Fs C) as (v & E & F & R & P & G). pose proof (plain_float v F G) as Pv.
  assert (Z0 : forall y, is_finite_SF y = true -> f_row (S754_zero a) s (S754_zero b) (y, fint 0) = S754_zero false).
  { intros y Fy. unfold f_row. cbn [fst snd]. destruct (zero_prod a y Fy) as (b1 & ->).
    destruct (zero_prod b (sf_of_Z 53 1024 1) eq_refl) as (b2 & ->).
    replace (SFmul 53 1024 s (fint 0)) with (S754_zero false) by (destruct (pos_shape s Fs) as (m & e & ->); reflexivity).
    rewrite add_plain by (now left). rewrite plain_add by (now left). reflexivity. }
  assert (Zv : forall y, is_finite_SF y = true -> f_row (S754_zero a) s (S754_zero b) (y, fint h) = B2SF v).
  { intros y Fy. unfold f_row. cbn [fst snd]. destruct (zero_prod a y Fy) as (b1 & ->).
    destruct (zero_prod b (sf_of_Z 53 1024 1) eq_refl) as (b2 & ->). unfold fint. rewrite E, add_plain, plain_add by exact Pv. reflexivity. }
  unfold f_corners. cbv zeta. cbn [map fst snd]. fold fint.
  rewrite !Z0, !Zv by (try apply fint_finite; lia || assumption). rewrite max_second by exact Pv. rewrite ceil_float by exact F. now rewrite R.
Qed.

Lemma scaled_size sx sy m w h : factor sx -> factor sy -> scaling sx sy m -> countable sx w -> countable sy h ->
  auto_dsize_f (Some m) (w, h) = Ok (Zceil (rnd (value sx * IZR w)), Zceil (rnd (value sy * IZR h))).
Proof.
  intros Fx Fy (a & b & c & d & ->) Cx Cy. unfold auto_dsize_f. cbn [f11 f12 f13 f21 f22 f23].
  rewrite axis_x by (auto; apply Cy). cbn [bind]. rewrite axis_y by (auto; apply Cx). reflexivity.
Qed.

(* rounding *)
Lemma half_format k : 0 < k < 2 ^ 52 -> generic_format radix2 fx (IZR k - / 2).
Proof.
  intros H. apply (generic_format_FLT radix2 (SpecFloat.emin 53 1024) 53). exists (Float radix2 (2 * k - 1) (-1)).
  - unfold F2R. cbn [Fnum Fexp bpow]. rewrite minus_IZR, mult_IZR. cbn. lra.
  - cbn [Fnum]. change (Zpower radix2 53) with (2 ^ 53). replace (2 ^ 53) with (2 * 2 ^ 52) by reflexivity. lia.
  - cbn. lia.
Qed.

Lemma pow53 : (2 ^ 53 = IZR (2 ^ 53))%R.
Proof. change (2 ^ 53)%Z with (2 ^ Z.of_nat 53)%Z. now rewrite <- pow_IZR. Qed.

Lemma rnd_error s n : factor s -> countable s n ->
  (Rabs (rnd (value s * IZR n) - value s * IZR n) <= value s * IZR n / 2 ^ 53)%R.
Proof.
  intros Fs ((Hn & Hn2) & Hc). pose proof Fs as (V & F & P). set (x := (value s * IZR n)%R) in *.
  assert (N0 : (0 <= IZR n)%R) by (apply (IZR_le 0); lia).
  assert (X0 : (0 <= x)%R) by (apply Rmult_le_pos; lra).
  destruct (Rle_lt_dec (bpow radix2 (-1022)) x) as [L|L].
  - pose proof (relative_error_N_FLT radix2 (SpecFloat.emin 53 1024) 53 ltac:(lia) (fun z => negb (Z.even z)) x) as E.
    rewrite (Rabs_pos_eq x) in E by lra. specialize (E L).
    eapply Rle_trans; [exact E|]. right.
    replace (bpow radix2 (- (53) + 1)) with (2 * / 2 ^ 53)%R; [field; apply pow_nonzero; lra|].
    rewrite pow53. cbn. lra.
  - rewrite round_generic; [|typeclasses eauto|].
    { rewrite Rminus_diag_eq, Rabs_R0 by reflexivity. apply Rmult_le_pos; [exact X0|]. left. apply Rinv_0_lt_compat. apply pow_lt. lra. }
    destruct (pos_shape s Fs) as (m & e & Es).
    assert (Hb : SpecFloat.bounded 53 1024 m e = true) by (subst s; exact V).
    assert (He : SpecFloat.emin 53 1024 <= e).
    { apply andb_prop in Hb. destruct Hb as (Hb & _). apply Zeq_bool_eq in Hb. unfold SpecFloat.fexp in Hb. lia. }
    assert (Ex : x = F2R (Float radix2 (Z.pos m * n * 2 ^ (e - SpecFloat.emin 53 1024)) (SpecFloat.emin 53 1024))).
    { unfold x, value. rewrite Es. cbn [SF2R cond_Zopp]. unfold F2R. cbn [Fnum Fexp].
      rewrite !mult_IZR. change 2 with (radix_val radix2). rewrite IZR_Zpower by lia.
      rewrite (Rmult_assoc _ _ (bpow radix2 (SpecFloat.emin 53 1024))), <- bpow_plus.
      replace (e - SpecFloat.emin 53 1024 + SpecFloat.emin 53 1024) with e by lia. ring. }
    apply (generic_format_FLT radix2 (SpecFloat.emin 53 1024) 53). eexists; [exact Ex| |cbn [Fexp]; lia].
    cbn [Fnum]. set (k := Z.pos m * n * 2 ^ (e - SpecFloat.emin 53 1024)) in *.
    assert (0 <= k) by (unfold k; apply Z.mul_nonneg_nonneg; [lia|apply Z.pow_nonneg; lia]).
    rewrite Z.abs_eq by assumption. apply lt_IZR. rewrite IZR_Zpower by lia.
    apply Rmult_lt_reg_r with (bpow radix2 (SpecFloat.emin 53 1024)); [apply bpow_gt_0|]. rewrite <- bpow_plus.
    change (53 + SpecFloat.emin 53 1024) with (-1021). unfold F2R in Ex. cbn [Fnum Fexp] in Ex. rewrite <- Ex.
    eapply Rlt_trans; [exact L|]. apply bpow_lt. reflexivity.
Qed.

Lemma scaled_nonneg s n : factor s -> countable s n -> (0 <= value s * IZR n)%R.
Proof. intros (_ & _ & P) ((H & _) & _). apply Rmult_le_pos; [lra|apply (IZR_le 0); lia]. Qed.

(** ** Properties *)

(* The canvas has every whole pixel of the scaled image, up to one part in 2^53 of
   its size, and less than one pixel more. *)
Theorem C140_covers_partial sx sy m w h :
  factor sx -> factor sy -> scaling sx sy m -> countable sx w -> countable sy h ->
  exists w' h', auto_dsize_f (Some m) (w, h) = Ok (w', h') /\
    (value sx * IZR w * (1 - / 2 ^ 53) <= IZR w' < value sx * IZR w * (1 + / 2 ^ 53) + 1)%R /\
    (value sy * IZR h * (1 - / 2 ^ 53) <= IZR h' < value sy * IZR h * (1 + / 2 ^ 53) + 1)%R.
Proof.
  intros Fx Fy S Cx Cy. eexists _, _. split; [apply scaled_size with (1 := Fx) (2 := Fy); auto|].
  assert (T : forall s n, factor s -> countable s n ->
    (value s * IZR n * (1 - / 2 ^ 53) <= IZR (Zceil (rnd (value s * IZR n))) < value s * IZR n * (1 + / 2 ^ 53) + 1)%R).
  { intros s n Fs C. pose proof (rnd_error s n Fs C) as E. unfold Rdiv in E. apply Rabs_le_inv in E.
    pose proof (Zceil_ub (rnd (value s * IZR n))) as U. pose proof (Zceil_lb (rnd (value s * IZR n))) as L.
    rewrite Rmult_minus_distr_l, Rmult_plus_distr_l. lra. }
  split; apply T; auto.
Qed.
Print Assumptions C140_covers_partial.

(* Scaled sizes that are whole numbers are met exactly (all integer factors, halves,
   quarters ...). *)
Theorem C140_exact_partial sx sy m w h k l :
  factor sx -> factor sy -> scaling sx sy m -> countable sx w -> countable sy h ->
  (value sx * IZR w = IZR k)%R -> (value sy * IZR h = IZR l)%R -> k < 2 ^ 53 -> l < 2 ^ 53 ->
  auto_dsize_f (Some m) (w, h) = Ok (k, l).
Proof.
  intros Fx Fy S Cx Cy Ex Ey Hk Hl. rewrite (scaled_size sx sy) by auto.
  assert (T : forall s n j, factor s -> countable s n -> (value s * IZR n = IZR j)%R -> j < 2 ^ 53 -> Zceil (rnd (value s * IZR n)) = j).
  { intros s n j Fs C E Hj. pose proof (scaled_nonneg s n Fs C) as P. rewrite E in *. apply (le_IZR 0) in P.
    rewrite round_generic; [apply Zceil_IZR|typeclasses eauto|apply int_format; try reflexivity; lia]. }
  now rewrite (T sx w k), (T sy h l).
Qed.
Print Assumptions C140_exact_partial.

(* A factor written in decimal is only close to the number meant. Meant sizes that are
   whole are met or exceeded by one pixel, *)
Theorem C140_meant_partial sx sy m w h rx ry k l :
  factor sx -> factor sy -> scaling sx sy m -> countable sx w -> countable sy h ->
  close sx rx -> close sy ry -> (rx * IZR w = IZR k)%R -> (ry * IZR h = IZR l)%R -> 0 < k < 2 ^ 52 -> 0 < l < 2 ^ 52 ->
  exists w' h', auto_dsize_f (Some m) (w, h) = Ok (w', h') /\ (w' = k \/ w' = k + 1) /\ (h' = l \/ h' = l + 1).
Proof.
  intros Fx Fy S Cx Cy Rx Ry Ex Ey Hk Hl. eexists _, _. split; [apply scaled_size with (1 := Fx) (2 := Fy); auto|].
  assert (T : forall s n r j, factor s -> countable s n -> close s r -> (r * IZR n = IZR j)%R -> 0 < j < 2 ^ 52 ->
    Zceil (rnd (value s * IZR n)) = j \/ Zceil (rnd (value s * IZR n)) = j + 1).
  { intros s n r j Fs ((Hn & Hn2) & _) C E Hj. assert (N0 : (0 <= IZR n)%R) by (apply (IZR_le 0); lia).
    unfold close in C. apply Rabs_le_inv in C.
    assert (J : (IZR j / 2 ^ 53 <= / 2)%R).
    { apply Rmult_le_reg_r with (2 ^ 53)%R; [apply pow_lt; lra|]. unfold Rdiv. rewrite Rmult_assoc, Rinv_l by (apply pow_nonzero; lra).
      rewrite Rmult_1_r. replace (/ 2 * 2 ^ 53)%R with (IZR (2 ^ 52)); [apply IZR_le; lia|]. rewrite pow53.
      replace (2 ^ 53) with (2 * 2 ^ 52) by reflexivity. rewrite mult_IZR. lra. }
    assert (B : (IZR j - / 2 <= value s * IZR n <= IZR j + / 2)%R).
    { assert (A1 : (- (r / 2 ^ 53) * IZR n <= (value s - r) * IZR n)%R) by (apply Rmult_le_compat_r; lra).
      assert (A2 : ((value s - r) * IZR n <= r / 2 ^ 53 * IZR n)%R) by (apply Rmult_le_compat_r; lra).
      replace (- (r / 2 ^ 53) * IZR n)%R with (- (r * IZR n / 2 ^ 53))%R in A1 by (unfold Rdiv; ring).
      replace (r / 2 ^ 53 * IZR n)%R with (r * IZR n / 2 ^ 53)%R in A2 by (unfold Rdiv; ring).
      rewrite E in A1, A2. rewrite Rmult_minus_distr_r, E in A1, A2. lra. }
    assert (L : (IZR j - / 2 <= rnd (value s * IZR n))%R) by (apply round_ge_generic; try typeclasses eauto; [apply half_format; lia|lra]).
    assert (U : (rnd (value s * IZR n) <= IZR (j + 1))%R).
    { apply round_le_generic; try typeclasses eauto; [apply int_format; try reflexivity; lia|]. rewrite plus_IZR. lra. }
    assert (j - 1 < Zceil (rnd (value s * IZR n))).
    { apply lt_IZR. rewrite minus_IZR. pose proof (Zceil_ub (rnd (value s * IZR n))). lra. }
    assert (Zceil (rnd (value s * IZR n)) <= j + 1) by (apply Zceil_glb; exact U). lia. }
  split; [apply (T sx w rx)|apply (T sy h ry)]; auto.
Qed.
Print Assumptions C140_meant_partial.

Definition seven_hundredths := S754_finite false 5044031582654956 (-56).
Definition a_tenth := S754_finite false 7205759403792794 (-56).
Definition zero := S754_zero false.
Lemma literal s m e : s = S754_finite false m e -> value s = (IZR (Z.pos m) * bpow radix2 e)%R.
Proof. intros ->. reflexivity. Qed.
Lemma seven_value : (value seven_hundredths = 5044031582654956 / 72057594037927936)%R.
Proof. rewrite (literal seven_hundredths _ _ eq_refl). cbn. reflexivity. Qed.
Lemma tenth_value : (value a_tenth = 7205759403792794 / 72057594037927936)%R.
Proof. rewrite (literal a_tenth _ _ eq_refl). cbn. reflexivity. Qed.
Lemma seven_factor : factor seven_hundredths.
Proof. split; [reflexivity|]. split; [reflexivity|]. rewrite seven_value. lra. Qed.
Lemma tenth_factor : factor a_tenth.
Proof. split; [reflexivity|]. split; [reflexivity|]. rewrite tenth_value. lra. Qed.
Lemma seven_close : close seven_hundredths (7 / 100).
Proof. unfold close. rewrite seven_value, pow53. apply Rabs_le. cbn. lra. Qed.

(* ... and one pixel more does occur: 7% of 100 pixels are 8 pixels *)
Theorem C140_meant_refuted : ~ (forall s r m n k,
  factor s -> scaling s s m -> countable s n -> close s r -> (r * IZR n = IZR k)%R -> 0 < k < 2 ^ 52 ->
  auto_dsize_f (Some m) (n, n) = Ok (k, k)).
Proof.
  intros H. specialize (H seven_hundredths (7 / 100)%R (FM seven_hundredths zero zero zero seven_hundredths zero) 100 7 seven_factor).
  assert (E : auto_dsize_f (Some (FM seven_hundredths zero zero zero seven_hundredths zero)) (100, 100) = Ok (7, 7)).
  { apply H; [now exists false, false, false, false| |apply seven_close|lra|lia].
    unfold countable. rewrite seven_value. split; [lia|]. cbn. lra. }
  vm_compute in E. discriminate.
Qed.
Print Assumptions C140_meant_refuted.

(* The canvas can be smaller than the scaled image, by less than a rounding error. *)
Theorem C140_covers_refuted : ~ (forall s m n w h,
  factor s -> scaling s s m -> countable s n -> auto_dsize_f (Some m) (n, n) = Ok (w, h) -> (value s * IZR n <= IZR w)%R).
Proof.
  intros H. specialize (H a_tenth (FM a_tenth zero zero zero a_tenth zero) 30 3 3 tenth_factor).
  assert (E : (value a_tenth * IZR 30 <= IZR 3)%R).
  { apply H; [now exists false, false, false, false| |vm_compute; reflexivity].
    unfold countable. rewrite tenth_value. split; [lia|]. cbn. lra. }
  rewrite tenth_value in E. lra.
Qed.
Print Assumptions C140_covers_refuted.

(* No image becomes empty and no side shrinks when the image grows. *)
Theorem C140_nonempty sx sy m w h :
  factor sx -> factor sy -> scaling sx sy m -> countable sx w -> countable sy h ->
  exists w' h', auto_dsize_f (Some m) (w, h) = Ok (w', h') /\ (0 < w' <-> 0 < w) /\ (0 < h' <-> 0 < h).
Proof.
  intros Fx Fy S Cx Cy. eexists _, _. split; [apply scaled_size with (1 := Fx) (2 := Fy); auto|].
  assert (T : forall s n, factor s -> countable s n -> (0 < Zceil (rnd (value s * IZR n)) <-> 0 < n)).
  { intros s n Fs ((Hn & _) & _). destruct (Z.eq_dec n 0) as [-> |N].
    - rewrite Rmult_0_r, round_0 by typeclasses eauto. rewrite (Zceil_IZR 0). lia.
    - split; [lia|]. intros _. pose proof Fs as (V & F & P).
      assert (G : generic_format radix2 fx (value s)).
      { unfold value. rewrite <- (B2R_SF2B 53 1024 s V). apply generic_format_B2R. }
      assert (L : (value s <= rnd (value s * IZR n))%R).
      { apply round_ge_generic; try typeclasses eauto; [exact G|]. rewrite <- (Rmult_1_r (value s)) at 1.
        apply Rmult_le_compat_l; [lra|]. apply (IZR_le 1). lia. }
      apply lt_IZR. pose proof (Zceil_ub (rnd (value s * IZR n))). lra. }
  split; apply T; auto.
Qed.
Print Assumptions C140_nonempty.

Theorem C140_monotone sx sy m w h w2 h2 :
  factor sx -> factor sy -> scaling sx sy m -> countable sx w2 -> countable sy h2 -> 0 <= w <= w2 -> 0 <= h <= h2 ->
  exists a b a2 b2, auto_dsize_f (Some m) (w, h) = Ok (a, b) /\ auto_dsize_f (Some m) (w2, h2) = Ok (a2, b2) /\ a <= a2 /\ b <= b2.
Proof.
  intros Fx Fy S Cx Cy Hw Hh.
  assert (T : forall s n n2, factor s -> countable s n2 -> 0 <= n <= n2 -> countable s n /\ (value s * IZR n <= value s * IZR n2)%R).
  { intros s n n2 (_ & _ & P) ((A & B) & C) Hn. assert (value s * IZR n <= value s * IZR n2)%R by (apply Rmult_le_compat_l; [lra|apply IZR_le; lia]).
    split; [|assumption]. split; [lia|lra]. }
  destruct (T sx w w2) as (C1 & L1); auto. destruct (T sy h h2) as (C2 & L2); auto.
  do 4 eexists. split; [apply (scaled_size sx sy); auto|]. split; [apply (scaled_size sx sy); auto|].
  split; apply Zceil_le; apply round_le; try typeclasses eauto; assumption.
Qed.
Print Assumptions C140_monotone.

(* half the width and three times the height of a 102 x 30 image *)
Example C140_case : exists sx sy m, factor sx /\ factor sy /\ scaling sx sy m /\ countable sx 102 /\ countable sy 30 /\
  (value sx * 102 = 51)%R /\ (value sy * 30 = 90)%R /\ auto_dsize_f (Some m) (102, 30) = Ok (51, 90).
Proof.
  exists (S754_finite false (2 ^ 52) (-53)), (S754_finite false (3 * 2 ^ 51) (-51)), (FM (S754_finite false (2 ^ 52) (-53)) zero zero zero (S754_finite false (3 * 2 ^ 51) (-51)) zero).
  assert (A : value (S754_finite false (2 ^ 52) (-53)) = (1 / 2)%R) by (rewrite (literal _ _ _ eq_refl); cbn; lra).
  assert (B : value (S754_finite false (3 * 2 ^ 51) (-51)) = 3%R) by (rewrite (literal _ _ _ eq_refl); cbn; lra).
  unfold factor, countable. rewrite A, B.
  repeat match goal with |- _ /\ _ => split end; try reflexivity; try lia; try (cbn; lra); try now exists false, false, false, false.
Qed.
Example C140_meant_case : close seven_hundredths (7 / 100) /\ factor seven_hundredths /\ countable seven_hundredths 100.
Proof. split; [apply seven_close|]. split; [apply seven_factor|]. unfold countable. rewrite seven_value. split; [lia|]. cbn. lra. Qed.
