(* Quantization in IEEE arithmetic with any range the element type can represent. *)
From Verif Require Import Py QuantModel QuantFloat.
From Coq Require Import Reals Lra ZArith Floats.SpecFloat.
From Flocq Require Import Core.Core IEEE754.BinarySingleNaN Relative.
Open Scope Z_scope.

Section Format.
Context (prec emax : Z) (Hp : Prec_gt_0 prec) (Hm : Prec_lt_emax prec emax).
Notation bf := (binary_float prec emax).
Notation fexp := (SpecFloat.fexp prec emax).
Notation rnd := (round radix2 fexp (round_mode mode_NE)).

Lemma div_equiv : forall x y : bf, SFdiv prec emax (B2SF x) (B2SF y) = B2SF (Bdiv mode_NE x y).
Proof.
  intros [sx|sx| |sx mx ex Bx] [sy|sy| |sy my ey By]; [now trivial.. | ].
  simpl. rewrite B2SF_SF2B. set (melz := SFdiv_core_binary _ _ _ _ _ _). destruct melz as [[mz ez] lz]. apply round_aux_equiv.
Qed.

Lemma round_float x : is_finite_SF x = true -> (Rabs (rnd (SF2R radix2 x)) < bpow radix2 emax)%R ->
  exists y : bf, sf_round prec emax x = B2SF y /\ is_finite y = true /\ B2R y = rnd (SF2R radix2 x).
Proof.
  intros F L. destruct x as [s|s| |s m e]; try discriminate.
  - exists (B754_zero s). split; [reflexivity|]. split; [reflexivity|]. cbn. symmetry. apply round_0. apply (valid_rnd_round_mode mode_NE).
  - cbn [sf_round]. rewrite (normalize_equiv prec emax Hp Hm).
    pose proof (binary_normalize_correct prec emax Hp Hm mode_NE (if s then Z.neg m else Z.pos m) e s) as C. cbv zeta in C.
    assert (E : F2R (Float radix2 (if s then Z.neg m else Z.pos m) e) = SF2R radix2 (S754_finite s m e)) by (destruct s; reflexivity).
    rewrite E, (Rlt_bool_true _ _ L) in C. destruct C as (C1 & C2 & _). eexists. split; [reflexivity|]. split; [exact C2|exact C1].
Qed.

(* the number a datum is clipped to *)
Definition range_value (a b : R) (x : spec_float) : R :=
  match x with
  | S754_infinity true => a
  | S754_infinity false => b
  | _ => Rmin (Rmax (SF2R radix2 x) a) b
  end.

Lemma range_in a b x : (a <= b)%R -> (a <= range_value a b x <= b)%R.
Proof.
  intros H. destruct x as [s|[|]| |s m e]; cbn [range_value]; try lra;
  unfold Rmin, Rmax; repeat (destruct Rle_dec); lra.
Qed.

Lemma clip_range (lo hi x : bf) : is_finite lo = true -> is_finite hi = true -> (B2R lo < B2R hi)%R -> is_nan x = false ->
  exists y : bf, (let y := if SFleb (B2SF x) (B2SF lo) then B2SF lo else B2SF x in if SFleb (B2SF hi) y then B2SF hi else y) = B2SF y /\
    is_finite y = true /\ B2R y = range_value (B2R lo) (B2R hi) (B2SF x).
Proof.
  intros Fl Fh L Hn. cbv zeta.
  assert (Z1 : SFleb (B2SF hi) (B2SF lo) = false).
  { change (SFleb _ _) with (Bleb hi lo). rewrite Bleb_correct by auto. apply Rle_bool_false. exact L. }
  destruct (is_finite x) eqn:Fx.
  - assert (L0 : SFleb (B2SF x) (B2SF lo) = Rle_bool (B2R x) (B2R lo)) by (change (SFleb _ _) with (Bleb x lo); now apply Bleb_correct).
    assert (L1 : SFleb (B2SF hi) (B2SF x) = Rle_bool (B2R hi) (B2R x)) by (change (SFleb _ _) with (Bleb hi x); now apply Bleb_correct).
    assert (R : range_value (B2R lo) (B2R hi) (B2SF x) = Rmin (Rmax (B2R x) (B2R lo)) (B2R hi)).
    { rewrite <- SF2R_B2SF. destruct x; try discriminate; reflexivity. }
    rewrite L0, R. destruct (Rle_bool_spec (B2R x) (B2R lo)).
    + rewrite Z1. exists lo. repeat split; auto. rewrite Rmax_right, Rmin_left; lra.
    + rewrite L1. destruct (Rle_bool_spec (B2R hi) (B2R x)).
      * exists hi. repeat split; auto. rewrite Rmax_left, Rmin_right; lra.
      * exists x. repeat split; auto. rewrite Rmax_left, Rmin_left; lra.
  - destruct x as [s|[|]| |s m e B]; try discriminate.
    + replace (SFleb (B2SF (B754_infinity true : bf)) (B2SF lo)) with true by (destruct lo as [?|?| |[|] ? ? ?]; try discriminate; reflexivity).
      rewrite Z1. exists lo. auto.
    + replace (SFleb (B2SF (B754_infinity false : bf)) (B2SF lo)) with false by (destruct lo as [?|?| |[|] ? ? ?]; try discriminate; reflexivity).
      replace (SFleb (B2SF hi) (B2SF (B754_infinity false : bf))) with true by (destruct hi as [?|?| |[|] ? ? ?]; try discriminate; reflexivity).
      exists hi. auto.
Qed.

Lemma range_mono a b x y : (a <= b)%R -> valid_binary prec emax x = true -> valid_binary prec emax y = true ->
  SFleb x y = true -> (range_value a b x <= range_value a b y)%R.
Proof.
  intros Hab Vx Vy L. pose proof (range_in a b x Hab). pose proof (range_in a b y Hab).
  assert (Fn : is_finite_SF x = true -> is_finite_SF y = true -> (SF2R radix2 x <= SF2R radix2 y)%R).
  { intros F1 F2. rewrite <- (B2R_SF2B _ _ x Vx), <- (B2R_SF2B _ _ y Vy).
    pose proof (Bleb_correct prec emax (SF2B x Vx) (SF2B y Vy)) as C.
    rewrite !is_finite_SF2B in C. specialize (C F1 F2). unfold Bleb in C. rewrite !B2SF_SF2B, L in C.
    destruct (Rle_bool_spec (B2R (SF2B x Vx)) (B2R (SF2B y Vy))); [auto | discriminate]. }
  assert (M : is_finite_SF x = true -> is_finite_SF y = true -> (range_value a b x <= range_value a b y)%R).
  { intros F1 F2. specialize (Fn F1 F2). destruct x as [sx|[|]| |sx mx ex]; try discriminate;
    destruct y as [sy|[|]| |sy my ey]; try discriminate; unfold range_value; apply Rle_min_compat_r, Rle_max_compat_r; exact Fn. }
  destruct x as [sx|[|]| |sx mx ex]; try (cbn [range_value] in *; lra); destruct y as [sy|[|]| |sy my ey]; try discriminate; try (apply M; reflexivity); try (cbn [range_value] in *; lra).
Qed.

Instance vexp' : Valid_exp fexp := FLT_exp_valid _ _.

Lemma half_format n : 1 < prec -> 0 <= n -> 2 * n + 1 < 2 ^ prec -> generic_format radix2 fexp (IZR n + / 2).
Proof.
  intros H1 Hn Hs. change (fexp) with (FLT_exp (SpecFloat.emin prec emax) prec).
  apply generic_format_FLT. exists (Float radix2 (2 * n + 1) (-1)).
  - unfold F2R. cbn [Fnum Fexp]. rewrite plus_IZR, mult_IZR. change (bpow radix2 (-1)) with (/ 2)%R. lra.
  - cbn [Fnum]. rewrite Z.abs_eq by lia. exact Hs.
  - cbn [Fexp]. unfold SpecFloat.emin. red in Hm, Hp. lia.
Qed.

(* relative errors in the normal range *)
Lemma rel_err r : (bpow radix2 (SpecFloat.emin prec emax + prec - 1) <= Rabs r)%R ->
  (Rabs (rnd r - r) <= bpow radix2 (- prec) * Rabs r)%R.
Proof.
  intros H. pose proof (relative_error_N_FLT radix2 (SpecFloat.emin prec emax) prec Hp (fun x => negb (Z.even x)) r H) as E.
  change (round radix2 (FLT_exp (SpecFloat.emin prec emax) prec) (Znearest (fun x => negb (Z.even x))) r) with (rnd r) in E.
  rewrite bpow_plus in E. change (bpow radix2 1) with 2%R in E. lra.
Qed.

End Format.

Local Instance p53 : Prec_gt_0 53. Proof. red. lia. Qed.
Local Instance e1024 : Prec_lt_emax 53 1024. Proof. red. lia. Qed.
Notation fexp64 := (SpecFloat.fexp 53 1024).
Notation rnd64 := (round radix2 fexp64 (round_mode mode_NE)).

(* a range the element type can represent, neither huge nor tiny *)
Record range_ok (p e : Z) (lo hi : spec_float) : Prop := {
  ro_vlo : valid_binary 53 1024 lo = true; ro_vhi : valid_binary 53 1024 hi = true;
  ro_flo : is_finite_SF lo = true; ro_fhi : is_finite_SF hi = true;
  ro_rlo : generic_format radix2 (SpecFloat.fexp p e) (SF2R radix2 lo);
  ro_rhi : generic_format radix2 (SpecFloat.fexp p e) (SF2R radix2 hi);
  ro_blo : (Rabs (SF2R radix2 lo) <= bpow radix2 100)%R;
  ro_bhi : (Rabs (SF2R radix2 hi) <= bpow radix2 100)%R;
  ro_ext : (bpow radix2 (-100) <= SF2R radix2 hi - SF2R radix2 lo)%R }.

Lemma bpow_fmt p e k : Prec_gt_0 p -> SpecFloat.emin p e <= k -> generic_format radix2 (SpecFloat.fexp p e) (bpow radix2 k).
Proof.
  intros Hp Hk. change (SpecFloat.fexp p e) with (FLT_exp (SpecFloat.emin p e) p). apply generic_format_FLT_bpow; [exact Hp|exact Hk].
Qed.

Lemma error_bound (N u x y f g : R) : (0 < u <= / 16777216)%R -> (0 <= N)%R -> (N * u <= / 256)%R -> (0 < x)%R ->
  (* ext *) (x * (1 - u) <= y)%R -> (* factor *) (0 <= f <= N / y * (1 + u) * (1 + u))%R -> (0 <= g <= x * (1 + u))%R ->
  (g * f <= N + / 2)%R.
Proof.
  intros Hu HN HNu Hx Hy Hf Hg.
  assert (Y : (0 < y)%R) by nra.
  apply Rle_trans with (x * (1 + u) * (N / y * (1 + u) * (1 + u)))%R.
  { apply Rmult_le_compat; lra. }
  assert (E : (x / y <= / (1 - u))%R).
  { apply Rmult_le_reg_r with y; [exact Y|]. unfold Rdiv. rewrite Rmult_assoc, Rinv_l, Rmult_1_r by lra.
    apply Rmult_le_reg_l with (1 - u)%R; [lra|]. rewrite <- Rmult_assoc, Rinv_r, Rmult_1_l by lra. lra. }
  replace (x * (1 + u) * (N / y * (1 + u) * (1 + u)))%R with (N * ((x / y) * ((1 + u) * (1 + u) * (1 + u))))%R by (field; lra).
  assert (C : (0 <= (1 + u) * (1 + u) * (1 + u))%R) by (apply Rmult_le_pos; [apply Rmult_le_pos|]; lra).
  assert (B : ((x / y) * ((1 + u) * (1 + u) * (1 + u)) <= 1 + 5 * u)%R).
  { apply Rle_trans with (/ (1 - u) * ((1 + u) * (1 + u) * (1 + u)))%R; [now apply Rmult_le_compat_r|].
    apply Rmult_le_reg_l with (1 - u)%R; [lra|]. rewrite <- Rmult_assoc, Rinv_r, Rmult_1_l by lra.
    assert (Q1 : (u * u <= u * / 16777216)%R) by (apply Rmult_le_compat_l; lra).
    assert (Q2 : (u * u * u <= u * u * 1)%R) by (apply Rmult_le_compat_l; [apply Rle_0_sqr|lra]). lra. }
  apply Rle_trans with (N * (1 + 5 * u))%R; [now apply Rmult_le_compat_l|]. lra.
Qed.

Lemma quantize_range p e bits signed lo hi : enough_bits p e bits -> range_ok p e lo hi ->
  sc_zero (ieee p e) (sc_sub (ieee p e) hi lo) = false /\
  exists code : spec_float -> Z,
  (forall x, valid_binary p e x = true -> sf_nan x = false ->
     code_min signed <= code x <= iinfo_max signed bits /\
     forall junk, quantize1 (ieee p e) junk lo hi signed bits x = code x) /\
  (forall x y, valid_binary p e x = true -> valid_binary p e y = true -> SFleb x y = true -> code x <= code y).
Proof.
  intros He R. set (k := code_min signed). set (N := iinfo_max signed bits - code_min signed).
  assert (G : exists (Hp : Prec_gt_0 p) (Hm : Prec_lt_emax p e) n, 0 <= k /\ 1 <= N <= 2 ^ n /\ 1 < p <= 53 /\ 2 * (N + k) + 1 < 2 ^ p /\
    n + 103 <= e /\ SpecFloat.emin p e + p - 1 <= -101 /\ 24 <= p /\ n + 8 <= p /\ 0 <= n /\
    to_arr (ieee p e) (sc_int (ieee p e) k) = sf_of_Z p e k /\
    iinfo_min signed bits <= k /\ N + k = iinfo_max signed bits /\ N < 2 ^ 53 /\ e <= 1024).
  { unfold k, N.
    destruct He as [[-> [-> [-> | ->]]] | [-> [-> [-> | [-> | ->]]]]]; destruct signed;
    (unshelve eexists; [red; lia|]); (unshelve eexists; [red; lia|]);
    first [exists 8; vm_compute; repeat split; discriminate | exists 16; vm_compute; repeat split; discriminate | exists 32; vm_compute; repeat split; discriminate]. }
  destruct G as (Hp & Hm & n & Hk & HN & Hp1 & HNk & Hne & Hmin & Hp24 & Hn8 & Hn0 & Ek & Imin & Imax & HN53 & He1024).
  destruct R as [Vlo Vhi Flo Fhi Rlo Rhi Blo Bhi Ext].
  set (a := SF2R radix2 lo) in *. set (b := SF2R radix2 hi) in *.
  pose proof (vexp' p e Hp) as Vex. 
  assert (Vex64 : Valid_exp fexp64) by (apply (vexp' 53 1024 _)).
  pose proof (bpow_gt_0 radix2 (-100)) as P100.
  assert (IN : (1 <= IZR N)%R) by (apply (IZR_le 1); lia).
  assert (INn : (IZR N <= bpow radix2 n)%R). { rewrite <- IZR_Zpower by lia. apply IZR_le. exact (proj2 HN). }
  assert (Hba : (b - a <= bpow radix2 101)%R).
  { change 101 with (100 + 1). rewrite bpow_plus. change (bpow radix2 1) with 2%R. apply Rabs_le_inv in Blo. apply Rabs_le_inv in Bhi. lra. }
  (* the bounds in the element type *)
  assert (Big : forall r, (Rabs r <= bpow radix2 100)%R -> (Rabs r < bpow radix2 e)%R).
  { intros r Hr. eapply Rle_lt_trans; [exact Hr|]. apply bpow_lt. lia. }
  destruct (round_float p e Hp Hm lo Flo) as (lo' & Elo & Flo' & Rlo').
  { rewrite round_generic by (try exact Rlo; apply valid_rnd_round_mode). now apply Big. }
  destruct (round_float p e Hp Hm hi Fhi) as (hi' & Ehi & Fhi' & Rhi').
  { rewrite round_generic by (try exact Rhi; apply valid_rnd_round_mode). now apply Big. }
  rewrite round_generic in Rlo' by (try exact Rlo; apply valid_rnd_round_mode). fold a in Rlo'.
  rewrite round_generic in Rhi' by (try exact Rhi; apply valid_rnd_round_mode). fold b in Rhi'.
  (* the extent *)
  assert (X1 : (bpow radix2 (-100) <= rnd64 (b - a) <= bpow radix2 101)%R).
  { split; [apply round_ge_generic | apply round_le_generic]; try (apply valid_rnd_round_mode); try exact Vex64; try assumption; apply bpow_fmt; try exact p53; cbn; lia. }
  pose proof (Bminus_correct 53 1024 _ _ mode_NE (SF2B hi Vhi) (SF2B lo Vlo)) as Cx. rewrite !is_finite_SF2B in Cx. specialize (Cx Fhi Flo).
  rewrite !B2R_SF2B in Cx. fold a b in Cx. rewrite Rlt_bool_true in Cx.
  2: { rewrite Rabs_pos_eq by lra. eapply Rle_lt_trans; [apply X1|]. apply bpow_lt. lia. }
  destruct Cx as (Cx1 & Cx2 & _). set (ext := Bminus mode_NE (SF2B hi Vhi) (SF2B lo Vlo)) in *.
  assert (Eext : SFsub 53 1024 hi lo = B2SF ext).
  { unfold ext. rewrite <- (sub_equiv 53 1024 _ _), !B2SF_SF2B. reflexivity. }
  assert (Y : (0 < B2R ext)%R) by (rewrite Cx1; lra).
  split.
  { cbn [sc_zero sc_sub ieee]. rewrite Eext. destruct ext as [s|s| |s m x B]; try reflexivity. exfalso. revert Y. cbn. lra. }
  (* the factor in binary64 *)
  destruct (int_float 53 1024 _ _ N) as (VN & RN & FN); [lia|].
  assert (X2 : (bpow radix2 (-101) <= IZR N / B2R ext <= bpow radix2 (n + 100))%R).
  { rewrite Cx1. split.
    - apply Rmult_le_reg_r with (rnd64 (b - a)); [lra|]. unfold Rdiv. rewrite Rmult_assoc, Rinv_l, Rmult_1_r by lra.
      apply Rle_trans with (bpow radix2 (-101) * bpow radix2 101)%R; [apply Rmult_le_compat_l; [apply bpow_ge_0|apply X1]|].
      rewrite <- bpow_plus. change (bpow radix2 (-101 + 101)) with 1%R. exact IN.
    - apply Rmult_le_reg_r with (rnd64 (b - a)); [lra|]. unfold Rdiv. rewrite Rmult_assoc, Rinv_l, Rmult_1_r by lra.
      apply Rle_trans with (bpow radix2 (n + 100) * bpow radix2 (-100))%R; [|apply Rmult_le_compat_l; [apply bpow_ge_0|apply X1]].
      rewrite <- bpow_plus. replace (n + 100 + -100) with n by lia. exact INn. }
  assert (X3 : (bpow radix2 (-101) <= rnd64 (IZR N / B2R ext) <= bpow radix2 (n + 100))%R).
  { split; [apply round_ge_generic | apply round_le_generic]; try (apply valid_rnd_round_mode); try exact Vex64; try apply X2; apply bpow_fmt; try exact p53; cbn; lia. }
  pose proof (Bdiv_correct 53 1024 _ _ mode_NE (SF2B _ VN) ext ltac:(lra)) as Cf. rewrite B2R_SF2B, RN in Cf.
  pose proof (bpow_gt_0 radix2 (-101)) as P101.
  rewrite Rlt_bool_true in Cf.
  2: { rewrite Rabs_pos_eq by lra. eapply Rle_lt_trans; [apply X3|]. apply bpow_lt. lia. }
  destruct Cf as (Cf1 & Cf2 & _). rewrite is_finite_SF2B, FN in Cf2. set (fac64 := Bdiv mode_NE (SF2B _ VN) ext) in *.
  assert (Efac64 : SFdiv 53 1024 (sf_of_Z 53 1024 N) (SFsub 53 1024 hi lo) = B2SF fac64).
  { unfold fac64. rewrite <- (div_equiv 53 1024 _ _), Eext, B2SF_SF2B. reflexivity. }
  (* and in the element type *)
  set (rnd := round radix2 (SpecFloat.fexp p e) (round_mode mode_NE)).
  assert (X4 : (bpow radix2 (-101) <= rnd (B2R fac64) <= bpow radix2 (n + 100))%R).
  { rewrite Cf1. split; [apply round_ge_generic | apply round_le_generic]; try (apply valid_rnd_round_mode); try exact Vex; try apply X3; apply bpow_fmt; try exact Hp;
      revert Hmin; unfold SpecFloat.emin; lia. }
  destruct (round_float p e Hp Hm (B2SF fac64)) as (fac & Efac & Ffac & Rfac).
  { rewrite is_finite_SF_B2SF. exact Cf2. }
  { rewrite SF2R_B2SF. fold rnd. rewrite Rabs_pos_eq by lra. eapply Rle_lt_trans; [apply X4|]. apply bpow_lt. lia. }
  rewrite SF2R_B2SF in Rfac. fold rnd in Rfac.
  (* errors *)
  set (u := bpow radix2 (- p)).
  assert (Hu : (0 < u <= / 16777216)%R).
  { split; [apply bpow_gt_0|]. change (/ 16777216)%R with (bpow radix2 (-24)). apply bpow_le. lia. }
  assert (Hu53 : (bpow radix2 (-53) <= u)%R) by (apply bpow_le; lia).
  assert (HNu : (IZR N * u <= / 256)%R).
  { apply Rle_trans with (bpow radix2 n * u)%R; [apply Rmult_le_compat_r; lra|]. unfold u. rewrite <- bpow_plus.
    change (/ 256)%R with (bpow radix2 (-8)). apply bpow_le. lia. }
  assert (E1 : ((b - a) * (1 - u) <= B2R ext)%R).
  { rewrite Cx1. pose proof (rel_err 53 1024 _ (b - a)) as Q. rewrite (Rabs_pos_eq (b - a)) in Q by lra.
    assert (T : (Rabs (rnd64 (b - a) - (b - a)) <= bpow radix2 (-53) * (b - a))%R).
    { apply Q. eapply Rle_trans; [|exact Ext]. apply bpow_le. vm_compute. discriminate. }
    apply Rabs_le_inv in T. assert (bpow radix2 (-53) * (b - a) <= u * (b - a))%R by (apply Rmult_le_compat_r; lra). lra. }
  assert (E2 : (B2R fac64 <= IZR N / B2R ext * (1 + u))%R).
  { rewrite Cf1. pose proof (rel_err 53 1024 _ (IZR N / B2R ext)) as Q. rewrite (Rabs_pos_eq (IZR N / B2R ext)) in Q by lra.
    assert (T : (Rabs (rnd64 (IZR N / B2R ext) - IZR N / B2R ext) <= bpow radix2 (-53) * (IZR N / B2R ext))%R).
    { apply Q. eapply Rle_trans; [|apply X2]. apply bpow_le. vm_compute. discriminate. }
    apply Rabs_le_inv in T. assert (bpow radix2 (-53) * (IZR N / B2R ext) <= u * (IZR N / B2R ext))%R by (apply Rmult_le_compat_r; lra). lra. }
  assert (E3 : (0 <= B2R fac <= IZR N / B2R ext * (1 + u) * (1 + u))%R).
  { rewrite Rfac. split; [lra|]. rewrite <- Cf1 in X3. pose proof (rel_err p e Hp (B2R fac64)) as Q. rewrite (Rabs_pos_eq (B2R fac64)) in Q by lra.
    assert (T : (Rabs (rnd (B2R fac64) - B2R fac64) <= u * B2R fac64)%R).
    { apply Q. eapply Rle_trans; [|apply X3]. apply bpow_le. exact Hmin. }
    apply Rabs_le_inv in T. assert (B2R fac64 * (1 + u) <= IZR N / B2R ext * (1 + u) * (1 + u))%R by (apply Rmult_le_compat_r; lra). lra. }
  assert (E4 : (rnd (b - a) <= (b - a) * (1 + u))%R).
  { pose proof (rel_err p e Hp (b - a)) as Q. rewrite (Rabs_pos_eq (b - a)) in Q by lra.
    assert (T : (Rabs (rnd (b - a) - (b - a)) <= u * (b - a))%R).
    { apply Q. eapply Rle_trans; [|exact Ext]. apply bpow_le. lia. }
    apply Rabs_le_inv in T. lra. }
  assert (Mono : forall r s, (r <= s)%R -> (rnd r <= rnd s)%R) by (intros r s L; apply round_le; [exact Vex|apply valid_rnd_round_mode|exact L]).
  assert (R0 : (rnd 0 = 0)%R) by (apply round_0; apply valid_rnd_round_mode).
  assert (Ik : (0 <= IZR k)%R) by (apply (IZR_le 0); lia).
  destruct (int_float p e Hp Hm k) as (Vk & Rk & Fk); [lia|].
  (* the result for a clipped value *)
  assert (Val : forall v, (a <= v <= b)%R ->
     (0 <= rnd (v - a) <= rnd (b - a))%R /\ (0 <= rnd (rnd (v - a) * B2R fac) <= IZR N + / 2)%R /\
     (IZR k <= rnd (rnd (rnd (v - a) * B2R fac) + IZR k) <= IZR (N + k) + / 2)%R).
  { intros v Hv.
    assert (V1 : (0 <= rnd (v - a) <= rnd (b - a))%R). { split; [rewrite <- R0|]; apply Mono; lra. }
    assert (V2 : (rnd (v - a) * B2R fac <= IZR N + / 2)%R).
    { apply (error_bound (IZR N) u (b - a) (B2R ext)); try assumption; try lra. }
    assert (V3 : (0 <= rnd (v - a) * B2R fac)%R) by (apply Rmult_le_pos; lra).
    assert (V4 : (0 <= rnd (rnd (v - a) * B2R fac) <= IZR N + / 2)%R).
    { split; [rewrite <- R0 at 1; apply Mono; exact V3|]. apply round_le_generic; [exact Vex|apply valid_rnd_round_mode| |exact V2].
      apply half_format; [exact Hp|exact Hm|lia|lia|lia]. }
    split; [exact V1|]. split; [exact V4|]. split.
    - apply round_ge_generic; [exact Vex|apply valid_rnd_round_mode| |lra]. apply int_format; [exact Hp|exact Hm|lia].
    - apply round_le_generic; [exact Vex|apply valid_rnd_round_mode| |rewrite plus_IZR; lra]. apply half_format; [exact Hp|exact Hm|lia|lia|lia]. }
  assert (Bnd : forall r, (0 <= r <= bpow radix2 102)%R -> (Rabs r < bpow radix2 e)%R).
  { intros r Hr. rewrite Rabs_pos_eq by lra. eapply Rle_lt_trans; [apply Hr|]. apply bpow_lt. lia. }
  assert (INk : (IZR (N + k) + / 2 <= bpow radix2 102)%R).
  { apply Rle_trans with (bpow radix2 p); [|apply bpow_le; lia]. rewrite <- IZR_Zpower by lia.
    apply Rle_trans with (IZR (N + k + 1)); [rewrite (plus_IZR (N + k) 1); lra|]. apply IZR_le. cbn. lia. }
  exists (fun x => Zfloor (rnd (rnd (rnd (range_value a b x - a) * B2R fac) + IZR k))%R). split.
  - intros x Vx Nx.
    destruct (clip_range p e lo' hi' (SF2B x Vx) Flo' Fhi') as (y & Ey & Fy & Ry).
    { rewrite Rlo', Rhi'. lra. }
    { destruct x; try discriminate; reflexivity. }
    rewrite B2SF_SF2B in Ey, Ry. rewrite Rlo', Rhi' in Ry. rewrite <- Ry.
    destruct (Val (B2R y)) as (V1 & V2 & V3). { rewrite Ry. apply range_in. lra. }
    assert (Rba : (rnd (b - a) <= bpow radix2 102)%R).
    { eapply Rle_trans; [exact E4|]. change 102 with (101 + 1). rewrite bpow_plus. change (bpow radix2 1) with 2%R.
      apply Rmult_le_compat; lra. }
    pose proof (Bminus_correct p e Hp Hm mode_NE y lo' Fy Flo') as C1. rewrite Rlo' in C1. fold rnd in C1.
    rewrite Rlt_bool_true in C1 by (apply Bnd; lra). destruct C1 as (C11 & C12 & _).
    pose proof (Bmult_correct p e Hp Hm mode_NE (Bminus mode_NE y lo') fac) as C2. fold rnd in C2. rewrite C11 in C2.
    rewrite Rlt_bool_true in C2. 2: { apply Bnd. rewrite plus_IZR in INk. lra. }
    destruct C2 as (C21 & C22 & _). rewrite C12, Ffac in C22. cbn [andb] in C22.
    pose proof (Bplus_correct p e Hp Hm mode_NE (Bmult mode_NE (Bminus mode_NE y lo') fac) (SF2B _ Vk) C22) as C3.
    rewrite is_finite_SF2B in C3. specialize (C3 Fk). rewrite B2R_SF2B, Rk in C3. fold rnd in C3. rewrite C21 in C3.
    rewrite Rlt_bool_true in C3. 2: { apply Bnd. lra. }
    destruct C3 as (C31 & C32 & _).
    set (v := Bplus mode_NE (Bmult mode_NE (Bminus mode_NE y lo') fac) (SF2B _ Vk)) in *.
    assert (Ev : scaled (ieee p e) lo hi signed bits x = B2SF v).
    { unfold scaled, clip. cbv zeta. fold N k. rewrite Ek. cbn [a_add a_mul a_sub a_le to_arr sc_div sc_int sc_sub ieee].
      rewrite Efac64, Elo, Ehi, Efac. cbv zeta in Ey. transitivity (SFadd p e (SFmul p e (SFsub p e (B2SF y) (B2SF lo')) (B2SF fac)) (sf_of_Z p e k)); [rewrite <- Ey; reflexivity|]. unfold v.
      rewrite <- (add_equiv p e Hp Hm), <- (mul_equiv p e Hp Hm), <- (sub_equiv p e Hp Hm), B2SF_SF2B. reflexivity. }
    assert (Zb : k <= Zfloor (rnd (rnd (rnd (B2R y - a) * B2R fac) + IZR k))%R <= iinfo_max signed bits).
    { split; [apply Zfloor_lub; apply V3|]. rewrite <- Imax. apply Zlt_succ_le. apply lt_IZR. rewrite succ_IZR.
      eapply Rle_lt_trans; [apply Zfloor_lb|]. lra. }
    split; [exact Zb|]. intros junk. unfold quantize1. change (a_nan (ieee p e) x) with (sf_nan x). rewrite Nx.
    unfold astype. rewrite Ev. change (a_trunc (ieee p e)) with sf_trunc. rewrite (trunc_floor p e) by (auto; rewrite C31; lra).
    rewrite C31. replace (_ && _)%bool with true; [reflexivity|]. symmetry. apply andb_true_intro. split; apply Z.leb_le; lia.
  - intros x y Vx Vy L. apply Zfloor_le. apply Mono. apply Rplus_le_compat_r. apply Mono. apply Rmult_le_compat_r; [lra|]. apply Mono.
    pose proof (range_mono p e a b x y ltac:(lra) Vx Vy L). lra.
Qed.
