(* Codes that went through dequantize and quantize again, in IEEE arithmetic. *)
From Verif Require Import Py QuantModel QuantFloat QuantRange.
From Coq Require Import Reals Lra ZArith Floats.SpecFloat.
From Flocq Require Import Core.Core IEEE754.BinarySingleNaN Relative.
Open Scope Z_scope.

Local Instance p53' : Prec_gt_0 53. Proof. red. lia. Qed.
Local Instance e1024' : Prec_lt_emax 53 1024. Proof. red. lia. Qed.

(* what dequantize makes of a code, with the default range *)
Definition unit_sample (p e bits : Z) (signed : bool) (c : Z) : spec_float :=
  SFadd p e (SFmul p e (SFsub p e (sf_of_Z p e c) (sf_of_Z p e (code_min signed)))
    (sf_round p e (SFdiv 53 1024 (sf_of_Z 53 1024 1) (sf_of_Z 53 1024 (iinfo_max signed bits - code_min signed)))))
    (S754_zero false).

Lemma three_errors (u n N s x : R) : (0 < u <= / 16777216)%R -> (1 <= n <= N)%R -> (N * u <= / 256)%R ->
  (/ N * (1 - u) * (1 - u) <= s <= / N * (1 + u) * (1 + u))%R ->
  (n * s * (1 - u) <= x <= n * s * (1 + u))%R ->
  (0 <= x)%R /\ (n - / 2 <= Rmin x 1 * N <= n + / 2)%R.
Proof.
  intros Hu Hn HN Hs Hx.
  assert (I : (0 < / N)%R) by (apply Rinv_0_lt_compat; lra).
  assert (NI : (/ N * N = 1)%R) by (apply Rinv_l; lra).
  assert (S1 : ((1 - u) * (1 - u) <= s * N <= (1 + u) * (1 + u))%R).
  { split.
    - replace ((1 - u) * (1 - u))%R with (/ N * (1 - u) * (1 - u) * N)%R by (field; lra).
      apply Rmult_le_compat_r; lra.
    - replace ((1 + u) * (1 + u))%R with (/ N * (1 + u) * (1 + u) * N)%R by (field; lra).
      apply Rmult_le_compat_r; lra. }
  assert (X1 : (n * (s * N) * (1 - u) <= x * N <= n * (s * N) * (1 + u))%R).
  { split.
    - replace (n * (s * N) * (1 - u))%R with (n * s * (1 - u) * N)%R by ring. apply Rmult_le_compat_r; lra.
    - replace (n * (s * N) * (1 + u))%R with (n * s * (1 + u) * N)%R by ring. apply Rmult_le_compat_r; lra. }
  assert (Q1 : (u * u <= u * / 16777216)%R) by (apply Rmult_le_compat_l; lra).
  assert (Q0 : (0 <= u * u)%R) by (apply Rle_0_sqr).
  assert (Q2 : (u * u * u <= u * u * 1)%R) by (apply Rmult_le_compat_l; lra).
  assert (Q3 : (0 <= u * u * u)%R) by (apply Rmult_le_pos; lra).
  assert (U1 : (1 - 4 * u <= (1 - u) * (1 - u) * (1 - u))%R) by lra.
  assert (U2 : ((1 + u) * (1 + u) * (1 + u) <= 1 + 4 * u)%R) by lra.
  assert (X2 : (n * (1 - 4 * u) <= x * N <= n * (1 + 4 * u))%R).
  { split.
    - apply Rle_trans with (n * (s * N) * (1 - u))%R; [|apply X1]. rewrite Rmult_assoc. apply Rmult_le_compat_l; [lra|].
      apply Rle_trans with ((1 - u) * (1 - u) * (1 - u))%R; [exact U1|]. apply Rmult_le_compat_r; lra.
    - apply Rle_trans with (n * (s * N) * (1 + u))%R; [apply X1|]. rewrite Rmult_assoc. apply Rmult_le_compat_l; [lra|].
      apply Rle_trans with ((1 + u) * (1 + u) * (1 + u))%R; [|exact U2]. apply Rmult_le_compat_r; lra. }
  assert (nu : (n * u <= / 256)%R) by (apply Rle_trans with (N * u)%R; [apply Rmult_le_compat_r; lra|exact HN]).
  assert (nu0 : (0 <= n * u)%R) by (apply Rmult_le_pos; lra).
  split.
  - apply Rmult_le_reg_r with N; [lra|]. lra.
  - unfold Rmin. destruct (Rle_dec x 1) as [L|L]; [lra|].
    assert (1 * N <= x * N)%R by (apply Rmult_le_compat_r; lra). lra.
Qed.

Lemma near_code p e bits signed c : enough_bits p e bits -> code_min signed <= c <= iinfo_max signed bits ->
  valid_binary p e (unit_sample p e bits signed c) = true /\ sf_nan (unit_sample p e bits signed c) = false /\
  (unit_code p e bits signed (unit_sample p e bits signed c) = c \/
   unit_code p e bits signed (unit_sample p e bits signed c) = c - 1) /\
  (c = code_min signed -> unit_code p e bits signed (unit_sample p e bits signed c) = c).
Proof.
  intros He Hc. unfold unit_code, unit_sample.
  set (k := code_min signed) in *. set (N := iinfo_max signed bits - k).
  assert (G : exists (Hp : Prec_gt_0 p) (Hm : Prec_lt_emax p e) n, 0 <= k /\ 1 <= N <= 2 ^ n /\ 1 < p <= 53 /\ 2 * (N + k) + 1 < 2 ^ p /\
    n + 103 <= e /\ SpecFloat.emin p e + p - 1 <= -101 /\ 24 <= p /\ n + 8 <= p /\ 0 <= n /\ n <= 32 /\ N < 2 ^ 53).
  { unfold k, N.
    destruct He as [[-> [-> [-> | ->]]] | [-> [-> [-> | [-> | ->]]]]]; destruct signed;
    (unshelve eexists; [red; lia|]); (unshelve eexists; [red; lia|]);
    first [exists 8; vm_compute; repeat split; discriminate | exists 16; vm_compute; repeat split; discriminate | exists 32; vm_compute; repeat split; discriminate]. }
  destruct G as (Hp & Hm & n & Hk & HN & Hp1 & HNk & Hne & Hmin & Hp24 & Hn8 & Hn0 & Hn32 & HN53).
  assert (Hc' : k <= c <= N + k) by (unfold N; lia). clear Hc. clearbody N k. clear He signed bits.
  pose proof (vexp' p e Hp) as Vex.
  assert (Vex64 : Valid_exp fexp64) by (apply (vexp' 53 1024 _)).
  set (rnd := round radix2 (SpecFloat.fexp p e) (round_mode mode_NE)).
  assert (IN : (1 <= IZR N)%R) by (apply (IZR_le 1); lia).
  assert (INn : (IZR N <= bpow radix2 n)%R). { rewrite <- IZR_Zpower by lia. apply IZR_le. exact (proj2 HN). }
  set (u := bpow radix2 (- p)).
  assert (Hu : (0 < u <= / 16777216)%R).
  { split; [apply bpow_gt_0|]. change (/ 16777216)%R with (bpow radix2 (-24)). apply bpow_le. lia. }
  assert (Hu53 : (bpow radix2 (-53) <= u)%R) by (apply bpow_le; lia).
  assert (HNu : (IZR N * u <= / 256)%R).
  { apply Rle_trans with (bpow radix2 n * u)%R; [apply Rmult_le_compat_r; lra|]. unfold u. rewrite <- bpow_plus.
    change (/ 256)%R with (bpow radix2 (-8)). apply bpow_le. lia. }
  (* the scale in binary64 *)
  destruct (int_float 53 1024 _ _ 1) as (V1 & R1 & F1); [lia|].
  destruct (int_float 53 1024 _ _ N) as (VN & RN & FN); [lia|].
  assert (I1 : (bpow radix2 (-32) <= / IZR N <= 1)%R).
  { split.
    - apply Rle_trans with (bpow radix2 (- n)); [apply bpow_le; lia|]. rewrite bpow_opp. apply Rinv_le; lra.
    - rewrite <- Rinv_1. apply Rinv_le; lra. }
  assert (I2 : (bpow radix2 (-32) <= rnd64 (/ IZR N) <= 1)%R).
  { split; [apply round_ge_generic | apply round_le_generic]; try (apply valid_rnd_round_mode); try exact Vex64; try apply I1.
    - apply bpow_fmt; [exact p53'|cbn; lia].
    - change 1%R with (bpow radix2 0). apply bpow_fmt; [exact p53'|cbn; lia]. }
  pose proof (bpow_gt_0 radix2 (-32)) as P32.
  pose proof (Bdiv_correct 53 1024 _ _ mode_NE (SF2B _ V1) (SF2B _ VN)) as Cf. rewrite !B2R_SF2B, R1, RN in Cf.
  specialize (Cf ltac:(lra)). replace (1 / IZR N)%R with (/ IZR N)%R in Cf by (unfold Rdiv; ring).
  rewrite Rlt_bool_true in Cf.
  2: { rewrite Rabs_pos_eq by lra. apply Rle_lt_trans with (bpow radix2 0); [apply I2|apply bpow_lt; lia]. }
  destruct Cf as (Cf1 & Cf2 & _). rewrite is_finite_SF2B, F1 in Cf2. set (s64 := Bdiv mode_NE (SF2B _ V1) (SF2B _ VN)) in *.
  assert (Es64 : SFdiv 53 1024 (sf_of_Z 53 1024 1) (sf_of_Z 53 1024 N) = B2SF s64).
  { unfold s64. rewrite <- (div_equiv 53 1024 _ _), !B2SF_SF2B. reflexivity. }
  rewrite Es64.
  (* and in the element type *)
  assert (I3 : (bpow radix2 (-32) <= rnd (B2R s64) <= 1)%R).
  { rewrite Cf1. split; [apply round_ge_generic | apply round_le_generic]; try (apply valid_rnd_round_mode); try exact Vex; try apply I2.
    - apply bpow_fmt; [exact Hp|revert Hmin; unfold SpecFloat.emin; lia].
    - change 1%R with (bpow radix2 0). apply bpow_fmt; [exact Hp|revert Hmin; unfold SpecFloat.emin; lia]. }
  destruct (round_float p e Hp Hm (B2SF s64)) as (s & Es & Fs & Rs).
  { rewrite is_finite_SF_B2SF. exact Cf2. }
  { rewrite SF2R_B2SF. fold rnd. rewrite Rabs_pos_eq by lra. apply Rle_lt_trans with (bpow radix2 0); [apply I3|]. apply bpow_lt. lia. }
  rewrite SF2R_B2SF in Rs. fold rnd in Rs. rewrite Es.
  assert (E1 : (/ IZR N * (1 - u) <= B2R s64 <= / IZR N * (1 + u))%R).
  { rewrite Cf1. pose proof (rel_err 53 1024 _ (/ IZR N)) as Q. rewrite (Rabs_pos_eq (/ IZR N)) in Q by lra.
    assert (T : (Rabs (rnd64 (/ IZR N) - / IZR N) <= bpow radix2 (-53) * / IZR N)%R).
    { apply Q. eapply Rle_trans; [|apply I1]. apply bpow_le. vm_compute. discriminate. }
    apply Rabs_le_inv in T. assert (bpow radix2 (-53) * / IZR N <= u * / IZR N)%R by (apply Rmult_le_compat_r; lra). lra. }
  assert (E2 : (/ IZR N * (1 - u) * (1 - u) <= B2R s <= / IZR N * (1 + u) * (1 + u))%R).
  { rewrite Rs. rewrite <- Cf1 in I2. pose proof (rel_err p e Hp (B2R s64)) as Q. rewrite (Rabs_pos_eq (B2R s64)) in Q by lra.
    assert (T : (Rabs (rnd (B2R s64) - B2R s64) <= u * B2R s64)%R).
    { apply Q. eapply Rle_trans; [|apply I2]. apply bpow_le. lia. }
    apply Rabs_le_inv in T.
    assert (B2R s64 * (1 + u) <= / IZR N * (1 + u) * (1 + u))%R by (apply Rmult_le_compat_r; lra).
    assert (/ IZR N * (1 - u) * (1 - u) <= B2R s64 * (1 - u))%R by (apply Rmult_le_compat_r; lra). lra. }
  (* the difference is exact *)
  set (m := c - k). assert (Hmr : 0 <= m <= N) by (unfold m; lia).
  destruct (int_float p e Hp Hm c) as (Vc & Rc & Fc); [lia|].
  destruct (int_float p e Hp Hm k) as (Vk & Rk & Fk); [lia|].
  pose proof (Bminus_correct p e Hp Hm mode_NE (SF2B _ Vc) (SF2B _ Vk)) as C1. rewrite !is_finite_SF2B in C1. specialize (C1 Fc Fk).
  rewrite !B2R_SF2B, Rc, Rk in C1. rewrite <- minus_IZR in C1. fold m in C1.
  rewrite (round_generic radix2 _ _ (IZR m)) in C1 by (apply (int_format p e Hp Hm); lia).
  assert (Im : (0 <= IZR m <= IZR N)%R) by (split; [apply (IZR_le 0)|apply IZR_le]; lia).
  rewrite Rlt_bool_true in C1.
  2: { rewrite Rabs_pos_eq by lra. apply Rle_lt_trans with (bpow radix2 n); [lra|apply bpow_lt; lia]. }
  destruct C1 as (C11 & C12 & _). set (d := Bminus mode_NE (SF2B _ Vc) (SF2B _ Vk)) in *.
  assert (Ed : SFsub p e (sf_of_Z p e c) (sf_of_Z p e k) = B2SF d).
  { unfold d. rewrite <- (sub_equiv p e Hp Hm), !B2SF_SF2B. reflexivity. }
  rewrite Ed.
  (* the product *)
  assert (I4 : (0 <= IZR m * B2R s <= bpow radix2 n)%R).
  { rewrite Rs. split; [apply Rmult_le_pos; lra|]. apply Rle_trans with (IZR m * 1)%R; [apply Rmult_le_compat_l; lra|lra]. }
  assert (I5 : (0 <= rnd (IZR m * B2R s) <= bpow radix2 n)%R).
  { split; [apply round_ge_generic | apply round_le_generic]; try (apply valid_rnd_round_mode); try exact Vex; try apply I4.
    - apply generic_format_0.
    - apply bpow_fmt; [exact Hp|revert Hmin; unfold SpecFloat.emin; lia]. }
  pose proof (Bmult_correct p e Hp Hm mode_NE d s) as C2. fold rnd in C2. rewrite C11 in C2.
  rewrite Rlt_bool_true in C2.
  2: { rewrite Rabs_pos_eq by lra. apply Rle_lt_trans with (bpow radix2 n); [lra|apply bpow_lt; lia]. }
  destruct C2 as (C21 & C22 & _). rewrite C12, Fs in C22. cbn [andb] in C22. set (x := Bmult mode_NE d s) in *.
  assert (Ex : SFmul p e (B2SF d) (B2SF s) = B2SF x) by (unfold x; now rewrite <- (mul_equiv p e Hp Hm)).
  rewrite Ex.
  (* the offset is zero *)
  pose proof (Bplus_correct p e Hp Hm mode_NE x (B754_zero false) C22 eq_refl) as C3. cbn [B2R] in C3. rewrite Rplus_0_r in C3.
  fold rnd in C3. assert (Gx : (rnd (B2R x) = B2R x)%R).
  { apply round_generic; [apply valid_rnd_round_mode|apply (generic_format_B2R p e x)]. }
  rewrite Gx in C3.
  rewrite Rlt_bool_true in C3.
  2: { rewrite C21, Rabs_pos_eq by lra. apply Rle_lt_trans with (bpow radix2 n); [lra|apply bpow_lt; lia]. }
  destruct C3 as (C31 & C32 & _). set (y := Bplus mode_NE x (B754_zero false)) in *.
  assert (Ey : SFadd p e (B2SF x) (S754_zero false) = B2SF y) by (unfold y; now rewrite <- (add_equiv p e Hp Hm)).
  rewrite Ey.
  split; [apply valid_binary_B2SF|]. split; [destruct y; try discriminate; reflexivity|].
  assert (Uv : unit_value (B2SF y) = Rmin (Rmax (B2R y) 0) 1).
  { rewrite <- SF2R_B2SF. destruct y as [sy|sy| |sy my ey By]; try discriminate; cbn [B2SF unit_value SF2R]; [rewrite Rmax_left, Rmin_left; lra|reflexivity]. }
  rewrite Uv, C31, C21. rewrite Rmax_left by lra.
  assert (Mono : forall r t, (r <= t)%R -> (rnd r <= rnd t)%R) by (intros r t L; apply round_le; [exact Vex|apply valid_rnd_round_mode|exact L]).
  assert (Ik : (0 <= IZR k)%R) by (apply (IZR_le 0); lia).
  destruct (Z.eq_dec m 0) as [m0|m0].
  - assert (Z0 : Zfloor (rnd (rnd (Rmin (rnd (IZR m * B2R s)) 1 * IZR N) + IZR k))%R = c).
    { rewrite m0, Rmult_0_l. assert (R0 : (rnd 0 = 0)%R) by (apply round_0; apply valid_rnd_round_mode).
      rewrite R0, Rmin_left by lra. rewrite Rmult_0_l, R0, Rplus_0_l. unfold rnd.
      rewrite round_generic; [|apply valid_rnd_round_mode|apply (int_format p e Hp Hm); lia]. rewrite Zfloor_IZR. unfold m in m0. lia. }
    split; [left; exact Z0|intros _; exact Z0].
  - assert (Im1 : (1 <= IZR m)%R) by (apply (IZR_le 1); lia).
    assert (E3 : (IZR m * B2R s * (1 - u) <= rnd (IZR m * B2R s) <= IZR m * B2R s * (1 + u))%R).
    { pose proof (rel_err p e Hp (IZR m * B2R s)%R) as Q. rewrite (Rabs_pos_eq (IZR m * B2R s)%R) in Q by lra.
      assert (T : (Rabs (rnd (IZR m * B2R s) - IZR m * B2R s) <= u * (IZR m * B2R s))%R).
      { apply Q. apply Rle_trans with (bpow radix2 (-32)); [apply bpow_le; lia|]. rewrite Rs.
        apply Rle_trans with (1 * rnd (B2R s64))%R; [lra|apply Rmult_le_compat_r; lra]. }
      apply Rabs_le_inv in T. lra. }
    destruct (three_errors u (IZR m) (IZR N) (B2R s) (rnd (IZR m * B2R s)%R)) as (_ & B1 & B2); try assumption; [lra|].
    set (w := (Rmin (rnd (IZR m * B2R s)) 1 * IZR N)%R) in *.
    assert (Hf : forall z, 0 <= z <= N + k -> generic_format radix2 (SpecFloat.fexp p e) (IZR z + / 2)).
    { intros z Hz. apply half_format; [exact Hp|exact Hm|lia|lia|lia]. }
    assert (B3 : (IZR m - / 2 <= rnd w <= IZR m + / 2)%R).
    { split; [apply round_ge_generic | apply round_le_generic]; try (apply valid_rnd_round_mode); try exact Vex; try assumption.
      - replace (IZR m - / 2)%R with (IZR (m - 1) + / 2)%R by (rewrite minus_IZR; lra). apply Hf. lia.
      - apply Hf. lia. }
    assert (Ec : IZR c = (IZR m + IZR k)%R) by (rewrite <- plus_IZR; f_equal; unfold m; lia).
    assert (B4 : (IZR c - / 2 <= rnd (rnd w + IZR k) <= IZR c + / 2)%R).
    { split; [apply round_ge_generic | apply round_le_generic]; try (apply valid_rnd_round_mode); try exact Vex; try lra.
      - replace (IZR c - / 2)%R with (IZR (c - 1) + / 2)%R by (rewrite minus_IZR; lra). apply Hf. lia.
      - apply Hf. lia. }
    split; [|intros E; unfold m in m0; lia].
    set (v := rnd (rnd w + IZR k)%R) in *.
    assert (L1 : c - 1 <= Zfloor v) by (apply Zfloor_lub; rewrite minus_IZR; lra).
    assert (L2 : Zfloor v < c + 1). { apply lt_IZR. rewrite plus_IZR. pose proof (Zfloor_lb v). lra. }
    lia.
Qed.
