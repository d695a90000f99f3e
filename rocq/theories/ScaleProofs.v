(* Lemmas about the scale decomposition. *)
From Verif Require Import ScaleModel.
From Coq Require Import Lra Psatz.
Local Open Scope R_scope.

Lemma hyp_pos x y : x <> 0 \/ y <> 0 -> 0 < sqrt (x * x + y * y).
Proof. intros H. apply sqrt_lt_R0. destruct H; nra. Qed.

Lemma cos_sin_atan_div x y : x <> 0 ->
  cos (atan (y / x)) = Rabs x / sqrt (x * x + y * y) /\
  sin (atan (y / x)) = (y / x) * (Rabs x / sqrt (x * x + y * y)).
Proof.
  intros Hx.
  assert (Hs : 0 < sqrt (x * x + y * y)) by (apply hyp_pos; left; exact Hx).
  assert (Ha : 0 < Rabs x) by (apply Rabs_pos_lt; exact Hx).
  assert (E : sqrt (1 + (y / x) * (y / x)) = sqrt (x * x + y * y) / Rabs x).
  { assert (E1 : 1 + (y / x) * (y / x) = (x * x + y * y) / (Rabs x * Rabs x)).
    { rewrite <- Rabs_mult. rewrite (Rabs_pos_eq (x * x)) by nra. field. exact Hx. }
    rewrite E1. rewrite sqrt_div_alt by nra. rewrite sqrt_square by lra. reflexivity. }
  assert (C : cos (atan (y / x)) = Rabs x / sqrt (x * x + y * y)).
  { rewrite cos_atan. unfold Rsqr. rewrite E. field. split; lra. }
  split; [exact C|].
  assert (S : sin (atan (y / x)) = (y / x) * cos (atan (y / x))).
  { rewrite sin_atan, cos_atan. unfold Rsqr. rewrite E. field. repeat split; lra. }
  rewrite S, C. reflexivity.
Qed.

(* the angle of a non-zero column has the expected cosine and sine *)
Lemma cos_sin_atan2 x y : x <> 0 \/ y <> 0 ->
  cos (atan2 y x) = x / sqrt (x * x + y * y) /\
  sin (atan2 y x) = y / sqrt (x * x + y * y).
Proof.
  intros H. pose proof (hyp_pos x y H) as Hs. unfold atan2.
  destruct (Rlt_dec 0 x) as [Px|Px].
  - destruct (cos_sin_atan_div x y) as [-> ->]; [lra|]. rewrite (Rabs_pos_eq x) by lra.
    split; field; lra.
  - destruct (Rlt_dec x 0) as [Nx|Nx].
    + assert (Hx : x <> 0) by lra. destruct (cos_sin_atan_div x y Hx) as [C S].
      rewrite (Rabs_left x) in C, S by lra.
      destruct (Rle_dec 0 y) as [Py|Py].
      * rewrite neg_cos, neg_sin, C, S. split; field; lra.
      * replace (atan (y / x) - PI) with (- (- atan (y / x) + PI)) by ring.
        rewrite cos_neg, sin_neg, neg_cos, neg_sin, cos_neg, sin_neg, C, S. split; field; lra.
    + assert (x = 0) as -> by lra. destruct H as [H|H]; [lra|].
      replace (0 * 0 + y * y) with (y * y) in * by ring.
      destruct (Rlt_dec 0 y) as [Py|Py].
      * rewrite cos_PI2, sin_PI2, sqrt_square by lra. split; field; lra.
      * destruct (Rlt_dec y 0) as [Ny|Ny]; [|lra].
        rewrite cos_neg, sin_neg, cos_PI2, sin_PI2.
        replace (y * y) with ((- y) * (- y)) by ring. rewrite sqrt_square by lra. split; field; lra.
Qed.

Lemma sy_closed_form a12 a22 c s : c * c + s * s = 1 ->
  (s <> 0 -> ((a12 * c + a22 * s) * c - a12) / s = a22 * c - a12 * s) /\
  (c <> 0 -> (a22 - (a12 * c + a22 * s) * s) / c = a22 * c - a12 * s).
Proof.
  intros E. split; intros H.
  - apply Rmult_eq_reg_r with s; [|exact H]. unfold Rdiv. rewrite Rmult_assoc, Rinv_l, Rmult_1_r by exact H.
    replace (c * c) with (1 - s * s) by lra.
    replace ((a12 * c + a22 * s) * c) with (a12 * (c * c) + a22 * s * c) by ring.
    replace (c * c) with (1 - s * s) by lra. ring.
  - apply Rmult_eq_reg_r with c; [|exact H]. unfold Rdiv. rewrite Rmult_assoc, Rinv_l, Rmult_1_r by exact H.
    replace ((a12 * c + a22 * s) * s) with (a12 * c * s + a22 * (s * s)) by ring.
    replace (s * s) with (1 - c * c) by lra. ring.
Qed.

Lemma decompose_scale_sy a11 a12 a21 a22 :
  snd (decompose_scale a11 a12 a21 a22) =
  a22 * cos (atan2 a21 a11) - a12 * sin (atan2 a21 a11).
Proof.
  unfold decompose_scale. cbn [snd].
  set (c := cos _). set (s := sin _).
  assert (E : c * c + s * s = 1).
  { unfold c, s. pose proof (sin2_cos2 (atan2 a21 a11)) as H. unfold Rsqr in H. lra. }
  destruct (sy_closed_form a12 a22 c s E) as [F1 F2].
  destruct (Rlt_dec (Rabs c) (Rabs s)) as [L|L].
  - apply F1. intros Hs. rewrite Hs, Rabs_R0 in L. pose proof (Rabs_pos c). lra.
  - apply F2. intros Hc. apply L. rewrite Hc, Rabs_R0. apply Rabs_pos_lt. intros Hs.
    rewrite Hc, Hs in E. lra.
Qed.

Lemma decompose_scale_spec a11 a12 a21 a22 :
  let '(sx, sy) := decompose_scale a11 a12 a21 a22 in
  sx * sx = a11 * a11 + a21 * a21 /\ 0 <= sx /\
  sx * sy = a11 * a22 - a12 * a21.
Proof.
  destruct (decompose_scale a11 a12 a21 a22) as [sx sy] eqn:E.
  assert (Esx : sx = sqrt (a11 * a11 + a21 * a21)).
  { unfold decompose_scale in E. injection E as <- _. reflexivity. }
  assert (Esy : sy = a22 * cos (atan2 a21 a11) - a12 * sin (atan2 a21 a11)).
  { rewrite <- decompose_scale_sy, E. reflexivity. }
  rewrite Esx. split; [apply sqrt_sqrt; nra|]. split; [apply sqrt_pos|].
  destruct (Req_dec a11 0) as [Z1|Z1]; [destruct (Req_dec a21 0) as [Z2|Z2]|].
  - rewrite Z1, Z2. replace (0 * 0 + 0 * 0) with 0 by ring. rewrite sqrt_0. ring.
  - destruct (cos_sin_atan2 a11 a21 (or_intror Z2)) as [C S]. rewrite Esy, C, S.
    pose proof (hyp_pos a11 a21 (or_intror Z2)). field. lra.
  - destruct (cos_sin_atan2 a11 a21 (or_introl Z1)) as [C S]. rewrite Esy, C, S.
    pose proof (hyp_pos a11 a21 (or_introl Z1)). field. lra.
Qed.

Lemma decompose_scale_branches a12 a22 a11 a21 :
  let c := cos (atan2 a21 a11) in
  let s := sin (atan2 a21 a11) in
  let msy := a12 * c + a22 * s in
  c <> 0 -> s <> 0 -> (msy * c - a12) / s = (a22 - msy * s) / c.
Proof.
  intros c s msy Hc Hs.
  assert (E : c * c + s * s = 1).
  { unfold c, s. pose proof (sin2_cos2 (atan2 a21 a11)) as H. unfold Rsqr in H. lra. }
  destruct (sy_closed_form a12 a22 c s E) as [F1 F2]. unfold msy. rewrite F1, F2 by assumption. reflexivity.
Qed.

Lemma decompose_scale_diag sx sy : 0 < sx -> decompose_scale sx 0 0 sy = (sx, sy).
Proof.
  intros H. pose proof (decompose_scale_spec sx 0 0 sy) as S.
  destruct (decompose_scale sx 0 0 sy) as [p q]. destruct S as (A & B & C).
  assert (p = sx) by nra. subst p. assert (q = sy) by nra. subst q. reflexivity.
Qed.

(* a rotation by theta of a scaling is decomposed into that scaling *)
Lemma decompose_scale_rotation theta sx sy : 0 < sx ->
  decompose_scale (cos theta * sx) (- sin theta * sy) (sin theta * sx) (cos theta * sy) = (sx, sy).
Proof.
  intros H. set (c := cos theta). set (s := sin theta).
  assert (E : c * c + s * s = 1).
  { unfold c, s. pose proof (sin2_cos2 theta) as H0. unfold Rsqr in H0. lra. }
  pose proof (decompose_scale_spec (c * sx) (- s * sy) (s * sx) (c * sy)) as S.
  destruct (decompose_scale _ _ _ _) as [p q]. destruct S as (A & B & C).
  assert (A' : p * p = sx * sx). { rewrite A. replace (c * sx * (c * sx) + s * sx * (s * sx)) with ((c * c + s * s) * (sx * sx)) by ring. rewrite E. ring. }
  assert (p = sx) by nra. subst p.
  assert (C' : sx * q = sx * sy). { rewrite C. replace (c * sx * (c * sy) - - s * sy * (s * sx)) with ((c * c + s * s) * (sx * sy)) by ring. rewrite E. ring. }
  assert (q = sy) by nra. subst q. reflexivity.
Qed.

Lemma decompose_scale_eqn a11 a12 a21 a22 sx sy :
  decompose_scale a11 a12 a21 a22 = (sx, sy) ->
  sx * sx = a11 * a11 + a21 * a21 /\ 0 <= sx /\
  sx * sy = a11 * a22 - a12 * a21.
Proof.
  intros E. pose proof (decompose_scale_spec a11 a12 a21 a22) as S. rewrite E in S. exact S.
Qed.
