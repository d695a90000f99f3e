(* Property theorems about the scale decomposition (C53). *)
From Verif Require Import ScaleModel ScaleProofs.
From Coq Require Import Lra.
Local Open Scope R_scope.

(** C53: for every real 2x2 matrix the first factor is the length of the first
    column and the two factors multiply to the determinant (so the sign of the
    second says whether the map is a reflection). *)
Theorem C53_scale_and_determinant : forall a11 a12 a21 a22 sx sy,
  decompose_scale a11 a12 a21 a22 = (sx, sy) ->
  sx * sx = a11 * a11 + a21 * a21 /\ 0 <= sx /\
  sx * sy = a11 * a22 - a12 * a21.
Proof. exact decompose_scale_eqn. Qed.
Print Assumptions C53_scale_and_determinant.

(** both formulas for the second factor agree wherever both are defined, so the
    branch taken does not matter *)
Theorem C53_branches_agree : forall a12 a22 a11 a21,
  let c := cos (atan2 a21 a11) in
  let s := sin (atan2 a21 a11) in
  let msy := a12 * c + a22 * s in
  c <> 0 -> s <> 0 -> (msy * c - a12) / s = (a22 - msy * s) / c.
Proof. exact decompose_scale_branches. Qed.
Print Assumptions C53_branches_agree.

(** a scaling followed by a rotation by any angle gives the scaling back *)
Theorem C53_rotated_scaling : forall theta sx sy, 0 < sx ->
  decompose_scale (cos theta * sx) (- sin theta * sy) (sin theta * sx) (cos theta * sy) = (sx, sy).
Proof. exact decompose_scale_rotation. Qed.
Print Assumptions C53_rotated_scaling.

Theorem C53_diagonal : forall sx sy, 0 < sx -> decompose_scale sx 0 0 sy = (sx, sy).
Proof. exact decompose_scale_diag. Qed.
Print Assumptions C53_diagonal.

(** overviews may be absorbed exactly by warps that magnify one of the axes at least
    twice, up to a hundred millionth, whatever the rotation *)
Theorem C53_absorbs : forall theta sx sy, 0 < sx ->
  absorbs (cos theta * sx) (- sin theta * sy) (sin theta * sx) (cos theta * sy) = true <->
  2 - sx <= 1 / 10 ^ 8 \/ 2 - sy <= 1 / 10 ^ 8.
Proof.
  intros theta sx sy H. unfold absorbs. rewrite decompose_scale_rotation by exact H. cbv zeta.
  assert (E : 1 / 10 ^ 8 = 1 / 100000000) by (f_equal; ring). rewrite E.
  destruct (Rlt_dec sx _); [destruct (Rlt_dec sy _)|]; split; try discriminate; try reflexivity; intros; lra.
Qed.
Print Assumptions C53_absorbs.

Example C53_absorbs_case : absorbs (cos 1 * 2) (- sin 1 * 1) (sin 1 * 2) (cos 1 * 1) = true.
Proof. apply C53_absorbs; lra. Qed.

Example C53_case : decompose_scale 3 0 0 (-2) = (3, -2).
Proof. apply C53_diagonal. apply Rlt_trans with 2; [apply Rlt_0_2 | apply IZR_lt; reflexivity]. Qed.
