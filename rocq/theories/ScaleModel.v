(* helpers.py:608-630 _decompose_scale over the real numbers (the code uses
   floats).  math.atan2 is modelled by its definition from atan. *)
From Coq Require Export Reals.
Local Open Scope R_scope.

(* math.atan2(y, x); both signed zeros are identified; used by helpers.py:608-650 *)
Definition atan2 (y x : R) : R :=
  if Rlt_dec 0 x then atan (y / x)
  else if Rlt_dec x 0 then (if Rle_dec 0 y then atan (y / x) + PI else atan (y / x) - PI)
  else if Rlt_dec 0 y then PI / 2
  else if Rlt_dec y 0 then - (PI / 2)
  else 0.

(* helpers.py:608-630, matrix given *)
Definition decompose_scale (a11 a12 a21 a22 : R) : R * R :=
  let sx := sqrt (a11 * a11 + a21 * a21) in
  let theta := atan2 a21 a11 in
  let sin_t := sin theta in
  let cos_t := cos theta in
  let msy := a12 * cos_t + a22 * sin_t in
  let sy := if Rlt_dec (Rabs cos_t) (Rabs sin_t)
            then (msy * cos_t - a12) / sin_t
            else (a22 - msy * sin_t) / cos_t in
  (sx, sy).

(* delayed_nodes.py:2234-2239: does the warp contain an upsampling by (almost)
   two, so that a nearby overview may be absorbed? *)
Definition absorbs (a11 a12 a21 a22 : R) : bool :=
  let '(sx, sy) := decompose_scale a11 a12 a21 a22 in
  let twoish := 2 - 1 / 100000000 in
  if Rlt_dec sx twoish then (if Rlt_dec sy twoish then false else true) else true.
