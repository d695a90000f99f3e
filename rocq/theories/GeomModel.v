(* Geometry of the delayed operation graph: affine maps, integer canvases and the
   boxes computed by the rewrite rules.  Floats are exact rationals.
   kwimage.Affine / kwimage.Boxes / kwarray.embed_slice are modelled by their
   documented meaning (they are not part of /repo). *)
From Verif Require Import Py.
From Coq Require Export QArith Qround Qminmax Lqa.
Local Open Scope Q_scope.

(** ** kwimage.Affine: [[a11 a12 b1] [a21 a22 b2] [0 0 1]] *)

(* kwimage.Affine (not part of /repo) *)
Record affine := Aff { a11 : Q; a12 : Q; a21 : Q; a22 : Q; b1 : Q; b2 : Q }.

(* kwimage.Affine.eye / scale / translate, as used by delayed_nodes.py:2486,
   2628, 2737, 3204 *)
Definition aff_id : affine := Aff 1 0 0 1 0 0.
(* kwimage.Affine.scale *)
Definition aff_scale (sx sy : Q) : affine := Aff sx 0 0 sy 0 0.
(* kwimage.Affine.translate *)
Definition aff_translate (tx ty : Q) : affine := Aff 1 0 0 1 tx ty.

(* image of a point, e.g. helpers.py:88 *)
Definition ax (M : affine) (x y : Q) : Q := a11 M * x + a12 M * y + b1 M.
(* second coordinate of a moved point *)
Definition ay (M : affine) (x y : Q) : Q := a21 M * x + a22 M * y + b2 M.

(* A @ B : first B, then A (delayed_nodes.py:2162, 3344; helpers.py:277) *)
Definition aff_mul (A B : affine) : affine :=
  Aff (a11 A * a11 B + a12 A * a21 B) (a11 A * a12 B + a12 A * a22 B)
      (a21 A * a11 B + a22 A * a21 B) (a21 A * a12 B + a22 A * a22 B)
      (a11 A * b1 B + a12 A * b2 B + b1 A) (a21 A * b1 B + a22 A * b2 B + b2 A).

(* determinant of a kwimage.Affine *)
Definition aff_det (M : affine) : Q := a11 M * a22 M - a12 M * a21 M.

(* M.inv(); numpy raises LinAlgError for a singular matrix *)
Definition aff_inv_raw (M : affine) : affine :=
  let d := aff_det M in
  Aff (a22 M / d) (- a12 M / d) (- a21 M / d) (a11 M / d)
      ((a12 M * b2 M - a22 M * b1 M) / d) ((a21 M * b1 M - a11 M * b2 M) / d).

(* kwimage.Affine.inv *)
Definition aff_inv (M : affine) : result affine :=
  if Qeq_bool (aff_det M) 0 then Err OtherError else Ok (aff_inv_raw M).

(* Python: min of four numbers, helpers.py:57-93 *)
Definition Qmin4 (a b c d : Q) : Q := Qmin (Qmin a b) (Qmin c d).
(* Python: max of four numbers, helpers.py:57-93 *)
Definition Qmax4 (a b c d : Q) : Q := Qmax (Qmax a b) (Qmax c d).

(** ** Canvas sizes *)

(* (width, height); see delayed_nodes.py:1266-1276, values of dsize *)
Definition size := (Z * Z)%type.

(* helpers.py:57-93 _auto_dsize: ceiling of the largest corner coordinate *)
Definition auto_dsize (M : affine) (sz : size) : size :=
  let w := inject_Z (fst sz) in
  let h := inject_Z (snd sz) in
  (Qceiling (Qmax4 (ax M 0 0) (ax M w 0) (ax M 0 h) (ax M w h)),
   Qceiling (Qmax4 (ay M 0 0) (ay M w 0) (ay M 0 h) (ay M w h))).

(* 2 ** k for k >= 0 (overview levels) and its rational version for any k
   See delayed_nodes.py:3097-3120, the factor 2 ** overview *)
Definition pow2 (k : Z) : Q := Qpower (2#1) k.

(* delayed_nodes.py:3109-3120 DelayedOverview.__init__: ceiling division *)
Definition overview_len (k n : Z) : Z := Qceiling (inject_Z n / pow2 k).
(* delayed_nodes.py:3097-3120 *)
Definition overview_dsize (k : Z) (sz : size) : size :=
  (overview_len k (fst sz), overview_len k (snd sz)).

(** ** Slices as integer intervals [start, stop) *)

(* bounds of a slice without step, delayed_nodes.py:2668-2715 *)
Definition ival := (Z * Z)%type.

(* python slice with optional bounds; see Python: slice(a, b) *)
Definition pyslice := (option Z * option Z)%type.

(* delayed_nodes.py:2692-2697: Boxes.from_slice(wrap=True, clip=True) followed by
   embed_slice.  A negative bound has the axis length added once, then both ends
   are clipped to [0, D]; None means the natural end.  An inverted slice (start
   beyond stop) is outside the model (kwimage/kwarray may raise). *)
Definition wrap_clip (D : Z) (s : pyslice) : result ival :=
  let fix1 := fun z => let z := (if z <? 0 then z + D else z)%Z in
                       Z.max 0 (Z.min z D) in
  let a := match fst s with None => 0%Z | Some z => fix1 z end in
  let b := match snd s with None => D | Some z => fix1 z end in
  if (b <? a)%Z then Err ValueError else Ok (a, b).

(* number of entries of a slice with known bounds *)
Definition iv_len (i : ival) : Z := (snd i - fst i)%Z.

(** ** Moving a crop below a warp *)

(* delayed_nodes.py:2972-3023, one axis of the fast path for positive axis
   aligned transforms x -> s x + t over a source of length n, for the requested
   output interval [r0, r1).  Returns the slice start, stop and the offset of the
   residual transform (its scale is s). *)
Definition fast_axis (s t : Q) (n : Z) (r : ival) : (ival * Q) :=
  let r0 := fst r in
  let r1 := snd r in
  let root_len := Z.max (r1 - r0) 0 in
  let x0f := (inject_Z r0 - t) / s in
  let x1f := (inject_Z r1 - t) / s in
  let leaf_len := Qmax (x1f - x0f) 0 in
  let x0q := Z.max (Qfloor x0f) 0 in
  let x1q := Z.min (Qceiling x1f) n in
  let pad := if (root_len =? 0)%Z then 0%Z
             else Qceiling (leaf_len / inject_Z root_len) in
  let lt := Z.min x0q 1 in
  let x0 := (x0q - lt)%Z in
  let x1 := Z.min (x1q + pad) n in
  ((x0, x1), t + s * inject_Z x0 - inject_Z r0).

(* helpers.py:155-338 _swap_warp_after_crop with origin_convention='corner' for
   a rectangular region [xs) x [ys).  Returns (y slice, x slice) and the
   residual transform.  The quantization is done in place (line 255), so the
   widths of line 288-289 are those of the quantized and clipped box. *)
Definition swap_warp_after_crop (ys xs : ival) (M : affine)
  : result (ival * ival * affine) :=
  I <- aff_inv M ;;
  let x0 := inject_Z (fst xs) in
  let x1 := inject_Z (snd xs) in
  let y0 := inject_Z (fst ys) in
  let y1 := inject_Z (snd ys) in
  let lt_x := Z.max 0 (Qfloor (Qmin4 (ax I x0 y0) (ax I x0 y1) (ax I x1 y1) (ax I x1 y0))) in
  let lt_y := Z.max 0 (Qfloor (Qmin4 (ay I x0 y0) (ay I x0 y1) (ay I x1 y1) (ay I x1 y0))) in
  let rb_x := Z.max 0 (Qceiling (Qmax4 (ax I x0 y0) (ax I x0 y1) (ax I x1 y1) (ax I x1 y0))) in
  let rb_y := Z.max 0 (Qceiling (Qmax4 (ay I x0 y0) (ay I x0 y1) (ay I x1 y1) (ay I x1 y0))) in
  let old_w := (snd xs - fst xs)%Z in
  let old_h := (snd ys - fst ys)%Z in
  let padw := if (old_w =? 0)%Z then 0%Z
              else Qceiling (inject_Z (rb_x - lt_x) / inject_Z old_w) in
  let padh := if (old_h =? 0)%Z then 0%Z
              else Qceiling (inject_Z (rb_y - lt_y) / inject_Z old_h) in
  let lt_pad_w := Z.min lt_x 1 in
  let lt_pad_h := Z.min lt_y 1 in
  let T := aff_mul (aff_mul (aff_translate (- x0) (- y0)) M)
                   (aff_translate (inject_Z lt_x) (inject_Z lt_y)) in
  Ok ((lt_y - lt_pad_h, rb_y + padh)%Z, (lt_x - lt_pad_w, rb_x + padw)%Z,
      aff_mul T (aff_translate (inject_Z (- lt_pad_w)) (inject_Z (- lt_pad_h)))).

(** ** Moving an overview below a crop *)

(* helpers.py:341-409 _swap_crop_after_warp for the pure scaling of an overview
   (delayed_nodes.py:3266-3274), one axis: the quantized crop interval and the
   offset of the residual translation.  The box is clipped at 0 below (line 391). *)
Definition overview_crop_axis (k : Z) (r : ival) : (ival * Q) :=
  let lo := inject_Z (fst r) / pow2 k in
  let hi := inject_Z (snd r) / pow2 k in
  let q0 := Z.max 0 (Qfloor lo) in
  let q1 := Z.max 0 (Qceiling hi) in
  ((q0, q1), inject_Z q0 - lo).

(** ** Padded crops *)

(* kwarray.embed_slice for one axis of length D: the in-bounds part and the
   extra padding needed on both sides (delayed_nodes.py:432-436).  As in kwarray:
   raw = (low - pad, high + pad), each clipped to [0, D]; low_diff / high_diff are
   the distances clipped away, extra_low = max(0, low_diff + min(0, high_diff)),
   extra_high = max(0, high_diff + min(0, low_diff)); low > high raises. *)
Definition embed_axis (D low high pad : Z) : result (ival * (Z * Z)) :=
  if (high <? low)%Z then Err ValueError else
  let lo := (low - pad)%Z in
  let hi := (high + pad)%Z in
  let dlo := Z.min D (Z.max 0 lo) in
  let dhi := Z.min D (Z.max 0 hi) in
  let low_diff := (dlo - lo)%Z in
  let high_diff := (hi - dhi)%Z in
  Ok ((dlo, dhi), (Z.max 0 (low_diff + Z.min 0 high_diff),
                   Z.max 0 (high_diff + Z.min 0 low_diff)))%Z.

(* delayed_nodes.py:421-450 _padded_crop: the slice to crop, the offset of the
   padding warp and the output size.  The second component is None when no
   padding warp is added. *)
Definition padded_crop (sz : size) (ys xs : ival) (pad : Z)
  : result (ival * ival * option (affine * size)) :=
  '(dy, (oy, ey)) <- embed_axis (snd sz) (fst ys) (snd ys) pad ;;
  '(dx, (ox, ex)) <- embed_axis (fst sz) (fst xs) (snd xs) pad ;;
  let dsize := (iv_len dx + ox + ex, iv_len dy + oy + ey)%Z in
  if ((oy =? 0) && (ey =? 0) && (ox =? 0) && (ex =? 0))%Z%bool
  then Ok (dy, dx, None)
  else Ok (dy, dx, Some (aff_translate (inject_Z ox) (inject_Z oy), dsize)).

(** ** Nearest neighbour path of DelayedWarp._finalize *)

(* delayed_nodes.py:1852-1857, one axis: source index of output index i for
   scale s and offset t over a source of length n; None is an invalid (fill)
   position *)
Definition nearest_src (s t : Q) (n i : Z) : option Z :=
  let k := Qfloor ((inject_Z i - t) / s) in
  if ((0 <=? k) && (k <? n))%Z%bool then Some k else None.

(* delayed_nodes.py:1880: output pixel (row, column) of one band; [src] is the
   source band, [in_w] x [in_h] its size *)
Definition nearest_pixel {V} (fill : V) (sx sy tx ty : Q) (in_w in_h : Z)
  (src : Z -> Z -> V) (row col : Z) : V :=
  match nearest_src sy ty in_h row, nearest_src sx tx in_w col with
  | Some y, Some x => src y x
  | _, _ => fill
  end.

(* delayed_nodes.py:1850-1892: one output band of size [out_w] x [out_h].  When
   some position is valid, line 1870/1879 indexes the source with *all* computed
   indexes, and numpy rejects those outside [-n, n) even if they are masked out
   afterwards. *)
Definition nearest_warp {V} (fill : V) (sx sy tx ty : Q) (in_w in_h out_w out_h : Z)
  (src : Z -> Z -> V) : result (Z -> Z -> V) :=
  let xi := map (fun i => Qfloor ((inject_Z i - tx) / sx)) (zseq (Z.to_nat out_w)) in
  let yi := map (fun i => Qfloor ((inject_Z i - ty) / sy)) (zseq (Z.to_nat out_h)) in
  let valid := fun n k => ((0 <=? k) && (k <? n))%Z in
  let indexable := fun n k => ((- n <=? k) && (k <? n))%Z in
  if existsb (valid in_w) xi && existsb (valid in_h) yi then
    if forallb (indexable in_w) xi && forallb (indexable in_h) yi
    then Ok (nearest_pixel fill sx sy tx ty in_w in_h src)
    else Err IndexError
  else Ok (fun _ _ => fill).

(** ** Splitting a downsampling warp *)

(* delayed_nodes.py:2519-2531 _prepare_scale_residual with fudge = 0.
   int(log2(q)) for q >= 1 is the exponent of the largest power of two not above
   q; for q < 1 it is <= 0 and the maximum with 0 makes it 0.  A non-positive
   maximal scale makes numpy produce inf or nan, which int() rejects. *)
Definition prepare_scale_residual (sx sy : Q) : result (Z * Q * Q) :=
  let m := Qmax sx sy in
  if Qle_bool m 0 then Err OtherError else
  let q := 1 / m in
  let n := if Qle_bool 1 q then Z.max (Z.log2 (Qfloor q)) 0 else 0%Z in
  let pyr := 1 / pow2 n in
  Ok (n, sx / pyr, sy / pyr).

(* delayed_nodes.py:2486-2491: the residual transform T @ O.inv() *)
Definition split_residual (M : affine) (n : Z) : result affine :=
  I <- aff_inv (aff_scale (1 / pow2 n) (1 / pow2 n)) ;;
  Ok (aff_mul M I).

(* delayed_nodes.py:3338-3344: C = A @ B @ A.inv() for the overview scaling A *)
Definition warp_after_overview (k : Z) (B : affine) : result affine :=
  let A := aff_scale (1 / pow2 k) (1 / pow2 k) in
  I <- aff_inv A ;;
  Ok (aff_mul (aff_mul A B) I).

(** ** Lazy no-ops *)

(* delayed_nodes.py:325-341: does crop(lazy=True) return the image itself?  The
   band selection is not looked at. *)
Definition lazy_crop_noop (sz : size) (ys xs : pyslice) (pad : bool)
  (chan_idxs : option (list Z)) : bool :=
  let start0 := fun o : option Z => match o with None => true | Some z => (z =? 0)%Z end in
  let stopn := fun (o : option Z) n => match o with None => true | Some z => (z =? n)%Z end in
  start0 (fst ys) && stopn (snd ys) (snd sz) &&
  start0 (fst xs) && stopn (snd xs) (fst sz) && negb pad.

(* entry by entry equality with the identity matrix
   See kwimage.Affine.isclose_identity, idealized to equality *)
Definition is_identity (M : affine) : bool :=
  Qeq_bool (a11 M) 1 && Qeq_bool (a12 M) 0 && Qeq_bool (a21 M) 0 &&
  Qeq_bool (a22 M) 1 && Qeq_bool (b1 M) 0 && Qeq_bool (b2 M) 0.

(* Python: == of sizes *)
Definition size_eqb (a b : size) : bool :=
  ((fst a =? fst b) && (snd a =? snd b))%Z.

(* delayed_nodes.py:516-527: does warp(lazy=True) return the image itself?
   [dsize = None] is dsize='auto', [M = None] is transform=None; [close] is the
   tolerance test isclose_identity of kwimage. *)
Definition lazy_warp_noop (close : affine -> bool) (cur : size)
  (M : option affine) (dsize : option size) : bool :=
  if match dsize with Some d => negb (size_eqb cur d) | None => false end
  then false
  else match M with None => true | Some M => close M end.
