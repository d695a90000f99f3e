(* Property theorems of the geometry layer.
   Vocabulary: [ax M x y], [ay M x y] are the coordinates of the image of the
   point (x, y) under the affine map M; sizes are (width, height); intervals are
   half open integer ranges (start, stop). *)
From Verif Require Import Py PyProofs GeomModel GeomProofs.
Local Open Scope Q_scope.

(** C43: with dsize='auto' the canvas covers the warped input on the right and
    bottom, and no smaller integer canvas does. *)
Theorem C43_auto_dsize : forall M w h, (0 <= w)%Z -> (0 <= h)%Z ->
  (forall x y, 0 <= x <= inject_Z w -> 0 <= y <= inject_Z h ->
     ax M x y <= inject_Z (fst (auto_dsize M (w, h))) /\
     ay M x y <= inject_Z (snd (auto_dsize M (w, h)))) /\
  (forall m n,
     (forall x y, 0 <= x <= inject_Z w -> 0 <= y <= inject_Z h ->
        ax M x y <= inject_Z m /\ ay M x y <= inject_Z n) ->
     (fst (auto_dsize M (w, h)) <= m)%Z /\ (snd (auto_dsize M (w, h)) <= n)%Z).
Proof.
  exact (fun M w h Hw Hh => conj (fun x y Hx Hy => auto_dsize_covers M w h x y Hx Hy)
           (fun m n H => auto_dsize_least M w h m n Hw Hh H)).
Qed.
Print Assumptions C43_auto_dsize.

Example C43_case : auto_dsize (Aff (3#2) (-1#4) (1#3) 2 (1#2) (-3#1)) (10, 7)%Z = (16, 15)%Z.
Proof. vm_compute. reflexivity. Qed.

(** C44: the source region read for a crop of a warped image contains every
    source point that lands in the requested output region, and the residual
    transform sends it to the same output position. General transforms: *)
Theorem C44_crop_before_warp : forall ys xs M ysl xsl T,
  swap_warp_after_crop ys xs M = Ok (ysl, xsl, T) ->
  (forall u v, 0 <= u -> 0 <= v ->
     inject_Z (fst xs) <= ax M u v <= inject_Z (snd xs) ->
     inject_Z (fst ys) <= ay M u v <= inject_Z (snd ys) ->
     inject_Z (fst xsl) <= u <= inject_Z (snd xsl) /\
     inject_Z (fst ysl) <= v <= inject_Z (snd ysl)) /\
  (forall u v,
     ax T (u - inject_Z (fst xsl)) (v - inject_Z (fst ysl)) == ax M u v - inject_Z (fst xs) /\
     ay T (u - inject_Z (fst xsl)) (v - inject_Z (fst ysl)) == ay M u v - inject_Z (fst ys)).
Proof.
  exact (fun ys xs M ysl xsl T H =>
    conj (fun u v Hu Hv Hx Hy => swap_warp_after_crop_covers ys xs M ysl xsl T u v H Hu Hv
                                   (proj1 Hx) (proj2 Hx) (proj1 Hy) (proj2 Hy))
         (fun u v => swap_warp_after_crop_residual ys xs M ysl xsl T u v H)).
Qed.
Print Assumptions C44_crop_before_warp.

(* the rewrite is defined for every invertible transform, and only for those *)
Theorem C44_defined : forall ys xs M,
  (exists r, swap_warp_after_crop ys xs M = Ok r) <-> ~ aff_det M == 0.
Proof. exact swap_warp_after_crop_defined. Qed.
Print Assumptions C44_defined.

(* the fast path for positive axis aligned transforms x -> s x + t, one axis, with
   the wrapping and clipping that DelayedCrop then applies to the slice *)
Theorem C44_crop_before_warp_fast : forall s t n r, 0 < s -> (0 <= n)%Z -> (fst r <= snd r)%Z ->
  exists x0 x1 off a b, fast_axis s t n r = ((x0, x1), off) /\
  wrap_clip n (Some x0, Some x1) = Ok (a, b) /\ (0 <= a <= b)%Z /\ (b <= n)%Z /\
  forall u, 0 <= u <= inject_Z n -> inject_Z (fst r) <= s * u + t <= inject_Z (snd r) ->
    inject_Z a <= u <= inject_Z b /\ a = x0 /\
    s * (u - inject_Z a) + off == (s * u + t) - inject_Z (fst r).
Proof. exact fast_axis_full. Qed.
Print Assumptions C44_crop_before_warp_fast.

Example C44_case : exists r, swap_warp_after_crop (3, 9)%Z (2, 11)%Z (Aff (3#2) (-1#4) (1#3) 2 (1#2) (-3#1)) = Ok r.
Proof. apply C44_defined. vm_compute. discriminate. Qed.
Example C44_fast_case : fast_axis (1#3) (5#2) 40 (4, 9)%Z = ((3, 23)%Z, (5#2) + (1#3) * 3 - 4).
Proof. vm_compute. reflexivity. Qed.

(** C45: replacing an overview of a crop by a crop of the overview: the new crop
    lies inside the overview's canvas, is nudged by less than one pixel to the
    left, and every source coordinate keeps its place. *)
Theorem C45_overview_before_crop : forall k r n, (0 <= k)%Z ->
  (0 <= fst r)%Z -> (fst r <= snd r)%Z -> (snd r <= n)%Z ->
  let '((q0, q1), off) := overview_crop_axis k r in
  (0 <= q0 <= q1)%Z /\ (q1 <= overview_len k n)%Z /\
  -(1) < off /\ off <= 0 /\
  (forall u, inject_Z (fst r) <= u -> u <= inject_Z (snd r) ->
     inject_Z q0 <= u / pow2 k /\ u / pow2 k <= inject_Z q1 /\
     (u / pow2 k - inject_Z q0) + off == (u - inject_Z (fst r)) / pow2 k).
Proof. exact overview_crop_axis_spec. Qed.
Print Assumptions C45_overview_before_crop.

Example C45_case : overview_crop_axis 2 (5, 14)%Z = ((1, 4)%Z, 1 - (5#4)).
Proof. vm_compute. reflexivity. Qed.

(** C45, size: "the rewritten graph reports the same size" is false, because the
    realigning warp gets an automatic size.  Overview 1 of columns 1..3 has one
    column, the rewritten crop has columns 0..2 of the overview and the warp by
    -1/2 makes that ceil(3/2) = 2 columns. *)
Theorem C45_same_size_refuted : exists k r n,
  (0 <= k)%Z /\ (0 <= fst r)%Z /\ (fst r <= snd r)%Z /\ (snd r <= n)%Z /\
  let '((q0, q1), off) := overview_crop_axis k r in
  fst (auto_dsize (aff_translate off 0) (q1 - q0, 1)%Z) <> overview_len k (snd r - fst r).
Proof. exact overview_crop_size_differs. Qed.
Print Assumptions C45_same_size_refuted.

(** C46: overview levels add; the size of level k is the ceiling of n / 2^k. *)
Theorem C46_overviews_add : forall a b sz, (0 <= a)%Z -> (0 <= b)%Z ->
  overview_dsize b (overview_dsize a sz) = overview_dsize (a + b) sz /\
  fst (overview_dsize a sz) = (- ((- fst sz) / 2 ^ a))%Z /\
  snd (overview_dsize a sz) = (- ((- snd sz) / 2 ^ a))%Z /\
  overview_dsize 0 sz = sz.
Proof. exact overview_dsize_plus. Qed.
Print Assumptions C46_overviews_add.

Example C46_case : overview_dsize 3 (1000, 7)%Z = (125, 1)%Z /\ overview_dsize 2 (9, 8)%Z = (3, 2)%Z.
Proof. vm_compute. split; reflexivity. Qed.

(** C47: warping the overview by the conjugated transform reaches the same place
    as the overview of the warped image. *)
Theorem C47_overview_commutes_with_warp : forall k B, exists C,
  warp_after_overview k B = Ok C /\
  forall x y, ax C (x / pow2 k) (y / pow2 k) == ax B x y / pow2 k /\
              ay C (x / pow2 k) (y / pow2 k) == ay B x y / pow2 k.
Proof. exact warp_after_overview_spec. Qed.
Print Assumptions C47_overview_commutes_with_warp.

(** C48: the number of pyramid steps is the largest that does not overshoot, the
    residual scale lies in (1/2, 1], and overview followed by residual is the
    original transform. *)
Theorem C48_split : forall sx sy n rx ry,
  prepare_scale_residual sx sy = Ok (n, rx, ry) ->
  0 < Qmax sx sy /\ (0 <= n)%Z /\ rx == sx * pow2 n /\ ry == sy * pow2 n /\
  (Qmax sx sy <= 1 -> 1#2 < Qmax sx sy * pow2 n /\ Qmax sx sy * pow2 n <= 1) /\
  (1 < Qmax sx sy -> n = 0%Z).
Proof. exact prepare_scale_residual_spec. Qed.
Print Assumptions C48_split.

Theorem C48_split_exact : forall M n, exists R, split_residual M n = Ok R /\
  forall x y, ax R (x / pow2 n) (y / pow2 n) == ax M x y /\
              ay R (x / pow2 n) (y / pow2 n) == ay M x y.
Proof. exact split_residual_spec. Qed.
Print Assumptions C48_split_exact.

Example C48_case : exists rx ry, prepare_scale_residual (1#9) (1#20) = Ok (3%Z, rx, ry).
Proof. vm_compute. eauto. Qed.

(** C51: a padded crop has the size of the padded window, and position p of the
    window shows source pixel low - pad + p if that exists and fill otherwise
    (one axis; [d0 + (p - e0)] is the source pixel shown through the crop
    [d0, d1) shifted by the padding e0). *)
Theorem C51_padded_crop_axis : forall D low high pad, (0 <= D)%Z -> (0 <= pad)%Z -> (low <= high)%Z ->
  exists d0 d1 e0 e1, embed_axis D low high pad = Ok ((d0, d1), (e0, e1)) /\
  (0 <= d0 <= d1)%Z /\ (d1 <= D)%Z /\
  (d1 - d0 + e0 + e1 = (high + pad) - (low - pad))%Z /\
  (forall p, (0 <= p < (high + pad) - (low - pad))%Z ->
     let z := (low - pad + p)%Z in
     ((0 <= z < D)%Z -> (0 <= p - e0 < d1 - d0)%Z /\ (d0 + (p - e0) = z)%Z) /\
     (~ (0 <= z < D)%Z -> ~ (0 <= p - e0 < d1 - d0)%Z)).
Proof. exact embed_axis_window. Qed.
Print Assumptions C51_padded_crop_axis.

(* both axes together with the warp that adds the padding; without padding warp
   the crop itself is the window *)
Theorem C51_padded_crop : forall w h ys xs pad,
  (0 <= w)%Z -> (0 <= h)%Z -> (0 <= pad)%Z -> (fst ys <= snd ys)%Z -> (fst xs <= snd xs)%Z ->
  exists dy dx tf, padded_crop (w, h) ys xs pad = Ok (dy, dx, tf) /\
  let off := match tf with Some (M, _) => (b1 M, b2 M) | None => (0, 0) end in
  let out := match tf with Some (_, sz) => sz | None => (iv_len dx, iv_len dy) end in
  match tf with Some (M, _) => M = aff_translate (b1 M) (b2 M) | None => True end /\
  out = (iv_len xs + 2 * pad, iv_len ys + 2 * pad)%Z /\
  forall px py, (0 <= px < fst out)%Z -> (0 <= py < snd out)%Z ->
    let X := (fst xs - pad + px)%Z in
    let Y := (fst ys - pad + py)%Z in
    ((0 <= X < w)%Z -> (0 <= Y < h)%Z ->
       inject_Z (fst dx) <= inject_Z (fst dx) + (inject_Z px - fst off) < inject_Z (snd dx) /\
       inject_Z (fst dy) <= inject_Z (fst dy) + (inject_Z py - snd off) < inject_Z (snd dy) /\
       inject_Z (fst dx) + (inject_Z px - fst off) == inject_Z X /\
       inject_Z (fst dy) + (inject_Z py - snd off) == inject_Z Y) /\
    (~ ((0 <= X < w)%Z /\ (0 <= Y < h)%Z) ->
       ~ (0 <= inject_Z px - fst off < inject_Z (iv_len dx) /\
          0 <= inject_Z py - snd off < inject_Z (iv_len dy))).
Proof. exact padded_crop_window. Qed.
Print Assumptions C51_padded_crop.

Example C51_case : exists dy dx M, padded_crop (10, 8)%Z (-3, 4)%Z (7, 15)%Z 1 = Ok (dy, dx, Some (M, (10, 9)%Z)) /\
  dy = (0, 5)%Z /\ dx = (6, 10)%Z.
Proof. vm_compute. repeat eexists. Qed.

(** C52: every output pixel of the nearest path is the source pixel whose
    (transformed) cell contains it, or the fill value if there is none. *)
Theorem C52_nearest : forall {V} (fill : V) sx sy tx ty in_w in_h out_w out_h
  (src : Z -> Z -> V) out,
  0 < sx -> 0 < sy ->
  nearest_warp fill sx sy tx ty in_w in_h out_w out_h src = Ok out ->
  let cell := fun s t k i => s * inject_Z k + t <= inject_Z i /\ inject_Z i < s * inject_Z (k + 1) + t in
  forall row col, (0 <= row < out_h)%Z -> (0 <= col < out_w)%Z ->
  (forall x y, (0 <= x < in_w)%Z -> (0 <= y < in_h)%Z ->
     cell sx tx x col -> cell sy ty y row -> out row col = src y x) /\
  ((forall x y, (0 <= x < in_w)%Z -> (0 <= y < in_h)%Z ->
     ~ (cell sx tx x col /\ cell sy ty y row)) -> out row col = fill).
Proof. exact @nearest_warp_spec. Qed.
Print Assumptions C52_nearest.

Example C52_case : exists out,
  nearest_warp 99%Z (3#2) (1#2) (5#2) (-1) 6 6 9 2 (fun y x => 10 * y + x)%Z = Ok out /\
  out 1%Z 7%Z = 43%Z /\ out 1%Z 2%Z = 99%Z.
Proof. eexists. vm_compute. repeat split. Qed.

(** C72: "the nearest path computes an output for every output size" is false:
    when part of the output lies too far outside the source, the masked-out
    positions still index the source and numpy raises IndexError. *)
Theorem C72_nearest_total_refuted : exists (fill : Z) tx ty in_w in_h out_w out_h src,
  (0 < in_w)%Z /\ (0 < in_h)%Z /\ (0 < out_w)%Z /\ (0 < out_h)%Z /\
  nearest_warp fill 1 1 tx ty in_w in_h out_w out_h src = Err IndexError.
Proof. exists 0%Z, (-1), 0, 4%Z, 4%Z, 4%Z, 4%Z, (fun y x => (10 * y + x)%Z). vm_compute. repeat split. Qed.
Print Assumptions C72_nearest_total_refuted.

(** It succeeds exactly when no output pixel is covered, or every output column and
    row lies within one source width / height before the origin of the warped
    source and its end. *)
Theorem C72_nearest_total_partial : forall {V} (fill : V) sx sy tx ty in_w in_h out_w out_h
  (src : Z -> Z -> V), 0 < sx -> 0 < sy ->
  let cell := fun s t k i => s * inject_Z k + t <= inject_Z i /\ inject_Z i < s * inject_Z (k + 1) + t in
  (exists out, nearest_warp fill sx sy tx ty in_w in_h out_w out_h src = Ok out) <->
  (forall row col x y, (0 <= row < out_h)%Z -> (0 <= col < out_w)%Z ->
     (0 <= x < in_w)%Z -> (0 <= y < in_h)%Z -> cell sx tx x col -> cell sy ty y row ->
     (forall i, (0 <= i < out_w)%Z ->
        sx * inject_Z (- in_w) + tx <= inject_Z i /\ inject_Z i < sx * inject_Z in_w + tx) /\
     (forall i, (0 <= i < out_h)%Z ->
        sy * inject_Z (- in_h) + ty <= inject_Z i /\ inject_Z i < sy * inject_Z in_h + ty)).
Proof. exact @nearest_warp_defined. Qed.
Print Assumptions C72_nearest_total_partial.

(** C54: a lazy crop returns the image itself only if the slice is the whole
    canvas and there is no padding; a lazy warp only if the requested size is the
    current one (or automatic) and the transform is (close to) the identity.
    [close] is kwimage's tolerance test; when it is exact, an eager warp would
    have had the same size and moved nothing. *)
Theorem C54_lazy_crop_full : forall w h ys xs pad ci, (0 <= w)%Z -> (0 <= h)%Z ->
  lazy_crop_noop (w, h) ys xs pad ci = true ->
  wrap_clip h ys = Ok (0%Z, h) /\ wrap_clip w xs = Ok (0%Z, w) /\ pad = false.
Proof. exact lazy_crop_noop_full. Qed.
Print Assumptions C54_lazy_crop_full.

Theorem C54_lazy_warp : forall close w h M dsize, (0 <= w)%Z -> (0 <= h)%Z ->
  (forall N, close N = true -> is_identity N = true) ->
  lazy_warp_noop close (w, h) M dsize = true ->
  (dsize = None \/ dsize = Some (w, h)) /\
  match M with
  | None => True
  | Some N => (forall x y, ax N x y == x /\ ay N x y == y) /\ auto_dsize N (w, h) = (w, h)
  end.
Proof. exact lazy_warp_noop_spec. Qed.
Print Assumptions C54_lazy_warp.

(* "crop(lazy=True) returns the image itself only when that changes nothing" is
   false: with a band selection and a full slice the selection is dropped. *)
Theorem C54_lazy_crop_refuted : exists sz ys xs ci nbands,
  lazy_crop_noop sz ys xs false (Some ci) = true /\
  (forall i, In i ci -> (0 <= i < nbands)%Z) /\ Z.of_nat (List.length ci) <> nbands.
Proof. exact lazy_crop_drops_bands. Qed.
Print Assumptions C54_lazy_crop_refuted.

Example C54_case : lazy_crop_noop (5, 4)%Z (Some 0, None)%Z (None, Some 5%Z) false None = true /\
  lazy_warp_noop is_identity (5, 4)%Z (Some aff_id) None = true.
Proof. vm_compute. split; reflexivity. Qed.
