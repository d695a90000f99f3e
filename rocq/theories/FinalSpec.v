(* Vocabulary for statements about finalized arrays. *)
From Verif Require Import Py GeomModel GraphModel GraphSpec FinalModel.
Local Open Scope Z_scope.

(* the same array: same shape, same value at every row, column and band *)
Definition same_array {V} (a b : array V) : Prop :=
  a_h a = a_h b /\ a_w a = a_w b /\ a_c a = a_c b /\
  forall r c k, 0 <= r < a_h a -> 0 <= c < a_w a ->
    (match a_c a with Some n => 0 <= k < n | None => k = 0 end) ->
    a_pix a r c k = a_pix b r c k.

(* every leaf that holds data holds a 3-d array *)
Definition all_3d {V} (W : world V) (t : node) : Prop :=
  leafs_all (fun l => w_flat W (l_id l) = false) t.

(* data given as H x W arrays has one channel *)
Definition flat_one {V} (W : world V) (t : node) : Prop :=
  leafs_all (fun l => w_flat W (l_id l) = true -> l_nc l = Some 1) t.

(* the same data with every H x W array given as an H x W x 1 array *)
Definition unflat {V} (W : world V) : world V :=
  World (w_pix W) (fun _ => false) (w_nan W) (w_fill W) (w_dq W).

(* the value of a sample: the pixel that contains the source coordinate *)
Definition value {V} (W : world V) (s : sample) : V :=
  match s with
  | NaN dq => fold_right (w_dq W) (w_nan W) dq
  | Samp id b x y dq => fold_right (w_dq W) (w_pix W id (Qfloor y) (Qfloor x) b) dq
  end.

(* the centre of a pixel *)
Definition centre (i : Z) : Q := (inject_Z i + (1 # 2))%Q.

(* A nearest neighbour warp that enlarges by whole factors and moves by whole pixels,
   horizontally in the direction of u and vertically in that of v.  A warp that does not
   move the image must have the size of the enlarged image (the size it is given when
   none is requested). *)
Definition whole_warp (u v : Z) (sz : option size) (M : affine) (d : size) (al : algo) : Prop :=
  al_nearest al = true /\
  exists p q i j, 0 < p /\ 0 < q /\
    (a11 M == inject_Z p)%Q /\ (a12 M == 0)%Q /\ (a21 M == 0)%Q /\ (a22 M == inject_Z q)%Q /\
    (b1 M == inject_Z i)%Q /\ (b2 M == inject_Z j)%Q /\
    0 <= u * i /\ 0 <= v * j /\
    (i = 0 -> j = 0 -> exists w h, sz = Some (w, h) /\ d = (p * w, q * h)).

(* A nearest neighbour warp that enlarges by whole factors and shows a window (with at
   least one pixel) of the enlarged image: the whole of it, or one that does not start in
   its corner. *)
Definition cut_warp (sz : option size) (M : affine) (d : size) (al : algo) : Prop :=
  al_nearest al = true /\
  exists w h p q x0 y0, sz = Some (w, h) /\ 0 < p /\ 0 < q /\ 0 <= x0 /\ 0 <= y0 /\
    (a11 M == inject_Z p)%Q /\ (a12 M == 0)%Q /\ (a21 M == 0)%Q /\ (a22 M == inject_Z q)%Q /\
    (b1 M == inject_Z (- x0))%Q /\ (b2 M == inject_Z (- y0))%Q /\
    0 < fst d /\ 0 < snd d /\ x0 + fst d <= p * w /\ y0 + snd d <= q * h /\
    (x0 = 0 -> y0 = 0 -> d = (p * w, q * h)).
