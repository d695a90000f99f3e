(* The image operations users call: crop, warp, scale, resize and get_overview of
   ImageOpsMixin (delayed_image/delayed_nodes.py), over the constructors of
   GraphModel.v. *)
From Verif Require Import Py GeomModel GraphModel.
Local Open Scope Z_scope.

(* the bounds of a slice without negative index rules (kwarray.embed_slice:
   missing bounds are 0 and the length); see delayed_nodes.py:421-450 *)
Definition plain_bounds (D : Z) (s : pyslice) : ival :=
  (match fst s with Some a => a | None => 0 end, match snd s with Some b => b | None => D end).

(* delayed_nodes.py:421-450 _padded_crop, [pad] one number for both axes.  The
   band selection of the caller is not a parameter. *)
Definition api_padded_crop (s : node) (sl : pyslice * pyslice) (pad : Z) : result node :=
  match dsize s with
  | None => Err OtherError
  | Some sz =>
      '(dy, dx, tf) <- padded_crop sz (plain_bounds (snd sz) (fst sl)) (plain_bounds (fst sz) (snd sl)) pad ;;
      c <- mkCrop s (Some (some_slice dy, some_slice dx)) None ;;
      match tf with
      | None => Ok c
      | Some (T, d) => Ok (Warp c T d default_algo)
      end
  end.

(* delayed_nodes.py:195-363 crop(space_slice, chan_idxs, clip, wrap, pad, lazy);
   NotImplementedError is OtherError *)
Definition api_crop (s : node) (sl : option (pyslice * pyslice)) (ci : option (list Z))
  (clip wrap : bool) (pad : Z) (lazy : bool) : result node :=
  noop <- (if lazy then
             match dsize s, sl with
             | Some sz, Some (ys, xs) => Ok (lazy_crop_noop sz ys xs (negb (pad =? 0)) ci)
             | _, _ => Err AssertionError
             end
           else Ok false) ;;
  if (noop : bool) then Ok s
  else if (negb clip || negb wrap || negb (pad =? 0))%bool then
    if (clip || wrap)%bool then Err OtherError
    else match sl with
         | None => Err TypeError
         | Some sl => api_padded_crop s sl pad
         end
  else mkCrop s sl ci.

(* delayed_nodes.py:452-529 warp(transform, dsize, lazy); a missing dsize is
   'auto', [close] is kwimage's isclose_identity *)
Definition api_warp (close : affine -> bool) (s : node) (M : affine) (d : option size)
  (al : algo) (lazy : bool) : result node :=
  match dsize s with
  | None => Err TypeError
  | Some sz =>
      if (lazy && lazy_warp_noop close sz (Some M) d)%bool then Ok s
      else match d with
           | None => mkWarp_auto s M al
           | Some d => Ok (Warp s M d al)
           end
  end.

(* delayed_nodes.py:531-537 scale *)
Definition api_scale (close : affine -> bool) (s : node) (fx fy : Q) (d : option size)
  (al : algo) (lazy : bool) : result node :=
  api_warp close s (aff_scale fx fy) d al lazy.

(* delayed_nodes.py:539-549 resize.  For an image without rows or columns numpy
   divides by zero (inf or nan factors); that is an error here. *)
Definition api_resize (close : affine -> bool) (s : node) (d : size) (al : algo) (lazy : bool)
  : result node :=
  match dsize s with
  | None => Err AssertionError
  | Some (w, h) =>
      if ((w =? 0) || (h =? 0))%bool then Err OtherError
      else api_scale close s (inject_Z (fst d) / inject_Z w) (inject_Z (snd d) / inject_Z h) (Some d) al lazy
  end.

(* delayed_nodes.py:365-419 _coordinate_crop of the box with top left corner
   (x0, y0); width and height are whole numbers here *)
Definition api_coordinate_crop (close : affine -> bool) (s : node) (x0 y0 : Q) (d : size) : result node :=
  api_warp close s (aff_translate (- x0) (- y0)) (Some d) default_algo false.

(* a chain of warps, first applied first
   See a chain of DelayedWarp nodes (delayed_nodes.py:1681-1760) *)
Definition warps (s : node) (c : list (affine * size * algo)) : node :=
  fold_left (fun t w => Warp t (fst (fst w)) (snd (fst w)) (snd w)) c s.
