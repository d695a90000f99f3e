(* image[ys, xs, bands] where the bands are a list of indexes, a slice or one
   integer, selections of selections, and what optimize() makes of them
   (delayed_nodes.py, channel_spec.py).  The image below the selections is a leaf
   that holds data (DelayedLoad, DelayedIdentity). *)
From Verif Require Import Py GeomModel GraphModel FinalModel TakeModel.
Local Open Scope Z_scope.

(* the third entry of the subscript, delayed_nodes.py:1316-1325; slices have no step *)
Inductive bands := BandList (l : list Z) | BandSlice (s : pyslice) | BandInt (k : Z).

(* a leaf, or a DelayedCrop with what its meta dict stores
   See delayed_nodes.py:2668-2715 *)
Inductive view :=
| Source (l : leaf)
| Select (sub : view) (ys xs : ival) (b : option bands) (dsize : size)
         (names : option (list string)) (nc : option Z).

(* delayed_nodes.py:1266-1276 *)
Definition v_dsize (v : view) : size :=
  match v with Source l => l_dsize l | Select _ _ _ _ d _ _ => d end.

(* delayed_nodes.py:1278-1287 *)
Fixpoint v_names (v : view) : option (list string) :=
  match v with
  | Source l => l_names l
  | Select s _ _ _ _ nm _ => match nm with Some n => Some n | None => v_names s end
  end.

(* delayed_nodes.py:1255-1264 *)
Fixpoint v_channels (v : view) : option Z :=
  match v with
  | Source l => l_nc l
  | Select s _ _ _ _ _ nc => match nc with Some n => Some n | None => v_channels s end
  end.

(* channel_spec.py:424-431 FusedChannelSpec.__getitem__: a slice of the list of
   codes, the listed codes, or one code *)
Definition choose {A} (l : list A) (b : bands) : result (list A) :=
  match b with
  | BandList is => mapR (py_get l) is
  | BandSlice (lo, hi) => Ok (py_slice l lo hi)
  | BandInt k => c <- py_get l k ;; Ok [c]
  end.

(* len(chan_idxs), delayed_nodes.py:2711: slices and integers have no length *)
Definition band_len (b : bands) : result Z :=
  match b with
  | BandList l => Ok (Z.of_nat (List.length l))
  | BandSlice _ => Err TypeError
  | BandInt _ => Err TypeError
  end.

(* delayed_nodes.py:2668-2715 DelayedCrop.__init__ *)
Definition new_select (v : view) (sl : pyslice * pyslice) (b : option bands) : result view :=
  let '(w, h) := v_dsize v in
  y <- wrap_clip h (fst sl) ;;
  x <- wrap_clip w (snd sl) ;;
  '(nm, nc) <- match b with
               | None => Ok (None, None)
               | Some b =>
                   match v_names v with
                   | Some n => n' <- choose n b ;; Ok (Some n', Some (Z.of_nat (List.length n')))
                   | None => k <- band_len b ;; Ok (None, Some k)
                   end
               end ;;
  Ok (Select v y x b (iv_len x, iv_len y) nm nc).

(* what can stand between the brackets of image[...] *)
Inductive subscript := NotTuple | Two (ys xs : pyslice) | Three (ys xs : pyslice) (b : bands) | OtherDims.

(* delayed_nodes.py:1314-1325 DelayedImage.__getitem__, which calls crop with
   lazy=True off (198-362) *)
Definition v_index (v : view) (i : subscript) : result view :=
  match i with
  | NotTuple => Err TypeError
  | Two ys xs => new_select v (ys, xs) None
  | Three ys xs b => new_select v (ys, xs) (Some b)
  | OtherDims => Err ValueError
  end.

Section Finalize.
Context {V : Type} (W : world V).

(* numpy a[ys, xs, b]: delayed_nodes.py:2725-2730 *)
Definition index_bands (a : array V) (ys xs : ival) (b : option bands) : result (array V) :=
  match b with
  | None => index_array a ys xs None
  | Some (BandList l) => index_array a ys xs (Some l)
  | Some (BandInt k) => index_one a ys xs k
  | Some (BandSlice (lo, hi)) =>
      let '(y0, h) := axis_slice (a_h a) ys in
      let '(x0, w) := axis_slice (a_w a) xs in
      match a_c a with
      | None => Err IndexError
      | Some n =>
          let s := match lo with None => 0 | Some i => slice_bound n i end in
          let e := match hi with None => n | Some i => slice_bound n i end in
          Ok (Arr h w (Some (Z.max 0 (e - s))) (fun r c k => a_pix a (r + y0) (c + x0) (k + s)))
      end
  end.

(* delayed_nodes.py:2717-2732 DelayedCrop._finalize *)
Fixpoint v_finalize (v : view) : result (array V) :=
  match v with
  | Source l => finalize_leaf W l
  | Select s ys xs b _ _ _ => a <- v_finalize s ;; rmap atleast3 (index_bands a ys xs b)
  end.
End Finalize.

(* list(ub.take(inner, outer)), delayed_nodes.py:2895-2905: iterates the outer
   selection (only a list can be iterated) and subscripts the inner one (only a
   list can be subscripted) *)
Definition fuse_bands (inner outer : option bands) : result (option bands) :=
  match outer, inner with
  | None, None => Ok None
  | None, Some i => Ok (Some i)
  | Some o, None => Ok (Some o)
  | Some (BandList o), Some i =>
      r <- mapR (fun k => match i with BandList l => py_get l k | _ => Err TypeError end) o ;;
      Ok (Some (BandList r))
  | Some _, Some _ => Err TypeError
  end.

(* delayed_nodes.py:2735-2775, 2826-2910: a selection of a selection is fused;
   a leaf that holds data is left as it is *)
Fixpoint v_optimize (v : view) : result view :=
  match v with
  | Source l => Ok v
  | Select s ys xs b d nm nc =>
      s' <- v_optimize s ;;
      match s' with
      | Source _ => Ok (Select s' ys xs b d nm nc)
      | Select inner ys1 xs1 b1 _ _ _ =>
          b' <- fuse_bands b1 b ;;
          new_select inner (fuse_axis ys1 ys, fuse_axis xs1 xs) b'
      end
  end.
