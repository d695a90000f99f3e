(* Finalizing a delayed graph: the _finalize methods of delayed_nodes.py and
   delayed_leafs.py, over abstract pixel values. *)
From Verif Require Import Py GeomModel GraphModel.
Local Open Scope Z_scope.

(* A numpy array of height a_h, width a_w and a_c bands; a_c = None is a 2-d
   array.  a_pix row column band; the values outside the bounds are irrelevant.
   See numpy.ndarray of 2 or 3 axes *)
Record array (V : Type) := Arr { a_h : Z; a_w : Z; a_c : option Z; a_pix : Z -> Z -> Z -> V }.
Arguments Arr {V}. Arguments a_h {V}. Arguments a_w {V}. Arguments a_c {V}. Arguments a_pix {V}.

(* Pixel data of the leafs and the value operations.  w_flat: the data of a
   DelayedIdentity given as a 2-d array.  w_dq is helpers.dequantize, which works
   element by element (QuantModel.v).  w_fill is the border value of warps.
   See the data of the leafs (delayed_leafs.py:305-336, 389-399, 520-524) and the operations on values *)
Record world (V : Type) := World {
  w_pix : Z -> Z -> Z -> Z -> V; w_flat : Z -> bool;
  w_nan : V; w_fill : V; w_dq : Z -> V -> V }.
Arguments World {V}. Arguments w_pix {V}. Arguments w_flat {V}. Arguments w_nan {V}.
Arguments w_fill {V}. Arguments w_dq {V}.

Section Finalize.
Context {V : Type} (W : world V).

(* kwarray.atleast_nd(a, 3) for an array of 2 or 3 dimensions
   See kwarray.atleast_nd, delayed_nodes.py:781-792, 2717-2732 *)
Definition atleast3 (a : array V) : array V :=
  match a_c a with
  | Some _ => a
  | None => Arr (a_h a) (a_w a) (Some 1) (a_pix a)
  end.

(* delayed_leafs.py:305-334 (DelayedLoad; the lazy reference is modelled in
   LazyModel.v), 389-399 (DelayedNans), 520-525 (DelayedIdentity).  The data of a
   prepared leaf has the size its metadata says; an unknown channel number makes
   _ensure_valid_shape fail. *)
Definition finalize_leaf (l : leaf) : result (array V) :=
  match l_nc l with
  | None => Err TypeError
  | Some n =>
      let '(w, h) := l_dsize l in
      match l_kind l with
      | Nans => Ok (Arr h w (Some n) (fun _ _ _ => w_nan W))
      | Data => Ok (Arr h w (if w_flat W (l_id l) then None else Some n)
                      (fun r c b => w_pix W (l_id l) r c b))
      end
  end.

(* numpy basic slicing a:b of an axis of length n: first index and length *)
Definition axis_slice (n : Z) (i : ival) : Z * Z :=
  let lo := slice_bound n (fst i) in
  let hi := slice_bound n (snd i) in
  (lo, Z.max 0 (hi - lo)).

(* numpy integer index *)
Definition np_index (n i : Z) : result Z :=
  if ((- n <=? i) && (i <? n))%bool then Ok (if i <? 0 then i + n else i) else Err IndexError.

(* a[ys, xs] and a[ys, xs, [i0, i1, ...]]; a 2-d array rejects a third index
   See numpy indexing, delayed_nodes.py:2717-2732 *)
Definition index_array (a : array V) (ys xs : ival) (ci : option (list Z)) : result (array V) :=
  let '(y0, h) := axis_slice (a_h a) ys in
  let '(x0, w) := axis_slice (a_w a) xs in
  match ci with
  | None => Ok (Arr h w (a_c a) (fun r c b => a_pix a (r + y0) (c + x0) b))
  | Some l =>
      match a_c a with
      | None => Err IndexError
      | Some n =>
          l' <- mapR (np_index n) l ;;
          Ok (Arr h w (Some (Z.of_nat (List.length l')))
                (fun r c b => a_pix a (r + y0) (c + x0) (nth (Z.to_nat b) l' 0)))
      end
  end.

(* np.concatenate([a, b], axis=2); see np.concatenate, delayed_nodes.py:781-792 *)
Definition cat2 (a b : array V) : result (array V) :=
  match a_c a, a_c b with
  | Some m, Some n =>
      if ((a_h a =? a_h b) && (a_w a =? a_w b))%bool then
        Ok (Arr (a_h a) (a_w a) (Some (m + n))
              (fun r c k => if k <? m then a_pix a r c k else a_pix b r c (k - m)))
      else Err ValueError
  | _, _ => Err ValueError
  end.

(* np.concatenate, delayed_nodes.py:781-792 *)
Fixpoint cat_all (a : array V) (l : list (array V)) : result (array V) :=
  match l with
  | [] => Ok a
  | b :: r => x <- cat_all b r ;; cat2 a x
  end.

(* delayed_nodes.py:786-792 *)
Definition stack_bands (l : list (array V)) : result (array V) :=
  match l with
  | [] => Err ValueError
  | [a] => Ok a
  | a :: r => cat_all (atleast3 a) (map atleast3 r)
  end.

(* delayed_nodes.py:2558-2570 *)
Definition dq_array (q : option Z) (a : array V) : array V :=
  match q with
  | None => a
  | Some i => Arr (a_h a) (a_w a) (a_c a) (fun r c b => w_dq W i (a_pix a r c b))
  end.

(* cv2.resize / kwimage.imresize with nearest interpolation, one axis *)
Definition resize_src (n_in n_out i : Z) : Z := i * n_in / n_out.

(* delayed_nodes.py:1835-1892 (axis aligned with a translation) and 1946-1962
   (pure scale: resized to dsize, whatever the scale) for nearest interpolation;
   all other warps are left to OpenCV and not modelled. *)
Definition nearest_array (M : affine) (d : size) (a : array V) : result (array V) :=
  if negb (axis_aligned M) then Err OtherError
  else if (Qeq_bool (b1 M) 0 && Qeq_bool (b2 M) 0)%bool then
    if ((fst d <=? 0) || (snd d <=? 0))%bool then Err OtherError else
    Ok (atleast3 (Arr (snd d) (fst d) (a_c a)
         (fun r c k => a_pix a (resize_src (a_h a) (snd d) r) (resize_src (a_w a) (fst d) c) k)))
  else
    p <- nearest_warp (fun _ => w_fill W) (a11 M) (a22 M) (b1 M) (b2 M)
           (a_w a) (a_h a) (fst d) (snd d) (fun r c k => a_pix a r c k) ;;
    Ok (atleast3 (Arr (snd d) (fst d) (a_c a) (fun r c k => p r c k))).

(* _finalize().  An overview is read from the file or resized by OpenCV: not
   modelled here (OtherError), like warps other than nearest axis aligned ones. *)
Fixpoint finalize (t : node) : result (array V) :=
  match t with
  | Leaf l => finalize_leaf l
  | Concat ps _ => l <- mapR (fun x => x) (map finalize ps) ;; stack_bands l
  | Crop s ys xs ci _ _ _ =>                       (* delayed_nodes.py:2717-2732 *)
      a <- finalize s ;; rmap atleast3 (index_array a ys xs ci)
  | Dequant s q _ =>                               (* delayed_nodes.py:2558-2570 *)
      rmap (fun a => dq_array q (atleast3 a)) (finalize s)
  | Warp s M d al =>
      a <- finalize s ;; if al_nearest al then nearest_array M d a else Err OtherError
  | Overview _ _ _ => Err OtherError
  end.

End Finalize.
