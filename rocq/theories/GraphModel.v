(* The delayed operation graph and its optimizer (delayed_nodes.py,
   delayed_leafs.py).  A graph is a tree: a node object that occurs twice is
   treated as two equal subtrees, and the per-call memo table is left out (it is
   modelled separately in MemoModel.v).  Leafs are prepared, so their size is
   known.  DelayedAsXarray is in XarrayModel.v. *)
From Verif Require Import Py GeomModel.
From Coq Require Import Qabs.
Local Open Scope Q_scope.

(** ** Nodes *)

(* DelayedLoad / DelayedIdentity hold data; DelayedNans / DelayedNodata do not
   See delayed_leafs.py:43-56, 362-383, 446-463, 492-510, the leaf classes *)
Inductive kind := Data | Nans.

(* delayed_leafs.py:137-167, 385-387, 512-518: identity of the data, size (w, h),
   channel names, number of channels, number of stored overviews (None when the
   key is missing).  Channel specs are modelled by their normalized name list
   (ChanModel.v models the specs). *)
Record leaf := MkLeaf {
  l_id : Z; l_kind : kind; l_dsize : size;
  l_names : option (list string); l_nc : option Z; l_ov : option Z }.

(* delayed_nodes.py:1746-1760: algorithm parameters of a warp.  [al_tag] stands
   for interpolation (other than nearest), antialias and border_value;
   [al_backend] is not in _algo_keys, 0 is the default 'auto'. *)
Record algo := Algo { al_nearest : bool; al_eps : Q; al_tag : Z; al_backend : Z }.
(* delayed_nodes.py:1746-1760, the defaults of a warp *)
Definition default_algo : algo := Algo false 0 0 0.
(* delayed_nodes.py:2162-2172, 2408-2418: _algo_keys leaves the backend out *)
Definition drop_backend (a : algo) : algo :=
  Algo (al_nearest a) (al_eps a) (al_tag a) 0.

(* Every node stores what its meta dict stores.  A crop stores names and number
   of channels only when bands are selected (delayed_nodes.py:2706-2712).  A
   quantization is modelled by an identifier; None is dequantize(None). *)
Inductive node :=
| Leaf (l : leaf)
| Concat (parts : list node) (dsize : option size)
| Crop (sub : node) (ys xs : ival) (ci : option (list Z)) (dsize : size)
       (names : option (list string)) (nc : option Z)
| Warp (sub : node) (M : affine) (dsize : size) (al : algo)
| Dequant (sub : node) (q : option Z) (dsize : option size)
| Overview (sub : node) (k : Z) (dsize : size).

(** ** Derived properties of a node *)

(* delayed_nodes.py:1266-1276 DelayedImage.dsize: own meta, else the child's *)
Fixpoint dsize (t : node) : option size :=
  match t with
  | Leaf l => Some (l_dsize l)
  | Concat _ d => d
  | Crop _ _ _ _ d _ _ => Some d
  | Warp _ _ d _ => Some d
  | Dequant s _ d => match d with Some d => Some d | None => dsize s end
  | Overview _ _ d => Some d
  end.

(* sum(comp.num_channels), None when one is None (delayed_nodes.py:737-743) *)
Fixpoint sum_opt (l : list (option Z)) : option Z :=
  match l with
  | [] => Some 0%Z
  | o :: l' => match o, sum_opt l' with Some a, Some b => Some (a + b)%Z | _, _ => None end
  end.

(* delayed_nodes.py:1255-1264, 737-743 num_channels *)
Fixpoint num_channels (t : node) : option Z :=
  match t with
  | Leaf l => l_nc l
  | Concat ps _ => sum_opt (map num_channels ps)
  | Crop s _ _ _ _ _ nc => match nc with Some n => Some n | None => num_channels s end
  | Warp s _ _ _ => num_channels s
  | Dequant s _ _ => num_channels s
  | Overview s _ _ => num_channels s
  end.

(* delayed_nodes.py:755-769: None as soon as one part has no names *)
Fixpoint concat_opt (l : list (option (list string))) : option (list string) :=
  match l with
  | [] => Some []
  | o :: l' => match o, concat_opt l' with Some a, Some b => Some (a ++ b)%list | _, _ => None end
  end.

(* delayed_nodes.py:1278-1287, 755-769 channels *)
Fixpoint names (t : node) : option (list string) :=
  match t with
  | Leaf l => l_names l
  | Concat ps _ => concat_opt (map names ps)
  | Crop s _ _ _ _ nm _ => match nm with Some n => Some n | None => names s end
  | Warp s _ _ _ => names s
  | Dequant s _ _ => names s
  | Overview s _ _ => names s
  end.

(* Python: == of optional numbers *)
Definition opt_Z_eqb (a b : option Z) : bool :=
  match a, b with Some x, Some y => (x =? y)%Z | None, None => true | _, _ => false end.

(* delayed_nodes.py:1303-1312, 1024-1040, 3122-3130 num_overviews.  None - int
   is a TypeError; an empty concat has no candidate to take (IndexError). *)
Fixpoint num_overviews (t : node) : result (option Z) :=
  match t with
  | Leaf l => Ok (l_ov l)
  | Concat ps _ =>
      c <- mapR (fun x => x) (map num_overviews ps) ;;
      match c with
      | [] => Err IndexError
      | a :: r => if forallb (opt_Z_eqb a) r then Ok a else Ok None
      end
  | Crop s _ _ _ _ _ _ => num_overviews s
  | Warp s _ _ _ => num_overviews s
  | Dequant s _ _ => num_overviews s
  | Overview s k _ =>
      n <- num_overviews s ;;
      match n with Some n => Ok (Some (n - k)%Z) | None => Err TypeError end
  end.

(** ** Constructors *)

(* Python: == of optional sizes *)
Definition opt_size_eqb (a b : option size) : bool :=
  match a, b with Some x, Some y => size_eqb x y | None, None => true | _, _ => false end.

(* delayed_nodes.py:714-743 DelayedChannelConcat without dsize; None is a
   CoordinateCompatibilityError *)
Definition mkConcat (ps : list node) : option node :=
  match map dsize ps with
  | [] => Some (Concat ps None)
  | d :: r => if forallb (opt_size_eqb d) r then Some (Concat ps d) else None
  end.

(* channels[chan_idxs] for a list of indexes (channel_spec.py:424-431) *)
Definition select_names (l : list string) (ci : list Z) : result (list string) :=
  mapR (py_get l) ci.

(* delayed_nodes.py:2668-2715 DelayedCrop.__init__ *)
Definition mkCrop (s : node) (sl : option (pyslice * pyslice)) (ci : option (list Z))
  : result node :=
  match dsize s with
  | None => Err AssertionError
  | Some (w, h) =>
      '(ys, xs) <- match sl with
                   | Some (ys, xs) => y <- wrap_clip h ys ;; x <- wrap_clip w xs ;; Ok (y, x)
                   | None => Ok ((0, h), (0, w))%Z
                   end ;;
      '(nm, nc) <- match ci with
                   | None => Ok (None, None)
                   | Some l =>
                       match names s with
                       | Some n => n' <- select_names n l ;;
                                   Ok (Some n', Some (Z.of_nat (List.length n')))
                       | None => Ok (None, Some (Z.of_nat (List.length l)))
                       end
                   end ;;
      Ok (Crop s ys xs ci (iv_len xs, iv_len ys) nm nc)
  end.

(* delayed_nodes.py:1700-1760 DelayedWarp.__init__ with dsize='auto' *)
Definition mkWarp_auto (s : node) (M : affine) (al : algo) : result node :=
  match dsize s with
  | None => Err TypeError
  | Some sz => Ok (Warp s M (auto_dsize M sz) al)
  end.

(* delayed_nodes.py:2545-2556 DelayedDequantize.__init__ *)
Definition mkDequant (s : node) (q : option Z) : node := Dequant s q (dsize s).

(* delayed_nodes.py:3097-3120 DelayedOverview.__init__ *)
Definition mkOverview (s : node) (k : Z) : result node :=
  match dsize s with
  | None => Err AssertionError
  | Some sz => Ok (Overview s k (overview_dsize k sz))
  end.

(* Python: slice(a, b) *)
Definition some_slice (i : ival) : pyslice := (Some (fst i), Some (snd i)).

(* delayed_nodes.py:421-450 _padded_crop without user padding *)
Definition padded_crop_node (s : node) (ys xs : ival) : result node :=
  match dsize s with
  | None => Err TypeError
  | Some sz =>
      '(dy, dx, tf) <- padded_crop sz ys xs 0 ;;
      c <- mkCrop s (Some (some_slice dy, some_slice dx)) None ;;
      match tf with
      | None => Ok c
      | Some (T, d) => Ok (Warp c T d default_algo)
      end
  end.

(** ** Attributes used by the rewrite rules *)

(* node.subdata: a concat has no such attribute, that of a leaf is None
   See delayed_base.py:503-505, attribute subdata *)
Definition subdata (t : node) : result (option node) :=
  match t with
  | Leaf _ => Ok None
  | Concat _ _ => Err AttributeError
  | Crop s _ _ _ _ _ _ | Warp s _ _ _ | Dequant s _ _ | Overview s _ _ => Ok (Some s)
  end.

(* delayed_nodes.py:1489-1502, 1049-1055: rebuild the operation over every part;
   None when the parts are not compatible.  For a crop the band selection is
   passed on to every part. *)
Definition push_under (t : node) : result (option node) :=
  match t with
  | Crop (Concat ps _) ys xs ci _ _ _ =>
      rmap mkConcat (mapR (fun p => mkCrop p (Some (some_slice ys, some_slice xs)) ci) ps)
  | Warp (Concat ps _) M d al => Ok (mkConcat (map (fun p => Warp p M d al) ps))
  | Dequant (Concat ps _) q _ => Ok (mkConcat (map (fun p => mkDequant p q) ps))
  | Overview (Concat ps _) k _ => rmap mkConcat (mapR (fun p => mkOverview p k) ps)
  | _ => Ok None
  end.

(* delayed_leafs.py:401-432 DelayedNans._optimized_crop; the number of channels
   is that of the names, unknown when there are none *)
Definition nans_leaf (l : leaf) (d : size) (nm : option (list string)) : leaf :=
  MkLeaf (l_id l) (l_kind l) d nm (option_map (fun n => Z.of_nat (List.length n)) nm) (l_ov l).

(* delayed_leafs.py:401-432 DelayedNans._optimized_crop *)
Definition nans_crop (l : leaf) (ys xs : ival) (ci : option (list Z)) : result node :=
  nm <- match ci with
        | None => Ok (l_names l)
        | Some i => match l_names l with
                    | None => Err AssertionError
                    | Some n => rmap Some (select_names n i)
                    end
        end ;;
  '(dy, _) <- embed_axis (snd (l_dsize l)) (fst ys) (snd ys) 0 ;;
  '(dx, _) <- embed_axis (fst (l_dsize l)) (fst xs) (snd xs) 0 ;;
  Ok (Leaf (nans_leaf l (iv_len dx, iv_len dy) nm)).

(* delayed_leafs.py:434-443 DelayedNans._optimized_warp *)
Definition nans_warp (l : leaf) (d : size) : node := Leaf (nans_leaf l d (l_names l)).

(* Affine.isclose_identity(rtol=eps, atol=eps): numpy.allclose with the identity
   See the test of delayed_nodes.py:2108-2111 *)
Definition entry_close (eps a b : Q) : bool := Qle_bool (Qabs (a - b)) (eps + eps * Qabs b).
(* the test of delayed_nodes.py:2108-2111 *)
Definition close_identity (eps : Q) (M : affine) : bool :=
  entry_close eps (a11 M) 1 && entry_close eps (a12 M) 0 && entry_close eps (a21 M) 0 &&
  entry_close eps (a22 M) 1 && entry_close eps (b1 M) 0 && entry_close eps (b2 M) 0.

(* delayed_nodes.py:2966-2971: positive axis aligned transform (the tolerance
   1e-9 on the angles is idealized to 0) *)
Definition axis_aligned (M : affine) : bool :=
  Qeq_bool (a12 M) 0 && Qeq_bool (a21 M) 0 &&
  negb (Qle_bool (a11 M) 0) && negb (Qle_bool (a22 M) 0).

(** ** take_channels with band indexes *)

(* kwarray.FlatIndexer.unravel: the part owning a flat band index and the index
   within it; negative or too large indexes are an error here
   See delayed_nodes.py:968-976, kwarray.FlatIndexer *)
Fixpoint unravel (sizes : list Z) (i : Z) (pos : nat) : result (nat * Z) :=
  match sizes with
  | [] => Err IndexError
  | n :: r => if (i <? n)%Z then (if (i <? 0)%Z then Err IndexError else Ok (pos, i))
              else unravel r (i - n)%Z (S pos)
  end.

(* delayed_nodes.py:972-1002: maximal runs of consecutive requests served by the
   same part (two occurrences of one object are taken to be different parts) *)
Fixpoint segments (l : list (nat * Z)) : list (nat * list Z) :=
  match l with
  | [] => []
  | (p, i) :: r =>
      match segments r with
      | (p', is) :: rest => if Nat.eqb p p' then (p, i :: is) :: rest
                            else (p, [i]) :: (p', is) :: rest
      | [] => [(p, [i])]
      end
  end.

(* Python: == of lists of numbers *)
Fixpoint list_Z_eqb (a b : list Z) : bool :=
  match a, b with
  | [], [] => true
  | x :: a', y :: b' => (x =? y)%Z && list_Z_eqb a' b'
  | _, _ => false
  end.

(* delayed_nodes.py:965-970: the sizes of all parts, if known *)
Fixpoint known_all (l : list (option Z)) : option (list Z) :=
  match l with
  | [] => Some []
  | o :: r => match o, known_all r with Some a, Some b => Some (a :: b) | _, _ => None end
  end.

(* Python: list indexing *)
Definition nth_result {A} (l : list A) (n : nat) : result A :=
  match nth_error l n with Some a => Ok a | None => Err IndexError end.

(* delayed_nodes.py:3415-3460 get_indexer / get_subcomponent: a contiguous run
   over all bands returns the part itself.  [take] is part.take_channels. *)
Definition sub_component (parts : list (node * (list Z -> result node)))
  (seg : nat * list Z) : result node :=
  '(p, take) <- nth_result parts (fst seg) ;;
  match num_channels p with
  | Some n => if list_Z_eqb (snd seg) (zseq (Z.to_nat n)) then Ok p else take (snd seg)
  | None => Err TypeError
  end.

(* delayed_nodes.py:820-1009 (concat) and 1327-1435 (image) take_channels for a
   list of integers *)
Fixpoint take_idx (t : node) (idxs : list Z) : result node :=
  match t with
  | Concat ps _ =>
      match names t, known_all (map num_channels ps) with
      | None, _ => Err AssertionError
      | _, None => Err TypeError
      | Some _, Some sizes =>
          wh <- mapR (fun i => unravel sizes i 0) idxs ;;
          comps <- mapR (sub_component (map (fun p => (p, take_idx p)) ps)) (segments wh) ;;
          match mkConcat comps with Some c => Ok c | None => Err ValueError end
      end
  | _ => mkCrop t None (Some idxs)
  end.

(** ** The rewrite rules *)

(* Decisions that depend on square roots and trigonometry (see ScaleModel.v) are
   parameters: [split_levels] is delayed_nodes.py:2470-2477 (None: not a strict
   downsampling), [absorbs] is delayed_nodes.py:2234-2239. *)
Record oracle := Oracle { split_levels : affine -> result (option Z);
                          absorbs : affine -> bool }.

(* The oracle for axis aligned transforms, where the decomposed scales are the
   entries of the matrix.  2236-2237 twoish = 2 - 1e-8 is idealized to 2.
   See the oracle of delayed_nodes.py:2215-2240, 2455-2470 for axis aligned transforms *)
Definition axis_oracle : oracle :=
  Oracle (fun M => if negb (axis_aligned M) then Ok None
                   else if negb (Qle_bool (a11 M) (1#2)) || negb (Qle_bool (a22 M) (1#2)) then Ok None
                   else '(n, _, _) <- prepare_scale_residual (a11 M) (a22 M) ;; Ok (Some n))
         (fun M => axis_aligned M && (Qle_bool 2 (a11 M) || Qle_bool 2 (a22 M))).

(* delayed_nodes.py:2912-3046 _opt_warp_after_crop applied to a crop of
   Warp s M: None when the crop is empty (the node is returned unchanged), else
   the new inner crop and the new outer transform *)
Definition warp_after_crop (s : node) (M : affine) (ys xs : ival)
  (ci : option (list Z)) (cd : size) : result (option (node * affine)) :=
  if ((fst cd =? 0) || (snd cd =? 0))%Z then Ok None
  else if axis_aligned M then
    match dsize s with
    | None => Err TypeError
    | Some (w, h) =>
        let '(xsl, ox) := fast_axis (a11 M) (b1 M) w xs in
        let '(ysl, oy) := fast_axis (a22 M) (b2 M) h ys in
        c <- mkCrop s (Some (some_slice ysl, some_slice xsl)) ci ;;
        Ok (Some (c, Aff (a11 M) 0 0 (a22 M) ox oy))
    end
  else
    '(ysl, xsl, T) <- swap_warp_after_crop ys xs M ;;
    c <- mkCrop s (Some (some_slice ysl, some_slice xsl)) ci ;;
    Ok (Some (c, T)).

(* delayed_nodes.py:2826-2910 _opt_fuse_crops *)
Definition fuse_axis (inner outer : ival) : pyslice :=
  (Some (Z.min (fst inner + fst outer) (snd inner)),
   Some (Z.min (fst inner + snd outer) (snd inner)))%Z.

(* delayed_nodes.py:2895-2907 *)
Definition fuse_idxs (inner outer : option (list Z)) : result (option (list Z)) :=
  match outer, inner with
  | None, None => Ok None
  | None, Some i => Ok (Some i)
  | Some o, None => Ok (Some o)
  | Some o, Some i => rmap Some (mapR (py_get i) o)
  end.

(* delayed_nodes.py:2826-2910 DelayedCrop._opt_fuse_crops *)
Definition fuse_crops (inner : node) (ys1 xs1 : ival) (ci1 : option (list Z))
  (ys xs : ival) (ci : option (list Z)) : result node :=
  nci <- fuse_idxs ci1 ci ;;
  mkCrop inner (Some (fuse_axis ys1 ys, fuse_axis xs1 xs)) nci.

(* delayed_nodes.py:3219-3287 _opt_crop_after_overview *)
Definition crop_after_overview (s : node) (ys xs : ival) (ci : option (list Z)) (k : Z)
  : result node :=
  o <- mkOverview s k ;;
  let '(qx, ox) := overview_crop_axis k xs in
  let '(qy, oy) := overview_crop_axis k ys in
  c <- mkCrop o (Some (some_slice qy, some_slice qx)) ci ;;
  let T := aff_translate ox oy in
  if is_identity T then Ok c else mkWarp_auto c T default_algo.

(* delayed_nodes.py:3310-3352 _opt_warp_after_overview *)
Definition warp_after_overview_node (s : node) (B : affine) (k : Z) : result node :=
  C <- warp_after_overview k B ;;
  o <- mkOverview s k ;;
  mkWarp_auto o C default_algo.

(* delayed_nodes.py:2422-2516 _opt_split_warp_overview; None: returns self.
   isclose_identity() with its default tolerance is idealized to equality. *)
Definition split_warp (o : oracle) (opt : node -> result node)
  (s : node) (M : affine) (d : size) (al : algo) : result (option node) :=
  no <- num_overviews s ;;
  match no with
  | None => Ok None
  | Some n =>
      if (n =? 0)%Z then Ok None else
      lv <- split_levels o M ;;
      match lv with
      | None => Ok None
      | Some poss =>
          let k := Z.min n poss in
          if (k =? 0)%Z then Ok None else
          R <- split_residual M k ;;
          ov <- mkOverview s k ;;
          if is_identity R then
            (if opt_size_eqb (dsize ov) (Some d) then Ok (Some ov)
             else c <- padded_crop_node ov (0, snd d)%Z (0, fst d)%Z ;;
                  rmap Some (opt c))
          else Ok (Some (Warp ov R d (drop_backend al)))
      end
  end.

(* delayed_nodes.py:2131-2132: new.subdata = new.subdata.optimize() *)
Definition opt_sub (opt : node -> result node) (t : node) : result node :=
  match t with
  | Leaf _ | Concat _ _ => Err AttributeError
  | Crop s ys xs ci d nm nc => s' <- opt s ;; Ok (Crop s' ys xs ci d nm nc)
  | Warp s M d al => s' <- opt s ;; Ok (Warp s' M d al)
  | Dequant s q d => s' <- opt s ;; Ok (Dequant s' q d)
  | Overview s k d => s' <- opt s ;; Ok (Overview s' k d)
  end.

(* delayed_nodes.py:2251-2281, the nodes between a warp and an overview *)
Inductive layer :=
| LDeq (q : option Z)
| LCrop (ys xs : ival) (ci : option (list Z)) (d : size)
        (nm : option (list string)) (nc : option Z).

(* delayed_nodes.py:2251-2281: the chain of dequantizations and crops down to an
   overview at most [n] nodes away *)
Fixpoint lookahead (n : nat) (t : node) : option (list layer * (node * Z * size)) :=
  match n with
  | O => None
  | S n' =>
      match t with
      | Overview s k d => Some ([], (s, k, d))
      | Dequant s q _ =>
          match lookahead n' s with Some (c, o) => Some (LDeq q :: c, o) | None => None end
      | Crop s ys xs ci d nm nc =>
          match lookahead n' s with
          | Some (c, o) => Some (LCrop ys xs ci d nm nc :: c, o)
          | None => None
          end
      | _ => None
      end
  end.

(* delayed_nodes.py:2251-2281 *)
Definition is_lcrop (l : layer) : bool := match l with LCrop _ _ _ _ _ _ => true | _ => false end.

(* subdata.meta['dsize'] (delayed_nodes.py:2388): a concat keeps its size as an
   attribute, not in its meta *)
Definition meta_dsize (t : node) : result (option size) :=
  match t with
  | Concat _ _ => Err KeyError
  | Dequant _ _ d => Ok d
  | _ => Ok (dsize t)
  end.

(* delayed_nodes.py:2380-2403: put a layer of the chain over a new child with
   its size overwritten *)
Definition relayer (nd : option size) (l : layer) (t : node) : node :=
  match l with
  | LDeq q => Dequant t q nd
  | LCrop ys xs ci d nm nc =>
      Crop t ys xs ci (match nd with Some d' => d' | None => d end) nm nc
  end.

(* delayed_nodes.py:3202-3204 DelayedOverview._transform_from_subdata *)
Definition overview_tf (k : Z) : affine := aff_scale (1 / pow2 k) (1 / pow2 k).

(* delayed_nodes.py:2174-2420 _opt_absorb_overview *)
Definition absorb (o : oracle) (s : node) (M : affine) (d : size) (al : algo) : result node :=
  if negb (absorbs o M) then Ok (Warp s M d al) else
  match lookahead 4 s with
  | None => Ok (Warp s M d al)
  | Some (chain, (os, k, od)) =>
      if (1 <? List.length (filter is_lcrop chain))%nat then Ok (Warp s M d al) else
      '(head, tf1) <-
        match rev chain with
        | [] => Ok (os, overview_tf k)
        | LCrop ys xs ci cd _ _ :: above =>
            r <- warp_after_crop os (overview_tf k) ys xs ci cd ;;
            match r with
            | None => Err KeyError
            | Some (c, T) => Ok (fold_right (relayer (dsize c)) c (rev above), T)
            end
        | LDeq _ :: _ =>
            nd <- meta_dsize os ;;
            Ok (fold_right (relayer nd) os chain, overview_tf k)
        end ;;
      Ok (Warp head (aff_mul M tf1) d (drop_backend al))
  end.

(** ** optimize() of every node class, given optimize() of smaller fuel *)

(* delayed_nodes.py:1489-1502 with 2608-2613, 2816-2820, 3191-3196 *)
Definition push_tail (opt : node -> result node) (t : node) : result node :=
  sd <- subdata t ;;
  match sd with
  | Some (Concat _ _) =>
      p <- push_under t ;;
      match p with Some p => opt p | None => Ok t end
  | _ => Ok t
  end.

(* delayed_nodes.py:2122, 2770: hasattr(subdata, "_optimized_warp" or "_optimized_crop") *)
Definition is_nans (l : leaf) : bool := match l_kind l with Nans => true | Data => false end.

(* delayed_nodes.py:2094-2139 DelayedWarp.optimize with 2144-2172 _opt_fuse_warps,
   [s1] is the optimized child *)
Definition opt_warp (o : oracle) (opt : node -> result node)
  (s1 : node) (M : affine) (d : size) (al : algo) : result node :=
  let '(s, M', al') := match s1 with
                       | Warp s2 M1 _ _ => (s2, aff_mul M M1, drop_backend al)
                       | _ => (s1, M, al)
                       end in
  let other := fun _ : unit =>
    sp <- split_warp o opt s M' d al' ;;
    match sp with
    | Some n => n' <- opt_sub opt n ;; opt n'
    | None => absorb o s M' d al'
    end in
  if opt_size_eqb (Some d) (dsize s) && close_identity (al_eps al') M' then Ok s
  else match s with
       | Concat _ _ => push_tail opt (Warp s M' d al')
       | Leaf l => if is_nans l then Ok (nans_warp l d) else other tt
       | _ => other tt
       end.

(* delayed_nodes.py:2591-2617 DelayedDequantize.optimize with 2619-2625
   _opt_dequant_before_other *)
Definition opt_dequant (opt : node -> result node) (s1 : node) (q : option Z)
  (d : option size) : result node :=
  match s1 with
  | Dequant _ _ _ => Err AssertionError
  | Warp s M wd al => n <- opt (Warp (mkDequant s q) M wd al) ;; push_tail opt n
  | _ => push_tail opt (Dequant s1 q d)
  end.

(* delayed_nodes.py:2790-2820: a crop over a concat selects the bands first, then
   crops every part *)
Definition crop_tail (opt : node -> result node) (t : node) : result node :=
  match t with
  | Crop (Concat ps cd) ys xs ci _ _ _ =>
      taken <- match ci with
               | None => Ok (Concat ps cd)
               | Some l => t' <- take_idx (Concat ps cd) l ;; opt t'
               end ;;
      c <- mkCrop taken (Some (some_slice ys, some_slice xs)) None ;;
      p <- push_under c ;;
      opt (match p with Some p => p | None => c end)
  | _ => push_tail opt t
  end.

(* delayed_nodes.py:2759-2824 DelayedCrop.optimize with 3048-3057
   _opt_dequant_after_crop *)
Definition opt_crop (opt : node -> result node) (s1 : node) (ys xs : ival)
  (ci : option (list Z)) (d : size) (nm : option (list string)) (nc : option Z)
  : result node :=
  c1 <- match s1 with
        | Crop s2 ys1 xs1 ci1 _ _ _ => fuse_crops s2 ys1 xs1 ci1 ys xs ci
        | _ => Ok (Crop s1 ys xs ci d nm nc)
        end ;;
  match c1 with
  | Crop (Leaf l) _ _ _ _ _ _ =>
      if is_nans l then nans_crop l ys xs ci else Ok c1
  | Crop (Warp s M _ al) ys' xs' ci' d' _ _ =>
      if al_nearest al then Ok c1 else
      r <- warp_after_crop s M ys' xs' ci' d' ;;
      match r with
      | None => Ok c1
      | Some (c, T) => n <- opt (Warp c T d' (drop_backend al)) ;; crop_tail opt n
      end
  | Crop (Dequant s q _) ys' xs' ci' d' nm' nc' =>
      n <- opt (Dequant (Crop s ys' xs' ci' d' nm' nc') q (Some d')) ;; crop_tail opt n
  | _ => crop_tail opt c1
  end.

(* delayed_nodes.py:3169-3200 DelayedOverview.optimize with 3289-3297
   _opt_fuse_overview and 3299-3308 _opt_dequant_after_overview *)
Definition opt_overview (opt : node -> result node) (s1 : node) (k : Z) (d : size)
  : result node :=
  o1 <- match s1 with
        | Overview s2 k2 _ => mkOverview s2 (k2 + k)
        | _ => Ok (Overview s1 k d)
        end ;;
  match o1 with
  | Overview s k1 d1 =>
      if (k1 =? 0)%Z then push_tail opt s
      else match s with
           | Crop s2 ys xs ci _ _ _ =>
               n <- crop_after_overview s2 ys xs ci k1 ;; n' <- opt n ;; push_tail opt n'
           | Warp s2 B _ _ =>
               n <- warp_after_overview_node s2 B k1 ;; n' <- opt n ;; push_tail opt n'
           | Dequant s2 q _ =>
               n' <- opt (Dequant (Overview s2 k1 d1) q (Some d1)) ;; push_tail opt n'
           | _ => push_tail opt o1
           end
  | _ => Err OtherError
  end.

(* optimize(): recursion is bounded by [fuel]; OutOfFuel is not a behaviour of
   the code (see the termination theorems).  The flag says whether the very same
   object is returned, which is what delayed_nodes.py:807 tests. *)
Fixpoint optimize (o : oracle) (fuel : nat) (t : node) : result (node * bool) :=
  match fuel with
  | O => Err OutOfFuel
  | S f =>
      let opt := fun t => rmap fst (optimize o f t) in
      match t with
      | Leaf _ => Ok (t, true)                                (* delayed_leafs.py:31-40 *)
      | Concat ps d =>                                        (* delayed_nodes.py:801-818 *)
          r <- mapR (optimize o f) ps ;;
          if forallb snd r then Ok (t, true)
          else match mkConcat (map fst r) with
               | Some n => Ok (n, false)
               | None => Ok (t, true)
               end
      | Warp s M d al => s1 <- opt s ;; n <- opt_warp o opt s1 M d al ;; Ok (n, false)
      | Dequant s q d => s1 <- opt s ;; n <- opt_dequant opt s1 q d ;; Ok (n, false)
      | Crop s ys xs ci d nm nc =>
          s1 <- opt s ;; n <- opt_crop opt s1 ys xs ci d nm nc ;; Ok (n, false)
      | Overview s k d => s1 <- opt s ;; n <- opt_overview opt s1 k d ;; Ok (n, false)
      end
  end.
