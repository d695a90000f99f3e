(* lazy_loaders.py: lazily indexed files.  GDAL, rasterio and spectral are
   external; of them the model keeps what the code uses: sizes, bands, overview
   levels, nodata values and a window read.  A window that is empty or leaves the
   raster is a failed read (GDAL returns None or raises); what the libraries do
   with empty windows is not modelled.  Interleaved files with subdatasets
   (992-994), ENVI headers (584-588) and debug events are left out, and all bands
   have the type of the first. *)
From Verif Require Import Py.
Local Open Scope Z_scope.

(* an entry of an index; IOther is any object the code rejects
   See lazy_loaders.py:896-1073, entries of an index *)
Inductive idx :=
| INone | IEllipsis
| ISlice (start stop step : option Z)
| IInt (i : Z)
| IList (l : list Z)
| IOther.
(* Python: slice(None) *)
Definition full : idx := ISlice None None None.

(* lazy_loaders.py:1085-1102 _rectify_slice_dim *)
Inductive part := PSlice (start stop : Z) | PList (l : list Z).
(* lazy_loaders.py:1085-1102 _rectify_slice_dim *)
Definition rectify (p : idx) (D : Z) : result part :=
  match p with
  | INone => Ok (PSlice 0 D)
  | ISlice a b st =>
      let start := match a with None => 0 | Some a => Z.max 0 a end in
      let stop := match b with None => D | Some b => Z.min D b end in
      let stop := if stop <? 0 then D + stop else stop in
      match st with None => Ok (PSlice start stop) | Some _ => Err AssertionError end
  | IInt i => Ok (PSlice i (i + 1))
  | IList l => Ok (PList l)
  | IEllipsis | IOther => Err TypeError
  end.

(* part.start and part.stop; a list has no such attribute
   See lazy_loaders.py:1040-1060, attributes of a rectified part *)
Definition bounds (p : part) : result (Z * Z) :=
  match p with PSlice a b => Ok (a, b) | PList _ => Err AttributeError end.

(* Python: range(a, a + n) *)
Definition span (a : Z) (n : Z) : list Z := map (fun k => a + k) (zseq (Z.to_nat n)).

(* lazy_loaders.py:1032-1035: a list is used as is, a slice becomes
   range( *part.indices(C)) *)
Definition band_indices (p : part) (C : Z) : list Z :=
  match p with
  | PList l => l
  | PSlice a b => let a' := slice_bound C a in span a' (slice_bound C b - a')
  end.

(* lazy_loaders.py:1010-1030 *)
Definition is_ellipsis (p : idx) : bool := match p with IEllipsis => true | _ => false end.
(* lazy_loaders.py:1010-1030 *)
Fixpoint find_ellipsis (l : list idx) : nat :=
  match l with [] => O | p :: l' => if is_ellipsis p then O else S (find_ellipsis l') end.

(* lazy_loaders.py:996-1023 *)
Definition expand_index (index : list idx) : result (list idx) :=
  let len := Z.of_nat (List.length index) in
  match List.length (filter is_ellipsis index) with
  | O => Ok (if len <? 3 then (index ++ repeat full (Z.to_nat (3 - len)))%list else index)
  | S O =>
      let e := find_ellipsis index in
      let n := 1 + 3 - len in
      Ok (if 0 <? n then (firstn e index ++ repeat full (Z.to_nat n) ++ skipn (e + 1) index)%list else index)
  | _ => Err OtherError
  end.

Section Lazy.
Context {V : Type}.
Context (veq : V -> V -> bool).          (* np.equal *)
Context (promote : V -> V).              (* astype(result_type(dtype, float32)) *)

(* Level 0 is the image, level k > 0 its k-th overview.
   See what GDAL tells of a file, lazy_loaders.py:638-685 *)
Record gfile := mkG {
  g_h : Z -> Z; g_w : Z -> Z; g_c : Z;
  g_pix : Z -> Z -> Z -> Z -> V;         (* level, row, column, band *)
  g_nodata : Z -> Z -> option V;         (* level, band *)
  g_count : Z;                           (* GetOverviewCount *)
  g_ds : Z -> bool                       (* does GetOverview(k-1).GetDataset() give a dataset *)
}.

(* samples of a result: plain, NaN or masked; see lazy_loaders.py:773-824, values of a result *)
Inductive sample := SVal (v : V) | SNan | SMask (v : V).
(* a result array: 2-d or 3-d, as rows of columns of bands
   See lazy_loaders.py:687-771, an array read *)
Record rarr := mkR { r_2d : bool; r_h : Z; r_w : Z; r_c : Z; r_data : list (list (list sample)) }.

(* lazy_loaders.py:565-571 *)
Record lazy := mkL { l_file : gfile; l_overview : Z; l_method : option string }.
(* lazy_loaders.py:565-572 __init__ *)
Definition open (f : gfile) (m : option string) (overview : option Z) : lazy :=
  mkL f (match overview with None => 0 | Some o => o end) m.

(* lazy_loaders.py:610-624 *)
Definition get_absolute_overview (s : lazy) (o : Z) : lazy := mkL (l_file s) o (l_method s).
(* lazy_loaders.py:610-614 *)
Definition get_overview (s : lazy) (o : Z) : lazy := get_absolute_overview s (o + l_overview s).
(* lazy_loaders.py:848-857 *)
Definition num_overviews (s : lazy) : Z := g_count (l_file s) - l_overview s.

(* lazy_loaders.py:859-883; GetOverview of a negative index is None *)
Definition shape (s : lazy) : result (Z * Z * Z) :=
  let f := l_file s in
  lvl <- (if negb (l_overview s =? 0) then
            let load := Z.min (l_overview s) (g_count f) in
            if negb (load =? 0) then
              if negb (l_overview s - load =? 0) then Err ValueError
              else if load <? 0 then Err AttributeError else Ok load
            else Ok 0
          else Ok 0) ;;
  Ok (g_h f lvl, g_w f lvl, g_c f).

(* lazy_loaders.py:637-660 _read_ds: the level of the dataset that is read *)
Definition read_ds (s : lazy) : result Z :=
  let f := l_file s in
  if l_overview s <=? 0 then Ok 0
  else if g_count f <? l_overview s then Err ValueError
  else Ok (if g_ds f (l_overview s) then l_overview s else 0).

(* lazy_loaders.py:662-681 _read_bands: the level of the bands *)
Definition read_bands (s : lazy) : result Z :=
  let f := l_file s in
  if l_overview s <=? 0 then Ok 0
  else if g_count f <? l_overview s then Err ValueError
  else Ok (l_overview s).

(* ReadAsArray of a window of some bands (indexed from 0); None when it fails
   See GDAL ReadAsArray, lazy_loaders.py:687-771 *)
Definition in_window (D off size : Z) : bool := (0 <=? off) && (0 <? size) && (off + size <=? D).
(* GDAL ReadAsArray, lazy_loaders.py:687-771 *)
Definition gdal_window (f : gfile) (lvl yoff xoff ysize xsize : Z) (bands : list Z) : option (list (list (list V))) :=
  if in_window (g_h f lvl) yoff ysize && in_window (g_w f lvl) xoff xsize
     && forallb (fun b => (0 <=? b) && (b <? g_c f)) bands
  then Some (map (fun y => map (fun x => map (fun b => g_pix f lvl y x b) bands) (span xoff xsize)) (span yoff ysize))
  else None.

(* lazy_loaders.py:729-755 and 262-275: mask and mark the samples of one pixel;
   nds are the nodata values of its bands *)
Definition mark (m : option string) (nd : option V) (v : V) : result sample :=
  match m with
  | None => Ok (SVal v)
  | Some m =>
      let hit := match nd with None => false | Some n => veq v n end in
      if String.eqb m "ma" then Ok (if hit then SMask v else SVal v)
      else if String.eqb m "float" || String.eqb m "nan" then Ok (if hit then SNan else SVal (promote v))
      else Err KeyError
  end.
(* lazy_loaders.py:773-824 *)
Fixpoint mark_pixel (m : option string) (nds : list (option V)) (px : list V) : result (list sample) :=
  match nds, px with
  | nd :: nds', v :: px' => s <- mark m nd v ;; r <- mark_pixel m nds' px' ;; Ok (s :: r)
  | _, _ => Ok []
  end.
(* an unknown method raises whatever the samples are; see lazy_loaders.py:773-824 *)
Definition known_method (m : option string) : bool :=
  match m with
  | None => true
  | Some m => String.eqb m "ma" || String.eqb m "float" || String.eqb m "nan"
  end.
(* lazy_loaders.py:773-824 *)
Definition mark_image (m : option string) (nds : list (option V)) (im : list (list (list V))) : result (list (list (list sample))) :=
  if known_method m then mapR (mapR (mark_pixel m nds)) im else Err KeyError.

(* lazy_loaders.py:687-771 _dataset_read_as_array; a single band gives a 2-d array *)
Definition fast_read (s : lazy) (bands : list Z) (yoff xoff ysize xsize : Z) (m : option string) : result rarr :=
  match bands with
  | [] => Ok (mkR false ysize xsize 0 (map (fun _ => map (fun _ => []) (span xoff xsize)) (span yoff ysize)))
  | _ =>
      lvl <- read_ds s ;;
      match gdal_window (l_file s) lvl yoff xoff ysize xsize bands with
      | None => Err OtherError
      | Some im =>
          data <- mark_image m (map (g_nodata (l_file s) lvl) bands) im ;;
          Ok (mkR (Z.of_nat (List.length bands) =? 1) ysize xsize (Z.of_nat (List.length bands)) data)
      end
  end.

(* lazy_loaders.py:773-823 _compat_gdal_read with 121-277
   _gdal_read_kwimage_compatible (no colour tables: ignore_color_table=True).
   [upstream] is the result of the last fallback, kwimage's own reader. *)
Definition compat_read (upstream : result rarr) (s : lazy) (bands : list Z) (yoff xoff ysize xsize : Z) (m : option string) : result rarr :=
  lvl <- read_bands s ;;
  let f := l_file s in
  sel <- mapR (py_get (zseq (Z.to_nat (g_c f)))) bands ;;
  match (match sel with
         | [] => Err IndexError                                         (* 238: bands[0] *)
         | _ =>
             match gdal_window f lvl yoff xoff ysize xsize sel with
             | None => Err OtherError
             | Some im =>
                 data <- mark_image m (map (g_nodata f lvl) sel) im ;;
                 Ok (mkR (Z.of_nat (List.length sel) =? 1) ysize xsize (Z.of_nat (List.length sel)) data)
             end
         end) with
  | Ok r => Ok r
  | Err _ => upstream
  end.

(* lazy_loaders.py:1025-1048: the window and the bands of an index *)
Definition request (index : list idx) (h w C : Z) : result (list Z * (Z * Z * Z * Z)) :=
  iy <- py_get index 0 ;; yp <- rectify iy h ;;
  ix <- py_get index 1 ;; xp <- rectify ix w ;;
  ic <- py_get index 2 ;; cp <- rectify ic C ;;
  yb <- bounds yp ;; xb <- bounds xp ;;
  Ok (band_indices cp C, (fst yb, fst xb, snd yb - fst yb, snd xb - fst xb)).

(* lazy_loaders.py:896-1073 LazyGDalFrameFile.__getitem__; [fast] is the module
   constant GDAL_FAST_PATH.  A scalar index is the one-element list of it. *)
Definition getitem (fast : bool) (upstream : result rarr) (s : lazy) (index : list idx) : result rarr :=
  sh <- shape s ;;
  let '(h, w, C) := sh in
  index <- expand_index index ;;
  rq <- request index h w C ;;
  let '(bands, (yoff, xoff, ysize, xsize)) := rq in
  let m := match l_method s with
           | Some m => Some (if String.eqb m "auto" then "float"%string else m)
           | None => None
           end in
  if fast then
    match fast_read s bands yoff xoff ysize xsize m with
    | Ok r => Ok r
    | Err _ => compat_read upstream s bands yoff xoff ysize xsize m
    end
  else compat_read upstream s bands yoff xoff ysize xsize m.

(* lazy_loaders.py:323-358 (spectral) and 436-473 (rasterio): missing entries are
   None, Ellipsis is not expanded, and the result is always 3-d *)
Definition getitem_plain (f : gfile) (index : list idx) : result rarr :=
  let len := Z.of_nat (List.length index) in
  let index := if len <? 3 then (index ++ repeat INone (Z.to_nat (3 - len)))%list else index in
  rq <- request index (g_h f 0) (g_w f 0) (g_c f) ;;
  let '(bands, (yoff, xoff, ysize, xsize)) := rq in
  match gdal_window f 0 yoff xoff ysize xsize bands with
  | None => Err OtherError
  | Some im => Ok (mkR false ysize xsize (Z.of_nat (List.length bands)) (map (map (map SVal)) im))
  end.

End Lazy.
Arguments gfile : clear implicits.
Arguments lazy : clear implicits.
Arguments rarr : clear implicits.
Arguments sample : clear implicits.

(** ** CacheDict (lazy_loaders.py:23-56) *)
Section Cache.
Context {K V : Type} (keq : K -> K -> bool).

(* an OrderedDict, oldest entry first; see collections.OrderedDict, lazy_loaders.py:23-56 *)
Definition od := list (K * V).
(* lazy_loaders.py:46-56 *)
Definition od_remove (k : K) (d : od) : od := filter (fun kv => negb (keq (fst kv) k)) d.
(* lazy_loaders.py:53-56 *)
Fixpoint od_get (k : K) (d : od) : option V :=
  match d with [] => None | (k', v) :: d' => if keq k' k then Some v else od_get k d' end.
(* set, then move_to_end: the entry goes last whether it is new or not
   See lazy_loaders.py:46-48, 53-55 *)
Definition od_put (k : K) (v : V) (d : od) : od := (od_remove k d ++ [(k, v)])%list.
(* 49-51: drop the first entry while there are too many; see lazy_loaders.py:49-51 *)
Fixpoint evict (n : Z) (d : od) : od :=
  match d with
  | [] => []
  | _ :: d' => if n <? Z.of_nat (List.length d) then evict n d' else d
  end.

(* lazy_loaders.py:46-56, calls on a CacheDict *)
Inductive op := OSet (k : K) (v : V) | OGet (k : K).
(* what an operation did: wrote, returned a value, or raised KeyError
   See lazy_loaders.py:46-56, effects of calls *)
Inductive event := Wrote (k : K) (v : V) | Read (k : K) (v : V) | Missed (k : K).

(* 46-51 __setitem__ and 53-56 __getitem__
   See lazy_loaders.py:46-51 __setitem__, 53-56 __getitem__ *)
Definition cstep (n : Z) (d : od) (o : op) : od * event :=
  match o with
  | OSet k v => (evict n (od_put k v d), Wrote k v)
  | OGet k => match od_get k d with
              | Some v => (od_put k v d, Read k v)
              | None => (d, Missed k)
              end
  end.
(* lazy_loaders.py:46-56, a sequence of calls *)
Fixpoint crun (n : Z) (d : od) (os : list op) : od * list event :=
  match os with
  | [] => (d, [])
  | o :: os' =>
      let '(d1, e) := cstep n d o in
      let '(d2, es) := crun n d1 os' in
      (d2, e :: es)
  end.
(* 41-44: only a positive cache_len is accepted; see lazy_loaders.py:41-44 __init__ *)
Definition cache (n : Z) (os : list op) : result (od * list event) :=
  if 0 <? n then Ok (crun n [] os) else Err AssertionError.
End Cache.

(** ** DelayedLoad metadata (delayed_leafs.py:253-303) *)

(* the metadata of a load; dsize is None or a pair whose entries may be None
   See delayed_leafs.py:137-167, the meta of a load *)
Record lmeta := mkM {
  m_dsize : option (option Z * option Z);
  m_channels : option Z;
  m_overviews : option Z
}.
(* what the file says: GDAL reference (shape and overviews) or, without GDAL, the
   shape read by kwimage, which has two entries for a grey image
   See delayed_leafs.py:237-303, what a file says of itself *)
Inductive source := SGdal (h w c n : Z) | SPlain (h w : Z) (c : option Z).

(* Python: is not None *)
Definition is_some {A} (o : option A) : bool := match o with Some _ => true | None => false end.
(* delayed_leafs.py:253-263 *)
Definition full_size (d : option (option Z * option Z)) : bool :=
  match d with Some (Some _, Some _) => true | _ => false end.

(* delayed_leafs.py:265-303 _load_metadata *)
Definition load_metadata (src : source) (m : lmeta) : lmeta :=
  if is_some (m_dsize m) && is_some (m_channels m) && is_some (m_overviews m) && full_size (m_dsize m) then m
  else
    let '(h, w, c, n) := match src with
                         | SGdal h w c n => (h, w, c, n)
                         | SPlain h w (Some c) => (h, w, c, 0)
                         | SPlain h w None => (h, w, 1, 0)
                         end in
    mkM (if full_size (m_dsize m) then m_dsize m else Some (Some w, Some h))
        (match m_channels m with None => Some c | c => c end)
        (Some n).

(* delayed_base.py:376-389 and delayed_leafs.py:253-263: every load of a tree is
   prepared, all other nodes keep their metadata *)
Inductive ptree := PLoad (src : source) (m : lmeta) | PNode (m : lmeta) (cs : list ptree).
(* delayed_base.py:376-389, delayed_leafs.py:253-263 prepare *)
Fixpoint prepare (t : ptree) : ptree :=
  match t with
  | PLoad src m => PLoad src (load_metadata src m)
  | PNode m cs => PNode m (map prepare cs)
  end.

(** ** _largest_shape (helpers.py:124-152) *)

(* 137-140: [a or b] of numbers treats 0 as missing; see helpers.py:137-140 *)
Definition py_or (a b : option Z) : option Z :=
  match a with Some z => if z =? 0 then b else a | None => b end.
(* helpers.py:137-140 *)
Definition nonemax (a b : option Z) : option Z :=
  match a, b with
  | Some a, Some b => Some (Z.max a b)
  | _, _ => py_or a b
  end.
(* Python: itertools.zip_longest, helpers.py:144-151 *)
Fixpoint zip_longest (l1 l2 : list (option Z)) : list (option Z) :=
  match l1, l2 with
  | [], [] => []
  | a :: l1', [] => nonemax a None :: zip_longest l1' []
  | [], b :: l2' => nonemax None b :: (fix go l := match l with [] => [] | b :: l' => nonemax None b :: go l' end) l2'
  | a :: l1', b :: l2' => nonemax a b :: zip_longest l1' l2'
  end.
(* 144-151; see helpers.py:124-152 _largest_shape *)
Definition largest_shape (shapes : list (option (list (option Z)))) : list (option Z) :=
  fold_left (fun largest sh => match sh with Some s => zip_longest largest s | None => largest end) shapes [].
