(* lazy_loaders.py:121-277 and 687-824: the readers of a GDAL file with every call
   of ReadAsArray kept apart, so that any of them may fail.  A call is numbered by
   the calls made before it; [outcome] says for each call whether it works, returns
   None or raises.  Files, windows, levels and marks are those of LazyModel; the
   element types of the buffers (106-118, 244) are left out, as there. *)
From Verif Require Import Py LazyModel.
Local Open Scope Z_scope.

(* what one call of ReadAsArray does; see lazy_loaders.py:200-206, 253-262 *)
Inductive outcome := Works | GivesNone | Raises.

Section Readers.
Context {V : Type}.
Context (veq : V -> V -> bool).          (* np.equal *)
Context (promote : V -> V).              (* astype(result_type(dtype, float32)) *)
Context (index_of : V -> option Z).      (* a sample used as an index; None for a type that cannot be *)
Context (fate : nat -> outcome).         (* the calls of ReadAsArray, in order *)

(* a computation that reads: from the number of calls so far to its result and the
   number of calls after it; see lazy_loaders.py:121-277 *)
Definition M (A : Type) : Type := nat -> result A * nat.
(* Python: a value *)
Definition ret {A} (a : A) : M A := fun n => (Ok a, n).
(* Python: raise *)
Definition raise {A} (e : exn) : M A := fun n => (Err e, n).
(* Python: statements in order *)
Definition andthen {A B} (m : M A) (k : A -> M B) : M B :=
  fun n => match m n with (Ok a, n') => k a n' | (Err e, n') => (Err e, n') end.
(* Python: an expression that does not read *)
Definition pure {A} (r : result A) : M A := fun n => (r, n).
(* Python: try: m except Exception: k *)
Definition try_except {A} (m k : M A) : M A :=
  fun n => match m n with (Ok a, n') => (Ok a, n') | (Err _, n') => k n' end.
Local Notation "x <~ m ;; k" := (andthen m (fun x => k)) (at level 61, m at next level, right associativity).

(* a palette: its interpretation and its entries; a file with subdatasets, with a
   BAND interleave, and with palettes per level and band
   See lazy_loaders.py:143, 209-218 and 632-634 *)
Record palette := mkPal { t_interp : Z; t_colors : list (list V) }.
(* see lazy_loaders.py:143, 198 and 632-634 *)
Record pfile := mkP { p_file : gfile V; p_sub : bool; p_interleaved : bool; p_table : Z -> Z -> option palette }.

(* a band handle: level and band; see lazy_loaders.py:662-681 *)
Definition handle : Type := Z * Z.
(* a window: first row, first column, rows, columns; None is the empty gdalkw
   See lazy_loaders.py:138, 240-241 *)
Definition window : Type := option (Z * Z * Z * Z).
(* lazy_loaders.py:240-241: the defaults XSize and YSize *)
Definition frame (f : gfile V) (lvl : Z) (w : window) : Z * Z * Z * Z :=
  match w with Some w => w | None => (0, 0, g_h f lvl, g_w f lvl) end.

(* GDAL band.ReadAsArray, lazy_loaders.py:200 and 253: the samples of one band in a
   window, by row and column of the raster *)
Definition read_band (f : gfile V) (h : handle) (w : window) : M (option (Z -> Z -> V)) :=
  fun n =>
    let '(yoff, xoff, ysize, xsize) := frame f (fst h) w in
    (match fate n with
     | Raises => Err OtherError
     | GivesNone => Ok None
     | Works =>
         Ok (if in_window (g_h f (fst h)) yoff ysize && in_window (g_w f (fst h)) xoff xsize
                && ((0 <=? snd h) && (snd h <? g_c f))
             then Some (fun y x => g_pix f (fst h) y x (snd h)) else None)
     end, S n).

(* the overview argument; see lazy_loaders.py:121-131, overview *)
Inductive ovarg := ONone | OInt (o : Z) | OStr (s : string).

(* lazy_loaders.py:161-193: the level that is read *)
Definition resolve_overview (count : Z) (o : ovarg) : result Z :=
  let level (o : Z) :=
    let o := if o <? 0 then Z.max (count + o) 0 else o in
    if count <? o then Err ValueError else Ok (if 0 <? o then o else 0) in
  match o with
  | ONone => Ok 0
  | OInt o => if o =? 0 then Ok 0 else level o
  | OStr s => if String.eqb s "" then Ok 0 else if String.eqb s "coarsest" then level count else Err KeyError
  end.

(* lazy_loaders.py:147-193: the bands that are read.  GetRasterBand of a number the
   file does not have is None, and its first use raises; the model raises for the
   whole list at once *)
Definition resolve_bands (f : gfile V) (o : ovarg) (bands : option (list Z)) : result (list handle) :=
  let ids := match bands with None => zseq (Z.to_nat (g_c f)) | Some l => l end in
  match ids with
  | [] => Err IndexError
  | _ =>
      if forallb (fun b => (0 <=? b) && (b <? g_c f)) ids
      then lvl <- resolve_overview (g_count f) o ;; Ok (map (fun b => (lvl, b)) ids)
      else Err AttributeError
  end.

(* lazy_loaders.py:264-275 on one sample with its mask bit *)
Definition mark_bit (m : string) (hit : bool) (v : V) : sample V :=
  if String.eqb m "ma" then (if hit then SMask v else SVal v)
  else if hit then SNan else SVal (promote v).
(* lazy_loaders.py:229-232, 256-259: the mask bit of a sample *)
Definition bit (nd : option V) (v : V) : bool := match nd with None => false | Some n => veq v n end.

(* lazy_loaders.py:262-275 over an image of samples with mask bits *)
Definition finish (m : option string) (im : list (list (list (V * bool)))) : result (list (list (list (sample V)))) :=
  match m with
  | None => Ok (map (map (map (fun p => SVal (fst p)))) im)
  | Some m =>
      if String.eqb m "ma" || String.eqb m "float" || String.eqb m "nan"
      then Ok (map (map (map (fun p => mark_bit m (snd p) (fst p)))) im) else Err KeyError
  end.

(* lazy_loaders.py:199-206: one band, read again when the first call gives None *)
Definition read_twice (f : gfile V) (h : handle) (w : window) : M (Z -> Z -> V) :=
  b <~ read_band f h w ;;
  match b with
  | Some p => ret p
  | None => b <~ read_band f h w ;; match b with Some p => ret p | None => raise OtherError end
  end.

(* lazy_loaders.py:195-206, 227-232, 262-277: one band without a palette *)
Definition single (f : gfile V) (h : handle) (w : window) (m : option string) (nd : option V) : M (rarr V * Z) :=
  p <~ read_twice f h w ;;
  let '(yoff, xoff, ysize, xsize) := frame f (fst h) w in
  data <~ pure (finish m (map (fun y => map (fun x => [(p y x, bit nd (p y x))]) (span xoff xsize)) (span yoff ysize))) ;;
  ret (mkR true ysize xsize 1 data, 1).

(* lazy_loaders.py:207-236, 262-277: one band with a palette.  The palette
   interpretation is looked up as if it were a data type (209-210).  A read that gives None
   is not noticed: idx_to_color[None] is the palette itself with one more axis. *)
Definition paletted (f : gfile V) (h : handle) (w : window) (m : option string) (nd : option V) (t : palette) : M (rarr V * Z) :=
  b <~ read_band f h w ;;
  if negb ((1 <=? t_interp t) && (t_interp t <=? 11)) then raise KeyError
  else match rev (t_colors t) with
       | [] => raise AssertionError
       | last :: _ =>
           let k := Z.of_nat (List.length last) in
           match b with
           | Some p =>
               let '(yoff, xoff, ysize, xsize) := frame f (fst h) w in
               im <~ pure (mapR (fun y => mapR (fun x =>
                       match index_of (p y x) with
                       | None => Err IndexError
                       | Some i => c <- py_get (t_colors t) i ;; Ok (map (fun v => (v, bit nd (p y x))) c)
                       end) (span xoff xsize)) (span yoff ysize)) ;;
               data <~ pure (finish m im) ;;
               ret (mkR false ysize xsize k data, k)
           | None =>
               match m with
               | None => ret (mkR false 1 (Z.of_nat (List.length (t_colors t))) k [map (map SVal) (t_colors t)], k)
               | Some _ => raise (match nd with None => AttributeError | Some _ => IndexError end)
               end
           end
       end.

(* lazy_loaders.py:250-262: the planes of several bands, one call each *)
Fixpoint read_planes (f : gfile V) (hs : list handle) (w : window) : M (list (Z -> Z -> V)) :=
  match hs with
  | [] => ret []
  | h :: hs' =>
      b <~ read_band f h w ;;
      match b with
      | None => raise OtherError
      | Some p => ps <~ read_planes f hs' w ;; ret (p :: ps)
      end
  end.

(* lazy_loaders.py:237-277: several bands *)
Definition several (f : gfile V) (hs : list handle) (w : window) (m : option string) (nds : list (option V)) : M (rarr V * Z) :=
  match hs with
  | [] => raise IndexError
  | h0 :: _ =>
      let '(yoff, xoff, ysize, xsize) := frame f (fst h0) w in
      let c := Z.of_nat (List.length hs) in
      ps <~ read_planes f hs w ;;
      data <~ pure (finish m (map (fun y => map (fun x =>
                map (fun pn => (fst pn y x, bit (snd pn) (fst pn y x))) (combine ps nds)) (span xoff xsize)) (span yoff ysize))) ;;
      ret (mkR false ysize xsize c data, c)
  end.

(* lazy_loaders.py:121-277 _gdal_read_kwimage_compatible.  [pre] are the
   preloaded bands and [pre_nd] their nodata values; nodata_value is not used. *)
Definition vendored (p : pfile) (o : ovarg) (nodata : option string) (ignore : bool) (bands : option (list Z)) (w : window)
    (m : option string) (pre : option (list handle)) (pre_nd : option (list (option V))) : M (rarr V * Z) :=
  let f := p_file p in
  let m := match nodata with Some _ => nodata | None => m end in
  if p_sub p then raise OtherError
  else
    hs <~ pure (match pre with Some hs => Ok hs | None => resolve_bands f o bands end) ;;
    let nds := match pre_nd with Some l => l | None => map (fun h => g_nodata f (fst h) (snd h)) hs end in
    match hs with
    | [h] =>
        let nd := match nds with nd :: _ => nd | [] => None end in
        match (if ignore then None else p_table p (fst h) (snd h)) with
        | None => single f h w m nd
        | Some t => paletted f h w m nd t
        end
    | _ => several f hs w m nds
    end.

(* lazy_loaders.py:687-771 _dataset_read_as_array with its one call of ReadAsArray *)
Definition fast_io (s : lazy V) (bands : list Z) (yoff xoff ysize xsize : Z) (m : option string) : M (rarr V) :=
  match bands with
  | [] => pure (fast_read veq promote s bands yoff xoff ysize xsize m)
  | _ =>
      _ <~ pure (read_ds s) ;;
      fun n => (match fate n with
                | Works => fast_read veq promote s bands yoff xoff ysize xsize m
                | GivesNone | Raises => Err OtherError
                end, S n)
  end.

(* lazy_loaders.py:773-824 _compat_gdal_read; [upstream] is kwimage's own reader *)
Definition compat_io (upstream : list Z -> window -> option string -> M (rarr V)) (p : pfile) (s : lazy V) (bands : list Z)
    (w : window) (m : option string) : M (rarr V) :=
  let f := l_file s in
  lvl <~ pure (read_bands s) ;;
  sel <~ pure (mapR (py_get (zseq (Z.to_nat (g_c f)))) bands) ;;
  try_except
    (r <~ vendored p (OInt (l_overview s)) None true (Some bands) w m
            (Some (map (fun b => (lvl, b)) sel))
            (match m with None => None | Some _ => Some (map (g_nodata f lvl) sel) end) ;;
     ret (fst r))
    (upstream bands w m).

(* lazy_loaders.py:896-1073 LazyGDalFrameFile.__getitem__ on the file p *)
Definition getitem_io (fast : bool) (upstream : list Z -> window -> option string -> M (rarr V)) (p : pfile) (overview : Z)
    (method : option string) (index : list idx) : M (rarr V) :=
  let s := mkL (p_file p) overview method in
  sh <~ pure (shape s) ;;
  let '(h, w, C) := sh in
  if p_interleaved p && p_sub p then raise OtherError
  else
    index <~ pure (expand_index index) ;;
    rq <~ pure (request index h w C) ;;
    let '(bands, (yoff, xoff, ysize, xsize)) := rq in
    let m := match method with
             | Some m => Some (if String.eqb m "auto" then "float"%string else m)
             | None => None
             end in
    let slow := compat_io upstream p s bands (Some (yoff, xoff, ysize, xsize)) m in
    if fast then try_except (fast_io s bands yoff xoff ysize xsize m) slow else slow.

(* kwimage.im_io._gdal_read, which lazy_loaders.py:121-277 is a copy of: the same
   reader without preloaded bands, as it is called at lazy_loaders.py:799-807 *)
Definition kwimage_read (p : pfile) (overview : Z) : list Z -> window -> option string -> M (rarr V) :=
  fun bands w m => r <~ vendored p (OInt overview) None true (Some bands) w m None None ;; ret (fst r).

End Readers.
Arguments pfile : clear implicits.
Arguments palette : clear implicits.
