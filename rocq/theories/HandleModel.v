(* LazyGDalFrameFile objects over histories of calls, while files on disk come, change
   and go (lazy_loaders.py:565-1073).  What a dataset tells and the array arithmetic are
   those of LazyModel.v; here are the cached dataset and the memoized properties.
   Definitions only. *)
From Verif Require Export Py LazyModel.
Local Open Scope Z_scope.

Section Handles.
Context {V : Type} (veq : V -> V -> bool) (promote : V -> V) (fast : bool).
(* kwimage's own reader of a dataset (lazy_loaders.py:796-808): overview, nodata method, index *)
Context (upstream : gfile V -> Z -> option string -> list idx -> result (rarr V)).

(* lazy_loaders.py:565-572 the fields, and the memoized properties 637-685, 848-883.
   _interleave (633-635) is left out: no subdatasets.  h_band_nodata holds the values
   of all bands. *)
Record handle := mkHandle {
  h_path : string; h_method : option string; h_overview : Z;
  h_ds : option (gfile V);                       (* _ds_cache *)
  h_shape : option (Z * Z * Z);
  h_num_absolute : option Z; h_num : option Z;
  h_read_ds : option (gfile V * Z);              (* a dataset and the level it shows *)
  h_read_bands : option (gfile V * Z);
  h_band_nodata : option (list (option V)) }.

(* files by path; see the file system, lazy_loaders.py:595-608 *)
Definition disk := list (string * gfile V).
(* gdal.Open (lazy_loaders.py:595) *)
Fixpoint on_disk (p : string) (d : disk) : option (gfile V) :=
  match d with [] => None | (q, f) :: d' => if String.eqb q p then Some f else on_disk p d' end.

(* lazy_loaders.py:565-572 __init__ *)
Definition new_handle (p : string) (m : option string) (o : option Z) : handle :=
  mkHandle p m (match o with None => 0 | Some o => o end) None None None None None None None.
(* lazy_loaders.py:616-624 get_absolute_overview *)
Definition handle_absolute (h : handle) (o : Z) : handle :=
  mkHandle (h_path h) (h_method h) o (h_ds h) None None None None None None.
(* lazy_loaders.py:610-614 get_overview *)
Definition handle_overview (h : handle) (o : Z) : handle := handle_absolute h (o + h_overview h).
(* lazy_loaders.py:568: assigning the attribute, as in the doctest 904-912 *)
Definition set_method (h : handle) (m : option string) : handle :=
  mkHandle (h_path h) m (h_overview h) (h_ds h) (h_shape h) (h_num_absolute h) (h_num h) (h_read_ds h) (h_read_bands h) (h_band_nodata h).

(* calls that may update the object *)
Definition call (A : Type) := disk -> handle -> result A * handle.
Definition ret {A} (r : result A) : call A := fun _ h => (r, h).
Definition andthen {A B} (c : call A) (k : A -> call B) : call B :=
  fun d h => match c d h with (Ok a, h') => k a d h' | (Err e, h') => (Err e, h') end.
Local Notation "x <~ c ; k" := (andthen c (fun x => k)) (at level 60, c at next level, right associativity).

(* lazy_loaders.py:580-608, 626-631: _ds, GLOBAL_GDAL_CACHE is None *)
Definition the_ds : call (gfile V) := fun d h =>
  match h_ds h with
  | Some f => (Ok f, h)
  | None => match on_disk (h_path h) d with
            | None => (Err OtherError, h)
            | Some f => (Ok f, mkHandle (h_path h) (h_method h) (h_overview h) (Some f) (h_shape h) (h_num_absolute h) (h_num h) (h_read_ds h) (h_read_bands h) (h_band_nodata h))
            end
  end.

(* ub.memoize_property: a failed computation is not remembered *)
Definition memoized {A} (get : handle -> option A) (set : handle -> A -> handle) (c : call A) : call A := fun d h =>
  match get h with
  | Some a => (Ok a, h)
  | None => match c d h with (Ok a, h') => (Ok a, set h' a) | (Err e, h') => (Err e, h') end
  end.

(* lazy_loaders.py:859-883 shape *)
Definition the_shape : call (Z * Z * Z) :=
  memoized h_shape (fun h a => mkHandle (h_path h) (h_method h) (h_overview h) (h_ds h) (Some a) (h_num_absolute h) (h_num h) (h_read_ds h) (h_read_bands h) (h_band_nodata h))
    (f <~ the_ds ; fun d h => ret (shape (mkL f (h_overview h) (h_method h))) d h).
(* lazy_loaders.py:852-857 num_absolute_overviews *)
Definition the_num_absolute : call Z :=
  memoized h_num_absolute (fun h a => mkHandle (h_path h) (h_method h) (h_overview h) (h_ds h) (h_shape h) (Some a) (h_num h) (h_read_ds h) (h_read_bands h) (h_band_nodata h))
    (f <~ the_ds ; ret (Ok (g_count f))).
(* lazy_loaders.py:848-850 num_overviews *)
Definition the_num : call Z :=
  memoized h_num (fun h a => mkHandle (h_path h) (h_method h) (h_overview h) (h_ds h) (h_shape h) (h_num_absolute h) (Some a) (h_read_ds h) (h_read_bands h) (h_band_nodata h))
    (n <~ the_num_absolute ; fun d h => ret (Ok (n - h_overview h)) d h).
(* lazy_loaders.py:637-660 _read_ds *)
Definition the_read_ds : call (gfile V * Z) :=
  memoized h_read_ds (fun h a => mkHandle (h_path h) (h_method h) (h_overview h) (h_ds h) (h_shape h) (h_num_absolute h) (h_num h) (Some a) (h_read_bands h) (h_band_nodata h))
    (f <~ the_ds ; fun d h => ret (lvl <- read_ds (mkL f (h_overview h) (h_method h)) ;; Ok (f, lvl)) d h).
(* lazy_loaders.py:662-681 _read_bands *)
Definition the_read_bands : call (gfile V * Z) :=
  memoized h_read_bands (fun h a => mkHandle (h_path h) (h_method h) (h_overview h) (h_ds h) (h_shape h) (h_num_absolute h) (h_num h) (h_read_ds h) (Some a) (h_band_nodata h))
    (f <~ the_ds ; fun d h => ret (lvl <- read_bands (mkL f (h_overview h) (h_method h)) ;; Ok (f, lvl)) d h).
(* lazy_loaders.py:683-685 _read_band_nodata_values *)
Definition the_band_nodata : call (list (option V)) :=
  memoized h_band_nodata (fun h a => mkHandle (h_path h) (h_method h) (h_overview h) (h_ds h) (h_shape h) (h_num_absolute h) (h_num h) (h_read_ds h) (h_read_bands h) (Some a))
    (b <~ the_read_bands ; ret (Ok (map (g_nodata (fst b) (snd b)) (zseq (Z.to_nat (g_c (fst b))))))).

(* lazy_loaders.py:687-771 _dataset_read_as_array *)
Definition handle_fast (bands : list Z) (yoff xoff ysize xsize : Z) (m : option string) : call (rarr V) :=
  match bands with
  | [] => ret (Ok (mkR false ysize xsize 0 (map (fun _ => map (fun _ => []) (span xoff xsize)) (span yoff ysize))))
  | _ =>
      s <~ the_read_ds ;
      ret (match gdal_window (fst s) (snd s) yoff xoff ysize xsize bands with
           | None => Err OtherError
           | Some im =>
               data <- mark_image veq promote m (map (g_nodata (fst s) (snd s)) bands) im ;;
               Ok (mkR (Z.of_nat (List.length bands) =? 1) ysize xsize (Z.of_nat (List.length bands)) data)
           end)
  end.

(* lazy_loaders.py:773-808 _compat_gdal_read with 121-277; the nodata values are only asked
   for when there is a method *)
Definition handle_compat (f : gfile V) (index : list idx) (bands : list Z) (yoff xoff ysize xsize : Z) (m : option string) : call (rarr V) :=
  b <~ the_read_bands ;
  sel <~ ret (mapR (py_get (zseq (Z.to_nat (g_c (fst b))))) bands) ;
  nds <~ match m with
         | None => ret (Ok (map (fun _ => None) sel))
         | Some _ => all <~ the_band_nodata ; ret (mapR (py_get all) bands)
         end ;
  fun d h =>
  ret match (match sel with
             | [] => Err IndexError
             | _ => match gdal_window (fst b) (snd b) yoff xoff ysize xsize sel with
                    | None => Err OtherError
                    | Some im => data <- mark_image veq promote m nds im ;;
                                 Ok (mkR (Z.of_nat (List.length sel) =? 1) ysize xsize (Z.of_nat (List.length sel)) data)
                    end
             end) with
      | Ok r => Ok r
      | Err _ => upstream f (h_overview h) (h_method h) index
      end d h.

(* lazy_loaders.py:896-1073 __getitem__ *)
Definition handle_getitem (index : list idx) : call (rarr V) :=
  f <~ the_ds ;
  sh <~ the_shape ;
  let '(h, w, C) := sh in
  rq <~ ret (i <- expand_index index ;; request i h w C) ;
  let '(bands, (yoff, xoff, ysize, xsize)) := rq in
  fun d o =>
  let m := match h_method o with
           | Some m => Some (if String.eqb m "auto" then "float"%string else m)
           | None => None
           end in
  if fast then
    match handle_fast bands yoff xoff ysize xsize m d o with
    | (Ok r, o') => (Ok r, o')
    | (Err _, o') => handle_compat f index bands yoff xoff ysize xsize m d o'
    end
  else handle_compat f index bands yoff xoff ysize xsize m d o.

(** ** Histories *)
(* lazy_loaders.py:565-1073 calls on objects, known by the order they were made in; the
   first two are other programs writing files *)
Inductive hop :=
| Write (p : string) (f : gfile V) | Remove (p : string)
| New (p : string) (m : option string) (o : option Z)
| Over (i : nat) (o : Z) | Absolute (i : nat) (o : Z) | Method (i : nat) (m : option string)
| Shape (i : nat) | Num (i : nat) | Item (i : nat) (index : list idx).
(* what the caller sees *)
Inductive seen := Done | SShape (r : result (Z * Z * Z)) | SNum (r : result Z) | SItem (r : result (rarr V)) | NoObject.
(* the disk and the objects *)
Record system := mkSys { y_disk : disk; y_objs : list handle }.

(* lazy_loaders.py:565-1073: the object a call was made on is updated in place *)
Fixpoint put (i : nat) (h : handle) (l : list handle) : list handle :=
  match l, i with
  | [], _ => []
  | _ :: l', O => h :: l'
  | x :: l', S i' => x :: put i' h l'
  end.
(* lazy_loaders.py:565-1073, a call on object i *)
Definition on {A} (y : system) (i : nat) (c : call A) (k : result A -> seen) : system * seen :=
  match nth_error (y_objs y) i with
  | None => (y, NoObject)
  | Some h => let '(r, h') := c (y_disk y) h in (mkSys (y_disk y) (put i h' (y_objs y)), k r)
  end.
(* lazy_loaders.py:565-1073, one call *)
Definition hstep (y : system) (o : hop) : system * seen :=
  match o with
  | Write p f => (mkSys ((p, f) :: y_disk y) (y_objs y), Done)
  | Remove p => (mkSys (filter (fun e => negb (String.eqb (fst e) p)) (y_disk y)) (y_objs y), Done)
  | New p m o => (mkSys (y_disk y) (y_objs y ++ [new_handle p m o]), Done)
  | Over i o => match nth_error (y_objs y) i with None => (y, NoObject) | Some h => (mkSys (y_disk y) (y_objs y ++ [handle_overview h o]), Done) end
  | Absolute i o => match nth_error (y_objs y) i with None => (y, NoObject) | Some h => (mkSys (y_disk y) (y_objs y ++ [handle_absolute h o]), Done) end
  | Method i m => match nth_error (y_objs y) i with None => (y, NoObject) | Some h => (mkSys (y_disk y) (put i (set_method h m) (y_objs y)), Done) end
  | Shape i => on y i the_shape SShape
  | Num i => on y i the_num SNum
  | Item i index => on y i (handle_getitem index) SItem
  end.
(* lazy_loaders.py:565-1073, a history of calls *)
Fixpoint hrun (y : system) (l : list hop) : system * list seen :=
  match l with
  | [] => (y, [])
  | o :: l' => let '(y1, s) := hstep y o in let '(y2, ss) := hrun y1 l' in (y2, s :: ss)
  end.
Definition hstart : system := mkSys [] [].
End Handles.
Arguments handle : clear implicits.
Arguments hop : clear implicits.
Arguments seen : clear implicits.
Arguments system : clear implicits.
