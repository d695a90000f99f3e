(* DelayedLoad over histories of calls while files come, change and go
   (delayed_leafs.py:130-352, delayed_base.py:376-465).  Definitions only. *)
From Verif Require Export Py LazyModel HandleModel.
Local Open Scope Z_scope.

Section Loads.
Context {V : Type} (veq : V -> V -> bool) (promote : V -> V) (fast : bool).
Context (upstream : gfile V -> Z -> option string -> list idx -> result (rarr V)).
Context (gdal : bool).                           (* lazy_loaders.py:574-578 available() *)
(* kwimage.load_image_shape (height, width and, unless grey, bands) and kwimage.imread *)
Context (file_shape : gfile V -> Z * Z * option Z) (imread : gfile V -> rarr V).

(* delayed_leafs.py:165, 237-252: lazy_ref: None, NotImplemented or a lazy file *)
Inductive reference := RNone | RPlain | RGdal (h : handle V).
(* delayed_leafs.py:160-165 the object; the meta of a load *)
Record load := mkLoad { i_path : string; i_method : option string; i_meta : lmeta; i_ref : reference }.
(* delayed_leafs.py:137-165 __init__ *)
Definition new_load (p : string) (m : option string) (given : lmeta) : load := mkLoad p m given RNone.

(* delayed_leafs.py:237-252 _load_reference *)
Definition load_reference (i : load) : result unit * load :=
  match i_ref i with
  | RNone =>
      if gdal then (Ok tt, mkLoad (i_path i) (i_method i) (i_meta i) (RGdal (new_handle (i_path i) (i_method i) None)))
      else if match i_method i with Some m => String.eqb m "auto" | None => false end then (Err OtherError, i)
      else (Ok tt, mkLoad (i_path i) (i_method i) (i_meta i) RPlain)
  | _ => (Ok tt, i)
  end.

(* delayed_leafs.py:280-285: nothing to look up *)
Definition complete (m : lmeta) : bool :=
  is_some (m_dsize m) && is_some (m_channels m) && is_some (m_overviews m) && full_size (m_dsize m).

(* delayed_leafs.py:253-303 prepare, _load_metadata; what is filled in is
   LazyModel.load_metadata *)
Definition prepare_load (d : disk) (i : load) : result unit * load :=
  if complete (i_meta i) then (Ok tt, i)
  else
    match load_reference i with
    | (Err e, i') => (Err e, i')
    | (Ok _, i') =>
        match i_ref i' with
        | RGdal h =>
            match the_shape d h with
            | (Err e, h') => (Err e, mkLoad (i_path i') (i_method i') (i_meta i') (RGdal h'))
            | (Ok (hh, w, c), h') =>
                match the_num d h' with
                | (Err e, h'') => (Err e, mkLoad (i_path i') (i_method i') (i_meta i') (RGdal h''))
                | (Ok n, h'') => (Ok tt, mkLoad (i_path i') (i_method i') (load_metadata (SGdal hh w c n) (i_meta i')) (RGdal h''))
                end
            end
        | _ =>
            match on_disk (i_path i') d with
            | None => (Err OtherError, i')
            | Some f => let '(hh, w, c) := file_shape f in
                        (Ok tt, mkLoad (i_path i') (i_method i') (load_metadata (SPlain hh w c) (i_meta i')) (i_ref i'))
            end
        end
    end.

(* delayed_leafs.py:305-337 _finalize followed by final[:] (delayed_base.py:445-447) *)
Definition read_load (d : disk) (i : load) : result (rarr V) * load :=
  match load_reference i with
  | (Err e, i') => (Err e, i')
  | (Ok _, i') =>
      match i_ref i' with
      | RGdal h =>
          let '(r, h') := handle_getitem veq promote fast upstream [full] d (set_method h (i_method i')) in
          (r, mkLoad (i_path i') (i_method i') (i_meta i') (RGdal h'))
      | _ => match on_disk (i_path i') d with None => (Err OtherError, i') | Some f => (Ok (imread f), i') end
      end
  end.

(* delayed_base.py:405-449 finalize, with a nodata_method= among the keywords or not; a
   load is its own optimized form *)
Definition finalize_load (kw : option (option string)) (d : disk) (i : load) : result (rarr V) * load :=
  let i := match kw with None => i | Some m => mkLoad (i_path i) m (i_meta i) (i_ref i) end in
  match prepare_load d i with
  | (Err e, i') => (Err e, i')
  | (Ok _, i') => read_load d i'
  end.

(* calls on loads, known by the order they were made in; the first two are other programs
   writing files; see delayed_leafs.py:137-337 *)
Inductive lop :=
| LWrite (p : string) (f : gfile V) | LRemove (p : string)
| LNew (p : string) (m : option string) (given : lmeta)
| LPrepare (i : nat) | LFinalize (i : nat) (kw : option (option string)) | LMeta (i : nat).
(* what the caller sees *)
Inductive lseen := LDone | LTried (r : result unit) | LArray (r : result (rarr V)) | LIs (m : lmeta) | LNoObject.
(* the disk and the loads *)
Record lsystem := mkLSys { z_disk : disk (V := V); z_objs : list load }.
(* delayed_leafs.py:137-337: updated in place *)
Fixpoint lput (n : nat) (i : load) (l : list load) : list load :=
  match l, n with [], _ => [] | _ :: l', O => i :: l' | x :: l', S n' => x :: lput n' i l' end.
(* one call; see delayed_leafs.py:137-337 *)
Definition lstep (y : lsystem) (o : lop) : lsystem * lseen :=
  match o with
  | LWrite p f => (mkLSys ((p, f) :: z_disk y) (z_objs y), LDone)
  | LRemove p => (mkLSys (filter (fun e => negb (String.eqb (fst e) p)) (z_disk y)) (z_objs y), LDone)
  | LNew p m g => (mkLSys (z_disk y) (z_objs y ++ [new_load p m g]), LDone)
  | LPrepare n => match nth_error (z_objs y) n with
                  | None => (y, LNoObject)
                  | Some i => let '(r, i') := prepare_load (z_disk y) i in (mkLSys (z_disk y) (lput n i' (z_objs y)), LTried r)
                  end
  | LFinalize n kw => match nth_error (z_objs y) n with
                      | None => (y, LNoObject)
                      | Some i => let '(r, i') := finalize_load kw (z_disk y) i in (mkLSys (z_disk y) (lput n i' (z_objs y)), LArray r)
                      end
  | LMeta n => match nth_error (z_objs y) n with None => (y, LNoObject) | Some i => (y, LIs (i_meta i)) end
  end.
(* a history of calls; see delayed_leafs.py:137-337 *)
Definition lrun (y : lsystem) (l : list lop) : lsystem := fold_left (fun y o => fst (lstep y o)) l y.
Definition lstart : lsystem := mkLSys [] [].
End Loads.
Arguments load : clear implicits.
Arguments lop : clear implicits.
Arguments lseen : clear implicits.
Arguments lsystem : clear implicits.
Arguments reference : clear implicits.
