(* Finalizing images whose leafs are files: DelayedLoad._finalize returns a lazy
   reference and the nodes above it index it, ask it for an overview or turn it
   into an array.  Same simplifications as FinalModel.v and LazyModel.v.  Each
   result comes with the list of windows that were requested from GDAL. *)
From Verif Require Import Py GeomModel LazyModel GraphModel FinalModel.
Local Open Scope Z_scope.

(* delayed_leafs.py:137-167: the files of the leafs *)
Record env (V : Type) := Env {
  e_veq : V -> V -> bool; e_promote : V -> V;                 (* see LazyModel.v *)
  e_fast : bool;                                              (* GDAL_FAST_PATH *)
  e_upstream : lazy V -> list idx -> result (rarr V);         (* kwimage's own reader *)
  e_imresize : Z -> array (sample V) -> result (array (sample V));  (* kwimage.imresize by 1 / 2 ** k *)
  e_world : FinalModel.world (sample V);                      (* leafs held in memory *)
  e_disk : Z -> option (gfile V * option string)              (* leafs that are files: file, nodata_method *)
}.
Arguments Env {V}. Arguments e_veq {V}. Arguments e_promote {V}. Arguments e_fast {V}. Arguments e_upstream {V}.
Arguments e_imresize {V}. Arguments e_world {V}. Arguments e_disk {V}.

(* what _finalize returns: a lazy reference or an array
   See delayed_leafs.py:305-336: what _finalize may return *)
Inductive final (V : Type) := Ref (id : Z) (s : lazy V) | Dense (a : array (sample V)).
Arguments Ref {V}. Arguments Dense {V}.

(* a window read: file, level, first row, first column, height, width, bands
   See lazy_loaders.py:896-1073: a window read *)
Record read := Rd { rd_id : Z; rd_level : Z; rd_y : Z; rd_x : Z; rd_h : Z; rd_w : Z; rd_bands : list Z }.

Section Load.
Context {V : Type} (E : env V).

(* the numpy array of a read: LazyModel keeps rows of columns of bands
   See lazy_loaders.py:687-771: the array of a read *)
Definition to_array (r : rarr V) : array (sample V) :=
  Arr (r_h r) (r_w r) (if r_2d r then None else Some (r_c r))
      (fun y x b => nth (Z.to_nat b) (nth (Z.to_nat x) (nth (Z.to_nat y) (r_data r) []) []) SNan).

(* lazy_loaders.py:992-1048: the window of an index; nothing is read for an
   index without bands (697-698) *)
Definition requested (id : Z) (s : lazy V) (index : list idx) : list read :=
  match (sh <- shape s ;;
         let '(h, w, C) := sh in
         index <- expand_index index ;;
         rq <- request index h w C ;;
         lvl <- (if e_fast E then read_ds s else read_bands s) ;;
         Ok (lvl, rq)) with
  | Ok (lvl, (b :: bs, (y, x, h, w))) => [Rd id lvl y x h w (b :: bs)]
  | _ => []
  end.

(* lazy_loaders.py:896-1073 __getitem__ with the reads it makes *)
Definition fetch (id : Z) (s : lazy V) (index : list idx) : result (array (sample V) * list read) :=
  r <- getitem (e_veq E) (e_promote E) (e_fast E) (e_upstream E s index) s index ;;
  Ok (to_array r, requested id s index).

(* np.asarray(ref) calls ref.__array__(), which is ref[:] (lazy_loaders.py:
   1075-1082); an array stays what it is; see lazy_loaders.py:1075-1082 __array__ *)
Definition force (f : final V) : result (array (sample V) * list read) :=
  match f with
  | Dense a => Ok (a, [])
  | Ref id s => fetch id s [full]
  end.

(* np.concatenate does not preserve the masks of masked arrays *)
Definition unmask (v : sample V) : sample V := match v with SMask v => SVal v | _ => v end.
(* np.concatenate of masked arrays *)
Definition unmask_array (a : array (sample V)) : array (sample V) :=
  Arr (a_h a) (a_w a) (a_c a) (fun r c b => unmask (a_pix a r c b)).

(* delayed_nodes.py:2723-2730: the index of a crop *)
Definition crop_index (ys xs : ival) (ci : option (list Z)) : list idx :=
  (ISlice (Some (fst ys)) (Some (snd ys)) None :: ISlice (Some (fst xs)) (Some (snd xs)) None ::
   match ci with Some l => [IList l] | None => [] end)%list.

(* the arrays of several parts, with all reads so far
   See delayed_nodes.py:781-792: np.concatenate converts its arguments *)
Definition force_all (fs : list (final V * list read)) : result (list (array (sample V)) * list read) :=
  l <- mapR (fun '(f, rs) => '(a, rs') <- force f ;; Ok (a, (rs ++ rs')%list)) fs ;;
  Ok (map fst l, List.concat (map snd l)).

Fixpoint lfin (t : node) : result (final V * list read) :=
  match t with
  | Leaf l =>                                  (* delayed_leafs.py:305-334, 389-399, 520-525 *)
      match l_kind l, e_disk E (l_id l) with
      | Data, Some (f, m) => Ok (Ref (l_id l) (open f m None), [])
      | _, _ => a <- finalize_leaf (e_world E) l ;; Ok (Dense a, [])
      end
  | Concat ps _ =>                             (* delayed_nodes.py:781-792 *)
      fs <- mapR (fun x => x) (map lfin ps) ;;
      match fs with
      | [f] => Ok f
      | _ =>
          '(l, rs) <- force_all fs ;;
          a <- stack_bands l ;;
          Ok (Dense (unmask_array a), rs)
      end
  | Crop s ys xs ci _ _ _ =>                   (* delayed_nodes.py:2717-2732 *)
      '(f, rs) <- lfin s ;;
      '(a, rs') <- match f with
                   | Ref id r => fetch id r (crop_index ys xs ci)
                   | Dense a => a' <- index_array a ys xs ci ;; Ok (a', [])
                   end ;;
      Ok (Dense (atleast3 a), (rs ++ rs')%list)
  | Dequant s q _ =>                           (* delayed_nodes.py:2558-2570 *)
      '(f, rs) <- lfin s ;;
      '(a, rs') <- force f ;;
      Ok (Dense (dq_array (e_world E) q (atleast3 a)), (rs ++ rs')%list)
  | Warp s M d al =>                           (* delayed_nodes.py:1770-1962, nearest only *)
      '(f, rs) <- lfin s ;;
      '(a, rs') <- force f ;;
      a' <- (if al_nearest al then nearest_array (e_world E) M d a else Err OtherError) ;;
      Ok (Dense a', (rs ++ rs')%list)
  | Overview s k _ =>                          (* delayed_nodes.py:3132-3160 *)
      '(f, rs) <- lfin s ;;
      match f with
      | Ref id r =>
          if k <=? LazyModel.num_overviews r then Ok (Ref id (get_overview r k), rs)
          else '(a, rs') <- force f ;; a' <- e_imresize E k a ;; Ok (Dense a', (rs ++ rs')%list)
      | Dense a => a' <- e_imresize E k a ;; Ok (Dense a', rs)
      end
  end.

(* delayed_base.py:441-448: finalize(prepare=False, optimize=False); final[:] *)
Definition lfinalize (t : node) : result (array (sample V) * list read) :=
  '(f, rs) <- lfin t ;;
  '(a, rs') <- force f ;;
  Ok (a, (rs ++ rs')%list).
End Load.
