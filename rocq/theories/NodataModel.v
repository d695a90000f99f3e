(* delayed_leafs.py:446-489 DelayedNodata.  Definitions only. *)
From Verif Require Export Py GeomModel GraphModel.
Local Open Scope Z_scope.

(* delayed_leafs.py:465-468: the leaf, and meta['nodata_method'] with its copy in
   _kwargs *)
Record nodata := mkND { nd_leaf : leaf; nd_meta : option string; nd_kwargs : option string }.

(* delayed_leafs.py:386-388, 465-468 __init__; an unnamed leaf has an unknown number of
   channels *)
Definition new_nodata (id : Z) (d : size) (nm : option (list string)) (m : option string) : nodata :=
  mkND (MkLeaf id Nans d nm (option_map (fun n => Z.of_nat (List.length n)) nm) None) m m.

(* delayed_leafs.py:401-443: the constructor gets _kwargs, so the method is that of
   _kwargs *)
Inductive nd_op := NDCrop (ys xs : ival) (ci : option (list Z)) | NDWarp (d : size).
(* delayed_leafs.py:401-443 _optimized_crop and _optimized_warp *)
Definition nd_step (n : nodata) (op : nd_op) : result nodata :=
  match op with
  | NDCrop ys xs ci =>
      r <- nans_crop (nd_leaf n) ys xs ci ;;
      match r with
      | Leaf l => Ok (new_nodata (l_id l) (l_dsize l) (l_names l) (nd_kwargs n))
      | _ => Err OtherError
      end
  | NDWarp d => Ok (new_nodata (l_id (nd_leaf n)) d (l_names (nd_leaf n)) (nd_kwargs n))
  end.
(* delayed_leafs.py:401-443, one after the other *)
Fixpoint nd_run (n : nodata) (ops : list nd_op) : result nodata :=
  match ops with [] => Ok n | op :: ops' => n' <- nd_step n op ;; nd_run n' ops' end.

(* delayed_leafs.py:483-486: nan, or a masked entry over memory that was not set *)
Inductive gap := GNan | GMasked (garbage : Z).
(* delayed_leafs.py:480-489: a (h, w, c) array, entry by entry *)
Record gaps := mkGaps { ga_h : Z; ga_w : Z; ga_c : Z; ga_at : Z -> Z -> Z -> gap }.

(* delayed_leafs.py:470-489 DelayedNodata._finalize; int() of an unknown number of
   channels raises; [memory] is what numpy.empty finds *)
Definition nd_finalize (memory : Z -> Z -> Z -> Z) (n : nodata) : result gaps :=
  match l_nc (nd_leaf n) with
  | None => Err TypeError
  | Some c =>
      let '(w, h) := l_dsize (nd_leaf n) in
      match nd_meta n with
      | None => Ok (mkGaps h w c (fun _ _ _ => GNan))
      | Some m =>
          if String.eqb m "ma" then Ok (mkGaps h w c (fun y x b => GMasked (memory y x b)))
          else if String.eqb m "float" || String.eqb m "nan" then Ok (mkGaps h w c (fun _ _ _ => GNan))
          else Err KeyError
      end
  end.
