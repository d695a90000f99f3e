(* Transforms between delayed images: get_transform_from and undo_warp. *)
From Verif Require Import Py GeomModel GraphModel.
Local Open Scope Q_scope.

(** ** get_transform_from_leaf *)

(* delayed_nodes.py:1467-1474 with _transform_from_subdata of 2141-2142 (warp),
   2627-2628 (dequantize), 2734-2738 (crop), 3202-3204 (overview);
   delayed_leafs.py:22-29.  A concatenation has no such method. *)
Fixpoint from_leaf (t : node) : result affine :=
  match t with
  | Leaf _ => Ok aff_id
  | Concat _ _ => Err AttributeError
  | Crop s ys xs _ _ _ _ =>
      A <- from_leaf s ;;
      Ok (aff_mul (aff_translate (- inject_Z (fst xs)) (- inject_Z (fst ys))) A)
  | Warp s M _ _ => A <- from_leaf s ;; Ok (aff_mul M A)
  | Dequant s _ _ => A <- from_leaf s ;; Ok (aff_mul aff_id A)
  | Overview s k _ => A <- from_leaf s ;; Ok (aff_mul (aff_scale (1 / pow2 k) (1 / pow2 k)) A)
  end.

(** ** get_transform_from *)

(* delayed_base.py:207-269 _leaf_paths: (leaf, the operations above it without
   the concatenations).  The last part of a concatenation comes first, because
   the walk pops the end of its stack (TreeModel.v models that walk); an empty
   concatenation fails an assertion. *)
Definition over (op : node -> node) (r : result (list (leaf * node))) : result (list (leaf * node)) :=
  rmap (map (fun lp => (fst lp, op (snd lp)))) r.
(* delayed_base.py:207-269 _leaf_paths *)
Fixpoint paths (t : node) : result (list (leaf * node)) :=
  match t with
  | Leaf l => Ok [(l, t)]
  | Concat ps _ =>
      match ps with
      | [] => Err AssertionError
      | _ => rmap (fun r => List.concat (rev r)) (mapR (fun x => x) (map paths ps))
      end
  | Crop s ys xs ci d nm nc => over (fun p => Crop p ys xs ci d nm nc) (paths s)
  | Warp s M d al => over (fun p => Warp p M d al) (paths s)
  | Dequant s q d => over (fun p => Dequant p q d) (paths s)
  | Overview s k d => over (fun p => Overview p k d) (paths s)
  end.

(* delayed_nodes.py:651-652: a dictionary from id(leaf); a later path of the same
   leaf overwrites an earlier one *)
Definition has_id (i : Z) (lp : leaf * node) : bool := (l_id (fst lp) =? i)%Z.
(* delayed_nodes.py:640-674 *)
Definition path_of (i : Z) (ps : list (leaf * node)) : result node :=
  match find (has_id i) (rev ps) with Some lp => Ok (snd lp) | None => Err KeyError end.

(* delayed_nodes.py:653-654: the first leaf of dst that src has, too.  peek_key of
   an empty dictionary raises StopIteration. *)
Definition common_id (dst src : list (leaf * node)) : result Z :=
  match find (fun lp => existsb (has_id (l_id (fst lp))) src) dst with
  | Some lp => Ok (l_id (fst lp))
  | None => Err OtherError
  end.

(* delayed_nodes.py:644-674.  from_leaf fails only with AttributeError. *)
Definition get_transform_from (dst src : node) : result affine :=
  '(B, A) <- match from_leaf src, from_leaf dst with
             | Ok A, Ok B => Ok (B, A)
             | _, _ =>
                 sp <- paths src ;;
                 dp <- paths dst ;;
                 i <- common_id dp sp ;;
                 s <- path_of i sp ;;
                 d <- path_of i dp ;;
                 A <- from_leaf s ;;
                 B <- from_leaf d ;;
                 Ok (B, A)
             end ;;
  I <- aff_inv A ;;
  Ok (aff_mul B I).

(** ** undo_warp *)

(* delayed_nodes.py:1746-1760 *)
Definition valid_keys : list string := ["offset"; "scale"; "shearx"; "theta"]%string.

(* delayed_nodes.py:3355-3365 _rectify_retain *)
Definition rectify_retain (remove retain : option (list string)) : result (list string) :=
  match remove, retain with
  | Some _, Some _ => Err ValueError
  | Some r, None => Ok (filter (fun k => negb (str_mem k r)) valid_keys)
  | None, Some r => Ok r
  | None, None => Ok []
  end.

(* kwimage.Affine.concise() and Affine.coerce(dict) (not part of /repo): a
   dictionary of named components, and the transform it describes
   See kwimage.Affine.concise and coerce *)
Record codec (V : Type) := Codec { concise : affine -> list (string * V);
                                   coerce : list (string * V) -> affine }.
Arguments Codec {V}. Arguments concise {V}. Arguments coerce {V}.

(* delayed_nodes.py:1593-1598: the transform that is applied.  ub.dict_diff drops
   the retained keys. *)
Definition undo_transform {V} (c : codec V) (t : node) (retain : list string) : result affine :=
  A <- from_leaf t ;;
  I <- aff_inv A ;;
  Ok (coerce c (filter (fun kv => negb (str_mem (fst kv) retain)) (concise c I))).

(* delayed_nodes.py:1504-1613 undo_warp; optimize() is bounded by [fuel].  The
   second component is the returned warp. *)
Definition undo_warp {V} (c : codec V) (o : oracle) (fuel : nat) (t : node)
  (remove retain : option (list string)) (squash_nans return_warp : bool)
  : result (node * option affine) :=
  keep <- rectify_retain remove retain ;;
  U <- undo_transform c t keep ;;
  w <- mkWarp_auto t U default_algo ;;
  u <- rmap fst (optimize o fuel w) ;;
  W <- (if squash_nans && return_warp then
          match dsize u with
          | None => Err AssertionError
          | Some (w, h) =>
              if ((w =? 0) || (h =? 0))%Z then Err OtherError      (* ZeroDivisionError *)
              else Ok (aff_mul (aff_scale (1 / inject_Z w) (1 / inject_Z h)) U)
          end
        else Ok U) ;;
  u' <- match u with
        | Leaf l =>
            if squash_nans && is_nans l then
              cr <- mkCrop u (Some ((Some 0, Some 1), (Some 0, Some 1)))%Z None ;;
              rmap fst (optimize o fuel cr)
            else Ok u
        | _ => Ok u
        end ;;
  Ok (u', if return_warp then Some W else None).

(* delayed_nodes.py:1076-1194 undo_warps of a concatenation; every part is given
   the already rectified set *)
Definition undo_warps {V} (c : codec V) (o : oracle) (fuel : nat) (parts : list node)
  (remove retain : option (list string)) (squash_nans return_warps : bool)
  : result (list (node * option affine)) :=
  keep <- rectify_retain remove retain ;;
  mapR (fun p => undo_warp c o fuel p None (Some keep) squash_nans return_warps) parts.
