(* Membership tests and demo items of channel specs (channel_spec.py:424-452,
   726-737, 1026-1035, 1402-1461).  Definitions only. *)
From Verif Require Export Py ChanModel.
Local Open Scope Z_scope.

(* channel_spec.py:444-446 FusedChannelSpec.unique, 726-735 __contains__: the codes as
   they are written *)
Definition fused_in (key : string) (f : fused) : bool := str_mem key (codes f).

(* channel_spec.py:424-431: FusedChannelSpec has no __iter__, so iterating it asks for
   __getitem__(0), __getitem__(1), ... until IndexError; each call normalizes *)
Definition fused_iter (f : fused) : result (list string) := n <- normalize f ;; Ok (codes n).

(* channel_spec.py:1402-1415 ChannelSpec.unique; the resulting set is a list here *)
Definition chan_unique (norm : bool) (c : cspec) : result (list string) :=
  c' <- (if norm then Ok c else cnormalize c) ;;
  ls <- mapR (fun kv => fused_iter (snd kv)) (cparse c') ;;
  Ok (List.concat ls).

(* channel_spec.py:1026-1034 ChannelSpec.__contains__ *)
Definition chan_in (key : string) (c : cspec) : result bool :=
  u <- chan_unique false c ;; Ok (str_mem key u).

(* channel_spec.py:1427-1434, loop body of _item_shapes; only the channel axis of a
   shape is kept, the spatial dimensions are the argument [dims] *)
Fixpoint item_shapes_loop (p : list (string * fused)) (keys : list string) (d : list (string * Z))
  : result (list (string * Z)) :=
  match keys with
  | [] => Ok d
  | k :: keys' =>
      f <- dict_index k p ;;
      szs <- sizes f ;;
      item_shapes_loop p keys' (fold_left (fun d cs => dict_set (fst cs) (snd cs) d) (combine (codes f) szs) d)
  end.
(* channel_spec.py:1417-1435 ChannelSpec._item_shapes *)
Definition item_shapes (c : cspec) : result (list (string * Z)) := item_shapes_loop (cparse c) (ckeys c) [].

(* channel_spec.py:1437-1461 ChannelSpec._demo_item; the random numbers are an arbitrary
   function of the key and the position along the channel axis *)
Definition demo_item {X} (fill : string -> Z -> X) (c : cspec) : result (list (string * list X)) :=
  shapes <- item_shapes c ;;
  Ok (map (fun kv => (fst kv, map (fill (fst kv)) (zseq (Z.to_nat (snd kv))))) shapes).
