(* ChannelSpec.encode and decode (channel_spec.py:1463-1746).  An array is the
   list of its slabs along the channel axis; every index tuple used by the code
   is slice(None) on the axes before it, so only the last slice is kept.  The
   lru_cache wrappers (1666, 1725) memoize pure functions and are left out. *)
From Verif Require Import Py ChanModel.
Local Open Scope Z_scope.

(* where a component lies: array key and slice *)
Notation piece := (string * (Z * Z))%type.

Section Encode.
Context {X : Type}.

Local Notation arr := (list X).
(* slicing of an axis *)
Definition seg (a : arr) (sl : Z * Z) : arr := py_slice a (Some (fst sl)) (Some (snd sl)).

(* channel_spec.py:1628-1635 *)
Fixpoint decode_parts (key : string) (inputs : list (string * arr)) (idx1 : Z) (l : list (string * Z))
  (d : list (string * arr)) : result (list (string * arr)) :=
  match l with
  | [] => Ok d
  | (part, size) :: l' =>
      let idx2 := idx1 + size in
      fused <- dict_index key inputs ;;
      decode_parts key inputs idx2 l' (dict_set part (seg fused (idx1, idx2)) d)
  end.

(* channel_spec.py:1626-1636 *)
Fixpoint decode_streams (p : list (string * fused)) (inputs d : list (string * arr))
  : result (list (string * arr)) :=
  match p with
  | [] => Ok d
  | (key, parts) :: p' =>
      szs <- sizes parts ;;
      d' <- decode_parts key inputs 0 (combine (codes parts) szs) d ;;
      decode_streams p' inputs d'
  end.

(* channel_spec.py:1584-1636 decode *)
Definition decode (c : cspec) (inputs : list (string * arr)) : result (list (string * arr)) :=
  decode_streams (cparse c) inputs [].

(* sorted() of string keys; keys are distinct, so pairs are compared by key; see Python: sorted *)
Fixpoint insert_key {A} (kv : string * A) (l : list (string * A)) : list (string * A) :=
  match l with
  | [] => [kv]
  | kv' :: l' => if String.leb (fst kv) (fst kv') then kv :: l else kv' :: insert_key kv l'
  end.
(* Python: sorted *)
Definition sort_keys {A} (l : list (string * A)) : list (string * A) := fold_right insert_key [] l.

(* Python: dict.update *)
Definition dict_update {A} (d e : list (string * A)) : list (string * A) :=
  fold_left (fun d kv => dict_set (fst kv) (snd kv) d) e d.

(* channel_spec.py:1668-1672 and 1725-1746 *)
Fixpoint item_indices (keys : list string) (d : list (string * (string * (Z * Z))))
  : result (list (string * (string * (Z * Z)))) :=
  match keys with
  | [] => Ok d
  | key :: keys' =>
      e <- component_indices (mkC key None) ;;
      item_indices keys' (dict_update d e)
  end.

(* channel_spec.py:1682-1703; prev_sl is set when a run starts and not updated
   when a slice is merged into it *)
Definition flush (accum : list piece) : list (list piece) := match accum with [] => [] | _ => [accum] end.
(* channel_spec.py:1679-1703 *)
Fixpoint merge_runs (prev : option piece) (accum : list piece) (l : list piece) : list (list piece) :=
  match l with
  | [] => flush accum
  | (key, sl) :: l' =>
      if match prev with
         | Some (pkey, psl) => String.eqb pkey key && (snd psl =? fst sl)
         | None => false
         end
      then merge_runs prev (accum ++ [(key, sl)]) l'
      else (flush accum ++ merge_runs (Some (key, sl)) [(key, sl)] l')%list
  end.

(* channel_spec.py:1706-1719 *)
Definition merged (accum : list piece) : piece :=
  match accum with
  | [] => (EmptyString, (0, 0))
  | x :: r => (fst x, (fst (snd x), snd (snd (last r x))))
  end.

(* channel_spec.py:1667-1722 *)
Definition fused_pieces (l : list piece) : list piece := map merged (merge_runs None [] l).

(* channel_spec.py:1556-1562 *)
Definition gather (item : list (string * arr)) (l : list piece) : result arr :=
  parts <- mapR (fun p => a <- dict_index (fst p) item ;; Ok (seg a (snd p))) l ;;
  match parts with [] => Err ValueError | _ => Ok (List.concat parts) end.

(* channel_spec.py:1463-1562 encode(item, mode=1) *)
Definition encode1 (c : cspec) (item : list (string * arr)) : result (list (string * arr)) :=
  match item with
  | [] => Err ValueError                                                (* channel_spec.py:1532-1533 *)
  | _ =>
      idx <- item_indices (map fst (sort_keys item)) [] ;;
      fi <- mapR (fun kv => l <- mapR (fun p => dict_index p idx) (codes (snd kv)) ;; Ok (fst kv, l))
                 (sort_keys (cparse c)) ;;                              (* channel_spec.py:1674-1676 *)
      mapR (fun kv => a <- gather item (fused_pieces (snd kv)) ;; Ok (fst kv, a)) fi
  end.

(* channel_spec.py:1566-1572 *)
Fixpoint item_components (item : list (string * arr)) (d : list (string * arr)) : result (list (string * arr)) :=
  match item with
  | [] => Ok d
  | (key, a) :: item' =>
      e <- decode (mkC key None) [(key, a)] ;;
      item_components item' (dict_update d e)
  end.

(* channel_spec.py:1563-1578 encode(item, mode=0).  [for k in parts] iterates
   parts[0], parts[1], ..., that is the normalized codes (424-431). *)
Definition encode0 (c : cspec) (item : list (string * arr)) : result (list (string * arr)) :=
  match item with
  | [] => Err ValueError
  | _ =>
      comps <- item_components item [] ;;
      mapR (fun kv =>
              nf <- normalize (snd kv) ;;
              l <- mapR (fun k => dict_index k comps) (codes nf) ;;
              match l with [] => Err ValueError | _ => Ok (fst kv, List.concat l) end)
           (cparse c)
  end.

End Encode.
