(* Ordered sets under every kind of index (channel_spec.py:1922-1986), with the
   state an exception leaves behind. *)
From Verif Require Import Py ChanModel.
Local Open Scope Z_scope.

(* channel_spec.py:1955-1965, the argument of oset_delitem: a slice, an iterable of
   positions, an integer, or something else (a tuple is not "iterable" for ubelt) *)
Inductive del_index :=
| DSlice (start stop step : option Z)
| DList (l : list Z)
| DInt (i : Z)
| DOther.

(* channel_spec.py:1974-1975: the keys are deleted one by one; a missing one raises
   KeyError after the ones before it are gone *)
Fixpoint del_keys (ks : list string) (d : list (string * Z)) : list (string * Z) * option exn :=
  match ks with
  | [] => (d, None)
  | k :: ks' => match dict_del k d with
                | Some d' => del_keys ks' d'
                | None => (d, Some KeyError)
                end
  end.

(* Python: del list[i], channel_spec.py:1977-1978 *)
Definition del_py {A} (l : list A) (i : Z) : result (list A) :=
  let n := Z.of_nat (List.length l) in
  let j := if i <? 0 then i + n else i in
  if (j <? 0) || (n <=? j) then Err IndexError else Ok (del_at l j).

(* channel_spec.py:1977-1978: the items are deleted one by one *)
Fixpoint del_items {A} (idxs : list Z) (l : list A) : list A * option exn :=
  match idxs with
  | [] => (l, None)
  | i :: r => match del_py l i with Ok l' => del_items r l' | Err e => (l, Some e) end
  end.

(* channel_spec.py:1967-1984: several items at once *)
Definition drop_batch (s : oset) (to_remove : list string) : oset * option exn :=
  match mapR (fun k => match dict_get k (omap s) with Some v => Ok v | None => Err KeyError end) to_remove with
  | Err e => (s, Some e)
  | Ok idxs =>
      let remove_idxs := sort_desc idxs in
      match del_keys to_remove (omap s) with
      | (m, Some e) => (mkO (oitems s) m, Some e)
      | (m, None) =>
          match del_items remove_idxs (oitems s) with
          | (items, Some e) => (mkO items m, Some e)
          | (items, None) =>
              (mkO items (map (fun kv => (fst kv, snd kv - count_ge remove_idxs (snd kv))) m), None)
          end
      end
  end.

(* OrderedSet.discard of ubelt, called by channel_spec.py:1986 *)
Definition discard (s : oset) (key : string) : oset * option exn :=
  match dict_get key (omap s) with
  | None => (s, None)
  | Some i =>
      match del_py (oitems s) i with
      | Err e => (s, Some e)
      | Ok items =>
          match dict_del key (omap s) with
          | None => (mkO items (omap s), Some KeyError)
          | Some m => (mkO items (map (fun kv => (fst kv, if i <=? snd kv then snd kv - 1 else snd kv)) m), None)
          end
      end
  end.

(* channel_spec.py:1941-1986 oset_delitem: the set afterwards, and the exception *)
Definition oset_delitem (s : oset) (ix : del_index) : oset * option exn :=
  match ix with
  | DSlice None None None => (mkO [] [], None)                       (* channel_spec.py:1955-1956 *)
  | DSlice a b st =>                                                 (* channel_spec.py:1960-1961 *)
      match py_slice_step (oitems s) a b st with
      | Ok ks => drop_batch s ks
      | Err e => (s, Some e)
      end
  | DList l =>                                                       (* channel_spec.py:1958-1959 *)
      match mapR (py_get (oitems s)) l with
      | Ok ks => drop_batch s ks
      | Err e => (s, Some e)
      end
  | DInt i =>                                                        (* channel_spec.py:1960-1961, 1985-1986 *)
      match py_get (oitems s) i with
      | Ok k => discard s k
      | Err e => (s, Some e)
      end
  | DOther => (s, Some TypeError)                                    (* channel_spec.py:1962-1965 *)
  end.

(* channel_spec.py:1922-1986, one edit; the program goes on after an exception *)
Inductive oedit := OIns (i : Z) (x : string) | ODel (ix : del_index).
(* channel_spec.py:1922-1986 *)
Definition run_edit (s : oset) (e : oedit) : oset :=
  match e with OIns i x => oset_insert s i x | ODel ix => fst (oset_delitem s ix) end.
