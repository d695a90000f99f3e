(* take_channels with channel names, integer band indexes and evaluate()
   (delayed_nodes.py). *)
From Verif Require Import Py GeomModel GraphModel FinalModel ChanModel.
Local Open Scope Z_scope.

(* the values of missing_channel_policy; OtherP is any unknown string
   See delayed_nodes.py:820-826, values of missing_channel_policy *)
Inductive policy := ReturnNan | ErrorP | OtherP.

(* OrderedSet.index(code), None where it raises KeyError (delayed_nodes.py:933-937) *)
Fixpoint position (c : string) (l : list string) : option Z :=
  match l with
  | [] => None
  | x :: r => if String.eqb c x then Some 0 else option_map Z.succ (position c r)
  end.

(* Python: list equality *)
Fixpoint strs_eqb (a b : list string) : bool :=
  match a, b with
  | [], [] => true
  | x :: a', y :: b' => String.eqb x y && strs_eqb a' b'
  | _, _ => false
  end.

(* Channel specs are modelled by their normalized name lists; the equality test
   of FusedChannelSpec (channel_spec.py:455-458) compares the unnormalized lists,
   so it may fail although the names agree.  [same] tells whether the two specs
   are written the same way. *)
Definition spec_eqb (same : bool) (current request : list string) : bool :=
  same && strs_eqb current request.

(* delayed_nodes.py:929-937: the index of every requested code among the unique
   names *)
Definition code_indexes (nl req : list string) : list (option Z * string) :=
  map (fun c => (position c (oset_of nl), c)) req.

(* delayed_nodes.py:3375-3390 _InnerAccumSegment *)
Definition band_run := (option nat * list (Z * string))%type.

(* delayed_nodes.py:989-998 *)
Definition key_eqb (a b : option nat) : bool :=
  match a, b with Some x, Some y => Nat.eqb x y | None, None => true | _, _ => false end.

(* delayed_nodes.py:972-1002: maximal runs of requests served by the same part;
   None is the run of codes no part has *)
Fixpoint runs (l : list (option (nat * Z) * string)) : list band_run :=
  match l with
  | [] => []
  | (w, c) :: r =>
      let k := option_map fst w in
      let v := (match w with Some (_, j) => j | None => 0 end, c) in
      match runs r with
      | (k', vs) :: rest => if key_eqb k k' then (k', v :: vs) :: rest
                            else (k, [v]) :: (k', vs) :: rest
      | [] => [(k, [v])]
      end
  end.

(* delayed_nodes.py:3437-3460 get_subcomponent.  The concatenation has a known
   size (otherwise the code builds a DelayedNans of unknown size). *)
Definition run_component (parts : list (node * (list Z -> result node))) (d : option size)
  (r : band_run) : result node :=
  match fst r with
  | Some p => sub_component parts (p, map fst (snd r))
  | None =>
      match d with
      | None => Err TypeError
      | Some d => Ok (Leaf (MkLeaf 0 Nans d (Some (map snd (snd r)))
                              (Some (Z.of_nat (List.length (snd r)))) None))
      end
  end.

(* subindexer.unravel for a code that exists (delayed_nodes.py:977-986) *)
Definition locate (sizes : list Z) (oc : option Z * string) : result (option (nat * Z) * string) :=
  match fst oc with
  | None => Ok (None, snd oc)
  | Some i => pj <- unravel sizes i 0 ;; Ok (Some pj, snd oc)
  end.

(* delayed_nodes.py:820-1009 DelayedChannelConcat.take_channels for a channel spec *)
Definition take_concat (ps : list node) (d : option size) (same : bool) (p : policy)
  (req : list string) : result node :=
  match concat_opt (map names ps) with
  | None => Err AssertionError                                        (* delayed_nodes.py:928 *)
  | Some nl =>
      if spec_eqb same nl req then Ok (Concat ps d)                   (* delayed_nodes.py:925-927 *)
      else
        let idx := code_indexes nl req in
        _ <- match p with                                             (* delayed_nodes.py:939-958 *)
             | ReturnNan => Ok tt
             | ErrorP => if forallb (fun oc => match fst oc with None => false | Some _ => true end) idx
                         then Ok tt else Err ValueError
             | OtherP => Err KeyError
             end ;;
        match known_all (map num_channels ps) with                    (* delayed_nodes.py:968-970 *)
        | None => Err TypeError
        | Some sizes =>
            wh <- mapR (locate sizes) idx ;;
            comps <- mapR (run_component (map (fun q => (q, take_idx q)) ps) d) (runs wh) ;;
            match mkConcat comps with Some c => Ok c | None => Err ValueError end
        end
  end.

(* delayed_nodes.py:965-970 *)
Fixpoint all_some {A} (l : list (option A)) : option (list A) :=
  match l with
  | [] => Some []
  | o :: r => match o, all_some r with Some a, Some b => Some (a :: b) | _, _ => None end
  end.

(* take_channels(spec): 820-1009 for a concatenation, 1327-1435 for an image *)
Definition take_named (t : node) (lazy same : bool) (p : policy) (req : list string) : result node :=
  match t with
  | Concat ps d => take_concat ps d same p req
  | _ =>
      match names t with
      | None => Err ValueError                                        (* delayed_nodes.py:1409-1413 *)
      | Some nl =>
          if (lazy && spec_eqb same nl req)%bool then Ok t            (* delayed_nodes.py:1415-1416 *)
          else match all_some (map fst (code_indexes nl req)) with
               | Some idxs => mkCrop t None (Some idxs)               (* delayed_nodes.py:1418-1423, 1434 *)
               | None => take_concat [t] (dsize t) same p req         (* delayed_nodes.py:1424-1432 *)
               end
      end
  end.

(** ** One band: image[ys, xs, k] with an integer k *)

(* delayed_nodes.py:1011-1022, 2668-2732: channels[k] is a single code; the array is indexed with
   an integer, which drops the band axis, and atleast_nd appends it again *)
Definition index_one {V} (a : array V) (ys xs : ival) (k : Z) : result (array V) :=
  let '(y0, h) := axis_slice (a_h a) ys in
  let '(x0, w) := axis_slice (a_w a) xs in
  match a_c a with
  | None => Err IndexError
  | Some n => k' <- np_index n k ;;
              Ok (Arr h w None (fun r c _ => a_pix a (r + y0) (c + x0) k'))
  end.

(* finalize(optimize=False) of concat[ys, xs, k] (2668-2732)
   See delayed_nodes.py:1011-1022, 2668-2732 *)
Definition one_band_unoptimized {V} (W : world V) (t : node) (ys xs : pyslice) (k : Z) : result (array V) :=
  match dsize t with
  | None => Err AssertionError
  | Some (w, h) =>
      y <- wrap_clip h ys ;; x <- wrap_clip w xs ;;
      a <- finalize W t ;; rmap atleast3 (index_one a y x k)
  end.

(* concat[ys, xs, k].optimize() when the parts are already optimized (2790-2812):
   take_channels is called with the integer, which FusedChannelSpec.coerce turns
   into the spec u0|u1|...|u(k-1) (channel_spec.py:518-520); the rest is cropped
   and pushed under the concatenation *)
Definition one_band_optimized (ps : list node) (d : option size) (ys xs : pyslice) (k : Z) : result node :=
  taken <- take_concat ps d false ReturnNan (from_int_codes k) ;;
  match d with
  | None => Err AssertionError
  | Some (w, h) =>
      y <- wrap_clip h ys ;; x <- wrap_clip w xs ;;
      c <- mkCrop taken (Some (some_slice y, some_slice x)) None ;;
      p <- push_under c ;;
      match p with Some c' => Ok c' | None => Ok c end
  end.

(** ** evaluate() *)

(* delayed_nodes.py:1476-1487: finalize() (optimize, then _finalize), then a
   DelayedIdentity (delayed_leafs.py:512-518) over the array, with the size and
   channels of the node.  [id] names the new data; the array is returned too. *)
Definition evaluate {V} (W : world V) (o : oracle) (fuel : nat) (id : Z) (t : node)
  : result (array V * node) :=
  '(t', _) <- optimize o fuel t ;;
  a <- finalize W t' ;;
  Ok (a, Leaf (MkLeaf id Data (match dsize t with Some d => d | None => (a_w a, a_h a) end) (names t)
                 (Some (match a_c a with Some n => n | None => 1 end)) None)).

(* the world in which the data [id] is the array [a] *)
Definition with_data {V} (W : world V) (id : Z) (a : array V) : world V :=
  World (fun i r c b => if i =? id then a_pix a r c b else w_pix W i r c b)
        (fun i => if i =? id then match a_c a with None => true | Some _ => false end else w_flat W i)
        (w_nan W) (w_fill W) (w_dq W).
