(* Vocabulary for statements about images as objects: which objects an image is
   made of, what a program can hold, and one call of optimize(). *)
From Verif Require Import Py GeomModel GraphModel GraphSpec MemoModel.

(* an object and all objects below it *)
Fixpoint below (x : obj) : list obj :=
  x :: match x with
       | OLeaf _ _ => []
       | OConcat _ ps _ => flat_map below ps
       | OCrop _ _ s _ _ _ _ _ | OWarp _ _ s _ _ | ODequant _ _ s _ | OOverview _ _ s _ => below s
       end.

Definition dict_of (x : obj) : option nat :=
  match x with
  | OLeaf _ _ | OConcat _ _ _ => None
  | OCrop _ m _ _ _ _ _ _ | OWarp _ m _ _ _ | ODequant _ m _ _ | OOverview _ m _ _ => Some m
  end.

Definition dequantizes (x : obj) : bool := match x with ODequant _ _ _ _ => true | _ => false end.

(* [heap s xs]: the images [xs] live in the store [s].  No optimize() call is
   running, identities and meta dicts are in use, an identity belongs to one
   object, and a dequantization does not share its dict with other kinds of nodes. *)
Record heap (s : store) (xs : list obj) : Prop := Heap {
  idle : memo s = [];
  used : forall z, In z (flat_map below xs) ->
    (oid z < next s)%nat /\ forall m, dict_of z = Some m -> (m < next s)%nat;
  unique : forall z z', In z (flat_map below xs) -> In z' (flat_map below xs) -> oid z = oid z' -> z = z';
  kinds : forall z z' m, In z (flat_map below xs) -> In z' (flat_map below xs) ->
    dict_of z = Some m -> dict_of z' = Some m -> dequantizes z = dequantizes z' }.

(* x.optimize(): one memo table for the call.  [shared = false] is the same
   without the table: every occurrence of a node is optimized separately. *)
Definition call_optimize (shared : bool) (o : oracle) (fuel : nat) (x : obj) : act obj :=
  fresh_context (h_optimize shared o fuel x).

(* what a graph must lack so that no dict is written: overviews, dequantizations,
   or warps and overviews *)
Definition writes_nothing (t : node) : Prop := ov_less t \/ dq_free t \/ exact t.

(* no crop selects bands *)
Fixpoint all_bands (t : node) : Prop :=
  match t with
  | Leaf _ => True
  | Concat ps _ => forall_parts all_bands ps
  | Crop s _ _ ci _ _ _ => ci = None /\ all_bands s
  | Warp s _ _ _ | Dequant s _ _ | Overview s _ _ => all_bands s
  end.

(* the API calls that make an image from images the program holds *)
Inductive makes (xs : list obj) : act obj -> Prop :=
| makes_leaf l : makes xs (clone (fun i => OLeaf i l))
| makes_crop x sl ci : In x xs -> makes xs (h_crop x sl ci)
| makes_warp x M d al : In x xs -> makes xs (h_warp x M d al)
| makes_warp_auto x M al : In x xs -> makes xs (h_warp_auto x M al)
| makes_dequant x q : In x xs -> makes xs (h_dequant x q)
| makes_overview x k : In x xs -> makes xs (h_overview x k)
| makes_concat ps : Forall (fun p => In p xs) ps ->
    makes xs (c <~ h_concat ps ;; match c with Some c => ret c | None => raise ValueError end)
| makes_take x l : In x xs -> makes xs (h_take x l).

(* what a program can have made so far, and the images it holds *)
Inductive session : store -> list obj -> Prop :=
| session_start D : session (Store 0 D []) []
| session_make s xs c y s' : session s xs -> makes xs c -> c s = Ok (y, s') -> session s' (y :: xs)
| session_optimize s xs shared o fuel x y s' : session s xs -> In x xs ->
    writes_nothing (view (sizes s) x) -> call_optimize shared o fuel x s = Ok (y, s') ->
    session s' (y :: xs).

(* the size of the array finalize() returns: warps and leafs make the size they
   report, crops index the array below, an overview halves it [k] times
   (delayed_nodes.py:2717-2732, 2558-2570, 3132-3160) *)
Fixpoint shown (t : node) : option size :=
  match t with
  | Leaf l => Some (l_dsize l)
  | Concat ps _ => match ps with [] => None | p :: _ => shown p end
  | Crop s ys xs _ _ _ _ =>
      match shown s with
      | Some (w, h) => Some (iv_len (Z.min w (fst xs), Z.min w (snd xs)), iv_len (Z.min h (fst ys), Z.min h (snd ys)))
      | None => None
      end
  | Warp _ _ d _ => Some d
  | Dequant s _ _ => shown s
  | Overview s k _ => option_map (overview_dsize k) (shown s)
  end.
