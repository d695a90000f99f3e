(* delayed_base.py: walking over operation trees. *)
From Verif Require Import Py EncodeModel.
Local Open Scope Z_scope.

(* What the walks see of a node object: its identity, its class name and the
   identity of its meta dictionary.  Copies made by the code are new objects; no
   object is ever compared with a copy other than by [is], which is false, so a
   copy has no identity here.; see delayed_base.py:47-60 *)
Record label := mkN { n_id : option nat; n_class : string; n_meta : nat }.
(* delayed_base.py:473-512: a unary node has at most one child (a leaf has none),
   an n-ary node has a list of parts *)
Inductive tree := TUnary (l : label) (sub : option tree) | TNary (l : label) (parts : list tree).

(* delayed_base.py:47-60 *)
Definition label_of (t : tree) : label := match t with TUnary l _ | TNary l _ => l end.
(* delayed_base.py:486-491, 507-513 *)
Definition children (t : tree) : list tree :=
  match t with
  | TUnary _ None => []
  | TUnary _ (Some c) => [c]
  | TNary _ ps => ps
  end.

(* number of nodes; used as fuel of the loops below
   See fuel of the loops of delayed_base.py:162-305 *)
Fixpoint size (t : tree) : nat :=
  match t with
  | TUnary _ None => 1
  | TUnary _ (Some c) => S (size c)
  | TNary _ ps => S (list_sum (map size ps))
  end.

(* The stack grows at the end in Python (append, pop); here its top is the head,
   so appending several children puts the last one first.; see Python: list.append, list.pop *)
Definition push {A} (xs : list A) (stack : list A) : list A := (rev xs ++ stack)%list.

(* delayed_base.py:162-184 _traverse; the yielded pairs in order *)
Fixpoint traverse_loop (fuel : nat) (stack : list (option tree * tree)) : result (list (option tree * tree)) :=
  match stack with
  | [] => Ok []
  | (parent, item) :: stack' =>
      match fuel with
      | O => Err OutOfFuel
      | S fuel' =>
          r <- traverse_loop fuel' (push (map (fun c => (Some item, c)) (children item)) stack') ;;
          Ok ((parent, item) :: r)
      end
  end.
(* delayed_base.py:162-184 _traverse *)
Definition traverse (t : tree) : result (list (option tree * tree)) := traverse_loop (size t) [(None, t)].

(* delayed_base.py:186-203 leafs *)
Fixpoint leafs_loop (fuel : nat) (stack : list tree) : result (list tree) :=
  match stack with
  | [] => Ok []
  | item :: stack' =>
      match fuel with
      | O => Err OutOfFuel
      | S fuel' =>
          match children item with
          | [] => r <- leafs_loop fuel' stack' ;; Ok (item :: r)
          | cs => leafs_loop fuel' (push cs stack')
          end
      end
  end.
(* delayed_base.py:186-205 leafs *)
Definition leafs (t : tree) : result (list tree) := leafs_loop (size t) [t].

(** ** _leaf_paths (delayed_base.py:207-269) *)

(* [x is y]; see Python: is *)
Definition is_same (t t' : tree) : bool :=
  match n_id (label_of t), n_id (label_of t') with
  | Some a, Some b => Nat.eqb a b
  | _, _ => false
  end.
(* copy.copy(part): same class and meta dictionary, another object; subdata = prev
   See delayed_base.py:252-268 *)
Definition copy_with (l : label) (prev : tree) : tree := TUnary (mkN None (n_class l) (n_meta l)) (Some prev).

(* delayed_base.py:252-268: the loop over path[::-1]; returns the last value of [part] *)
Fixpoint contract (prev : option tree) (part : option tree) (path : list tree) : result tree :=
  match path with
  | [] => match part with Some p => Ok p | None => Err AssertionError end        (* delayed_base.py:251 *)
  | p :: path' =>
      match p with
      | TNary _ _ =>                                                              (* delayed_base.py:253-257 *)
          match prev with
          | None => Err AssertionError
          | Some q => contract prev (Some q) path'
          end
      | TUnary l sub =>                                                           (* delayed_base.py:258-268 *)
          let p' := match prev with
                    | None => p
                    | Some q => match sub with
                                | Some s => if is_same s q then p else copy_with l q
                                | None => copy_with l q                           (* None is not prev *)
                                end
                    end in
          contract (Some p') (Some p') path'
      end
  end.

(* delayed_base.py:239-269: a path is kept with its last element first *)
Fixpoint leaf_paths_loop (fuel : nat) (stack : list (list tree)) : result (list (tree * tree)) :=
  match stack with
  | [] => Ok []
  | path :: stack' =>
      match fuel with
      | O => Err OutOfFuel
      | S fuel' =>
          match path with
          | [] => Err IndexError
          | item :: _ =>
              match children item with
              | [] =>
                  part <- contract None None path ;;
                  r <- leaf_paths_loop fuel' stack' ;;
                  Ok ((item, part) :: r)
              | cs => leaf_paths_loop fuel' (push (map (fun c => c :: path) cs) stack')
              end
          end
      end
  end.
(* delayed_base.py:207-269 _leaf_paths *)
Definition leaf_paths (t : tree) : result (list (tree * tree)) := leaf_paths_loop (size t) [[t]].

(** ** _traversed_graph (delayed_base.py:271-305) *)

(* a networkx DiGraph: nodes with their data in order of insertion, and edges
   See networkx.DiGraph, delayed_base.py:271-305 *)
Record graph := mkGr { gr_nodes : list (string * tree); gr_edges : list (string * string) }.
(* networkx.DiGraph *)
Definition edge_eqb (e f : string * string) : bool := String.eqb (fst e) (fst f) && String.eqb (snd e) (snd f).
(* networkx.DiGraph *)
Definition add_edge (e : string * string) (es : list (string * string)) : list (string * string) :=
  if existsb (edge_eqb e) es then es else (es ++ [e])%list.

(* delayed_base.py:291: ndigits is computed from the still empty graph and is 1 *)
Definition node_id (t : tree) (n : Z) : string := (n_class (label_of t) ++ String "_" (Z_str n))%string.

(* delayed_base.py:271-305 *)
Fixpoint graph_loop (fuel : nat) (counter : Z) (g : graph) (stack : list (option string * tree)) : result graph :=
  match stack with
  | [] => Ok g
  | (parent, item) :: stack' =>
      match fuel with
      | O => Err OutOfFuel
      | S fuel' =>
          let id := node_id item counter in
          let g' := mkGr (dict_set id item (gr_nodes g))
                         (match parent with None => gr_edges g | Some p => add_edge (p, id) (gr_edges g) end) in
          graph_loop fuel' (counter + 1) g' (push (map (fun c => (Some id, c)) (rev (children item))) stack')
      end
  end.
(* delayed_base.py:271-305 _traversed_graph *)
Definition traversed_graph (t : tree) : result graph := graph_loop (size t) 0 (mkGr [] []) [(None, t)].

(** ** _set_nested_params (delayed_base.py:458-464) *)
Section Params.
Context {V : Type}.
(* a meta dictionary, and all of them by identity; see delayed_base.py:458-470 *)
Definition meta := list (string * V).
(* delayed_base.py:458-470 *)
Definition metas := nat -> meta.

(* ubelt dict_isect: the entries of the first whose key the second has; see delayed_base.py:458-470 *)
Definition dict_isect (d e : meta) : meta :=
  filter (fun kv => existsb (String.eqb (fst kv)) (map fst e)) d.
(* delayed_base.py:458-470 *)
Definition update_meta (kwargs : meta) (st : metas) (i : nat) : metas :=
  fun j => if Nat.eqb j i then dict_update (st i) (dict_isect kwargs (st i)) else st j.
(* delayed_base.py:458-470 _set_nested_params *)
Definition set_nested_params (kwargs : meta) (t : tree) (st : metas) : result metas :=
  nodes <- traverse t ;;
  Ok (fold_left (fun st pn => update_meta kwargs st (n_meta (label_of (snd pn)))) nodes st).
End Params.
