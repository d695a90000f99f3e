(* Vocabulary for the graph drawing properties. *)
From Verif Require Import Py NetModel.

Section Spec.
Context {N : Type}.

(* [b] can be reached from [a] by following edges *)
Inductive reach (succ : N -> list N) : N -> N -> Prop :=
| reach_refl a : reach succ a a
| reach_step a b c : reach succ a b -> In c (succ b) -> reach succ a c.

(* a finite graph: edges stay inside, predecessors invert successors *)
Record finite_net (g : net N) : Prop := {
  fn_nodup : NoDup (nt_nodes g);
  fn_closed : forall a b, In a (nt_nodes g) -> In b (nt_succ g a) -> In b (nt_nodes g);
  fn_succ_nodup : forall a, NoDup (nt_succ g a);
  fn_pred_nodup : forall a, NoDup (nt_pred g a);
  fn_pred : forall a b, In a (nt_nodes g) -> In b (nt_nodes g) -> (In a (nt_pred g b) <-> In b (nt_succ g a));
  fn_pred_closed : forall a b, In b (nt_nodes g) -> In a (nt_pred g b) -> In a (nt_nodes g);
  fn_undirected : nt_directed g = false -> forall a, nt_pred g a = nt_succ g a
}.

(* the nodes that have a line of their own, from top to bottom *)
Fixpoint row_nodes (ls : list (line N)) : list N :=
  match ls with
  | [] => []
  | Row (Node n) _ _ _ :: ls' => n :: row_nodes ls'
  | _ :: ls' => row_nodes ls'
  end.

(* [ls] shows [n] below [p] (None: as a root), naming [others] on its right *)
Definition shows (ls : list (line N)) (n : N) (p : option N) (others : list N) : Prop :=
  exists s, In (Row (Node n) p others s) ls.
(* the drawing of [v] tells about an edge from [u]: [v] hangs below [u], or [u]
   is named on its right *)
Definition tells (ls : list (line N)) (u v : N) : Prop :=
  exists p others, shows ls v p others /\ (p = Some u \/ In u others).
Definition exactly_one (P Q : Prop) : Prop := (P /\ ~ Q) \/ (Q /\ ~ P).

(* successors, unless the node is marked as collapsed *)
Definition open_succ (g : net N) (n : N) : list N := if nt_collapse g n then [] else nt_succ g n.

(* [b] is [k] edges away from [a] *)
Inductive steps (succ : N -> list N) : nat -> N -> N -> Prop :=
| steps_0 a : steps succ 0 a a
| steps_S k a b c : steps succ k a b -> In c (succ b) -> steps succ (S k) a c.

(* numbering of the strongly connected components *)
Definition scc_numbering (g : net N) (comp : N -> nat) (comps : nat) : Prop :=
  (forall n, In n (nt_nodes g) -> comp n < comps) /\
  forall a b, In a (nt_nodes g) -> In b (nt_nodes g) ->
    (comp a = comp b <-> reach (nt_succ g) a b /\ reach (nt_succ g) b a).
(* connected components of an undirected graph *)
Definition components (g : net N) (ccs : list (list N)) : Prop :=
  (forall cc n, In cc ccs -> In n cc -> In n (nt_nodes g)) /\
  (forall n, In n (nt_nodes g) -> exists cc, In cc ccs /\ In n cc) /\
  (forall cc a b, In cc ccs -> In a cc -> (In b cc <-> reach (nt_succ g) a b)) /\
  NoDup (List.concat ccs).
End Spec.
