(* Vocabulary for reading drawings back. *)
From Verif Require Import Py NetModel NetSpec.
From Coq Require Import Ascii.

(* characters that may be confused with the drawing *)
Definition drawing_char (c : ascii) : bool :=
  is_space c || contains c "!|-<"%string.
(* labels that can be told from the drawing *)
Definition plain_label (s : string) : Prop :=
  s <> ""%string /\ s <> "..."%string /\ forall c, contains c s = true -> drawing_char c = false.

(* every node has a plain label of its own *)
Definition plainly_labelled {N} (g : net N) : Prop :=
  (forall n, In n (nt_nodes g) -> plain_label (nt_label g n)) /\
  (forall m n, In m (nt_nodes g) -> In n (nt_nodes g) -> nt_label g m = nt_label g n -> m = n).

(* the graph that was read has the nodes and edges of [g] *)
Definition same_graph {N} (g : net N) (ns : list string) (es : list (string * string)) : Prop :=
  NoDup ns /\
  (forall x, In x ns <-> exists n, In n (nt_nodes g) /\ x = nt_label g n) /\
  (forall u v, In u (nt_nodes g) -> In v (nt_nodes g) ->
     (In v (nt_succ g u) <->
        In (nt_label g u, nt_label g v) es \/ (nt_directed g = false /\ In (nt_label g v, nt_label g u) es))) /\
  (forall x y, In (x, y) es -> exists u v, In u (nt_nodes g) /\ In v (nt_nodes g) /\ x = nt_label g u /\ y = nt_label g v).
