(* Positions in a tree. *)
From Verif Require Import Py TreeModel.
Local Open Scope Z_scope.

(* the node reached by following child indices from the root *)
Fixpoint node_at (t : tree) (p : list nat) : option tree :=
  match p with
  | [] => Some t
  | i :: p' => match nth_error (children t) i with Some c => node_at c p' | None => None end
  end.

(* the node above a position *)
Definition above (t : tree) (p : list nat) : option tree :=
  match p with [] => None | _ => node_at t (removelast p) end.

(* ps lists every position that satisfies P exactly once *)
Definition lists (t : tree) (P : tree -> Prop) (ps : list (list nat)) : Prop :=
  NoDup ps /\ forall p, In p ps <-> exists n, node_at t p = Some n /\ P n.

Definition childless (t : tree) : Prop := children t = [].
Definition is_concat (t : tree) : Prop := exists l ps, t = TNary l ps.

(* class and metadata of a node *)
Definition op_of (l : label) : string * nat := (n_class l, n_meta l).

(* the operations other than concatenations from the root down to a position,
   both ends included *)
Fixpoint ops_along (t : tree) (p : list nat) : list (string * nat) :=
  let here := match t with TUnary l _ => [op_of l] | TNary _ _ => [] end in
  match p with
  | [] => here
  | i :: p' => (here ++ match nth_error (children t) i with Some c => ops_along c p' | None => [] end)%list
  end.

(* a chain of unary operations down to a leaf *)
Inductive chain : tree -> list (string * nat) -> Prop :=
| Chain_leaf l : chain (TUnary l None) [op_of l]
| Chain_op l t os : chain t os -> chain (TUnary l (Some t)) (op_of l :: os).

(* identities are those of objects: equal identity means the same object *)
Definition objects (t : tree) : Prop :=
  forall p q n m, node_at t p = Some n -> node_at t q = Some m ->
    n_id (label_of n) = n_id (label_of m) -> n = m.

(* the value a key has after overriding existing keys *)
Definition wanted {V} (kwargs d : list (string * V)) (k : string) : option V :=
  match dict_get k d with
  | None => None
  | Some v => match dict_get k kwargs with Some v' => Some v' | None => Some v end
  end.
