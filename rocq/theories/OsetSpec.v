(* Vocabulary for edits of ordered sets. *)
From Verif Require Import Py ChanModel ChanSpec OsetModel.
Local Open Scope Z_scope.

(* [i] stands for position [p] of a list of length [n] *)
Definition stands_for (n i p : Z) : Prop := 0 <= p < n /\ (p = i \/ p = i + n).

(* the positions an index asks for, each as often as it asks for it *)
Inductive asks (n : Z) : del_index -> list Z -> Prop :=
| asks_slice a b st P : (match st with None => 1 | Some s => s end) <> 0 -> NoDup P ->
    (forall k, In k P <-> picks n a b (match st with None => 1 | Some s => s end) k) -> asks n (DSlice a b st) P
| asks_list l P : Forall2 (stands_for n) l P -> asks n (DList l) P
| asks_int i p : stands_for n i p -> asks n (DInt i) [p].

(* an index that Python lists refuse, and how *)
Inductive refused (n : Z) : del_index -> exn -> Prop :=
| refused_step a b : refused n (DSlice a b (Some 0)) ValueError
| refused_list l : Exists (fun i => i < - n \/ n <= i) l -> refused n (DList l) IndexError
| refused_int i : i < - n \/ n <= i -> refused n (DInt i) IndexError
| refused_other : refused n DOther TypeError.

(* list.insert(i, x): negative positions count from the end, out of range ones are clipped *)
Definition inserted (l : list string) (i : Z) (x : string) (l' : list string) : Prop :=
  exists p, (p <= List.length l)%nat /\ l' = firstn p l ++ x :: skipn p l /\
    Z.of_nat p = (if i <? 0 then Z.max 0 (i + Z.of_nat (List.length l)) else Z.min i (Z.of_nat (List.length l))).

(* a sequence of edits of a plain list without repetitions: insertions within the list
   (of new items), deletions that name no position twice, and refused deletions, which
   change nothing *)
Inductive edits : list string -> list oedit -> list string -> Prop :=
| edits_nil l : edits l [] l
| edits_present l i x es l' : In x l -> edits l es l' -> edits l (OIns i x :: es) l'
| edits_insert l i x es l1 l' : ~ In x l -> 0 <= i <= Z.of_nat (List.length l) -> inserted l i x l1 ->
    edits l1 es l' -> edits l (OIns i x :: es) l'
| edits_delete l ix P es l' : asks (Z.of_nat (List.length l)) ix P -> NoDup P ->
    edits (keepz 0 l P) es l' -> edits l (ODel ix :: es) l'
| edits_refused l ix e es l' : refused (Z.of_nat (List.length l)) ix e -> edits l es l' -> edits l (ODel ix :: es) l'.
