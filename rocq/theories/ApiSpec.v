(* Vocabulary for the statements of ApiProps.v. *)
From Verif Require Import Py GeomModel GraphModel ApiModel.
Local Open Scope Q_scope.

(* only transforms that are exactly the identity count as close to it *)
Definition exact_close (close : affine -> bool) : Prop := forall N, close N = true -> is_identity N = true.

(* where a chain of warps (first applied first) sends a point of the source *)
Definition through (c : list (affine * size * algo)) (x y : Q) : Q * Q :=
  fold_left (fun p w => (ax (fst (fst w)) (fst p) (snd p), ay (fst (fst w)) (fst p) (snd p))) c (x, y).

(* the chain leaves every point where it is *)
Definition stays (c : list (affine * size * algo)) : Prop :=
  forall x y, fst (through c x y) == x /\ snd (through c x y) == y.

(* a slice with both bounds given *)
Definition from_to (a b : Z) : pyslice := (Some a, Some b).

(* where a slice of an axis of n pixels starts and stops, without any rule for
   negative numbers: a missing start is 0, a missing stop is n *)
Definition starts (s : pyslice) (a : Z) : Prop := fst s = Some a \/ (fst s = None /\ a = 0%Z).
Definition stops (s : pyslice) (n b : Z) : Prop := snd s = Some b \/ (snd s = None /\ b = n).

(* u comes from s by resizing to each of the sizes in turn *)
Inductive resized (close : affine -> bool) : node -> list (size * algo * bool) -> node -> Prop :=
| Rs_none s : resized close s [] s
| Rs_step s d al lazy t l u : api_resize close s d al lazy = Ok t -> resized close t l u ->
    resized close s ((d, al, lazy) :: l) u.
