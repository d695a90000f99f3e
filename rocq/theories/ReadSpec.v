(* Vocabulary for reads that may fail. *)
From Verif Require Import Py LazyModel LazySpec ReadModel.
Local Open Scope Z_scope.

(* at most k of all calls ever made fail *)
Definition at_most (fate : nat -> outcome) (k : nat) : Prop :=
  forall calls, NoDup calls -> Forall (fun i => fate i <> Works) calls -> (List.length calls <= k)%nat.

(* the array an index should give: rows ys, columns xs and bands bs of level o *)
Definition right_array {V} (veq : V -> V -> bool) (promote : V -> V) (f : gfile V) (o : Z) (m : option string) (ys xs bs : list Z) : rarr V :=
  mkR (Z.of_nat (List.length bs) =? 1) (Z.of_nat (List.length ys)) (Z.of_nat (List.length xs)) (Z.of_nat (List.length bs))
    (map (fun y => map (fun x => map (fun b => shown veq promote m (g_nodata f o b) (g_pix f o y x b)) bs) xs) ys).

(* a reading computation gives a, unless one of the calls it makes itself fails *)
Definition reliable {A} (fate : nat -> outcome) (m : M A) (a : A) : Prop :=
  forall n, exists n', (n <= n')%nat /\
    (m n = (Ok a, n') \/
     exists e, m n = (Err e, n') /\ exists k, (n <= k < n')%nat /\ fate k <> Works).

(* band entries that do not count from the end *)
Definition counts_from_start (i : idx) : Prop :=
  match i with IList l => Forall (fun i => 0 <= i) l | _ => True end.

(* how a sample of a paletted image is shown: nodata is decided by the index *)
Definition tinted {V} (promote : V -> V) (m : option string) (hit : bool) (v : V) : sample V :=
  match m with
  | None => SVal v
  | Some m => if String.eqb m "ma" then (if hit then SMask v else SVal v) else if hit then SNan else SVal (promote v)
  end.
