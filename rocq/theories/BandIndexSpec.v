(* Vocabulary for statements about band selections. *)
From Verif Require Import Py GeomModel GraphModel GraphSpec FinalModel FinalSpec TakeModel TakeSpec BandIndexModel.
Local Open Scope Z_scope.

(* the band a Python index means, of n *)
Definition band_at (n i : Z) : Z := if i <? 0 then i + n else i.

(* the bands of n that a selection means, in order *)
Definition picked (b : bands) (n : Z) : list Z :=
  match b with
  | BandList l => map (band_at n) l
  | BandSlice s => sliced s (upto n)
  | BandInt k => [band_at n k]
  end.

(* every index exists; a slice cannot miss *)
Definition in_range (n : Z) (b : bands) : Prop :=
  match b with
  | BandList l => Forall (fun i => - n <= i < n) l
  | BandSlice _ => True
  | BandInt k => - n <= k < n
  end.

(* a leaf with a 3-d array and a name for every band *)
Definition stored {V} (W : world V) (l : leaf) (nl : list string) : Prop :=
  l_kind l = Data /\ w_flat W (l_id l) = false /\ l_names l = Some nl /\
  l_nc l = Some (Z.of_nat (List.length nl)) /\ 0 <= fst (l_dsize l) /\ 0 <= snd (l_dsize l).

(* what a program can make of a leaf by subscripts *)
Inductive indexed (l : leaf) : view -> Prop :=
| Ix_source : indexed l (Source l)
| Ix_step v i v' : indexed l v -> v_index v i = Ok v' -> indexed l v'.

(* the band selections that were made, the first one first *)
Fixpoint selections (v : view) : list bands :=
  match v with
  | Source _ => []
  | Select s _ _ b _ _ _ => (selections s ++ match b with Some b => [b] | None => [] end)%list
  end.

(* selected by a list of indexes *)
Definition is_list (b : bands) : Prop := exists l, b = BandList l.

(* at most one selection, or all by lists (the first one may be a slice or an integer if the
   second one is the empty list) *)
Definition fusable (bs : list bands) : Prop :=
  match bs with
  | [] => True
  | [_] => True
  | b0 :: b1 :: r => Forall is_list (b1 :: r) /\ (is_list b0 \/ b1 = BandList [])
  end.
