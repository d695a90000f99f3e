(* Vocabulary for encode / decode. *)
From Verif Require Import Py ChanModel ChanSpec.
Local Open Scope Z_scope.

Section Spec.
Context {X : Type}.

(* a group: components in stacking order, each with its data *)
Definition group := list (string * list X).

(* the data of a component has as many channels as its code says *)
Definition sized (cb : string * list X) : Prop :=
  exists names, denotes (fst cb) names /\ List.length names = List.length (snd cb).

(* a group that can be written as an item key: codes without separators, not
   one empty code *)
Definition writable_group (g : group) : Prop :=
  Forall (fun cb => contains "," (fst cb) = false /\ contains "|" (fst cb) = false /\ sized cb) g /\
  g <> [] /\ map fst g <> [EmptyString].

(* an item: every entry stacks the components of one group; components are
   distinct *)
Definition item_of (gs : list group) (item : list (string * list X)) : Prop :=
  item = map (fun g => (join "|" (map fst g), List.concat (map snd g))) gs /\
  Forall writable_group gs /\ NoDup (map fst (List.concat gs)).

(* the data of a component *)
Definition holds (gs : list group) (c : string) (b : list X) : Prop := In (c, b) (List.concat gs).

End Spec.
