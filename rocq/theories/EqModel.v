(* Comparing channel specs with == *)
From Verif Require Import Py ChanModel.

(* channel_spec.py:455-458: what a FusedChannelSpec is compared with.  Texts, ChannelSpecs
   and most other objects have no attribute parsed. *)
Inductive comparand := CNone | CFused (g : fused) | CNoParsed.

(* Python: == of two lists of texts; see channel_spec.py:458 *)
Fixpoint texts_eqb (a b : list string) : bool :=
  match a, b with
  | [], [] => true
  | x :: a', y :: b' => String.eqb x y && texts_eqb a' b'
  | _, _ => false
  end.

(* channel_spec.py:455-458 FusedChannelSpec.__eq__ *)
Definition fused_eq (f : fused) (o : comparand) : result bool :=
  match o with
  | CNone => Ok false
  | CFused g => Ok (texts_eqb (codes f) (codes g))
  | CNoParsed => Err AttributeError
  end.
