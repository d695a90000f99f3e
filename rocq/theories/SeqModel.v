(* The sequence protocol of FusedChannelSpec: len(), iteration and reversed(), which
   Python builds from __len__ and __getitem__ because the class defines no __iter__
   and no __reversed__; and ChannelSpec.code_list.  Warnings are left out. *)
From Verif Require Import Py ChanModel.
Local Open Scope Z_scope.

(* channel_spec.py:408-422 __len__: the number of codes as written *)
Definition flen (f : fused) : Z := Z.of_nat (List.length (codes f)).

(* Python: iter(obj) without __iter__ (channel_spec.py:424-431 __getitem__): items 0,
   1, 2, ... until an IndexError, which ends the iteration; other exceptions are
   passed on.  [fuel] bounds the number of items; None: there may be more. *)
Fixpoint iter_from (f : fused) (fuel : nat) (i : Z) : option (result (list string)) :=
  match fuel with
  | O => None
  | S n =>
      match getitem f (IInt i) with
      | Ok (GCode c) =>
          match iter_from f n (i + 1) with
          | Some (Ok l) => Some (Ok (c :: l))
          | r => r
          end
      | Ok (GSpec _) => Some (Err TypeError)
      | Err IndexError => Some (Ok [])
      | Err e => Some (Err e)
      end
  end.

(* list(spec) (channel_spec.py:424-431) *)
Definition flist (f : fused) (fuel : nat) : option (result (list string)) := iter_from f fuel 0.

(* Python: reversed(obj) without __reversed__ (channel_spec.py:408-431): items
   len - 1, ..., 1, 0; an IndexError ends the iteration here too *)
Fixpoint reversed_from (f : fused) (n : nat) : result (list string) :=
  match n with
  | O => Ok []
  | S k =>
      match getitem f (IInt (Z.of_nat k)) with
      | Ok (GCode c) => l <- reversed_from f k ;; Ok (c :: l)
      | Ok (GSpec _) => Err TypeError
      | Err IndexError => Ok []
      | Err e => Err e
      end
  end.
(* reversed(spec) (channel_spec.py:408-431) *)
Definition freversed (f : fused) : result (list string) := reversed_from f (Z.to_nat (flen f)).

(* bool(spec) (channel_spec.py:408-422): no __bool__, so len(spec) > 0 *)
Definition fbool (f : fused) : bool := 0 <? flen f.

(* channel_spec.py:1231-1238 ChannelSpec.code_list; ub.peek of nothing raises
   StopIteration *)
Definition ccode_list (c : cspec) : result fused :=
  match cparse c with
  | [] => Err OtherError
  | [kv] => Ok (snd kv)
  | _ => Err OtherError
  end.

(* channel_spec.py:741-745 FusedChannelSpec.code_list, documented as the expanded
   code list *)
Definition fcode_list (f : fused) : list string := codes f.
