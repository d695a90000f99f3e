(* DelayedChannelConcat(parts, dsize=...): a concatenation told its size *)
From Verif Require Import Py GeomModel GraphModel.
Local Open Scope Z_scope.

(* delayed_nodes.py:714-743 DelayedChannelConcat.__init__: a size that is given is
   taken as it is; otherwise the parts must agree (None is a
   CoordinateCompatibilityError) *)
Definition mkConcat_given (ps : list node) (dsize : option size) : option node :=
  match dsize with
  | Some d => Some (Concat ps (Some d))
  | None => mkConcat ps
  end.
