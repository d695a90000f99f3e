(* DelayedAsXarray: optimize() and finalize() of an image cast to xarray
   (delayed_nodes.py:1616-1678).  The codes of an image are its channel names, one
   per band; codes as written are the subject of HistModel.v. *)
From Verif Require Import Py GeomModel GraphModel FinalModel.
Local Open Scope Z_scope.

(* as_xarray(): delayed_nodes.py:603-608, 1042-1047 *)
Record xnode := AsX { x_sub : node }.

(* delayed_nodes.py:1658-1678 DelayedAsXarray.optimize; the cast itself is kept when the
   image below is the very same object *)
Definition xoptimize (o : oracle) (fuel : nat) (x : xnode) : result (xnode * bool) :=
  '(t', same) <- optimize o fuel (x_sub x) ;;
  if (same : bool) then Ok (x, true) else Ok (AsX t', false).

(* delayed_nodes.py:1641-1656 DelayedAsXarray._finalize: the array and the labels of
   its bands.  xarray.DataArray raises ValueError for an array that has not three
   axes and for a wrong number of labels. *)
Definition xfinalize {V} (W : world V) (x : xnode) : result (array V * option (list string)) :=
  a <- finalize W (x_sub x) ;;
  match names (x_sub x) with
  | Some nm =>
      let a := atleast3 a in
      match a_c a with
      | Some n => if Z.of_nat (List.length nm) =? n then Ok (a, Some nm) else Err ValueError
      | None => Err ValueError
      end
  | None => match a_c a with Some _ => Ok (a, None) | None => Err ValueError end
  end.
