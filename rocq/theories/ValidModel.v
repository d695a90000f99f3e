(* delayed_nodes.py:1057-1074, 1437-1462: the self check _validate().  Definitions
   only. *)
From Verif Require Export Py GraphModel FinalModel.
Local Open Scope Z_scope.

(* Python ==; see delayed_nodes.py:1068, 1457 *)
Definition opt_eqb {A} (eqb : A -> A -> bool) (a b : option A) : bool :=
  match a, b with Some x, Some y => eqb x y | None, None => true | _, _ => false end.
(* Python == of tuples; see delayed_nodes.py:1068, 1457 *)
Fixpoint list_eqb {A} (eqb : A -> A -> bool) (a b : list A) : bool :=
  match a, b with
  | [], [] => true
  | x :: a', y :: b' => eqb x y && list_eqb eqb a' b'
  | _, _ => false
  end.

(* delayed_nodes.py:1064, 1447 final.shape: (h, w, c), or (h, w) without channel axis *)
Definition array_shape {V} (a : array V) : list (option Z) :=
  (Some (a_h a) :: Some (a_w a) :: match a_c a with Some c => [Some c] | None => [] end)%list.
(* delayed_nodes.py:1062, 1442, 1445 .shape; unknown entries are None *)
Definition meta_shape (t : node) : list (option Z) :=
  [option_map snd (dsize t); option_map fst (dsize t); num_channels t].

(* delayed_nodes.py:1057-1074, 1437-1462 _validate: of a concatenation and of an
   image.  Names are compared as lists; how a spec is written is not modelled. *)
Definition validate {V} (W : world V) (o : oracle) (fuel : nat) (t : node) : result node :=
  match t with
  | Concat _ _ =>
      final <- finalize W t ;;
      if list_eqb (opt_eqb Z.eqb) (array_shape final) (meta_shape t) then Ok t else Err AssertionError
  | _ =>
      r <- optimize o fuel t ;;
      let opt := fst r in
      final <- finalize W t ;;
      if opt_eqb (list_eqb String.eqb) (names t) (names opt) &&
         opt_eqb Z.eqb (num_channels t) (num_channels opt) &&
         list_eqb (opt_eqb Z.eqb) (array_shape final) (meta_shape t) &&
         list_eqb (opt_eqb Z.eqb) (meta_shape opt) (meta_shape t)
      then Ok t else Err AssertionError
  end.
