(* delayed_nodes.py:962-1009, 3375-3460: the loop of DelayedChannelConcat.take_channels
   over the requested bands, with its accumulator object _InnerAccumSegment.
   Definitions only. *)
From Verif Require Export Py.
Local Open Scope Z_scope.

(* delayed_nodes.py:3385-3390: the fields.  A part is known by the identity of its
   object, None stands for a band that does not exist. *)
Record segment := mkSeg { s_comp : option nat; s_start : option Z; s_stop : option Z;
                          s_codes : option (list string); s_indexes : list Z }.

(* delayed_nodes.py:3385-3390 __init__ *)
Definition new_segment (comp : option nat) : segment := mkSeg comp None None None [].

(* delayed_nodes.py:3392-3413 add_inner *)
Definition add_inner (s : segment) (inner : Z) (code : option string) : segment :=
  let s := match s_start s with
           | None => mkSeg (s_comp s) (Some inner) (Some (inner + 1))
                       (match code with Some _ => Some [] | None => s_codes s end) (s_indexes s)
           | Some _ =>
               mkSeg (s_comp s) (s_start s)
                 (match s_stop s with
                  | Some e => if e =? inner then Some (inner + 1) else None
                  | None => None
                  end)
                 (match code with None => None | Some _ => s_codes s end) (s_indexes s)
           end in
  mkSeg (s_comp s) (s_start s) (s_stop s)
    (match s_codes s, code with Some l, Some c => Some (l ++ [c])%list | o, _ => o end)
    (s_indexes s ++ [inner])%list.

(* delayed_nodes.py:972-980: a requested band: where it is (the object and the band in
   it), or nothing, and its name if names were requested *)
Definition band_request := (option (nat * Z) * option string)%type.

(* delayed_nodes.py:990-996: the same object, or both None *)
Definition same_comp (a b : option nat) : bool :=
  match a, b with Some x, Some y => Nat.eqb x y | None, None => true | _, _ => false end.

(* delayed_nodes.py:972-1003: the loop; segments are appended to outer_accum when the
   next one starts *)
Fixpoint gather (curr : option segment) (l : list band_request) : result (list segment) :=
  match l with
  | [] => Ok (match curr with Some s => [s] | None => [] end)
  | (place, code) :: r =>
      let comp := option_map fst place in
      inner <- match place with
               | Some (_, j) => Ok j
               | None =>
                   match curr with
                   | Some s => match s_comp s with
                               | None => match s_stop s with Some e => Ok e | None => Err TypeError end
                               | Some _ => Ok 0
                               end
                   | None => Ok 0
                   end
               end ;;
      match curr with
      | None => gather (Some (add_inner (new_segment comp) inner code)) r
      | Some s =>
          if same_comp (s_comp s) comp then gather (Some (add_inner s inner code)) r
          else rest <- gather (Some (add_inner (new_segment comp) inner code)) r ;; Ok (s :: rest)
      end
  end.

(* range(a, b); see Python: range *)
Definition range (a b : Z) : list Z := map (fun k => a + k) (zseq (Z.to_nat (b - a))).

(* Python: list equality *)
Fixpoint zs_eqb (a b : list Z) : bool :=
  match a, b with
  | [], [] => true
  | x :: a', y :: b' => (x =? y) && zs_eqb a' b'
  | _, _ => false
  end.

(* delayed_nodes.py:3415-3435 get_indexer of a part with [n] bands; None is Ellipsis *)
Definition get_indexer (n : Z) (s : segment) : result (option (list Z)) :=
  match s_stop s with
  | None => Ok (Some (s_indexes s))
  | Some e =>
      match s_start s with
      | None => Err AssertionError
      | Some a =>
          if (a =? 0) && (e =? n) then
            i0 <- py_get (s_indexes s) 0 ;; i1 <- py_get (s_indexes s) (-1) ;;
            if (i0 =? 0) && (i1 =? e - 1) then Ok None else Err AssertionError
          else if zs_eqb (range a e) (s_indexes s) then Ok (Some (range a e)) else Err AssertionError
      end
  end.

(* delayed_nodes.py:3437-3460 get_subcomponent: the bands of the new component.  An
   unnamed image without data has no known number of bands (OtherError). *)
Inductive piece := Band (part : nat) (j : Z) | Missing (name : string).
(* delayed_nodes.py:3437-3460 *)
Definition subcomponent (bands : nat -> Z) (s : segment) : result (list piece) :=
  match s_comp s with
  | None => match s_codes s with
            | Some cs => Ok (map Missing cs)
            | None => Err OtherError
            end
  | Some p =>
      i <- get_indexer (bands p) s ;;
      Ok (map (Band p) (match i with None => zseq (Z.to_nat (bands p)) | Some l => l end))
  end.

(* delayed_nodes.py:972-1009: the components of the new concatenation *)
Definition components (bands : nat -> Z) (l : list band_request) : result (list (list piece)) :=
  segs <- gather None l ;; mapR (subcomponent bands) segs.
