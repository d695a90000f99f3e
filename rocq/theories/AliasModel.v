(* FusedChannelSpec objects in a heap.  The list a spec was built from is not copied
   (channel_spec.py:399-406), the lists that code_list and as_list return are the
   objects' own (741-753), normalize may return the spec itself (678-682), and
   specs made from text or numbers are shared by all callers (459-515, _memo).  A
   program calls these methods and may edit any list it holds.
   Left out: bool, float and ChannelSpec arguments of coerce, the warnings of
   __len__, and edits of the set that unique() returns. *)
From Verif Require Import Py ChanModel.
Local Open Scope Z_scope.

(* channel_spec.py:399-406 __init__: parsed (an address), _is_normalized, and the
   memoized results of spec (439-441), unique (443-445) and as_list (751-753) *)
Record obj := mkO { o_list : nat; o_norm : bool; o_spec : option string;
                    o_unique : option (list string); o_aslist : option nat }.

(* what a variable of the program holds; see channel_spec.py:399-515 *)
Inductive value :=
| VSpec (l : list string) | VList (l : list string) | VText (s : string) | VNum (z : Z)
| VBool (b : bool) | VNone | VErr (e : exn).
(* the same, with objects and lists in the heap; see channel_spec.py:399-515 *)
Inductive ref := RSpec (i : nat) | RList (a : nat) | RVal (v : value).

(* the heap, the class dictionary _memo (channel_spec.py:394-397, 463-469, 476-483)
   and the variables of the program *)
Record state := mkS { lists : list (list string); objs : list obj;
                      memo_s : list (string * nat); memo_i : list (Z * nat); vars : list ref }.
(* an empty heap; see channel_spec.py:394-397 *)
Definition start : state := mkS [] [] [] [] [].

(* calls of a program; arguments are earlier results, by number.
   See channel_spec.py:399-515 *)
Inductive call :=
| Lit (v : value)            (* a list, text or number the program builds *)
| Copy (h : nat)             (* list(x) of a list or a spec *)
| Edit (h : nat) (l : list string)   (* any edit of a list in place *)
| Coerce (h : nat)           (* 485-530 *)
| Normalize (h : nat)        (* 631-684 *)
| CodeList (h : nat)         (* 741-745 *)
| AsList (h : nat)           (* 751-753 *)
| Spec (h : nat)             (* 439-441 *)
| Numel (h : nat)            (* 686-693 *)
| Len (h : nat)              (* 408-422 *)
| Contains (h : nat) (s : string)    (* 726-735 *)
| Equal (h h' : nat).        (* 455-458 *)

(* Python: assignment to one place; see channel_spec.py:399-406 *)
Fixpoint put {A} (l : list A) (i : nat) (a : A) : list A :=
  match l, i with
  | [], _ => []
  | _ :: l', O => a :: l'
  | b :: l', S i' => b :: put l' i' a
  end.

(* reading the heap; see channel_spec.py:399-406 *)
Definition list_at (s : state) (a : nat) : list string := nth a (lists s) [].
(* reading the heap; see channel_spec.py:399-406 *)
Definition obj_at (s : state) (i : nat) : obj := nth i (objs s) (mkO 0 false None None None).
(* the codes of a spec; see channel_spec.py:399-406 *)
Definition codes_at (s : state) (i : nat) : list string := list_at s (o_list (obj_at s i)).

(* allocating and writing; see channel_spec.py:399-406 *)
Definition new_list (s : state) (l : list string) : state * nat :=
  (mkS (lists s ++ [l]) (objs s) (memo_s s) (memo_i s) (vars s), List.length (lists s)).
(* channel_spec.py:399-406 __init__ *)
Definition new_obj (s : state) (a : nat) (norm : bool) : state * nat :=
  (mkS (lists s) (objs s ++ [mkO a norm None None None]) (memo_s s) (memo_i s) (vars s), List.length (objs s)).
(* writing attributes; see channel_spec.py:681, ubelt.memoize_method *)
Definition set_obj (s : state) (i : nat) (o : obj) : state :=
  mkS (lists s) (put (objs s) i o) (memo_s s) (memo_i s) (vars s).

(* channel_spec.py:664-676: a code that normalize replaces *)
Definition needs (v : string) : bool :=
  match alias_lut v with Some _ => true | None => contains ":" v end.

(* channel_spec.py:631-684 normalize: self, self with the flag set, or a new spec *)
Definition h_normalize (s : state) (i : nat) : state * result nat :=
  let o := obj_at s i in
  if o_norm o then (s, Ok i)
  else
    match mapR expand (codes_at s i) with
    | Err e => (s, Err e)
    | Ok ls =>
        if existsb needs (codes_at s i) then
          let '(s1, a) := new_list s (List.concat ls) in
          let '(s2, j) := new_obj s1 a true in (s2, Ok j)
        else (set_obj s i (mkO (o_list o) true (o_spec o) (o_unique o) (o_aslist o)), Ok i)
    end.

(* channel_spec.py:751-753 as_list, memoized per object *)
Definition h_as_list (s : state) (i : nat) : state * ref :=
  match o_aslist (obj_at s i) with
  | Some a => (s, RList a)
  | None =>
      match h_normalize s i with
      | (s1, Err e) => (s1, RVal (VErr e))
      | (s1, Ok j) =>
          let a := o_list (obj_at s1 j) in
          let o := obj_at s1 i in
          (set_obj s1 i (mkO (o_list o) (o_norm o) (o_spec o) (o_unique o) (Some a)), RList a)
      end
  end.

(* channel_spec.py:439-441 spec, memoized per object *)
Definition h_spec (s : state) (i : nat) : state * string :=
  let o := obj_at s i in
  match o_spec o with
  | Some t => (s, t)
  | None => let t := join "|" (codes_at s i) in
            (set_obj s i (mkO (o_list o) (o_norm o) (Some t) (o_unique o) (o_aslist o)), t)
  end.

(* channel_spec.py:443-445, 726-735 __contains__, with unique memoized per object *)
Definition h_contains (s : state) (i : nat) (c : string) : state * bool :=
  let o := obj_at s i in
  match o_unique o with
  | Some u => (s, str_mem c u)
  | None => let u := codes_at s i in
            (set_obj s i (mkO (o_list o) (o_norm o) (o_spec o) (Some u) (o_aslist o)), str_mem c u)
  end.

(* Python: dict lookup with int keys; see channel_spec.py:471-483 *)
Fixpoint zget {A} (k : Z) (d : list (Z * A)) : option A :=
  match d with [] => None | (k', v) :: d' => if k =? k' then Some v else zget k d' end.

(* channel_spec.py:485-530 coerce with 459-483 from_spec and from_int; a list is
   unhashable, so it is never found in _memo, and neither is a spec *)
Definition h_coerce (s : state) (r : ref) : state * ref :=
  match r with
  | RSpec i => (s, RSpec i)
  | RList a => let '(s1, i) := new_obj s a false in (s1, RSpec i)
  | RVal (VText t) =>
      match dict_get t (memo_s s) with
      | Some i => (s, RSpec i)
      | None =>
          let '(s1, a) := new_list s (codes (fparse t)) in
          let '(s2, i) := new_obj s1 a false in
          (mkS (lists s2) (objs s2) ((t, i) :: memo_s s2) (memo_i s2) (vars s2), RSpec i)
      end
  | RVal (VNum z) =>
      match zget z (memo_i s) with
      | Some i => (s, RSpec i)
      | None =>
          let '(s1, a) := new_list s (from_int_codes z) in
          let '(s2, i) := new_obj s1 a false in
          (mkS (lists s2) (objs s2) (memo_s s2) ((z, i) :: memo_i s2) (vars s2), RSpec i)
      end
  | RVal _ => (s, RVal (VErr TypeError))
  end.

(* one call; a method the value does not have is an AttributeError
   See channel_spec.py:399-515 *)
Definition h_call (s : state) (c : call) : state * ref :=
  let at_ h := nth h (vars s) (RVal VNone) in
  let no := RVal (VErr AttributeError) in
  match c with
  | Lit (VList l) => let '(s1, a) := new_list s l in (s1, RList a)
  | Lit (VSpec _) => (s, no)
  | Lit v => (s, RVal v)
  | Copy h =>
      match at_ h with
      | RList a => let '(s1, b) := new_list s (list_at s a) in (s1, RList b)
      | RSpec i =>
          match h_normalize s i with
          | (s1, Err e) => (s1, RVal (VErr e))
          | (s1, Ok j) => let '(s2, b) := new_list s1 (codes_at s1 j) in (s2, RList b)
          end
      | _ => (s, no)
      end
  | Edit h l =>
      match at_ h with
      | RList a => (mkS (put (lists s) a l) (objs s) (memo_s s) (memo_i s) (vars s), RVal VNone)
      | _ => (s, no)
      end
  | Coerce h => h_coerce s (at_ h)
  | Normalize h =>
      match at_ h with
      | RSpec i => match h_normalize s i with (s1, Err e) => (s1, RVal (VErr e)) | (s1, Ok j) => (s1, RSpec j) end
      | _ => (s, no)
      end
  | CodeList h => match at_ h with RSpec i => (s, RList (o_list (obj_at s i))) | _ => (s, no) end
  | AsList h => match at_ h with RSpec i => h_as_list s i | _ => (s, no) end
  | Spec h => match at_ h with RSpec i => let '(s1, t) := h_spec s i in (s1, RVal (VText t)) | _ => (s, no) end
  | Numel h =>
      match at_ h with
      | RSpec i => (s, RVal (match numel (mkF (codes_at s i) (o_norm (obj_at s i))) with Ok z => VNum z | Err e => VErr e end))
      | _ => (s, no)
      end
  | Len h =>
      match at_ h with
      | RSpec i => (s, RVal (VNum (Z.of_nat (List.length (codes_at s i)))))
      | _ => (s, no)
      end
  | Contains h k => match at_ h with RSpec i => let '(s1, b) := h_contains s i k in (s1, RVal (VBool b)) | _ => (s, no) end
  | Equal h h' =>
      match at_ h, at_ h' with
      | RSpec i, RSpec j => (s, RVal (VBool (if list_eq_dec string_dec (codes_at s i) (codes_at s j) then true else false)))
      | _, _ => (s, no)
      end
  end.

(* what a reference shows when it is looked at; see channel_spec.py:399-406 *)
Definition view (s : state) (r : ref) : value :=
  match r with RSpec i => VSpec (codes_at s i) | RList a => VList (list_at s a) | RVal v => v end.

(* a program: every result is kept in a variable and looked at once when it is
   made; see channel_spec.py:399-515 *)
Fixpoint run_heap (s : state) (p : list call) : list value :=
  match p with
  | [] => []
  | c :: p' =>
      let '(s1, r) := h_call s c in
      view s1 r :: run_heap (mkS (lists s1) (objs s1) (memo_s s1) (memo_i s1) (vars s1 ++ [r])) p'
  end.
