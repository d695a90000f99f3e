(* Python primitives used by every layer of the model: exceptions as values,
   str.split / str.join / "in", int() and format() of integers, range(),
   list slicing, insertion-ordered dict.  These model CPython behaviour, not a
   file of /repo; strings are restricted to ASCII. *)
From Coq Require Export List String Ascii ZArith NArith Lia Bool.
Export ListNotations.

(** ** Exceptions *)

(* Python: exceptions *)
Inductive exn :=
| ValueError | TypeError | KeyError | IndexError | AssertionError
| AttributeError | OtherError | OutOfFuel.

(* Python: exceptions *)
Inductive result (A : Type) := Ok (a : A) | Err (e : exn).
Arguments Ok {A} a.
Arguments Err {A} e.

(* Python: exceptions *)
Definition bind {A B} (x : result A) (f : A -> result B) : result B :=
  match x with Ok a => f a | Err e => Err e end.

Notation "x <- e ;; k" := (bind e (fun x => k))
  (at level 61, e at next level, right associativity).
Notation "' p <- e ;; k" := (bind e (fun p => k))
  (at level 61, p pattern, e at next level, right associativity).

(* Python: exceptions *)
Definition rmap {A B} (f : A -> B) (x : result A) : result B :=
  match x with Ok a => Ok (f a) | Err e => Err e end.

(* Python: exceptions *)
Definition is_ok {A} (x : result A) : bool :=
  match x with Ok _ => true | Err _ => false end.

(* [for v in l: ...] collecting one value per element, stopping at the first
   exception.; see Python: a loop *)
Fixpoint mapR {A B} (f : A -> result B) (l : list A) : result (list B) :=
  match l with
  | [] => Ok []
  | a :: l' => b <- f a ;; bs <- mapR f l' ;; Ok (b :: bs)
  end.

(** ** Strings *)

Local Open Scope string_scope.

(* Python: c in s *)
Fixpoint contains (c : ascii) (s : string) : bool :=
  match s with
  | EmptyString => false
  | String a s' => Ascii.eqb a c || contains c s'
  end.

(* s.split(c) for a one-character separator; see Python: str.split *)
Fixpoint split (c : ascii) (s : string) : list string :=
  match s with
  | EmptyString => [""]
  | String a s' =>
      if Ascii.eqb a c then "" :: split c s'
      else match split c s' with
           | h :: t => String a h :: t
           | [] => [String a ""]
           end
  end.

(* s.split(c, 1); None when c does not occur (Python then returns [s]); see Python: str.split *)
Fixpoint split_once (c : ascii) (s : string) : option (string * string) :=
  match s with
  | EmptyString => None
  | String a s' =>
      if Ascii.eqb a c then Some ("", s')
      else match split_once c s' with
           | Some (x, y) => Some (String a x, y)
           | None => None
           end
  end.

(* c.join(l) for a one-character separator; see Python: str.join *)
Fixpoint join (c : ascii) (l : list string) : string :=
  match l with
  | [] => ""
  | [x] => x
  | x :: l' => x ++ String c (join c l')
  end.

(* Python: in *)
Fixpoint str_mem (x : string) (l : list string) : bool :=
  match l with
  | [] => false
  | y :: l' => String.eqb x y || str_mem x l'
  end.

(** ** Integers: str(int) and int(str) *)

(* Python: str(int) *)
Definition digit (n : N) : ascii := ascii_of_N (48 + n).

(* Python: int(str) *)
Definition digit_val (c : ascii) : option N :=
  let n := N_of_ascii c in
  if (48 <=? n)%N && (n <=? 57)%N then Some (n - 48)%N else None.

(* Python: str(int) *)
Fixpoint nstr (fuel : nat) (n : N) (acc : string) : string :=
  match fuel with
  | O => acc
  | S f =>
      let acc' := String (digit (n mod 10)) acc in
      if (n / 10 =? 0)%N then acc' else nstr f (n / 10) acc'
  end.

(* Python: str(int) *)
Definition N_str (n : N) : string := nstr (S (N.size_nat n)) n "".

(* '{}'.format(z); see Python: str(int) *)
Definition Z_str (z : Z) : string :=
  match z with
  | Zneg p => String "-" (N_str (Npos p))
  | _ => N_str (Z.to_N z)
  end.

(* digits of int(): single underscores are allowed between digits; see Python: int(str) *)
Fixpoint parse_digits (v : N) (s : string) : option N :=
  match s with
  | EmptyString => Some v
  | String c s' =>
      match digit_val c with
      | Some d => parse_digits (10 * v + d) s'
      | None =>
          if Ascii.eqb c "_" then
            match s' with
            | String c2 s2 =>
                match digit_val c2 with
                | Some d => parse_digits (10 * v + d) s2
                | None => None
                end
            | EmptyString => None
            end
          else None
      end
  end.

(* Python: int(str) *)
Definition parse_nat (s : string) : option N :=
  match s with
  | String c s' =>
      match digit_val c with Some d => parse_digits d s' | None => None end
  | EmptyString => None
  end.

(* str.isspace on ASCII: \t \n \v \f \r, \x1c-\x1f and blank; see Python: str.isspace *)
Definition is_space (c : ascii) : bool :=
  let n := N_of_ascii c in
  ((9 <=? n) && (n <=? 13) || (28 <=? n) && (n <=? 32))%N.

(* Python: str.lstrip *)
Fixpoint lstrip (s : string) : string :=
  match s with
  | String c s' => if is_space c then lstrip s' else s
  | EmptyString => ""
  end.

(* Python: str.rstrip *)
Fixpoint rstrip (s : string) : string :=
  match s with
  | EmptyString => ""
  | String c s' =>
      match rstrip s' with
      | EmptyString => if is_space c then "" else String c ""
      | r => String c r
      end
  end.

(* int(s): surrounding white space, optional sign, digits; see Python: int(str) *)
Definition py_int (s : string) : result Z :=
  match rstrip (lstrip s) with
  | String c s' as t =>
      let out := fun (neg : bool) (o : option N) =>
        match o with
        | Some n => Ok (if neg then Z.opp (Z.of_N n) else Z.of_N n)
        | None => Err ValueError
        end in
      if Ascii.eqb c "-" then out true (parse_nat s')
      else if Ascii.eqb c "+" then out false (parse_nat s')
      else out false (parse_nat t)
  | EmptyString => Err ValueError
  end.

(** ** range() and slices *)

Local Open Scope Z_scope.

(* len(range(start, stop, step)) for step <> 0; see Python: len(range(...)) *)
Definition range_len (start stop step : Z) : Z :=
  if 0 <? step then
    if start <? stop then (stop - start - 1) / step + 1 else 0
  else
    if stop <? start then (start - stop - 1) / (- step) + 1 else 0.

(* Python: range(n) *)
Definition zseq (n : nat) : list Z := map Z.of_nat (seq 0 n).

(* list(range(start, stop, step)); step 0 raises ValueError; see Python: range *)
Definition py_range (start stop step : Z) : result (list Z) :=
  if step =? 0 then Err ValueError
  else Ok (map (fun k => start + k * step)
               (zseq (Z.to_nat (range_len start stop step)))).

(* index normalisation of slice bounds (step None) for a list of length n; see Python: list slicing *)
Definition slice_bound (n : Z) (i : Z) : Z :=
  if i <? 0 then Z.max 0 (i + n) else Z.min i n.

(* Python: list slicing *)
Definition py_slice {A} (l : list A) (start stop : option Z) : list A :=
  let n := Z.of_nat (List.length l) in
  let a := match start with None => 0 | Some i => slice_bound n i end in
  let b := match stop with None => n | Some i => slice_bound n i end in
  firstn (Z.to_nat (b - a)) (skipn (Z.to_nat a) l).

(* l[i] with negative wrap-around; IndexError out of range; see Python: list indexing *)
Definition py_get {A} (l : list A) (i : Z) : result A :=
  let n := Z.of_nat (List.length l) in
  let j := if i <? 0 then i + n else i in
  if (j <? 0) then Err IndexError
  else match nth_error l (Z.to_nat j) with
       | Some a => Ok a
       | None => Err IndexError
       end.

(** ** Insertion-ordered dictionaries with string keys *)

Section Dict.
  Context {V : Type}.

  Fixpoint dict_get (k : string) (d : list (string * V)) : option V :=
    match d with
    | [] => None
    | (k', v) :: d' => if String.eqb k k' then Some v else dict_get k d'
    end.

  (* d[k] = v keeps the position of an existing key *)
  Fixpoint dict_set (k : string) (v : V) (d : list (string * V)) : list (string * V) :=
    match d with
    | [] => [(k, v)]
    | (k', v') :: d' =>
        if String.eqb k k' then (k', v) :: d' else (k', v') :: dict_set k v d'
    end.

  Definition dict_of (l : list (string * V)) : list (string * V) :=
    fold_left (fun d kv => dict_set (fst kv) (snd kv) d) l [].

  Definition dict_index (k : string) (d : list (string * V)) : result V :=
    match dict_get k d with Some v => Ok v | None => Err KeyError end.
End Dict.

(** ** Ordered sets of strings (ubelt.OrderedSet) as duplicate-free lists *)

(* OrderedSet(l): first occurrence of each item, in order; see Python: OrderedSet *)
Fixpoint oset_of (l : list string) : list string :=
  match l with
  | [] => []
  | x :: l' => x :: filter (fun y => negb (String.eqb x y)) (oset_of l')
  end.
