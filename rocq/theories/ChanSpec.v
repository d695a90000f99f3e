(* Specification vocabulary for channel specs, independent of the algorithms in
   ChanModel.v: what the codes denote, what a stream text contains. *)
From Verif Require Export Py ChanModel.
From Coq Require Export Sorted.
Local Open Scope string_scope.

(** ** Codes *)

Definition aliases : list (string * list string) :=
  [("rgb", ["r"; "g"; "b"]); ("rgba", ["r"; "g"; "b"; "a"]);
   ("dxdy", ["dx"; "dy"]); ("fxfy", ["fx"; "fy"])].

(* neither an alias nor slice notation *)
Definition atomic (c : string) : Prop :=
  ~ In c (map fst aliases) /\ contains ":" c = false.

(* the members of Python's range(start, stop, step) *)
Definition in_progression (start stop step i : Z) : Prop :=
  exists k : Z, (0 <= k /\ i = start + k * step /\
                 (0 < step -> i < stop) /\ (step < 0 -> stop < i))%Z.

(* l lists the progression, in walking order, each member once *)
Definition lists_progression (start stop step : Z) (l : list Z) : Prop :=
  (forall i, In i l <-> in_progression start stop step i) /\
  StronglySorted (fun a b => (0 < step -> a < b) /\ (step < 0 -> b < a))%Z l.

(* an integer literal as accepted by int(), with a default when it is left out *)
Definition int_lit (s : string) (z : Z) : Prop := py_int s = Ok z.
Definition int_lit_or (d : Z) (s : string) (z : Z) : Prop :=
  (s = "" /\ z = d) \/ (s <> "" /\ int_lit s z).

Definition plain_root (r : string) : Prop := contains "." r = false /\ contains ":" r = false.

(* the slice notations *)
Inductive slice_form : string -> string -> Z -> Z -> Z -> Prop :=
| SF_stop root b stop :
    plain_root root -> int_lit b stop ->
    slice_form (root ++ String ":" b) root 0 stop 1
| SF_start_stop sep root a b start stop :
    plain_root root -> sep = "."%char \/ sep = ":"%char ->
    int_lit_or 0 a start -> int_lit b stop ->
    slice_form (root ++ String sep (a ++ String ":" b)) root start stop 1
| SF_start_stop_step sep root a b c start stop step :
    plain_root root -> sep = "."%char \/ sep = ":"%char ->
    int_lit_or 0 a start -> int_lit b stop -> int_lit_or 1 c step ->
    slice_form (root ++ String sep (a ++ String ":" (b ++ String ":" c))) root start stop step.

(* which channel names a written code stands for *)
Inductive denotes : string -> list string -> Prop :=
| den_alias c l : In (c, l) aliases -> denotes c l
| den_atom c : atomic c -> denotes c [c]
| den_slice c root start stop step idxs :
    slice_form c root start stop step -> step <> 0%Z ->
    lists_progression start stop step idxs ->
    denotes c (map (fun i => root ++ String "." (Z_str i)) idxs).

(* the channel names a code list stands for *)
Definition denotes_all (l names : list string) : Prop :=
  exists ls, Forall2 denotes l ls /\ names = List.concat ls.

(* object invariant: an object flagged as normalized holds only atomic codes *)
Definition good (f : fused) : Prop := isnorm f = true -> Forall atomic (codes f).

(* the code has no index, or its index is a plainly written integer *)
Definition canonical (c : string) : Prop :=
  contains "." c = false \/
  exists root i, contains "." root = false /\ c = root ++ String "." (Z_str i).

(* c' is c with its index, if it has one, written plainly: a.00 becomes a.0.  A
   code with two dots, or with an index that is no integer, has no such form. *)
Definition plainly (c c' : string) : Prop :=
  (contains "." c = false /\ c' = c) \/
  exists root lit i, contains "." root = false /\ contains "." lit = false /\
    c = root ++ String "." lit /\ int_lit lit i /\ c' = root ++ String "." (Z_str i).

(* c2 starts with the channel right after the last channel of c1 *)
Definition continues (c1 c2 : string) : Prop :=
  exists l1 l2 r i, plain_root r /\
    denotes c1 (l1 ++ [r ++ String "." (Z_str i)]) /\
    denotes c2 ((r ++ String "." (Z_str (i + 1))) :: l2).

(* no two neighbouring codes could be merged into one run *)
Definition chain_free (l : list string) : Prop :=
  forall pre c1 c2 post, l = (pre ++ c1 :: c2 :: post)%list -> ~ continues c1 c2.

(** ** Sequences *)

(* l keeps a subset of l' in the same order *)
Inductive subseq {A} : list A -> list A -> Prop :=
| sub_nil : subseq [] []
| sub_keep x l l' : subseq l l' -> subseq (x :: l) (x :: l')
| sub_skip x l l' : subseq l l' -> subseq l (x :: l').

(* b is a contiguous block of a that starts at position p *)
Definition block_at {A} (a b : list A) (p : nat) : Prop :=
  exists l r, a = (l ++ b ++ r)%list /\ List.length l = p.

(** ** Stream texts *)

(* reading a ChannelSpec text: commas separate streams (empty ones are
   dropped), bars separate codes *)
Definition read_streams (s : string) : list (list string) :=
  map (split "|") (filter (fun ss => negb (String.eqb ss "")) (split "," s)).

(* consecutive index ranges from a, one per size *)
Fixpoint tile (a : Z) (szs : list Z) : list (Z * Z) :=
  match szs with
  | [] => []
  | s :: szs' => (a, a + s)%Z :: tile (a + s)%Z szs'
  end.

(** ** Ordered-set objects *)

(* items are distinct and the map holds exactly the position of each item *)
Definition oset_ok (s : oset) : Prop :=
  NoDup (oitems s) /\ NoDup (map fst (omap s)) /\
  forall x i, dict_get x (omap s) = Some i <->
              (0 <= i)%Z /\ nth_error (oitems s) (Z.to_nat i) = Some x.

Definition zmem (z : Z) (l : list Z) : bool := existsb (Z.eqb z) l.

(* what is left of l (first position k) when the positions P are removed *)
Fixpoint keepz (k : Z) (l : list string) (P : list Z) : list string :=
  match l with
  | [] => []
  | x :: l' => if zmem k P then keepz (k + 1) l' P else x :: keepz (k + 1) l' P
  end.

(** ** The streams an object holds *)
Definition cvalues (c : cspec) : list (list string) := map (fun kv => codes (snd kv)) (cparse c).
(* an object whose cached streams can be written *)
Definition streams_writable (c : cspec) : Prop := Forall (fun l => l <> [] /\ l <> [""]) (cvalues c).

(** ** Paths *)
(* characters that are not allowed in a file name *)
Definition illegal : list ascii := ["|"; "<"; ">"; ":"; "?"; "*"]%char.
(* what ub.hash_data(..., base='abc') produces: lowercase letters *)
Fixpoint lower_only (s : string) : bool :=
  match s with
  | EmptyString => true
  | String c s' => ((97 <=? N_of_ascii c) && (N_of_ascii c <=? 122))%N && lower_only s'
  end.

(** ** coerce *)
Definition not_float (d : cdata) : Prop := forall z, d <> DFloat z.
(* the answer in a process where nothing was coerced before *)
Definition coerce_fresh (d : cdata) : result fused := fst (coerce [] d).

(** ** Slices *)
(* z, counted from the end when negative, is the position p *)
Definition at_pos (len : nat) (z : Z) (p : nat) : Prop :=
  (p <= len)%nat /\ (z = Z.of_nat p \/ (z < 0 /\ z = Z.of_nat p - Z.of_nat len)%Z).

(* the position i stands for among n items: negative ones count from the end *)
Definition counted (n i : Z) : Z := (if i <? 0 then i + n else i)%Z.
(* where the walk of start:stop:step over n items begins *)
Definition walk_from (n : Z) (start : option Z) (step : Z) : Z :=
  match start with
  | None => if (0 <? step)%Z then 0%Z else (n - 1)%Z
  | Some i => if (0 <? step)%Z then Z.max 0 (counted n i) else Z.min (n - 1) (counted n i)
  end.
(* start:stop:step passes over position k of n items *)
Definition picks (n : Z) (start stop : option Z) (step k : Z) : Prop :=
  (0 <= k < n)%Z /\ (exists m, 0 <= m /\ k = walk_from n start step + m * step)%Z /\
  (forall i, stop = Some i -> (0 < step -> k < counted n i)%Z /\ (step < 0 -> counted n i < k)%Z).

(** ** Edit sequences *)
Inductive edit := EIns (i : Z) (x : string) | EDel (l : list Z).
Definition apply_edit (s : oset) (e : edit) : result oset :=
  match e with EIns i x => Ok (oset_insert s i x) | EDel l => oset_delitems s l end.
Fixpoint apply_edits (s : oset) (es : list edit) : result oset :=
  match es with [] => Ok s | e :: es' => s' <- apply_edit s e ;; apply_edits s' es' end.

(* the same edits on a plain list: list.insert of an absent element / del *)
Definition list_edit (l : list string) (e : edit) : list string :=
  match e with
  | EIns i x => if str_mem x l then l else firstn (Z.to_nat i) l ++ x :: skipn (Z.to_nat i) l
  | EDel P => keepz 0 l P
  end.
Definition edit_in_range (l : list string) (e : edit) : Prop :=
  match e with
  | EIns i _ => (0 <= i <= Z.of_nat (List.length l))%Z
  | EDel P => NoDup P /\ Forall (fun i => 0 <= i < Z.of_nat (List.length l))%Z P
  end.
Fixpoint edits_in_range (l : list string) (es : list edit) : Prop :=
  match es with [] => True | e :: es' => edit_in_range l e /\ edits_in_range (list_edit l e) es' end.
