(* What callers see of lazily opened files over histories of calls. *)
From Verif Require Import Py LazyModel HandleModel.
Local Open Scope Z_scope.

Section Spec.
Context {V : Type} (veq : V -> V -> bool) (promote : V -> V) (fast : bool).
Context (upstream : gfile V -> Z -> option string -> list idx -> result (rarr V)).
Local Notation step := (hstep veq promote fast upstream).
Local Notation run := (hrun veq promote fast upstream).

(* calls that look into the file of object i *)
Definition uses (o : hop V) (i : nat) : Prop :=
  match o with Shape j | Num j | Item j _ => i = j | _ => False end.
(* calls that give object i another nodata method *)
Definition method_after (i : nat) (m : option string) (l : list (hop V)) : option string :=
  fold_left (fun m o => match o with Method j m' => if Nat.eqb i j then m' else m | _ => m end) l m.

(* whatever is asked of object i next, the answer is that of the file contents f, opened
   with this overview and nodata method *)
Definition shows (y : system V) (i : nat) (f : gfile V) (o : Z) (m : option string) : Prop :=
  let s := mkL f o m in
  snd (step y (Shape i)) = SShape (shape s) /\
  snd (step y (Num i)) = SNum (Ok (num_overviews s)) /\
  forall index, snd (step y (Item i index)) = SItem (getitem veq promote fast (upstream f o m index) s index).

(* the system after a history *)
Definition after (l : list (hop V)) : system V := fst (run hstart l).
(* the contents of a path after a history: written last, and not removed since *)
Fixpoint contents (p : string) (l : list (hop V)) (c : option (gfile V)) : option (gfile V) :=
  match l with
  | [] => c
  | Write q f :: l' => contents p l' (if String.eqb q p then Some f else c)
  | Remove q :: l' => contents p l' (if String.eqb q p then None else c)
  | _ :: l' => contents p l' c
  end.
(* the number of objects made by a history: every later object gets this number *)
Definition made (l : list (hop V)) : nat := List.length (y_objs (after l)).
End Spec.
