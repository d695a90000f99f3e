(* Vocabulary for the quantization properties *)
From Verif Require Import Py QuantModel.
From Coq Require Import QArith.
Open Scope Z_scope.

(* z is a value of the integer dtype *)
Definition fits (signed : bool) (bits z : Z) : Prop :=
  if signed then - 2 ^ (bits - 1) <= z < 2 ^ (bits - 1) else 0 <= z < 2 ^ bits.

(* the number a Python bool, int or float stands for *)
Definition number (v : scalar) : option Q :=
  match v with
  | VBool b => Some (if b then 1 else 0)%Q
  | VInt z => Some (inject_Z z)
  | VFloat (Fin q) => Some q
  | VRational q => Some q
  | _ => None
  end.
Definition plain (v : scalar) : Prop :=
  match v with VBool _ | VInt _ | VFloat _ => True | _ => False end.

(* a key of the quantization dict, or its default *)
Definition get {X} (o : option X) (dflt : X) : X := match o with Some x => x | None => dflt end.

(* order of float values, NaN excluded *)
Definition le (a b : fval) : Prop :=
  match a, b with
  | Nan, _ | _, Nan => False
  | NInf, _ | _, PInf => True
  | Fin p, Fin q => (p <= q)%Q
  | _, _ => False
  end.
