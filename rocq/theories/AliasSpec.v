(* Fused specs and lists as plain values: no sharing, nothing remembered. *)
From Verif Require Import Py ChanModel AliasModel.
Local Open Scope Z_scope.

(* the value of an expression over values *)
Definition v_call (env : list value) (c : call) : value :=
  let at_ h := nth h env VNone in
  let no := VErr AttributeError in
  let names l (k : list string -> value) :=
    match mapR expand l with Ok ls => k (List.concat ls) | Err e => VErr e end in
  match c with
  | Lit (VSpec _) => no
  | Lit v => v
  | Copy h => match at_ h with VList l => VList l | VSpec l => names l VList | _ => no end
  | Edit h _ => match at_ h with VList _ => VNone | _ => no end
  | Coerce h =>
      match at_ h with
      | VSpec l | VList l => VSpec l
      | VText t => VSpec (codes (fparse t))
      | VNum z => VSpec (from_int_codes z)
      | _ => VErr TypeError
      end
  | Normalize h => match at_ h with VSpec l => names l VSpec | _ => no end
  | CodeList h => match at_ h with VSpec l => VList l | _ => no end
  | AsList h => match at_ h with VSpec l => names l VList | _ => no end
  | Spec h => match at_ h with VSpec l => VText (join "|" l) | _ => no end
  | Numel h => match at_ h with VSpec l => names l (fun n => VNum (Z.of_nat (List.length n))) | _ => no end
  | Len h => match at_ h with VSpec l => VNum (Z.of_nat (List.length l)) | _ => no end
  | Contains h k => match at_ h with VSpec l => VBool (str_mem k l) | _ => no end
  | Equal h h' =>
      match at_ h, at_ h' with
      | VSpec l, VSpec l' => VBool (if list_eq_dec string_dec l l' then true else false)
      | _, _ => no
      end
  end.

(* an edit changes the one variable it is made through *)
Definition v_edit (env : list value) (c : call) : list value :=
  match c with
  | Edit h l => match nth h env VNone with VList _ => put env h (VList l) | _ => env end
  | _ => env
  end.

Fixpoint run_values (env : list value) (p : list call) : list value :=
  match p with
  | [] => []
  | c :: p' => let v := v_call env c in v :: run_values (v_edit env c ++ [v]) p'
  end.

(* The program edits only lists it has built or copied itself and has not yet handed
   to coerce.  [own] tells this for every variable. *)
Fixpoint edits_own (own : list bool) (p : list call) : bool :=
  match p with
  | [] => true
  | c :: p' =>
      match c with
      | Lit _ | Copy _ => edits_own (own ++ [true]) p'
      | Edit h _ => nth h own false && edits_own (own ++ [false]) p'
      | Coerce h => edits_own (put own h false ++ [false]) p'
      | _ => edits_own (own ++ [false]) p'
      end
  end.
