(* Fused specs as values: what a program sees of the sharing and the memoization. *)
From Verif Require Import Py ChanModel AliasModel AliasSpec AliasProofs.
Local Open Scope Z_scope.

(* The full claim, that a program sees plain values whatever it does with the lists it
   holds, is false: the list that as_list returns belongs to a spec that every later
   caller with the same text shares ... *)
Theorem C155_values_refuted : ~ forall p, run_heap start p = run_values [] p.
Proof.
  intros H. specialize (H [Lit (VText "a|b"); Coerce 0; AsList 1; Edit 2 ["x"%string]; Lit (VText "a|b"); Coerce 4; Spec 5]).
  vm_compute in H. discriminate H.
Qed.
Print Assumptions C155_values_refuted.

(* ... and a spec keeps the list it was built from, with its text remembered from before
   the edit: afterwards the text and the names of one spec disagree. *)
Example C155_built_from :
  run_heap start [Lit (VList ["a"; "b"]%string); Coerce 0; Spec 1; Edit 0 ["x"%string]; Spec 1; AsList 1] =
    [VList ["a"; "b"]; VSpec ["a"; "b"]; VText "a|b"; VNone; VText "a|b"; VList ["x"]]%string.
Proof. vm_compute. reflexivity. Qed.

(* What holds: a program that edits only lists it has built or copied itself, and has not
   yet handed to coerce, sees plain values.  Sharing, the memoized results and the
   remembered flag never show. *)
Theorem C155_values_partial p : edits_own [] p = true -> run_heap start p = run_values [] p.
Proof. apply run_agrees; [apply start_ok|apply start_agrees|apply start_owned]. Qed.
Print Assumptions C155_values_partial.

(* In particular programs that edit nothing at all. *)
Theorem C155_readers p : (forall h l, ~ In (Edit h l) p) -> run_heap start p = run_values [] p.
Proof.
  intros H. apply C155_values_partial. generalize (@nil bool). induction p as [|c p IH]; intros own; [reflexivity|].
  assert (Hp : forall h l, ~ In (Edit h l) p) by (intros h l X; apply (H h l); now right).
  destruct c; cbn [edits_own]; try (now apply IH). destruct (H h l). now left.
Qed.
Print Assumptions C155_readers.

(* a program with a shared spec, an own list edited before and a copy edited after *)
Example C155_case : let p := [Lit (VList ["rgb"; "m.0:2"]%string); Edit 0 ["m.0:2"; "rgb"]%string; Coerce 0; Normalize 2;
     AsList 2; Copy 4; Edit 5 ["x"%string]; Spec 2; AsList 2; Lit (VText "a|b"); Coerce 9; CodeList 10; Copy 10; Edit 12 [];
     Coerce 9; Equal 10 14; Contains 14 "a"; Numel 2; Len 2] in
  edits_own [] p = true /\
  run_heap start p =
    [VList ["rgb"; "m.0:2"]; VNone; VSpec ["m.0:2"; "rgb"]; VSpec ["m.0"; "m.1"; "r"; "g"; "b"];
     VList ["m.0"; "m.1"; "r"; "g"; "b"]; VList ["m.0"; "m.1"; "r"; "g"; "b"]; VNone; VText "m.0:2|rgb";
     VList ["m.0"; "m.1"; "r"; "g"; "b"]; VText "a|b"; VSpec ["a"; "b"]; VList ["a"; "b"]; VList ["a"; "b"]; VNone;
     VSpec ["a"; "b"]; VBool true; VBool true; VNum 5; VNum 2]%string.
Proof. vm_compute. split; reflexivity. Qed.
