(* C06: operands that cannot be expanded. *)
From Verif Require Import Py PyProofs ChanModel.
Local Open Scope Z_scope.

(** When the other spec cannot be normalized (its slice codes are malformed), union and
    difference raise TypeError and intersection raises what normalizing it raises; none of
    them takes it as written. *)
Theorem C06_bad_operand : forall f nf g e, normalize f = Ok nf -> normalize g = Err e ->
  union f (OpSpec g) = Err TypeError /\ difference f (OpSpec g) = Err TypeError /\ intersection f (OpSpec g) = Err e.
Proof. intros f nf g e Hf Hg. unfold union, difference, intersection, operand_codes, iterated. rewrite Hf, Hg. auto. Qed.
Print Assumptions C06_bad_operand.

(** issubset does take it as written: it answers, without any exception, for the written codes. *)
Theorem C06_bad_superset : forall f nf g e, normalize f = Ok nf -> normalize g = Err e ->
  exists r, issubset f (OpSpec g) = Ok r /\ (r = true -> incl (codes nf) (codes g)).
Proof.
  intros f nf g e Hf Hg. unfold issubset, other_set. rewrite Hf, Hg. cbn [bind]. eexists. split; [reflexivity|].
  destruct (Nat.ltb _ _); [discriminate|]. rewrite forallb_forall. intros H x Hx. apply str_mem_In, H. now apply oset_of_In.
Qed.
Print Assumptions C06_bad_superset.

Example C06_bad_case : let f := mkF ["a"; "b"]%string false in let g := mkF ["a"; "b"; "c:x"]%string false in
  normalize f = Ok (mkF ["a"; "b"]%string true) /\ normalize g = Err ValueError /\
  union f (OpSpec g) = Err TypeError /\ intersection f (OpSpec g) = Err ValueError /\
  issubset f (OpSpec g) = Ok true /\ issuperset f (OpSpec g) = Ok false /\
  issuperset f (OpSpec (mkF ["c:x"]%string false)) = Err ValueError.
Proof. vm_compute. repeat split. Qed.
