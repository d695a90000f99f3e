(* Property theorems about ordered sets edited with any index (C143).  Vocabulary:
   [oset_ok s] - no item repeats and every item is mapped to its own position
   (ChanSpec.v); [asks n ix P] - the index ix names the positions P of a list of length
   n; [refused n ix e] - Python lists refuse it with e; [inserted] - list.insert;
   [edits l es l'] - the edits es turn the list l into l' (OsetSpec.v). *)
From Verif Require Import PyProofs ChanModel ChanSpec ChanProofs ChanSetProofs OsetModel OsetSpec OsetProofs.
From Coq Require Import ZifyBool.
Local Open Scope Z_scope.

Definition abcd : oset := oset_new ["a"; "b"; "c"; "d"]%string.
Lemma abcd_ok : oset_ok abcd.
Proof. apply (oset_new_ok ["a"; "b"; "c"; "d"]%string). Qed.

(** C143: the full claim is false: an insertion at a negative or too large index
    maps the new item to that index instead of its position, and a deletion that names
    a position twice raises KeyError with items already forgotten. *)
Theorem C143_any_index_refuted :
  ~ (forall s i x, oset_ok s -> oset_ok (oset_insert s i x)) /\
  ~ (forall s ix, oset_ok s -> oset_ok (fst (oset_delitem s ix))).
Proof.
  split; intros H.
  - specialize (H abcd (-1) "x"%string abcd_ok). assert (G : 0 <= -1) by (apply (proj2 (proj2 H) "x"%string (-1)); reflexivity). lia.
  - specialize (H abcd (DList [1; 3; -3]) abcd_ok).
    assert (G : dict_get "b"%string (omap (fst (oset_delitem abcd (DList [1; 3; -3])))) = Some 1).
    { apply (proj2 (proj2 H)). split; [lia|reflexivity]. }
    vm_compute in G. discriminate.
Qed.
Print Assumptions C143_any_index_refuted.

(** C143: deletions by slice (with any bounds and step), by a list of positions or by
    one position, negative ones included, remove exactly those items and keep every
    position, if no position is named twice. *)
Theorem C143_delete_partial : forall s ix P, oset_ok s -> asks (Z.of_nat (List.length (oitems s))) ix P -> NoDup P ->
  exists s', oset_delitem s ix = (s', None) /\ oset_ok s' /\ oitems s' = keepz 0 (oitems s) P.
Proof. exact delete_ok. Qed.
Print Assumptions C143_delete_partial.

Example C143_delete_case :
  asks 4 (DList [-1; 0]) [3; 0] /\ NoDup [3; 0] /\
  (let r := oset_delitem abcd (DList [-1; 0]) in oitems (fst r) = ["b"; "c"]%string /\ snd r = None) /\
  (let r := oset_delitem abcd (DSlice (Some (-1)) None (Some (-2))) in oitems (fst r) = ["a"; "c"]%string /\ snd r = None) /\
  (let r := oset_delitem abcd (DInt (-2)) in oitems (fst r) = ["a"; "b"; "d"]%string /\ snd r = None).
Proof.
  split; [constructor; repeat constructor; lia|]. split; [repeat constructor; cbn; lia|]. vm_compute. auto 10.
Qed.

(** C143: refused deletions raise the exception Python lists raise and change nothing. *)
Theorem C143_refused_partial : forall s ix e, refused (Z.of_nat (List.length (oitems s))) ix e ->
  oset_delitem s ix = (s, Some e).
Proof. exact refuse_ok. Qed.
Print Assumptions C143_refused_partial.

Example C143_refused_case : refused 4 (DList [0; 4]) IndexError /\ oset_delitem abcd (DList [0; 4]) = (abcd, Some IndexError).
Proof. split; [constructor; right; left; lia|reflexivity]. Qed.

(* every index is one or the other *)
Theorem C143_cases : forall n ix, 0 <= n -> (exists P, asks n ix P) \/ (exists e, refused n ix e).
Proof.
  intros n ix Hn. destruct ix as [a b st|l|i|].
  - destruct (Z.eq_dec (match st with None => 1 | Some s => s end) 0) as [E|E].
    + destruct st as [st|]; [|discriminate]. subst. right. eexists. apply refused_step.
    + left. destruct (slice_total n a b _ E) as (ks & Hk). apply ChanStreamProofs.slice_positions_spec in Hk as (_ & K1 & K2); [|exact Hn].
      exists ks. constructor; [exact E|eapply sorted_nodup; eassumption|exact K1].
  - assert (G : (exists P, Forall2 (stands_for n) l P) \/ Exists (fun i => i < - n \/ n <= i) l).
    { induction l as [|i l IH]; [left; exists []; constructor|].
      destruct (Z_lt_dec i (- n)) as [H|H]; [right; left; lia|]. destruct (Z_le_dec n i) as [H'|H']; [right; left; lia|].
      destruct IH as [[P IH]|IH]; [left|right; right; exact IH].
      exists ((if i <? 0 then i + n else i) :: P). constructor; [|exact IH]. unfold stands_for. destruct (i <? 0) eqn:E; lia. }
    destruct G as [[P G]|G]; [left; exists P; now constructor|right; eexists; now constructor].
  - destruct (Z_lt_dec i (- n)) as [H|H]; [right; eexists; constructor; lia|].
    destruct (Z_le_dec n i) as [H'|H']; [right; eexists; constructor; lia|].
    left. exists [if i <? 0 then i + n else i]. constructor. unfold stands_for. destruct (i <? 0) eqn:E; lia.
  - right. eexists. constructor.
Qed.
Print Assumptions C143_cases.

(** C143: a deletion that names a position twice always raises KeyError; the items are
    all still listed, but one of them is no longer found. *)
Theorem C143_repeated : forall s ix P, oset_ok s -> asks (Z.of_nat (List.length (oitems s))) ix P -> ~ NoDup P ->
  exists s', oset_delitem s ix = (s', Some KeyError) /\ oitems s' = oitems s /\
    exists x, In x (oitems s') /\ dict_get x (omap s') = None.
Proof. exact repeated_ok. Qed.
Print Assumptions C143_repeated.

Example C143_repeated_case : asks 4 (DList [1; 3; -3]) [1; 3; 1] /\ ~ NoDup [1; 3; 1] /\
  (let r := oset_delitem abcd (DList [1; 3; -3]) in
   snd r = Some KeyError /\ oitems (fst r) = ["a"; "b"; "c"; "d"]%string /\ omap (fst r) = [("a", 0); ("c", 2)]%string).
Proof.
  split; [constructor; repeat constructor; lia|]. split; [|vm_compute; auto].
  intros H. inversion H as [|? ? H1 _]; subst. apply H1. cbn. lia.
Qed.

(** C143: an insertion of a new item puts it where list.insert does; every other item
    is mapped to its position and the new one to the given index, so the set is intact
    exactly if the index lies within the list (or the item was there already). *)
Theorem C143_insert_partial : forall s i x, oset_ok s ->
  (~ In x (oitems s) ->
     inserted (oitems s) i x (oitems (oset_insert s i x)) /\
     dict_get x (omap (oset_insert s i x)) = Some i /\
     (forall y, y <> x -> forall j, dict_get y (omap (oset_insert s i x)) = Some j <->
        0 <= j /\ nth_error (oitems (oset_insert s i x)) (Z.to_nat j) = Some y)) /\
  (In x (oitems s) -> oset_insert s i x = s) /\
  (oset_ok (oset_insert s i x) <-> In x (oitems s) \/ 0 <= i <= Z.of_nat (List.length (oitems s))).
Proof.
  intros s i x Hs. split; [now apply insert_any|]. split; [|now apply insert_iff].
  intros Hx. unfold oset_insert. destruct (In_nth_error _ _ Hx) as (j & Hj).
  assert (E : dict_get x (omap s) = Some (Z.of_nat j)) by (apply Hs; split; [lia|now rewrite Nat2Z.id]). now rewrite E.
Qed.
Print Assumptions C143_insert_partial.

Example C143_insert_case :
  oitems (oset_insert abcd (-1) "x"%string) = ["a"; "b"; "c"; "x"; "d"]%string /\
  dict_get "x"%string (omap (oset_insert abcd (-1) "x"%string)) = Some (-1) /\
  dict_get "d"%string (omap (oset_insert abcd (-1) "x"%string)) = Some 4 /\
  oitems (oset_insert abcd 9 "x"%string) = ["a"; "b"; "c"; "d"; "x"]%string /\
  dict_get "x"%string (omap (oset_insert abcd 9 "x"%string)) = Some 9.
Proof. vm_compute. auto 10. Qed.

(** C143: any sequence of such edits, refused ones included, leaves the set intact with
    the items of the list edited the same way. *)
Theorem C143_history_partial : forall l es l', edits (oset_of l) es l' ->
  oset_ok (fold_left run_edit es (oset_new l)) /\ oitems (fold_left run_edit es (oset_new l)) = l'.
Proof. intros l es l' H. apply (history_ok _ _ _ H); apply (oset_new_ok l). Qed.
Print Assumptions C143_history_partial.

Example C143_history_case :
  edits ["a"; "b"; "c"]%string
    [OIns 3 "d"%string; ODel (DInt 9); ODel (DList [-1; 0]); OIns 0 "c"%string] ["b"; "c"]%string.
Proof.
  eapply edits_insert; [cbn; intuition discriminate|cbn; lia|exists 3%nat; cbn; split; [lia|split; reflexivity]|].
  eapply edits_refused; [constructor; right; cbn; lia|].
  eapply (edits_delete _ _ [3; 0]); [constructor; repeat constructor; cbn; lia|repeat constructor; cbn; lia|].
  cbn. apply edits_present; [cbn; auto|]. constructor.
Qed.
