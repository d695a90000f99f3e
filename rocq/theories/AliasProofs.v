(* The heap of specs agrees with plain values as long as the program edits only its
   own lists. *)
From Verif Require Import Py PyProofs ChanModel ChanSpec ChanProofs AliasModel AliasSpec.
Local Open Scope Z_scope.

Lemma put_length {A} (l : list A) i a : List.length (put l i a) = List.length l.
Proof. revert i. induction l as [|b l IH]; intros [|i]; cbn; auto. Qed.
Lemma nth_put_same {A} (l : list A) i a d : (i < List.length l)%nat -> nth i (put l i a) d = a.
Proof. revert i. induction l as [|b l IH]; intros [|i] H; cbn in *; try lia; auto. apply IH. lia. Qed.
Lemma nth_put_other {A} (l : list A) i j a d : i <> j -> nth j (put l i a) d = nth j l d.
Proof. revert i j. induction l as [|b l IH]; intros [|i] [|j] H; cbn; auto; try congruence. Qed.
Lemma nth_app_l {A} (l l' : list A) i d : (i < List.length l)%nat -> nth i (l ++ l') d = nth i l d.
Proof. intros H. now apply app_nth1. Qed.
Lemma nth_app_last {A} (l : list A) a d : nth (List.length l) (l ++ [a]) d = a.
Proof. rewrite app_nth2 by lia. now rewrite Nat.sub_diag. Qed.

(** ** What holds of every object *)

(* the channel names of a code list *)
Definition names_of (l : list string) : result (list string) := rmap (@List.concat string) (mapR expand l).

Record obj_ok (s : state) (o : obj) : Prop := {
  ok_list : (o_list o < List.length (lists s))%nat;
  ok_norm : o_norm o = true -> Forall atomic (list_at s (o_list o));
  ok_spec : forall t, o_spec o = Some t -> t = join "|" (list_at s (o_list o));
  ok_unique : forall u, o_unique o = Some u -> u = list_at s (o_list o);
  ok_aslist : forall a, o_aslist o = Some a -> (a < List.length (lists s))%nat /\
                names_of (list_at s (o_list o)) = Ok (list_at s a) }.

Record ok (s : state) : Prop := {
  ok_objs : forall i, (i < List.length (objs s))%nat -> obj_ok s (obj_at s i);
  ok_memo_s : forall t i, dict_get t (memo_s s) = Some i -> (i < List.length (objs s))%nat /\ codes_at s i = codes (fparse t);
  ok_memo_i : forall z i, zget z (memo_i s) = Some i -> (i < List.length (objs s))%nat /\ codes_at s i = from_int_codes z }.

(* an address some object holds *)
Definition uses (s : state) (a : nat) : Prop :=
  exists i, (i < List.length (objs s))%nat /\ (o_list (obj_at s i) = a \/ o_aslist (obj_at s i) = Some a).

(* what a call without edits may do to the heap *)
Record grows (s s' : state) : Prop := {
  gr_lists : exists ex, lists s' = (lists s ++ ex)%list;
  gr_objs : (List.length (objs s) <= List.length (objs s'))%nat;
  gr_same : forall i, (i < List.length (objs s))%nat -> o_list (obj_at s' i) = o_list (obj_at s i);
  gr_vars : vars s' = vars s }.

Lemma grows_refl s : grows s s.
Proof. split; auto. exists []. now rewrite app_nil_r. Qed.
Lemma grows_trans a b c : grows a b -> grows b c -> grows a c.
Proof.
  intros [[x Hx] H1 H2 H3] [[y Hy] H4 H5 H6]. split.
  - exists (x ++ y)%list. now rewrite Hy, Hx, app_assoc.
  - lia.
  - intros i Hi. rewrite H5 by lia. now apply H2.
  - congruence.
Qed.
Lemma grows_len s s' : grows s s' -> (List.length (lists s) <= List.length (lists s'))%nat.
Proof. intros [[x ->] _ _ _]. rewrite app_length. lia. Qed.
Lemma grows_list s s' a : grows s s' -> (a < List.length (lists s))%nat -> list_at s' a = list_at s a.
Proof. intros [[x E] _ _ _] H. unfold list_at. rewrite E. now apply nth_app_l. Qed.
Lemma grows_codes s s' i : grows s s' -> ok s -> (i < List.length (objs s))%nat -> codes_at s' i = codes_at s i.
Proof.
  intros G O Hi. unfold codes_at. rewrite (gr_same _ _ G) by exact Hi. apply (grows_list _ _ _ G). apply (ok_list _ _ (ok_objs _ O _ Hi)).
Qed.

(* more lists do not spoil an object *)
Lemma obj_ok_more s s' o : (exists ex, lists s' = (lists s ++ ex)%list) -> obj_ok s o -> obj_ok s' o.
Proof.
  intros (ex & E) [A B C D F].
  assert (L : forall a, (a < List.length (lists s))%nat -> list_at s' a = list_at s a).
  { intros a H. unfold list_at. rewrite E. now apply nth_app_l. }
  split.
  - rewrite E, app_length. lia.
  - rewrite L by exact A. exact B.
  - rewrite L by exact A. exact C.
  - rewrite L by exact A. exact D.
  - intros a Ha. destruct (F a Ha) as [F1 F2]. split; [rewrite E, app_length; lia|]. rewrite !L by assumption. exact F2.
Qed.

Lemma new_list_step s l : ok s -> let s1 := fst (new_list s l) in
  ok s1 /\ grows s s1 /\ list_at s1 (snd (new_list s l)) = l /\
  (snd (new_list s l) < List.length (lists s1))%nat /\ snd (new_list s l) = List.length (lists s) /\
  (forall a, uses s1 a <-> uses s a) /\ objs s1 = objs s.
Proof.
  intros O s1. cbn in s1. assert (G : grows s s1). { split; cbn; auto. now exists [l]. }
  split; [|split; [exact G|]].
  - split.
    + intros i Hi. apply (obj_ok_more s); [now exists [l]|]. exact (ok_objs _ O i Hi).
    + intros t i H. destruct (ok_memo_s _ O t i H) as [H1 H2]. split; [exact H1|]. rewrite <- H2. now apply (grows_codes _ _ _ G O).
    + intros t i H. destruct (ok_memo_i _ O t i H) as [H1 H2]. split; [exact H1|]. rewrite <- H2. now apply (grows_codes _ _ _ G O).
  - cbn. split; [unfold list_at; cbn; apply nth_app_last|]. split; [rewrite app_length; cbn; lia|].
    split; [reflexivity|]. split; [intros a; reflexivity|reflexivity].
Qed.

Lemma new_obj_at s a b i : (i < List.length (objs s))%nat -> obj_at (fst (new_obj s a b)) i = obj_at s i.
Proof. intros H. unfold obj_at. cbn. now apply nth_app_l. Qed.
Lemma new_obj_last s a b : obj_at (fst (new_obj s a b)) (List.length (objs s)) = mkO a b None None None.
Proof. unfold obj_at. cbn. apply nth_app_last. Qed.

Lemma new_obj_step s a b : ok s -> (a < List.length (lists s))%nat -> (b = true -> Forall atomic (list_at s a)) ->
  let s1 := fst (new_obj s a b) in
  ok s1 /\ grows s s1 /\ codes_at s1 (List.length (objs s)) = list_at s a /\
  (List.length (objs s) < List.length (objs s1))%nat /\
  (forall x, uses s1 x -> uses s x \/ x = a) /\ lists s1 = lists s.
Proof.
  intros O Ha Hb s1. assert (G : grows s s1).
  { split; cbn; auto. - exists []. now rewrite app_nil_r. - rewrite app_length. lia. - intros i Hi. f_equal. now apply new_obj_at. }
  assert (L : List.length (objs s1) = S (List.length (objs s))) by (cbn; rewrite app_length; cbn; lia).
  split; [|split; [exact G|]].
  - split.
    + intros i Hi. destruct (Nat.eq_dec i (List.length (objs s))) as [->|N].
      * unfold s1. rewrite new_obj_last. split; cbn; try discriminate; [exact Ha|exact Hb].
      * unfold s1. rewrite new_obj_at by lia. apply (obj_ok_more s); [exists []; now rewrite app_nil_r|]. apply (ok_objs _ O). lia.
    + intros t i H. destruct (ok_memo_s _ O t i H) as [H1 H2]. split; [lia|]. rewrite <- H2. now apply (grows_codes _ _ _ G O).
    + intros t i H. destruct (ok_memo_i _ O t i H) as [H1 H2]. split; [lia|]. rewrite <- H2. now apply (grows_codes _ _ _ G O).
  - split; [unfold codes_at, s1; rewrite new_obj_last; reflexivity|]. split; [lia|]. split; [|reflexivity].
    intros x (i & Hi & H). destruct (Nat.eq_dec i (List.length (objs s))) as [->|N].
    + unfold s1 in H. rewrite new_obj_last in H. cbn in H. destruct H as [H|H]; [now right|discriminate H].
    + unfold s1 in H. rewrite new_obj_at in H by lia. left. exists i. split; [lia|exact H].
Qed.

Lemma set_obj_at s i o j : (i < List.length (objs s))%nat -> obj_at (set_obj s i o) j = if Nat.eq_dec i j then o else obj_at s j.
Proof.
  intros H. unfold obj_at. cbn. destruct (Nat.eq_dec i j) as [<-|N]; [now apply nth_put_same|now apply nth_put_other].
Qed.

Lemma set_obj_step s i o : ok s -> (i < List.length (objs s))%nat -> obj_ok s o -> o_list o = o_list (obj_at s i) ->
  let s1 := set_obj s i o in
  ok s1 /\ grows s s1 /\ (forall x, uses s1 x -> uses s x \/ o_aslist o = Some x).
Proof.
  intros O Hi Ho El s1. assert (L : List.length (objs s1) = List.length (objs s)) by (cbn; apply put_length).
  assert (G : grows s s1).
  { split; [exists []; cbn; now rewrite app_nil_r|lia| |reflexivity].
    intros j Hj. unfold s1. rewrite set_obj_at by exact Hi. destruct (Nat.eq_dec i j) as [<-|N]; auto. }
  split; [|split; [exact G|]].
  - split.
    + intros j Hj. apply (obj_ok_more s); [exists []; now rewrite app_nil_r|]. unfold s1. rewrite set_obj_at by exact Hi.
      destruct (Nat.eq_dec i j); [exact Ho|]. apply (ok_objs _ O). lia.
    + intros t j H. destruct (ok_memo_s _ O t j H) as [H1 H2]. split; [lia|]. rewrite <- H2. now apply (grows_codes _ _ _ G O).
    + intros t j H. destruct (ok_memo_i _ O t j H) as [H1 H2]. split; [lia|]. rewrite <- H2. now apply (grows_codes _ _ _ G O).
  - intros x (j & Hj & H). unfold s1 in H. rewrite set_obj_at in H by exact Hi. destruct (Nat.eq_dec i j) as [<-|N].
    + destruct H as [H|H]; [|now right]. left. exists i. split; [exact Hi|]. left. congruence.
    + left. exists j. split; [lia|exact H].
Qed.

(** ** normalize *)

Lemma needs_atomic v : needs v = false <-> atomic v.
Proof.
  unfold needs, atomic. split.
  - intros H. destruct (alias_lut v) as [l|] eqn:E; [discriminate|]. split; [now apply alias_lut_None|exact H].
  - intros [H1 H2]. apply alias_lut_None in H1. now rewrite H1.
Qed.

Lemma no_needs l : existsb needs l = false -> Forall atomic l.
Proof.
  induction l as [|v l IH]; intros H; [constructor|]. cbn in H. apply orb_false_iff in H as [H1 H2]. constructor; [now apply needs_atomic|now apply IH].
Qed.

Lemma names_atomic_id l : Forall atomic l -> names_of l = Ok l.
Proof. intros H. unfold names_of. rewrite mapR_expand_atomic by exact H. cbn. f_equal. apply concat_singletons. Qed.

Lemma names_are_atomic l n : names_of l = Ok n -> Forall atomic n.
Proof.
  intros H. unfold names_of in H. destruct (mapR expand l) as [ls|] eqn:E; [|discriminate]. injection H as <-.
  apply (normalize_atomic (mkF l false) (mkF (List.concat ls) true)); [intros X; discriminate X|]. unfold normalize. cbn. now rewrite E.
Qed.

Lemma normalize_step s i : ok s -> (i < List.length (objs s))%nat ->
  let '(s1, r) := h_normalize s i in
  ok s1 /\ grows s s1 /\ (forall x, uses s1 x -> uses s x \/ (List.length (lists s) <= x < List.length (lists s1))%nat) /\
  match r with
  | Ok j => (j < List.length (objs s1))%nat /\ names_of (codes_at s i) = Ok (codes_at s1 j)
  | Err e => names_of (codes_at s i) = Err e
  end.
Proof.
  intros O Hi. unfold h_normalize. pose proof (ok_objs _ O i Hi) as Oi. destruct (o_norm (obj_at s i)) eqn:En.
  { split; [exact O|]. split; [apply grows_refl|]. split; [auto|]. split; [exact Hi|]. apply names_atomic_id. now apply (ok_norm _ _ Oi). }
  destruct (mapR expand (codes_at s i)) as [ls|e] eqn:Em.
  2: { split; [exact O|]. split; [apply grows_refl|]. split; [auto|]. unfold names_of. now rewrite Em. }
  assert (En' : names_of (codes_at s i) = Ok (List.concat ls)) by (unfold names_of; now rewrite Em).
  destruct (existsb needs (codes_at s i)) eqn:Ee.
  - pose proof (new_list_step s (List.concat ls) O) as (O1 & G1 & L1 & B1 & A1 & U1 & J1).
    destruct (new_list s (List.concat ls)) as [s1 a]. cbn [fst snd] in *.
    pose proof (new_obj_step s1 a true O1 B1 ltac:(intros _; rewrite L1; eapply names_are_atomic; exact En')) as (O2 & G2 & C2 & B2 & U2 & J2).
    destruct (new_obj s1 a true) as [s2 j] eqn:Eo. cbn [fst snd] in *.
    assert (j = List.length (objs s1)) by (unfold new_obj in Eo; injection Eo; auto). subst j.
    split; [exact O2|]. split; [eapply grows_trans; eassumption|]. split.
    + intros x Hx. apply U2 in Hx as [Hx| ->]; [left; now apply U1|]. right. rewrite J2, A1. rewrite <- A1. rewrite A1. lia.
    + split; [exact B2|]. rewrite C2, L1. exact En'.
  - pose proof (no_needs _ Ee) as Hat.
    assert (Ho : obj_ok s (mkO (o_list (obj_at s i)) true (o_spec (obj_at s i)) (o_unique (obj_at s i)) (o_aslist (obj_at s i)))).
    { destruct Oi as [A B C D F]. split; cbn; auto. }
    pose proof (set_obj_step s i _ O Hi Ho eq_refl) as (O1 & G1 & U1).
    split; [exact O1|]. split; [exact G1|]. split.
    + intros x Hx. apply U1 in Hx as [Hx|Hx]; [now left|]. left. exists i. split; [exact Hi|]. right. exact Hx.
    + split; [pose proof (gr_objs _ _ G1); lia|]. rewrite (grows_codes _ _ _ G1 O Hi). apply names_atomic_id. exact Hat.
Qed.

(** ** References *)

Definition valid (s : state) (r : ref) : Prop :=
  match r with
  | RSpec i => (i < List.length (objs s))%nat
  | RList a => (a < List.length (lists s))%nat
  | RVal (VSpec _) | RVal (VList _) => False
  | RVal _ => True
  end.

Lemma valid_grows s s' r : grows s s' -> valid s r -> valid s' r.
Proof. intros G. pose proof (grows_len _ _ G). pose proof (gr_objs _ _ G). destruct r as [i|a|v]; cbn; auto; lia. Qed.
Lemma view_grows s s' r : grows s s' -> ok s -> valid s r -> view s' r = view s r.
Proof.
  intros G O V. destruct r as [i|a|v]; cbn in *; [|f_equal; now apply grows_list|reflexivity]. f_equal. now apply grows_codes.
Qed.

(* which addresses a call may newly share *)
Definition shares (s : state) (c : call) (x : nat) : Prop :=
  match c with Coerce h => nth h (vars s) (RVal VNone) = RList x | _ => False end.

Record stepped (s : state) (env : list value) (c : call) (s1 : state) (r : ref) : Prop := {
  st_ok : ok s1;
  st_grows : grows s s1;
  st_valid : valid s1 r;
  st_view : view s1 r = v_call env c;
  st_uses : forall x, uses s1 x -> uses s x \/ (List.length (lists s) <= x)%nat \/ shares s c x;
  st_result : forall a, r = RList a ->
     match c with
     | Lit _ | Copy _ => (List.length (lists s) <= a)%nat /\ ~ uses s1 a
     | _ => uses s1 a
     end }.

Lemma uses_bound s a : ok s -> uses s a -> (a < List.length (lists s))%nat.
Proof.
  intros O (i & Hi & [H|H]); [subst a; apply (ok_list _ _ (ok_objs _ O i Hi))|]. now apply (ok_aslist _ _ (ok_objs _ O i Hi)).
Qed.

Lemma plain_step s env c v : ok s -> valid s (RVal v) -> v = v_call env c -> stepped s env c s (RVal v).
Proof. intros O V E. split; auto; [apply grows_refl|discriminate]. Qed.

Lemma numel_names s i : ok s -> (i < List.length (objs s))%nat ->
  numel (mkF (codes_at s i) (o_norm (obj_at s i))) = rmap (fun n => Z.of_nat (List.length n)) (names_of (codes_at s i)).
Proof.
  intros O Hi. assert (G : good (mkF (codes_at s i) (o_norm (obj_at s i)))).
  { intros E. cbn in *. exact (ok_norm _ _ (ok_objs _ O i Hi) E). }
  rewrite numel_normalize by exact G. unfold normalize. cbn [isnorm codes]. destruct (o_norm (obj_at s i)) eqn:E.
  - cbn. rewrite names_atomic_id; [reflexivity|]. exact (G eq_refl).
  - unfold names_of. destruct (mapR expand (codes_at s i)); reflexivity.
Qed.

(* the environment of values agrees with the variables *)
Definition agrees (s : state) (env : list value) : Prop :=
  List.length env = List.length (vars s) /\
  forall h, valid s (nth h (vars s) (RVal VNone)) /\ view s (nth h (vars s) (RVal VNone)) = nth h env VNone.

Lemma names_match (s : state) l (k : list string -> value) : match mapR expand l with Ok ls => k (List.concat ls) | Err e => VErr e end =
  match names_of l with Ok n => k n | Err e => VErr e end.
Proof. unfold names_of. destruct (mapR expand l); reflexivity. Qed.

Lemma dead_step s env c v : ok s -> v_call env c = VErr v -> stepped s env c s (RVal (VErr v)).
Proof. intros O E. apply plain_step; [exact O|exact I|now rewrite E]. Qed.

Lemma lit_step s env v : ok s -> stepped s env (Lit v) (fst (h_call s (Lit v))) (snd (h_call s (Lit v))).
Proof.
  intros O. destruct v as [l|l|t|z|b| |e]; try (apply plain_step; [exact O|exact I|reflexivity]).
  cbn [h_call]. pose proof (new_list_step s l O) as (O1 & G1 & L1 & B1 & A1 & U1 & J1).
  destruct (new_list s l) as [s1 a]. cbn [fst snd] in *. split; auto.
  - cbn. now rewrite L1.
  - intros x Hx. left. now apply U1.
  - intros a' [= <-]. split; [lia|]. rewrite U1. intros Hu. apply (uses_bound _ _ O) in Hu. lia.
Qed.

Lemma copy_step s env h : ok s -> agrees s env -> stepped s env (Copy h) (fst (h_call s (Copy h))) (snd (h_call s (Copy h))).
Proof.
  intros O [_ A]. destruct (A h) as [Vh Eh]. cbn [h_call].
  destruct (nth h (vars s) (RVal VNone)) as [i|a|v] eqn:Er; cbn [view valid] in Vh, Eh.
  - pose proof (normalize_step s i O Vh) as N. destruct (h_normalize s i) as [s1 [j|e]]; destruct N as (O1 & G1 & U1 & R).
    + destruct R as [Hj En]. pose proof (new_list_step s1 (codes_at s1 j) O1) as (O2 & G2 & L2 & B2 & A2 & U2 & J2).
      destruct (new_list s1 (codes_at s1 j)) as [s2 b]. cbn [fst snd] in *. pose proof (grows_len _ _ G1).
      split; auto.
      * eapply grows_trans; eassumption.
      * cbn. rewrite L2, <- Eh. rewrite (names_match s). now rewrite En.
      * intros x Hx. apply U2 in Hx. apply U1 in Hx as [Hx|Hx]; auto. right. left. lia.
      * intros a' [= <-]. split; [lia|]. rewrite U2. intros Hu. apply (uses_bound _ _ O1) in Hu. lia.
    + cbn [fst snd]. split; auto; try discriminate.
      * exact I.
      * cbn. rewrite <- Eh. rewrite (names_match s). now rewrite R.
      * intros x Hx. apply U1 in Hx as [Hx|Hx]; auto. right. left. lia.
  - pose proof (new_list_step s (list_at s a) O) as (O1 & G1 & L1 & B1 & A1 & U1 & J1).
    destruct (new_list s (list_at s a)) as [s1 b]. cbn [fst snd] in *. split; auto.
    + cbn. now rewrite L1, <- Eh.
    + intros x Hx. left. now apply U1.
    + intros a' [= <-]. split; [lia|]. rewrite U1. intros Hu. apply (uses_bound _ _ O) in Hu. lia.
  - cbn [fst snd]. apply dead_step; [exact O|]. cbn. rewrite <- Eh. destruct v; tauto.
Qed.

Lemma memo_s_ok s t i : ok s -> (i < List.length (objs s))%nat -> codes_at s i = codes (fparse t) ->
  ok (mkS (lists s) (objs s) ((t, i) :: memo_s s) (memo_i s) (vars s)).
Proof.
  intros [A B C] Hi E. split; cbn; auto.
  - intros j Hj. destruct (A j Hj) as [X1 X2 X3 X4 X5]. split; auto.
  - intros t' j. destruct (String.eqb_spec t' t) as [->|N]; [intros [= <-]; auto|apply B].
Qed.
Lemma memo_i_ok s z i : ok s -> (i < List.length (objs s))%nat -> codes_at s i = from_int_codes z ->
  ok (mkS (lists s) (objs s) (memo_s s) ((z, i) :: memo_i s) (vars s)).
Proof.
  intros [A B C] Hi E. split; cbn; auto.
  - intros j Hj. destruct (A j Hj) as [X1 X2 X3 X4 X5]. split; auto.
  - intros t' j. destruct (Z.eqb_spec t' z) as [->|N]; [intros [= <-]; auto|apply C].
Qed.

(* building a list and a spec of it *)
Lemma fresh_step s l : ok s ->
  let s1 := fst (new_list s l) in let s2 := fst (new_obj s1 (List.length (lists s)) false) in let i := List.length (objs s) in
  ok s2 /\ grows s s2 /\ (i < List.length (objs s2))%nat /\ codes_at s2 i = l /\
  (forall x, uses s2 x -> uses s x \/ (List.length (lists s) <= x)%nat).
Proof.
  intros O. cbv zeta. pose proof (new_list_step s l O) as (O1 & G1 & L1 & B1 & A1 & U1 & J1). cbn [snd new_list] in L1, B1.
  pose proof (new_obj_step _ _ false O1 B1 ltac:(discriminate)) as (O2 & G2 & C2 & B2 & U2 & J2).
  rewrite J1 in B2, C2. split; [exact O2|]. split; [eapply grows_trans; eassumption|]. split; [exact B2|]. split; [now rewrite C2|].
  intros x Hx. apply U2 in Hx as [Hx| ->]; [left; now apply U1|right; lia].
Qed.

Lemma coerce_step s env h : ok s -> agrees s env -> stepped s env (Coerce h) (fst (h_call s (Coerce h))) (snd (h_call s (Coerce h))).
Proof.
  intros O [_ A]. destruct (A h) as [Vh Eh]. cbn [h_call].
  destruct (nth h (vars s) (RVal VNone)) as [i|a|v] eqn:Er; cbn [view valid] in Vh, Eh; cbn [h_coerce].
  - cbn [fst snd]. split; auto; try discriminate; [apply grows_refl|]. cbn. now rewrite <- Eh.
  - pose proof (new_obj_step s a false O Vh ltac:(discriminate)) as (O2 & G2 & C2 & B2 & U2 & J2).
    change (new_obj s a false) with (fst (new_obj s a false), List.length (objs s)). cbv iota beta. cbn [fst snd].
    split; auto; try discriminate.
    + cbn [view]. rewrite C2. cbn. now rewrite <- Eh.
    + intros x Hx. apply U2 in Hx as [Hx| ->]; auto.
  - destruct v as [l|l|t|z|b| |e]; try contradiction;
      try (apply dead_step; [exact O|]; cbn; now rewrite <- Eh).
    + destruct (dict_get t (memo_s s)) as [i|] eqn:Em.
      * destruct (ok_memo_s _ O _ _ Em) as [Hi Ec]. cbn [fst snd]. split; auto; try discriminate; [apply grows_refl|]. cbn. now rewrite <- Eh, Ec.
      * pose proof (fresh_step s (codes (fparse t)) O) as (O2 & G2 & B2 & C2 & U2). cbv zeta in *.
        change (new_list s (codes (fparse t))) with (fst (new_list s (codes (fparse t))), List.length (lists s)). cbv iota beta.
        set (s2 := fst (new_obj (fst (new_list s (codes (fparse t)))) (List.length (lists s)) false)) in *.
        change (new_obj (fst (new_list s (codes (fparse t)))) (List.length (lists s)) false) with (s2, List.length (objs s)). cbv iota beta. cbn [fst snd].
        split; auto; try discriminate.
        { now apply memo_s_ok. }
        { destruct G2 as [X1 X2 X3 X4]. split; auto. }
        { change (VSpec (codes_at s2 (List.length (objs s))) = v_call env (Coerce h)). rewrite C2. cbn. now rewrite <- Eh. }
        { intros x Hx. apply U2 in Hx as [Hx|Hx]; auto. }
    + destruct (zget z (memo_i s)) as [i|] eqn:Em.
      * destruct (ok_memo_i _ O _ _ Em) as [Hi Ec]. cbn [fst snd]. split; auto; try discriminate; [apply grows_refl|]. cbn. now rewrite <- Eh, Ec.
      * pose proof (fresh_step s (from_int_codes z) O) as (O2 & G2 & B2 & C2 & U2). cbv zeta in *.
        change (new_list s (from_int_codes z)) with (fst (new_list s (from_int_codes z)), List.length (lists s)). cbv iota beta.
        set (s2 := fst (new_obj (fst (new_list s (from_int_codes z))) (List.length (lists s)) false)) in *.
        change (new_obj (fst (new_list s (from_int_codes z))) (List.length (lists s)) false) with (s2, List.length (objs s)). cbv iota beta. cbn [fst snd].
        split; auto; try discriminate.
        { now apply memo_i_ok. }
        { destruct G2 as [X1 X2 X3 X4]. split; auto. }
        { change (VSpec (codes_at s2 (List.length (objs s))) = v_call env (Coerce h)). rewrite C2. cbn. now rewrite <- Eh. }
        { intros x Hx. apply U2 in Hx as [Hx|Hx]; auto. }
Qed.

Lemma normalize_call s env h : ok s -> agrees s env -> stepped s env (Normalize h) (fst (h_call s (Normalize h))) (snd (h_call s (Normalize h))).
Proof.
  intros O [_ A]. destruct (A h) as [Vh Eh]. cbn [h_call].
  destruct (nth h (vars s) (RVal VNone)) as [i|a|v] eqn:Er; cbn [view valid] in Vh, Eh.
  - pose proof (normalize_step s i O Vh) as N. destruct (h_normalize s i) as [s1 [j|e]]; destruct N as (O1 & G1 & U1 & R);
      cbn [fst snd]; (split; auto; try discriminate).
    + apply R.
    + cbn. rewrite <- Eh, (names_match s). destruct R as [_ ->]. reflexivity.
    + intros x Hx. apply U1 in Hx as [Hx|Hx]; auto. right. left. lia.
    + exact I.
    + cbn. rewrite <- Eh, (names_match s), R. reflexivity.
    + intros x Hx. apply U1 in Hx as [Hx|Hx]; auto. right. left. lia.
  - apply dead_step; [exact O|]. cbn. now rewrite <- Eh.
  - apply dead_step; [exact O|]. cbn. rewrite <- Eh. destruct v; tauto.
Qed.

Lemma as_list_call s env h : ok s -> agrees s env -> stepped s env (AsList h) (fst (h_call s (AsList h))) (snd (h_call s (AsList h))).
Proof.
  intros O [_ A]. destruct (A h) as [Vh Eh]. cbn [h_call].
  destruct (nth h (vars s) (RVal VNone)) as [i|a|v] eqn:Er; cbn [view valid] in Vh, Eh.
  2: { apply dead_step; [exact O|]. cbn. now rewrite <- Eh. }
  2: { apply dead_step; [exact O|]. cbn. rewrite <- Eh. destruct v; tauto. }
  unfold h_as_list. destruct (o_aslist (obj_at s i)) as [a|] eqn:Ea.
  - destruct (ok_aslist _ _ (ok_objs _ O i Vh) a Ea) as [Ha En]. cbn [fst snd]. split; auto; [apply grows_refl| |].
    + cbn. rewrite <- Eh, (names_match s). unfold codes_at. now rewrite En.
    + intros a' [= <-]. exists i. split; [exact Vh|now right].
  - pose proof (normalize_step s i O Vh) as N. destruct (h_normalize s i) as [s1 [j|e]]; destruct N as (O1 & G1 & U1 & R); cbn [fst snd].
    2: { split; auto; try discriminate; [exact I| |].
         + cbn. rewrite <- Eh, (names_match s), R. reflexivity.
         + intros x Hx. apply U1 in Hx as [Hx|Hx]; auto. right. left. lia. }
    destruct R as [Hj En]. assert (Hi1 : (i < List.length (objs s1))%nat) by (pose proof (gr_objs _ _ G1); lia).
    pose proof (ok_list _ _ (ok_objs _ O1 j Hj)) as Hja.
    set (o := mkO (o_list (obj_at s1 i)) (o_norm (obj_at s1 i)) (o_spec (obj_at s1 i)) (o_unique (obj_at s1 i)) (Some (o_list (obj_at s1 j)))).
    assert (Ho : obj_ok s1 o).
    { destruct (ok_objs _ O1 i Hi1) as [X1 X2 X3 X4 X5]. split; cbn; auto. intros a [= <-]. split; [exact Hja|].
      change (names_of (codes_at s1 i) = Ok (codes_at s1 j)). rewrite (grows_codes _ _ _ G1 O Vh). exact En. }
    pose proof (set_obj_step s1 i o O1 Hi1 Ho eq_refl) as (O2 & G2 & U2).
    split; auto.
    + eapply grows_trans; eassumption.
    + cbn. rewrite <- Eh, (names_match s), En. reflexivity.
    + intros x Hx. assert (Hx1 : uses s1 x).
      { apply U2 in Hx as [Hx|Hx]; [exact Hx|]. injection Hx as <-. exists j. auto. }
      apply U1 in Hx1 as [Hx1|Hx1]; auto. right. left. lia.
    + intros a [= <-]. exists i. split; [cbn; rewrite put_length; exact Hi1|]. right. rewrite set_obj_at by exact Hi1. now destruct (Nat.eq_dec i i).
Qed.

Lemma spec_call s env h : ok s -> agrees s env -> stepped s env (Spec h) (fst (h_call s (Spec h))) (snd (h_call s (Spec h))).
Proof.
  intros O [_ A]. destruct (A h) as [Vh Eh]. cbn [h_call].
  destruct (nth h (vars s) (RVal VNone)) as [i|a|v] eqn:Er; cbn [view valid] in Vh, Eh.
  2: { apply dead_step; [exact O|]. cbn. now rewrite <- Eh. }
  2: { apply dead_step; [exact O|]. cbn. rewrite <- Eh. destruct v; tauto. }
  unfold h_spec. pose proof (ok_objs _ O i Vh) as Oi. destruct (o_spec (obj_at s i)) as [t|] eqn:Et.
  - cbn [fst snd]. apply plain_step; [exact O|exact I|]. cbn. rewrite <- Eh. f_equal. exact (ok_spec _ _ Oi t Et).
  - cbn [fst snd].
    set (o := mkO (o_list (obj_at s i)) (o_norm (obj_at s i)) (Some (join "|" (codes_at s i))) (o_unique (obj_at s i)) (o_aslist (obj_at s i))).
    assert (Ho : obj_ok s o). { destruct Oi as [X1 X2 X3 X4 X5]. split; cbn; auto. intros t [= <-]. reflexivity. }
    pose proof (set_obj_step s i o O Vh Ho eq_refl) as (O2 & G2 & U2). split; auto; try discriminate.
    + exact I.
    + cbn. now rewrite <- Eh.
    + intros x Hx. apply U2 in Hx as [Hx|Hx]; auto. left. exists i. auto.
Qed.

Lemma contains_call s env h k : ok s -> agrees s env -> stepped s env (Contains h k) (fst (h_call s (Contains h k))) (snd (h_call s (Contains h k))).
Proof.
  intros O [_ A]. destruct (A h) as [Vh Eh]. cbn [h_call].
  destruct (nth h (vars s) (RVal VNone)) as [i|a|v] eqn:Er; cbn [view valid] in Vh, Eh.
  2: { apply dead_step; [exact O|]. cbn. now rewrite <- Eh. }
  2: { apply dead_step; [exact O|]. cbn. rewrite <- Eh. destruct v; tauto. }
  unfold h_contains. pose proof (ok_objs _ O i Vh) as Oi. destruct (o_unique (obj_at s i)) as [t|] eqn:Et.
  - cbn [fst snd]. apply plain_step; [exact O|exact I|]. cbn. rewrite <- Eh. f_equal. f_equal. exact (ok_unique _ _ Oi t Et).
  - cbn [fst snd].
    set (o := mkO (o_list (obj_at s i)) (o_norm (obj_at s i)) (o_spec (obj_at s i)) (Some (codes_at s i)) (o_aslist (obj_at s i))).
    assert (Ho : obj_ok s o). { destruct Oi as [X1 X2 X3 X4 X5]. split; cbn; auto. intros t [= <-]. reflexivity. }
    pose proof (set_obj_step s i o O Vh Ho eq_refl) as (O2 & G2 & U2). split; auto; try discriminate.
    + exact I.
    + cbn. now rewrite <- Eh.
    + intros x Hx. apply U2 in Hx as [Hx|Hx]; auto. left. exists i. auto.
Qed.

Lemma call_step s env c : ok s -> agrees s env -> (forall h l, c <> Edit h l) ->
  stepped s env c (fst (h_call s c)) (snd (h_call s c)).
Proof.
  intros O A NE. destruct c as [v|h|h l|h|h|h|h|h|h|h|h k|h h'].
  - now apply lit_step.
  - now apply copy_step.
  - now destruct (NE h l).
  - now apply coerce_step.
  - now apply normalize_call.
  - destruct A as [_ A]. destruct (A h) as [Vh Eh]. cbn [h_call].
    destruct (nth h (vars s) (RVal VNone)) as [i|a|v] eqn:Er; cbn [view valid] in Vh, Eh; cbn [fst snd].
    + split; auto; [apply grows_refl| | |].
      * cbn. apply (ok_list _ _ (ok_objs _ O i Vh)).
      * cbn. now rewrite <- Eh.
      * intros a [= <-]. exists i. auto.
    + apply dead_step; [exact O|]. cbn. now rewrite <- Eh.
    + apply dead_step; [exact O|]. cbn. rewrite <- Eh. destruct v; tauto.
  - now apply as_list_call.
  - now apply spec_call.
  - destruct A as [_ A]. destruct (A h) as [Vh Eh]. cbn [h_call].
    destruct (nth h (vars s) (RVal VNone)) as [i|a|v] eqn:Er; cbn [view valid] in Vh, Eh; cbn [fst snd].
    + rewrite numel_names by assumption. apply plain_step; [exact O| |].
      * destruct (names_of _); exact I.
      * cbn. rewrite <- Eh. unfold names_of. destruct (mapR expand (codes_at s i)); reflexivity.
    + apply dead_step; [exact O|]. cbn. now rewrite <- Eh.
    + apply dead_step; [exact O|]. cbn. rewrite <- Eh. destruct v; tauto.
  - destruct A as [_ A]. destruct (A h) as [Vh Eh]. cbn [h_call].
    destruct (nth h (vars s) (RVal VNone)) as [i|a|v] eqn:Er; cbn [view valid] in Vh, Eh; cbn [fst snd].
    + apply plain_step; [exact O|exact I|]. cbn. now rewrite <- Eh.
    + apply dead_step; [exact O|]. cbn. now rewrite <- Eh.
    + apply dead_step; [exact O|]. cbn. rewrite <- Eh. destruct v; tauto.
  - now apply contains_call.
  - destruct A as [_ A]. destruct (A h) as [Vh Eh]. destruct (A h') as [Vh' Eh']. cbn [h_call].
    destruct (nth h (vars s) (RVal VNone)) as [i|a|v] eqn:Er; cbn [view valid] in Vh, Eh; cbn [fst snd].
    + destruct (nth h' (vars s) (RVal VNone)) as [i'|a'|v'] eqn:Er'; cbn [view valid] in Vh', Eh'; cbn [fst snd].
      * apply plain_step; [exact O|exact I|]. cbn. now rewrite <- Eh, <- Eh'.
      * apply dead_step; [exact O|]. cbn. now rewrite <- Eh, <- Eh'.
      * apply dead_step; [exact O|]. cbn. rewrite <- Eh, <- Eh'. destruct v'; tauto.
    + apply dead_step; [exact O|]. cbn. now rewrite <- Eh.
    + apply dead_step; [exact O|]. cbn. rewrite <- Eh. destruct v; tauto.
Qed.

(** ** Whole programs *)

Definition owned (s : state) (own : list bool) : Prop :=
  List.length own = List.length (vars s) /\
  forall h a, nth h own false = true -> nth h (vars s) (RVal VNone) = RList a ->
    ~ uses s a /\ forall h', nth h' (vars s) (RVal VNone) = RList a -> h' = h.

Lemma nth_snoc {A} (l : list A) x h d : nth h (l ++ [x]) d =
  if (h <? List.length l)%nat then nth h l d else if (h =? List.length l)%nat then x else d.
Proof.
  destruct (Nat.ltb_spec h (List.length l)); [now apply app_nth1|]. rewrite app_nth2 by lia.
  destruct (Nat.eqb_spec h (List.length l)) as [->|N]; [now rewrite Nat.sub_diag|].
  destruct (h - List.length l)%nat as [|n] eqn:E; [lia|]. cbn. now destruct n.
Qed.

Definition bind_var (s : state) (r : ref) : state := mkS (lists s) (objs s) (memo_s s) (memo_i s) (vars s ++ [r]).

Lemma bind_ok s r : ok s -> ok (bind_var s r).
Proof. intros [A B C]. split; auto. intros i Hi. destruct (A i Hi) as [X1 X2 X3 X4 X5]. split; auto. Qed.

Lemma bind_agrees s env c s1 r : agrees s env -> ok s -> stepped s env c s1 r -> agrees (bind_var s1 r) (env ++ [v_call env c]).
Proof.
  intros [L A] O S. destruct S as [O1 G V E U R]. pose proof (gr_vars _ _ G) as Ev. split.
  - cbn. rewrite !app_length, Ev. cbn. lia.
  - intros h. cbn [vars bind_var]. rewrite !nth_snoc, Ev, L.
    destruct (Nat.ltb_spec h (List.length (vars s))) as [H|H].
    + destruct (A h) as [Vh Eh]. rewrite <- Eh. split.
      * exact (valid_grows _ _ _ G Vh).
      * exact (view_grows _ _ _ G O Vh).
    + destruct (Nat.eqb_spec h (List.length (vars s))); [split; [exact V|exact E]|split; [exact I|reflexivity]].
Qed.

(* the flags after a call that does not edit *)
Definition flag (c : call) : bool := match c with Lit _ | Copy _ => true | _ => false end.
Definition given (own : list bool) (c : call) : list bool := match c with Coerce h => put own h false | _ => own end.

Lemma given_length own c : List.length (given own c) = List.length own.
Proof. destruct c; auto. apply put_length. Qed.
Lemma given_true own c h : nth h (given own c) false = true -> nth h own false = true /\ (forall h', c = Coerce h' -> h <> h').
Proof.
  destruct c as [| | |k| | | | | | | |]; cbn; try (intros H; split; [exact H|discriminate]).
  intros H. destruct (Nat.eq_dec k h) as [->|N].
  - exfalso. destruct (Nat.lt_ge_cases h (List.length own)) as [L|L].
    + rewrite nth_put_same in H by exact L. discriminate.
    + rewrite nth_overflow in H by (rewrite put_length; exact L). discriminate.
  - rewrite nth_put_other in H by exact N. split; [exact H|]. intros h' [= <-]. congruence.
Qed.

Lemma bind_owned s env own c s1 r : agrees s env -> owned s own -> ok s -> stepped s env c s1 r ->
  owned (bind_var s1 r) (given own c ++ [flag c]).
Proof.
  intros [La A] [L W] O S. destruct S as [O1 G V E U R]. pose proof (gr_vars _ _ G) as Ev. split.
  - cbn. rewrite !app_length, given_length, Ev. cbn. lia.
  - intros h a Ho Hr. cbn [vars bind_var] in *. rewrite nth_snoc in Ho. rewrite nth_snoc in Hr. rewrite given_length, L in Ho. rewrite Ev in Hr.
    change (uses (bind_var s1 r) a) with (uses s1 a).
    destruct (Nat.ltb_spec h (List.length (vars s))) as [H|H].
    + apply given_true in Ho as [Ho Nc]. destruct (W h a Ho Hr) as [Wu Wv].
      assert (Ha : (a < List.length (lists s))%nat). { destruct (A h) as [Vh _]. rewrite Hr in Vh. exact Vh. }
      assert (Nu : ~ uses s1 a).
      { intros Hu. apply U in Hu as [Hu|[Hu|Hu]]; [now apply Wu|lia|]. destruct c; cbn in Hu; try contradiction. apply Wv in Hu. subst h0. exact (Nc h eq_refl eq_refl). }
      split; [exact Nu|]. intros h' Hr'. rewrite nth_snoc, Ev in Hr'.
      destruct (Nat.ltb_spec h' (List.length (vars s))) as [H'|H']; [now apply Wv|].
      destruct (Nat.eqb_spec h' (List.length (vars s))); [|discriminate Hr']. exfalso. subst r. specialize (R a eq_refl).
      destruct c; try (now apply Nu); lia.
    + destruct (Nat.eqb_spec h (List.length (vars s))) as [->|N]; [|discriminate Hr]. subst r. specialize (R a eq_refl).
      destruct c; cbn in Ho; try discriminate Ho; destruct R as [R1 R2]; (split; [exact R2|]); intros h' Hr'; rewrite nth_snoc, Ev in Hr';
        (destruct (Nat.ltb_spec h' (List.length (vars s))) as [H'|H'];
         [exfalso; destruct (A h') as [Vh _]; rewrite Hr' in Vh; cbn in Vh; lia|]);
        (destruct (Nat.eqb_spec h' (List.length (vars s))); [assumption|discriminate Hr']).
Qed.

(* editing an owned list *)
Lemma edit_state s env own h a l : ok s -> agrees s env -> owned s own -> nth h own false = true ->
  nth h (vars s) (RVal VNone) = RList a ->
  let s1 := mkS (put (lists s) a l) (objs s) (memo_s s) (memo_i s) (vars s) in
  ok s1 /\ agrees s1 (put env h (VList l)) /\ owned s1 own.
Proof.
  intros O [La A] [L W] Ho Hr. cbv zeta. set (s1 := mkS _ _ _ _ _). destruct (W h a Ho Hr) as [Wu Wv].
  assert (Ha : (a < List.length (lists s))%nat). { destruct (A h) as [Vh _]. rewrite Hr in Vh. exact Vh. }
  assert (Hh : (h < List.length (vars s))%nat). { destruct (Nat.lt_ge_cases h (List.length (vars s))) as [X|X]; [exact X|]. rewrite nth_overflow in Hr by exact X. discriminate. }
  assert (Ll : forall b, b <> a -> list_at s1 b = list_at s b). { intros b N. unfold list_at. cbn. apply nth_put_other. congruence. }
  assert (Lu : forall b, uses s b -> list_at s1 b = list_at s b). { intros b Hb. apply Ll. intros ->. now apply Wu. }
  assert (Lc : forall i, (i < List.length (objs s))%nat -> codes_at s1 i = codes_at s i).
  { intros i Hi. apply Lu. exists i. auto. }
  destruct O as [B1 B2 B3]. split; [|split].
  - split.
    + intros i Hi. destruct (B1 i Hi) as [X1 X2 X3 X4 X5]. change (obj_at s1 i) with (obj_at s i).
      assert (E : list_at s1 (o_list (obj_at s i)) = list_at s (o_list (obj_at s i))) by (apply Lu; exists i; auto).
      split; cbn [lists s1]; rewrite ?E, ?put_length; auto.
      intros b Hb. destruct (X5 b Hb) as [Y1 Y2]. split; [exact Y1|]. rewrite Y2. f_equal. symmetry. apply Lu. exists i. auto.
    + intros t i H. destruct (B2 t i H) as [Y1 Y2]. split; [exact Y1|]. rewrite <- Y2. now apply Lc.
    + intros t i H. destruct (B3 t i H) as [Y1 Y2]. split; [exact Y1|]. rewrite <- Y2. now apply Lc.
  - split; [rewrite put_length; exact La|]. intros k. change (vars s1) with (vars s). destruct (A k) as [Vk Ek].
    destruct (Nat.eq_dec k h) as [->|N].
    + rewrite Hr, nth_put_same by lia. cbn. rewrite put_length. split; [exact Ha|]. unfold list_at. cbn. now rewrite nth_put_same.
    + rewrite nth_put_other by congruence. rewrite <- Ek. destruct (nth k (vars s) (RVal VNone)) as [i|b|v] eqn:Ev; cbn in *.
      * split; [exact Vk|]. f_equal. now apply Lc.
      * rewrite put_length. split; [exact Vk|]. f_equal. apply Ll. intros ->. apply N. now apply Wv.
      * auto.
  - split; [exact L|]. exact W.
Qed.

Lemma run_agrees p : forall s env own, ok s -> agrees s env -> owned s own -> edits_own own p = true ->
  run_heap s p = run_values env p.
Proof.
  induction p as [|c p IH]; intros s env own O A W H; [reflexivity|].
  destruct (match c with Edit h l => Some (h, l) | _ => None end) as [[h l]|] eqn:Ec.
  - destruct c; try discriminate Ec. injection Ec as -> ->. cbn [edits_own] in H. apply andb_true_iff in H as [Ho Hp].
    cbn [run_heap run_values h_call v_call v_edit].
    assert (D : forall s' env' r v, ok s' -> agrees s' env' -> owned s' own -> (forall a, r <> RList a) -> valid s' r -> view s' r = v ->
              run_heap (bind_var s' r) p = run_values (env' ++ [v]) p).
    { intros s' env' r v O' [La' A'] [L' W'] Nr Vr Er. apply (IH _ _ (own ++ [false])); [now apply bind_ok| | |exact Hp].
      - split; [cbn; rewrite !app_length; cbn; lia|]. intros k. cbn [vars bind_var]. rewrite !nth_snoc, La'.
        destruct (Nat.ltb_spec k (List.length (vars s'))); [apply A'|]. destruct (Nat.eqb_spec k (List.length (vars s'))); [split; assumption|split; [exact I|reflexivity]].
      - split; [cbn; rewrite !app_length; cbn; lia|]. intros k a Hk Hr. cbn [vars bind_var] in *. rewrite nth_snoc in Hk. rewrite nth_snoc in Hr. rewrite L' in Hk.
        destruct (Nat.ltb_spec k (List.length (vars s'))) as [Hl|Hl].
        + destruct (W' k a Hk Hr) as [Y1 Y2]. split; [exact Y1|]. intros k' Hr'. rewrite nth_snoc in Hr'.
          destruct (Nat.ltb_spec k' (List.length (vars s'))) as [Hl'|Hl']; [now apply Y2|].
          destruct (Nat.eqb_spec k' (List.length (vars s'))); [now destruct (Nr a)|discriminate].
        + destruct (Nat.eqb_spec k (List.length (vars s'))); discriminate. }
    destruct A as [La A]. destruct (A h) as [Vh Eh].
    destruct (nth h (vars s) (RVal VNone)) as [i|a|v] eqn:Er; cbn [view] in Eh; rewrite <- Eh.
    + f_equal. apply (D s env (RVal (VErr AttributeError))); [exact O|split; assumption|exact W|discriminate|exact I|reflexivity].
    + destruct (edit_state s env own h a l O (conj La A) W Ho Er) as (O1 & A1 & W1).
      f_equal. apply (D _ _ (RVal VNone) VNone O1 A1 W1); [discriminate|exact I|reflexivity].
    + destruct v; try contradiction; (f_equal; apply (D s env (RVal (VErr AttributeError))); [exact O|split; assumption|exact W|discriminate|exact I|reflexivity]).
  - assert (NE : forall h l, c <> Edit h l) by (intros h l ->; discriminate).
    pose proof (call_step s env c O A NE) as S. cbn [run_heap run_values].
    destruct (h_call s c) as [s1 r]. cbn [fst snd] in S. cbv zeta.
    assert (Ee : v_edit env c = env) by (destruct c; try reflexivity; discriminate). rewrite Ee.
    f_equal; [exact (st_view _ _ _ _ _ S)|].
    apply (IH (bind_var s1 r) _ (given own c ++ [flag c])).
    + apply bind_ok. exact (st_ok _ _ _ _ _ S).
    + eapply bind_agrees; eassumption.
    + eapply bind_owned; eassumption.
    + destruct c; exact H || discriminate Ec.
Qed.

Lemma start_ok : ok start.
Proof. split; cbn; [intros i Hi; lia|discriminate|discriminate]. Qed.
Lemma start_agrees : agrees start [].
Proof. split; [reflexivity|]. intros h. cbn. destruct h; cbn; auto. Qed.
Lemma start_owned : owned start [].
Proof. split; [reflexivity|]. intros h a H. destruct h; discriminate. Qed.
