(* Lemmas about walks over operation trees. *)
From Verif Require Import Py PyProofs EncodeModel EncodeProofs TreeModel TreeSpec.
From Coq Require Import ZifyBool.
Local Open Scope Z_scope.

Fixpoint tree_ind' (P : tree -> Prop) (H : forall t, Forall P (children t) -> P t) (t : tree) : P t :=
  match t with
  | TUnary l None => H (TUnary l None) (Forall_nil _)
  | TUnary l (Some c) => H (TUnary l (Some c)) (Forall_cons _ (tree_ind' P H c) (Forall_nil _))
  | TNary l ps => H (TNary l ps)
      ((fix go (l : list tree) : Forall P l := match l with [] => Forall_nil _ | t :: l' => Forall_cons _ (tree_ind' P H t) (go l') end) ps)
  end.

Lemma size_eq t : size t = S (list_sum (map size (children t))).
Proof. destruct t as [l [c|]|l ps]; cbn [size children map list_sum fold_right]; [f_equal; unfold list_sum; cbn; lia|reflexivity..]. Qed.

Definition flip (b : bool) {A} (l : list A) : list A := if b then rev l else l.
Lemma flip_map b {A B} (f : A -> B) l : flip b (map f l) = map f (flip b l).
Proof. destruct b; cbn; [symmetry; apply map_rev|reflexivity]. Qed.
Lemma flip_In b {A} (l : list A) x : In x (flip b l) <-> In x l.
Proof. destruct b; cbn; [symmetry; apply in_rev|reflexivity]. Qed.
Lemma flip_NoDup b {A} (l : list A) : NoDup l -> NoDup (flip b l).
Proof. destruct b; cbn; [apply NoDup_rev|auto]. Qed.

(* positions in the order of a stack walk *)
Definition spread (b : bool) (oss : list (list (list nat))) : list (list nat) :=
  List.concat (flip b (map (fun i => map (cons i) (nth i oss [])) (seq 0 (List.length oss)))).
Fixpoint order (b : bool) (t : tree) : list (list nat) :=
  match t with
  | TUnary _ None => [[]]
  | TUnary _ (Some c) => [] :: map (cons 0%nat) (order b c)
  | TNary _ ps => [] :: spread b (map (order b) ps)
  end.
Lemma order_eq b t : order b t = [] :: spread b (map (order b) (children t)).
Proof. destruct t as [l [c|]|l ps]; [|destruct b; reflexivity|reflexivity]. destruct b; cbn; now rewrite app_nil_r. Qed.

Lemma NoDup_app_intro {A} (l l' : list A) : NoDup l -> NoDup l' -> (forall x, In x l -> In x l' -> False) -> NoDup (l ++ l').
Proof.
  induction 1 as [|a l Ha Hl IH]; intros H1 H2; [exact H1|]. cbn. constructor.
  - intros X. apply in_app_or in X as [X|X]; [contradiction|]. apply (H2 a); [now left|exact X].
  - apply IH; [exact H1|]. intros x X. apply H2. now right.
Qed.
Lemma NoDup_map_in {A B} (f : A -> B) l : NoDup l -> (forall x y, In x l -> In y l -> f x = f y -> x = y) -> NoDup (map f l).
Proof.
  induction 1 as [|a l Ha Hl IH]; intros H; cbn; constructor.
  - intros X. apply in_map_iff in X as (b & E & Hb). assert (b = a) by (apply H; cbn; auto). subst. contradiction.
  - apply IH. intros x y X Y. apply H; now right.
Qed.
Lemma NoDup_flat_map {A B} (f : A -> list B) l : NoDup l -> (forall a, In a l -> NoDup (f a)) ->
  (forall a a' b, In a l -> In a' l -> In b (f a) -> In b (f a') -> a = a') -> NoDup (flat_map f l).
Proof.
  induction 1 as [|a l Ha Hl IH]; intros H1 H2; cbn; [constructor|]. apply NoDup_app_intro.
  - apply H1. now left.
  - apply IH; [intros; apply H1; now right|]. intros a1 a2 b X1 X2. apply H2; now right.
  - intros b X Y. apply in_flat_map in Y as (a' & Ya & Yb). assert (a = a') by (apply (H2 a a' b); cbn; auto). subst. contradiction.
Qed.

Lemma nth_map_order b cs i : nth i (map (order b) cs) [] = match nth_error cs i with Some c => order b c | None => [] end.
Proof. revert i. induction cs as [|c cs IH]; intros [|i]; cbn; auto. Qed.

Lemma order_In b t : forall p, In p (order b t) <-> node_at t p <> None.
Proof.
  induction t as [t IH] using tree_ind'. intros p. rewrite order_eq. cbn [In]. destruct p as [|i p]; cbn [node_at].
  - split; [discriminate|now left].
  - unfold spread. rewrite map_length, in_concat. split.
    + intros [X|(l & Hl & Hp)]; [discriminate|]. rewrite flip_map in Hl. apply in_map_iff in Hl as (j & <- & Hj).
      apply in_map_iff in Hp as (q & [= -> ->] & Hq). rewrite nth_map_order in Hq.
      destruct (nth_error (children t) i) as [c|] eqn:E; [|destruct Hq]. rewrite Forall_forall in IH. apply (IH c); [now apply nth_error_In in E|exact Hq].
    + destruct (nth_error (children t) i) as [c|] eqn:E; [|congruence]. intros H. right.
      exists (map (cons i) (order b c)). split.
      * rewrite flip_map. apply in_map_iff. exists i. rewrite nth_map_order, E. split; [reflexivity|].
        apply flip_In, in_seq. assert (nth_error (children t) i <> None) by congruence. apply nth_error_Some in H0. lia.
      * apply in_map. rewrite Forall_forall in IH. apply (IH c); [now apply nth_error_In in E|exact H].
Qed.

Lemma order_NoDup b t : NoDup (order b t).
Proof.
  induction t as [t IH] using tree_ind'. rewrite order_eq. constructor.
  - unfold spread. rewrite in_concat. intros (l & Hl & Hp). rewrite flip_map in Hl. apply in_map_iff in Hl as (j & <- & _).
    apply in_map_iff in Hp as (q & [=] & _).
  - unfold spread. rewrite flip_map, <- flat_map_concat_map. apply NoDup_flat_map.
    + apply flip_NoDup, seq_NoDup.
    + intros i _. apply FinFun.Injective_map_NoDup; [intros x y [= ->]; reflexivity|]. rewrite nth_map_order.
      destruct (nth_error (children t) i) as [c|] eqn:E; [|constructor]. rewrite Forall_forall in IH. apply IH. now apply nth_error_In in E.
    + intros i j p _ _ H1 H2. apply in_map_iff in H1 as (q & <- & _). apply in_map_iff in H2 as (q' & [= -> _] & _). reflexivity.
Qed.

Lemma node_at_app t p q : node_at t (p ++ q) = match node_at t p with Some n => node_at n q | None => None end.
Proof. revert t. induction p as [|i p IH]; intros t; [reflexivity|]. cbn. destruct (nth_error (children t) i); [apply IH|reflexivity]. Qed.

Lemma lists_order b t (P : tree -> Prop) (f : list nat -> bool) :
  (forall p n, node_at t p = Some n -> (f p = true <-> P n)) -> lists t P (filter f (order b t)).
Proof.
  intros Hf. split; [apply NoDup_filter, order_NoDup|]. intros p. rewrite filter_In, order_In. split.
  - intros [H1 H2]. destruct (node_at t p) as [n|] eqn:E; [|congruence]. exists n. split; [reflexivity|]. now apply (Hf p n E).
  - intros (n & E & H). split; [congruence|]. now apply (Hf p n E).
Qed.
Lemma lists_all b t : lists t (fun _ => True) (order b t).
Proof.
  split; [apply order_NoDup|]. intros p. rewrite order_In. split.
  - intros H. destruct (node_at t p) as [n|] eqn:E; [eauto|congruence].
  - intros (n & E & _). congruence.
Qed.

Section Walk.
Context (t : tree).
Definition nd (p : list nat) : tree := match node_at t p with Some n => n | None => t end.
Definition valid (p : list nat) : Prop := node_at t p <> None.
Definition kids (q : list nat) : list (list nat) := map (fun i => q ++ [i])%list (seq 0 (List.length (children (nd q)))).
Definition below (b : bool) (q : list nat) : list (list nat) := map (app q) (order b (nd q)).

Lemma nd_valid p : valid p -> node_at t p = Some (nd p).
Proof. unfold valid, nd. destruct (node_at t p); congruence. Qed.
Lemma kid_nd q i : valid q -> (i < List.length (children (nd q)))%nat -> nth_error (children (nd q)) i = Some (nd (q ++ [i])) /\ valid (q ++ [i]).
Proof.
  intros Hq Hi. unfold valid. assert (E : node_at t (q ++ [i]) = nth_error (children (nd q)) i).
  { rewrite node_at_app, (nd_valid q Hq). cbn. now destruct (nth_error (children (nd q)) i). }
  apply nth_error_Some in Hi. split; [|now rewrite E]. unfold nd at 2. rewrite E. now destruct (nth_error (children (nd q)) i).
Qed.
Lemma kids_valid q : valid q -> Forall valid (kids q).
Proof. intros H. apply Forall_forall. intros p Hp. apply in_map_iff in Hp as (i & <- & Hi). apply in_seq in Hi. apply kid_nd; [exact H|lia]. Qed.
Lemma map_nth_seq {A B} (f : A -> B) (g : nat -> B) l : (forall i a, nth_error l i = Some a -> g i = f a) -> map g (seq 0 (List.length l)) = map f l.
Proof.
  revert g. induction l as [|a l IH]; intros g H; [reflexivity|]. cbn [List.length seq map]. f_equal; [now apply (H O)|].
  rewrite <- seq_shift, map_map. apply IH. intros i b E. now apply (H (S i)).
Qed.
Lemma kids_children q : valid q -> map nd (kids q) = children (nd q).
Proof.
  intros H. unfold kids. rewrite map_map. rewrite (map_nth_seq (fun c => c) (fun i => nd (q ++ [i])%list)); [now rewrite map_id|].
  intros i c E. destruct (kid_nd q i H) as [E' _]; [apply nth_error_Some; congruence|]. congruence.
Qed.

Lemma below_step b q : valid q -> below b q = q :: flat_map (below b) (flip b (kids q)).
Proof.
  intros H. unfold below at 1. rewrite order_eq. cbn [map]. rewrite app_nil_r. f_equal. unfold spread. rewrite map_length, flip_map, <- flat_map_concat_map.
  unfold kids. rewrite flip_map. set (l := flip b (seq 0 (List.length (children (nd q))))).
  assert (Hl : forall i, In i l -> (i < List.length (children (nd q)))%nat) by (intros i Hi; unfold l in Hi; apply flip_In, in_seq in Hi; lia).
  clearbody l. induction l as [|i l IH]; [reflexivity|]. cbn [flat_map map]. rewrite map_app. rewrite IH by (intros; apply Hl; now right). f_equal.
  destruct (kid_nd q i H (Hl i (or_introl eq_refl))) as [E _]. unfold below. rewrite nth_map_order, E, map_map.
  apply map_ext. intros p. now rewrite <- app_assoc.
Qed.

Definition weight (qs : list (list nat)) : nat := list_sum (map (fun q => size (nd q)) qs).
Lemma weight_app qs qs' : weight (qs ++ qs') = (weight qs + weight qs')%nat.
Proof. unfold weight. now rewrite map_app, list_sum_app. Qed.
Lemma weight_cons q qs : weight (q :: qs) = (size (nd q) + weight qs)%nat.
Proof. reflexivity. Qed.
Lemma weight_pos q qs : (0 < weight (q :: qs))%nat.
Proof. rewrite weight_cons, size_eq. lia. Qed.
Lemma weight_rev qs : weight (rev qs) = weight qs.
Proof. induction qs as [|q qs IH]; [reflexivity|]. cbn [rev]. rewrite weight_app, IH, !weight_cons. unfold weight at 2. cbn. lia. Qed.
Lemma weight_kids q : valid q -> size (nd q) = S (weight (kids q)).
Proof. intros H. rewrite size_eq, <- (kids_children q H), map_map. reflexivity. Qed.
Lemma weight_flip b qs : weight (flip b qs) = weight qs.
Proof. destruct b; [apply weight_rev|reflexivity]. Qed.

Lemma push_kids {A} (f : list nat -> A) q qs : push (map f (kids q)) (map f qs) = map f (flip true (kids q) ++ qs).
Proof. unfold push, flip. now rewrite map_app, map_rev. Qed.

Lemma above_kid q i : valid q -> above t (q ++ [i]) = Some (nd q).
Proof. intros H. unfold above. destruct (q ++ [i])%list eqn:E; [now destruct q|]. rewrite <- E, removelast_last. now apply nd_valid. Qed.

Lemma traverse_walk fuel : forall qs, Forall valid qs -> (weight qs <= fuel)%nat ->
  traverse_loop fuel (map (fun q => (above t q, nd q)) qs) = Ok (map (fun q => (above t q, nd q)) (flat_map (below true) qs)).
Proof.
  induction fuel as [|fuel IH]; intros [|q qs] Hv Hw; try reflexivity; inversion Hv as [|? ? V1 V2]; subst.
  - pose proof (weight_pos q qs). lia.
  - cbn [map traverse_loop].
    assert (E : map (fun c => (Some (nd q), c)) (children (nd q)) = map (fun q => (above t q, nd q)) (kids q)).
    { rewrite <- (kids_children q V1), map_map. apply map_ext_in. intros p Hp. apply in_map_iff in Hp as (i & <- & _). now rewrite above_kid. }
    rewrite E, push_kids, IH.
    + cbn [bind flat_map]. rewrite (below_step true q V1), flat_map_app. reflexivity.
    + apply Forall_app. split; [|exact V2]. apply Forall_rev. now apply kids_valid.
    + rewrite weight_app, weight_flip. rewrite weight_cons, (weight_kids q V1) in Hw. lia.
Qed.

Definition leaf_pos (q : list nat) : bool := match children (nd q) with [] => true | _ => false end.
Lemma leafs_walk fuel : forall qs, Forall valid qs -> (weight qs <= fuel)%nat ->
  leafs_loop fuel (map nd qs) = Ok (map nd (filter leaf_pos (flat_map (below true) qs))).
Proof.
  induction fuel as [|fuel IH]; intros [|q qs] Hv Hw; try reflexivity; inversion Hv as [|? ? V1 V2]; subst.
  - pose proof (weight_pos q qs). lia.
  - cbn [map leafs_loop]. cbn [flat_map]. rewrite (below_step true q V1). cbn [app filter]. unfold leaf_pos at 1.
    assert (Hw' : (weight (kids q) + weight qs <= fuel)%nat).
    { rewrite weight_cons, (weight_kids q V1) in Hw. lia. }
    pose proof (kids_children q V1) as K.
    destruct (children (nd q)) as [|c cs] eqn:Ec.
    + destruct (kids q); [|discriminate]. cbn [flip flat_map app rev]. rewrite IH by (try exact V2; lia). reflexivity.
    + rewrite <- Ec in *. replace (push (children (nd q)) (map nd qs)) with (map nd (flip true (kids q) ++ qs)) by (rewrite <- push_kids, K; reflexivity).
      rewrite IH.
      * now rewrite flat_map_app.
      * apply Forall_app. split; [|exact V2]. apply Forall_rev. now apply kids_valid.
      * rewrite weight_app, weight_flip. exact Hw'.
Qed.

(* nodes from a position up to the root *)
Fixpoint up_from (n : tree) (p : list nat) : list tree :=
  match p with [] => [n] | i :: p' => (match nth_error (children n) i with Some c => up_from c p' | None => [] end ++ [n])%list end.
Lemma up_kid q i : valid q -> (i < List.length (children (nd q)))%nat -> up_from t (q ++ [i]) = nd (q ++ [i]) :: up_from t q.
Proof.
  intros Hq Hi. destruct (kid_nd q i Hq Hi) as [E V]. revert E V Hq. unfold nd, valid. clear Hi.
  assert (G : forall n, node_at n q <> None -> node_at n (q ++ [i]) <> None ->
      up_from n (q ++ [i]) = match node_at n (q ++ [i]) with Some m => m | None => t end :: up_from n q).
  { induction q as [|j q IH]; intros n H1 H2; cbn in *.
    - destruct (nth_error (children n) i); [reflexivity|congruence].
    - destruct (nth_error (children n) j) as [c|]; [|congruence]. rewrite IH by assumption. reflexivity. }
  intros _ V Hq. now apply G.
Qed.

Lemma up_head q : valid q -> exists l, up_from t q = nd q :: l.
Proof.
  intros H. destruct q as [|j q] using rev_ind; [exists []; reflexivity|].
  assert (V : valid q). { unfold valid in *. rewrite node_at_app in H. now destruct (node_at t q). }
  rewrite up_kid; [eauto|exact V|]. unfold valid in H. rewrite node_at_app, (nd_valid q V) in H. cbn in H. apply nth_error_Some.
  destruct (nth_error (children (nd q)) j); congruence.
Qed.

Lemma leaf_paths_walk (part : list nat -> tree) fuel : forall qs, Forall valid qs -> (weight qs <= fuel)%nat ->
  (forall q, valid q -> leaf_pos q = true -> contract None None (up_from t q) = Ok (part q)) ->
  leaf_paths_loop fuel (map (up_from t) qs) = Ok (map (fun q => (nd q, part q)) (filter leaf_pos (flat_map (below true) qs))).
Proof.
  intros qs Hv Hw Hp. revert qs Hv Hw. induction fuel as [|fuel IH]; intros [|q qs] Hv Hw; try reflexivity; inversion Hv as [|? ? V1 V2]; subst.
  - pose proof (weight_pos q qs). lia.
  - cbn [map leaf_paths_loop]. cbn [flat_map]. rewrite (below_step true q V1). cbn [app filter]. unfold leaf_pos at 1.
    destruct (up_head q V1) as (l & El). rewrite El.
    assert (Hw' : (weight (kids q) + weight qs <= fuel)%nat).
    { rewrite weight_cons, (weight_kids q V1) in Hw. lia. }
    pose proof (kids_children q V1) as K. specialize (Hp q V1) as Hq. unfold leaf_pos in Hq.
    destruct (children (nd q)) as [|c cs] eqn:Ec.
    + rewrite <- El, Hq by reflexivity. cbn [bind]. destruct (kids q); [|discriminate]. cbn [flip flat_map app rev]. rewrite IH by (try exact V2; lia). reflexivity.
    + rewrite <- El.
      change ((c :: up_from t q) :: map (fun c0 => c0 :: up_from t q) cs) with (map (fun c0 => c0 :: up_from t q) (c :: cs)). rewrite <- Ec in *.
      replace (push (map (fun c => c :: up_from t q) (children (nd q))) (map (up_from t) qs)) with (map (up_from t) (flip true (kids q) ++ qs)).
      2:{ rewrite <- push_kids, <- K, map_map. f_equal. apply map_ext_in. intros p Hp'. apply in_map_iff in Hp' as (i & <- & Hi). apply in_seq in Hi. rewrite up_kid by (try exact V1; lia). reflexivity. }
      rewrite IH.
      * now rewrite flat_map_app.
      * apply Forall_app. split; [|exact V2]. apply Forall_rev. now apply kids_valid.
      * rewrite weight_app, weight_flip. exact Hw'.
Qed.
End Walk.

(** ** Contracting paths *)

Definition here (n : tree) : list (string * nat) := match n with TUnary l _ => [op_of l] | TNary _ _ => [] end.

Lemma ops_up n p : node_at n p <> None -> ops_along n p = flat_map here (rev (up_from n p)).
Proof.
  revert n. induction p as [|i p IH]; intros n H; cbn in *.
  - unfold here. now rewrite app_nil_r.
  - rewrite rev_app_distr. cbn. destruct (nth_error (children n) i) as [c|]; [|congruence]. rewrite IH by exact H. reflexivity.
Qed.

Section Contract.
Context (t : tree) (Ht : objects t).
Definition known_obj (q : tree) : Prop := n_id (label_of q) = None \/ exists p, node_at t p = Some q.

Lemma same_obj s q : (exists p, node_at t p = Some s) -> known_obj q -> is_same s q = true -> s = q.
Proof.
  intros (p & E) Hq H. unfold is_same in H. destruct Hq as [N|(p' & E')].
  - rewrite N in H. destruct (n_id (label_of s)); discriminate.
  - destruct (n_id (label_of s)) as [a|] eqn:Ea, (n_id (label_of q)) as [b|] eqn:Eb; try discriminate.
    apply Nat.eqb_eq in H. subst. apply (Ht p p' s q E E'). congruence.
Qed.

Lemma contract_chain path : forall q os, (forall n, In n path -> exists p, node_at t p = Some n) -> known_obj q -> chain q os ->
  exists r, contract (Some q) (Some q) path = Ok r /\ chain r (flat_map here (rev path) ++ os).
Proof.
  induction path as [|n path IH]; intros q os Hn Hq Hc; [exists q; split; [reflexivity|exact Hc]|].
  assert (Hn' : forall m, In m path -> exists p, node_at t p = Some m) by (intros; apply Hn; now right).
  cbn [rev]. rewrite flat_map_app. cbn [flat_map]. rewrite app_nil_r, <- app_assoc. destruct n as [l sub|l ps].
  - cbn [contract here]. destruct (Hn _ (or_introl eq_refl)) as (p & Ep). destruct sub as [s|].
    + destruct (is_same s q) eqn:Es.
      * assert (s = q). { apply same_obj; [|exact Hq|exact Es]. exists (p ++ [0])%nat. rewrite node_at_app, Ep. reflexivity. }
        subst s. apply (IH (TUnary l (Some q)) (op_of l :: os)); [exact Hn'|right; eauto|]. now constructor.
      * apply (IH (copy_with l q) (op_of l :: os)); [exact Hn'|now left|]. change (op_of l) with (op_of (mkN None (n_class l) (n_meta l))). now constructor.
    + apply (IH (copy_with l q) (op_of l :: os)); [exact Hn'|now left|]. change (op_of l) with (op_of (mkN None (n_class l) (n_meta l))). now constructor.
  - cbn [contract here]. now apply IH.
Qed.

Lemma up_nodes p n m : node_at n p <> None -> In m (up_from n p) -> exists q, node_at n q = Some m.
Proof.
  revert n. induction p as [|i p IH]; intros n H Hm; cbn in *.
  - destruct Hm as [<-|[]]. now exists [].
  - destruct (nth_error (children n) i) as [c|] eqn:E; [|congruence]. apply in_app_or in Hm as [Hm|[<-|[]]]; [|now exists []].
    destruct (IH c H Hm) as (q & Eq). exists (i :: q). cbn. now rewrite E.
Qed.

Lemma contract_ok q : valid t q -> leaf_pos t q = true -> ~ is_concat (nd t q) ->
  exists r, contract None None (up_from t q) = Ok r /\ chain r (ops_along t q).
Proof.
  intros V L N. rewrite (ops_up t q V). destruct (up_head t q V) as (l & El).
  assert (Hl : forall n, In n l -> exists p, node_at t p = Some n).
  { intros n Hn. apply (up_nodes q t n V). rewrite El. now right. }
  rewrite El. unfold leaf_pos in L. destruct (nd t q) as [lb [s|]|lb ps] eqn:En; [discriminate| |destruct N; now exists lb, ps].
  cbn [contract]. destruct (contract_chain l (TUnary lb None) [op_of lb] Hl) as (r & E & C).
  - right. exists q. rewrite <- En. now apply nd_valid.
  - constructor.
  - exists r. split; [exact E|]. cbn [rev]. rewrite flat_map_app. cbn [flat_map here]. rewrite app_nil_r. exact C.
Qed.
End Contract.

(** ** The graph *)

Lemma node_id_inj a b n m : node_id a n = node_id b m -> n = m.
Proof.
  unfold node_id. intros H. apply (f_equal (fun s => rev (list_ascii_of_string s))) in H.
  assert (G : forall t k, rev (list_ascii_of_string (n_class (label_of t) ++ String "_" (Z_str k)))
      = (rev (list_ascii_of_string (Z_str k)) ++ "_"%char :: rev (list_ascii_of_string (n_class (label_of t))))%list).
  { intros t k. assert (A : forall s s', list_ascii_of_string (s ++ s') = (list_ascii_of_string s ++ list_ascii_of_string s')%list).
    { induction s as [|c s IH]; intros s'; [reflexivity|]. cbn. now rewrite IH. }
    rewrite A, rev_app_distr. cbn [list_ascii_of_string rev]. rewrite <- app_assoc. reflexivity. }
  rewrite !G in H.
  assert (N : forall k, ~ In "_"%char (rev (list_ascii_of_string (Z_str k)))).
  { intros k X. apply in_rev in X. assert (C : contains "_" (Z_str k) = false) by (apply Z_str_no; [reflexivity|discriminate]).
    revert C X. generalize (Z_str k). induction s as [|c s IH]; cbn; [tauto|]. intros C [->|X]; [rewrite Ascii.eqb_refl in C; discriminate|]. apply orb_false_iff in C as [_ C]. now apply IH. }
  assert (U : forall (l1 l2 r1 r2 : list ascii) c, ~ In c l1 -> ~ In c l2 -> (l1 ++ c :: r1 = l2 ++ c :: r2)%list -> l1 = l2).
  { induction l1 as [|x l1 IH]; intros [|y l2] r1 r2 c N1 N2 E; cbn in E; try reflexivity.
    - injection E as -> _. destruct N2. now left.
    - injection E as -> _. destruct N1. now left.
    - injection E as -> E. f_equal. eapply IH; [| |exact E]; intros X; [apply N1|apply N2]; now right. }
  apply U in H; [|apply N|apply N]. apply (f_equal (@rev _)) in H. rewrite !rev_involutive in H.
  apply (f_equal string_of_list_ascii) in H. rewrite !string_of_list_ascii_of_string in H. now apply Z_str_inj.
Qed.

Section GraphWalk.
Context (t : tree).
Notation nd := (nd t).
Fixpoint pos_index (p : list nat) (ps : list (list nat)) : Z :=
  match ps with [] => 0 | q :: ps' => if list_eq_dec Nat.eq_dec p q then 0 else 1 + pos_index p ps' end.
Definition name (p : list nat) : string := node_id (nd p) (pos_index p (order false t)).
Definition nonroot (p : list nat) : bool := match p with [] => false | _ => true end.
Definition graph_of (ps : list (list nat)) : graph :=
  mkGr (map (fun p => (name p, nd p)) ps) (map (fun p => (name (removelast p), name p)) (filter nonroot ps)).

Lemma pos_index_at vs q rest : ~ In q vs -> pos_index q (vs ++ q :: rest) = Z.of_nat (List.length vs).
Proof.
  induction vs as [|v vs IH]; intros H; cbn [app pos_index List.length].
  - destruct (list_eq_dec Nat.eq_dec q q); [reflexivity|contradiction].
  - destruct (list_eq_dec Nat.eq_dec q v) as [->|]; [destruct H; now left|]. rewrite IH; [lia|]. intros X. apply H. now right.
Qed.
Lemma pos_index_inj ps p q : In p ps -> In q ps -> pos_index p ps = pos_index q ps -> p = q.
Proof.
  induction ps as [|v ps IH]; intros Hp Hq E; [destruct Hp|]. cbn [pos_index] in E.
  assert (Hpos : forall x l, 0 <= pos_index x l) by (intros x l; induction l as [|y l IHl]; cbn [pos_index]; [lia|]; destruct (list_eq_dec Nat.eq_dec x y); lia).
  pose proof (Hpos p ps). pose proof (Hpos q ps).
  destruct (list_eq_dec Nat.eq_dec p v), (list_eq_dec Nat.eq_dec q v); subst; try lia; try reflexivity.
  apply IH; [destruct Hp; [congruence|auto]|destruct Hq; [congruence|auto]|lia].
Qed.
Lemma name_inj p q : In p (order false t) -> In q (order false t) -> name p = name q -> p = q.
Proof. intros Hp Hq E. unfold name in E. apply node_id_inj in E. now apply (pos_index_inj (order false t)). Qed.

Lemma dict_set_new {A} k (v : A) d : ~ In k (map fst d) -> dict_set k v d = (d ++ [(k, v)])%list.
Proof.
  induction d as [|[k' v'] d IH]; intros H; [reflexivity|]. cbn in *. destruct (String.eqb_spec k k') as [->|N]; [destruct H; now left|].
  f_equal. apply IH. tauto.
Qed.

Definition pid (q : list nat) : option string := match q with [] => None | _ => Some (name (removelast q)) end.

Lemma graph_walk fuel : forall qs vs, Forall (valid t) qs -> (weight t qs <= fuel)%nat ->
  (vs ++ flat_map (below t false) qs)%list = order false t ->
  graph_loop fuel (Z.of_nat (List.length vs)) (graph_of vs) (map (fun q => (pid q, nd q)) qs) = Ok (graph_of (order false t)).
Proof.
  induction fuel as [|fuel IH]; intros [|q qs] vs Hv Hw E; cbn [flat_map] in E.
  - rewrite app_nil_r in E. now rewrite E.
  - pose proof (weight_pos t q qs). lia.
  - rewrite app_nil_r in E. now rewrite E.
  - inversion Hv as [|? ? V1 V2]; subst. cbn [map graph_loop].
    rewrite (below_step t false q V1) in E. cbn [app] in E.
    pose proof (order_NoDup false t) as ND. rewrite <- E in ND. apply NoDup_remove_2 in ND as NI.
    assert (NI' : ~ In q vs) by (intros X; apply NI, in_or_app; now left).
    assert (Hname : node_id (nd q) (Z.of_nat (List.length vs)) = name q).
    { unfold name. now rewrite <- E, pos_index_at. }
    assert (Hin : forall v, In v vs -> In v (order false t)) by (intros v X; rewrite <- E; apply in_or_app; now left).
    assert (Hq : In q (order false t)) by (rewrite <- E; apply in_or_app; right; now left).
    rewrite Hname.
    assert (G : mkGr (dict_set (name q) (nd q) (gr_nodes (graph_of vs)))
        (match pid q with None => gr_edges (graph_of vs) | Some p => add_edge (p, name q) (gr_edges (graph_of vs)) end) = graph_of (vs ++ [q])).
    { unfold graph_of. cbn [gr_nodes gr_edges]. f_equal.
      - rewrite dict_set_new; [now rewrite map_app|]. rewrite map_map. cbn. intros X. apply in_map_iff in X as (v & Ev & Hvs).
        apply name_inj in Ev; [congruence|now apply Hin|exact Hq].
      - rewrite filter_app. unfold pid. destruct q as [|i q]; cbn [filter nonroot]; [now rewrite app_nil_r|]. rewrite map_app. cbn [map].
        unfold add_edge. destruct (existsb _ _) eqn:X; [|reflexivity]. exfalso. apply existsb_exists in X as (e & He & Ee).
        apply in_map_iff in He as (v & <- & Hvs). apply filter_In in Hvs as [Hvs _]. unfold edge_eqb in Ee. cbn [fst snd] in Ee.
        apply andb_true_iff in Ee as [_ Ee]. apply String.eqb_eq in Ee. apply name_inj in Ee; [subst; contradiction|exact Hq|now apply Hin]. }
    rewrite G.
    assert (K : map (fun c => (Some (name q), c)) (children (nd q)) = map (fun q => (pid q, nd q)) (kids t q)).
    { rewrite <- (kids_children t q V1), map_map. apply map_ext_in. intros p Hp. apply in_map_iff in Hp as (i & <- & _).
      unfold pid. destruct (q ++ [i])%list eqn:Eq; [now destruct q|]. now rewrite <- Eq, removelast_last. }
    rewrite map_rev, K. unfold push. rewrite rev_involutive, <- map_app.
    replace (Z.of_nat (List.length vs) + 1) with (Z.of_nat (List.length (vs ++ [q]))) by (rewrite app_length; cbn; lia).
    apply IH.
    + apply Forall_app. split; [now apply kids_valid|exact V2].
    + rewrite weight_app. rewrite weight_cons, (weight_kids t q V1) in Hw. lia.
    + rewrite flat_map_app, <- app_assoc. exact E.
Qed.
End GraphWalk.

(** ** Nested parameters *)
Section ParamProofs.
Context {V : Type}.
Implicit Types (d kwargs : @meta V).

Lemma dict_set_keys_in {A} k (v : A) e : In k (map fst e) -> map fst (dict_set k v e) = map fst e.
Proof.
  induction e as [|[k' v'] d IH]; intros H; [destruct H|]. cbn in *. destruct (String.eqb_spec k k') as [->|N]; [reflexivity|].
  cbn. f_equal. apply IH. destruct H; [congruence|auto].
Qed.

Lemma dict_update_same d kwargs : NoDup (map fst d) -> (forall k, In k (map fst kwargs) -> In k (map fst d)) -> NoDup (map fst kwargs) ->
  map fst (dict_update d kwargs) = map fst d /\
  forall k, dict_get k (dict_update d kwargs) = match dict_get k kwargs with Some v => Some v | None => dict_get k d end.
Proof.
  unfold dict_update. revert d. induction kwargs as [|[k v] kw IH]; intros d Hd Hin Hk; [split; [reflexivity|]; intros; reflexivity|].
  cbn [fold_left fst snd]. inversion Hk; subst.
  assert (K : map fst (dict_set k v d) = map fst d) by (apply dict_set_keys_in, Hin; now left).
  destruct (IH (dict_set k v d)) as [H3 H4].
  - now rewrite K.
  - intros k' Hk'. rewrite K. apply Hin. now right.
  - assumption.
  - split; [congruence|]. intros k'. rewrite H4. cbn [dict_get fst snd].
    destruct (String.eqb_spec k' k) as [->|N].
    + assert (dict_get k kw = None) as -> by now apply dict_get_None. now rewrite dict_get_set_same.
    + destruct (dict_get k' kw); [reflexivity|]. apply dict_get_set_other. congruence.
Qed.

Lemma isect_get kwargs d k : dict_get k (dict_isect kwargs d) = if existsb (String.eqb k) (map fst d) then dict_get k kwargs else None.
Proof.
  unfold dict_isect. induction kwargs as [|[k' v'] kw IH]; cbn [filter fst]; [cbn; now destruct (existsb _ _)|].
  destruct (existsb (String.eqb k') (map fst d)) eqn:E; cbn [dict_get]; destruct (String.eqb_spec k k') as [->|N].
  - now rewrite E.
  - exact IH.
  - rewrite IH, E. reflexivity.
  - exact IH.
Qed.

Lemma update_one kwargs d : NoDup (map fst d) -> NoDup (map fst kwargs) ->
  map fst (dict_update d (dict_isect kwargs d)) = map fst d /\
  forall k, dict_get k (dict_update d (dict_isect kwargs d)) = wanted kwargs d k.
Proof.
  intros Hd Hk. destruct (dict_update_same d (dict_isect kwargs d)) as [H1 H2].
  - exact Hd.
  - intros k Hin. apply in_map_iff in Hin as ((k' & v) & <- & Hf). apply filter_In in Hf as [_ Hf]. apply existsb_exists in Hf as (x & Hx & E).
    apply String.eqb_eq in E. cbn in *. now subst.
  - unfold dict_isect. clear -Hk. induction kwargs as [|[k v] kw IH]; [constructor|]. inversion Hk; subst. cbn.
    destruct (existsb _ _); [|now apply IH]. cbn. constructor; [|now apply IH]. intros X. apply H1.
    apply in_map_iff in X as ((k' & v') & <- & Hf). apply filter_In in Hf as [Hf _]. now apply (in_map fst) in Hf.
  - split; [exact H1|]. intros k. rewrite H2, isect_get. unfold wanted.
    destruct (existsb (String.eqb k) (map fst d)) eqn:E.
    + apply existsb_exists in E as (x & Hx & E). apply String.eqb_eq in E. subst x.
      destruct (dict_get k d) eqn:G; [now destruct (dict_get k kwargs)|]. apply dict_get_None in G. contradiction.
    + destruct (dict_get k d) as [v|] eqn:G; [|reflexivity]. exfalso. apply dict_get_In in G. apply (in_map fst) in G. cbn in G.
      assert (existsb (String.eqb k) (map fst d) = true) by (apply existsb_exists; exists k; split; [exact G|apply String.eqb_refl]). congruence.
Qed.

Lemma wanted_again kwargs (d e : @meta V) k : (forall k, dict_get k e = wanted kwargs d k) -> wanted kwargs e k = wanted kwargs d k.
Proof. intros H. unfold wanted at 1. rewrite H. unfold wanted. destruct (dict_get k d); [|reflexivity]. now destruct (dict_get k kwargs). Qed.

Lemma params_fold kwargs (ns : list nat) : NoDup (map fst kwargs) -> forall st : metas, (forall m, NoDup (map fst (st m))) ->
  let st' := fold_left (fun st m => update_meta kwargs st m) ns st in
  forall m, map fst (st' m) = map fst (st m) /\
    (In m ns -> forall k, dict_get k (st' m) = wanted kwargs (st m) k) /\ (~ In m ns -> st' m = st m).
Proof.
  intros Hk. induction ns as [|n ns IH]; intros st Hst; cbn [fold_left]; intros m; [split; [reflexivity|]; split; [intros []|reflexivity]|].
  destruct (update_one kwargs (st n) (Hst n) Hk) as [U1 U2].
  assert (S1 : forall m, map fst (update_meta kwargs st n m) = map fst (st m)).
  { intros j. unfold update_meta. destruct (Nat.eqb_spec j n) as [->|N]; [exact U1|reflexivity]. }
  specialize (IH (update_meta kwargs st n)) as IH'. destruct (IH' ltac:(intros j; rewrite S1; apply Hst) m) as (I1 & I2 & I3).
  split; [now rewrite I1, S1|].
  assert (EU : update_meta kwargs st n m = if Nat.eqb m n then dict_update (st n) (dict_isect kwargs (st n)) else st m) by reflexivity.
  rewrite EU in I2, I3. clear EU.
  destruct (in_dec Nat.eq_dec m ns) as [Hm|Hm].
  - specialize (I2 Hm). split; [|intros X; destruct X; now right]. intros _ k. rewrite I2.
    destruct (Nat.eqb_spec m n) as [->|N]; [|reflexivity]. now apply wanted_again.
  - specialize (I3 Hm). rewrite I3. destruct (Nat.eqb_spec m n) as [->|N].
    + split; [intros _ k; apply U2|]. intros X. destruct X. now left.
    + split; [intros [X|X]; [congruence|contradiction]|reflexivity].
Qed.
End ParamProofs.
