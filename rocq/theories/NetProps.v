(* Properties of the graph drawings. *)
From Verif Require Import Py PyProofs NetModel NetSpec NetProofs.
From Coq Require Import Lia.
Local Open Scope Z_scope.

(** 0 -> 1 -> 2 -> 0 and 1 -> 3, 4 -> 3: a cycle, a shared child, two roots *)
Definition ex_edges : list (nat * nat) := [(0, 1); (1, 2); (2, 0); (1, 3); (4, 3)]%nat.
Definition net_of (directed : bool) (nodes : list nat) (es : list (nat * nat)) : net nat :=
  let out n := map snd (filter (fun e => Nat.eqb (fst e) n) es) in
  let inn n := map fst (filter (fun e => Nat.eqb (snd e) n) es) in
  let adj n := nodup Nat.eq_dec (out n ++ inn n)%list in
  mkNet nodes directed (if directed then fun n => nodup Nat.eq_dec (out n) else adj)
        (if directed then fun n => nodup Nat.eq_dec (inn n) else adj) (fun n => Z_str (Z.of_nat n)) (fun _ => false).
Lemma net_of_finite directed nodes es : NoDup nodes ->
  Forall (fun e => In (fst e) nodes /\ In (snd e) nodes) es -> finite_net (net_of directed nodes es).
Proof.
  intros ND HF.
  assert (Ho : forall a b, In b (map snd (filter (fun e => Nat.eqb (fst e) a) es)) <-> In (a, b) es).
  { intros a b. rewrite in_map_iff. split.
    - intros ([x y] & <- & H). apply filter_In in H as (H & E). apply Nat.eqb_eq in E. cbn in *. now subst.
    - intros H. exists (a, b). split; auto. apply filter_In. split; auto. apply Nat.eqb_refl. }
  assert (Hi : forall a b, In b (map fst (filter (fun e => Nat.eqb (snd e) a) es)) <-> In (b, a) es).
  { intros a b. rewrite in_map_iff. split.
    - intros ([x y] & <- & H). apply filter_In in H as (H & E). apply Nat.eqb_eq in E. cbn in *. now subst.
    - intros H. exists (b, a). split; auto. apply filter_In. split; auto. apply Nat.eqb_refl. }
  rewrite Forall_forall in HF.
  assert (H1 : forall a b, In (a, b) es -> In a nodes) by (intros a b H; apply (HF _ H)).
  assert (H2 : forall a b, In (a, b) es -> In b nodes) by (intros a b H; apply (HF _ H)).
  constructor; cbn; auto.
  - intros a b _. destruct directed; rewrite nodup_In, ?in_app_iff, ?Ho, ?Hi; intuition eauto.
  - intros a. destruct directed; apply NoDup_nodup.
  - intros a. destruct directed; apply NoDup_nodup.
  - intros a b _ _. destruct directed; rewrite !nodup_In, ?in_app_iff, ?Ho, ?Hi; tauto.
  - intros a b _. destruct directed; rewrite nodup_In, ?in_app_iff, ?Ho, ?Hi; intuition eauto.
  - now intros ->.
Qed.
Definition ex_net : net nat := net_of true [0; 1; 2; 3; 4]%nat ex_edges.
Lemma ex_net_finite directed : finite_net (net_of directed [0; 1; 2; 3; 4]%nat ex_edges).
Proof.
  apply net_of_finite.
  - repeat constructor; cbn; intuition discriminate.
  - repeat (apply Forall_cons; [cbn; intuition|]). apply Forall_nil.
Qed.

Section Net.
Context {N : Type} (eqb : N -> N -> bool) (eqb_ok : forall a b, eqb a b = true <-> a = b).

(** * C68: termination and coverage *)

(* whatever the options *)
Theorem C68_terminates (g : net N) gl md vc sources :
  finite_net g -> (forall s, In s sources -> In s (nt_nodes g)) ->
  exists ls, generate eqb g gl md vc sources = Ok ls /\ NoDup (row_nodes ls) /\
    forall n, In n (row_nodes ls) -> exists s, In s sources /\ reach (open_succ g) s n.
Proof.
  intros F Hs. unfold generate.
  destruct (match md with Some 0 => true | _ => false end) eqn:E0.
  { destruct md as [[| |]|]; try discriminate. eexists. split; [reflexivity|]. split; [constructor | intros n []]. }
  destruct (nt_nodes g) as [|x l] eqn:En.
  { eexists. split; [destruct md as [[| |]|]; try discriminate; reflexivity|]. split; [constructor | intros n []]. }
  rewrite <- En in *. clear x l En.
  destruct (loop_roots_total eqb eqb_ok g gl md vc sources F Hs) as (ls & H).
  exists ls. split; [destruct md as [[| |]|]; try discriminate; exact H|].
  destruct (loop_once eqb eqb_ok g gl md vc _ _ _ _ _ H) as (ND & _). split; auto.
  intros n Hn. destruct (loop_sound eqb eqb_ok g gl md vc _ _ _ _ _ H n Hn) as (s & Hin & R).
  exists s. split; auto. now apply roots_nodes.
Qed.

Theorem C68_reachable (g : net N) gl vc sources :
  finite_net g -> (forall s, In s sources -> In s (nt_nodes g)) ->
  exists ls, generate eqb g gl None vc sources = Ok ls /\ NoDup (row_nodes ls) /\
    forall n, In n (row_nodes ls) <-> exists s, In s sources /\ reach (open_succ g) s n.
Proof.
  intros F Hs. destruct (C68_terminates g gl None vc sources F Hs) as (ls & H & ND & Hsound).
  exists ls. split; auto. split; auto. intros n. split; [apply Hsound|].
  intros (s & Hin & R).
  unfold generate in H. destruct (nt_nodes g) as [|x l] eqn:En; [destruct (Hs s Hin)|].
  destruct (loop_complete eqb eqb_ok g gl None vc _ _ _ _ _ eq_refl H) as (I1 & I2).
  induction R as [a | a b c R IH Hc].
  - destruct (I1 a) as [[] | Ha]; auto. now apply roots_nodes.
  - unfold open_succ in Hc. destruct (nt_collapse g b) eqn:Eb; [destruct Hc|].
    destruct (I2 b c) as [[] | Hd]; auto.
Qed.
End Net.
Print Assumptions C68_terminates.
Print Assumptions C68_reachable.

(* the cycle, both roots and the shared child *)
Example C68_case : exists ls,
  generate Nat.eqb ex_net ascii_directed None false [0; 4]%nat = Ok ls /\
  map (fun l => match l with Text s => s | Row _ _ _ s => s end) ls =
  ["+-- 0 <- 2"; ":   L-> 1"; ":       |-> 2"; ":       |   L->  ..."; ":       L-> 3 <- 4"; "+-- 4"; "    L->  ..."]%string.
Proof. eexists. split; vm_compute; reflexivity. Qed.

(** * C86: every edge is told exactly once *)
Section Edges.
Context {N : Type} (eqb : N -> N -> bool) (eqb_ok : forall a b, eqb a b = true <-> a = b).

Lemma rows_unique (ls : list (line N)) n p o p' o' : NoDup (row_nodes ls) -> shows ls n p o -> shows ls n p' o' -> p = p' /\ o = o'.
Proof.
  intros ND (s & H) (s' & H').
  assert (Hrow : forall l p o s, In (Row (Node n) p o s) l -> In n (row_nodes l)).
  { intros l q r t Hin. apply row_nodes_In. exists q, r, t. exact Hin. }
  induction ls as [|x ls IH]; [destruct H|].
  assert (HND : NoDup (row_nodes ls)) by (destruct x as [|[m|] q r t]; cbn in ND; auto; now inversion ND).
  destruct H as [-> | H], H' as [E | H'].
  - now inversion E.
  - exfalso. cbn in ND. inversion ND as [|? ? Hn _]; subst. apply Hn. eapply Hrow; eauto.
  - subst x. exfalso. cbn in ND. inversion ND as [|? ? Hn _]; subst. apply Hn. eapply Hrow; eauto.
  - auto.
Qed.

(* facts about every row of a complete drawing *)
Lemma generate_rows (g : net N) gl vc sources ls :
  finite_net g -> (forall n, nt_collapse g n = false) -> (forall s, In s sources -> In s (nt_nodes g)) ->
  generate eqb g gl None vc sources = Ok ls ->
  NoDup (row_nodes ls) /\ (forall n, In n (row_nodes ls) -> In n (nt_nodes g)) /\
  forall a n p o s b, ls = (a ++ Row (Node n) p o s :: b)%list ->
    (forall u, p = Some u -> In u (row_nodes a) /\ In n (nt_succ g u)) /\
    (forall u, In u o <-> In u (nt_pred g n) /\ p <> Some u /\
       (nt_directed g = false -> In u (nt_succ g n) -> u = n \/ In u (row_nodes a))).
Proof.
  intros F Hcol Hs H.
  destruct (C68_terminates eqb eqb_ok g gl None vc sources F Hs) as (ls' & H' & ND & Hr).
  rewrite H in H'. injection H' as <-.
  split; auto. split.
  { intros n Hn. destruct (Hr n Hn) as (s & Hin & R).
    assert (R' : reach (nt_succ g) s n).
    { clear -R. induction R; [constructor|]. eapply reach_step; [exact IHR | now apply open_succ_In]. }
    eapply reach_in; eauto. }
  intros a n p o s b E. unfold generate in H. destruct (nt_nodes g) eqn:En.
  { injection H as <-. destruct a as [|x a]; [discriminate|]. injection E as _ E. now destruct a. }
  split.
  - intros u ->.
    destruct (loop_parents eqb eqb_ok g gl None vc _ _ _ _ _ H) with (a := a) (n := n) (p := u) (o := o) (s := s) (b := b) as ([[] | H1] & H2); auto.
    apply Forall_forall. intros f Hf. unfold linked. rewrite (roots_parent _ _ Hf). now destruct (fr_item f).
  - intros u. rewrite (loop_others eqb eqb_ok g gl None vc _ _ _ _ _ eq_refl Hcol H a n p o s b E u). cbn [In].
    split; intros (H1 & H2 & H3); repeat split; auto; intros Hd Hi; specialize (H3 Hd Hi); tauto.
Qed.

(* facts about every row of any drawing *)
Lemma generate_named (g : net N) gl md vc sources ls :
  finite_net g -> (forall s, In s sources -> In s (nt_nodes g)) ->
  generate eqb g gl md vc sources = Ok ls ->
  NoDup (row_nodes ls) /\ (forall n, In n (row_nodes ls) -> In n (nt_nodes g)) /\
  forall a n p o s b, ls = (a ++ Row (Node n) p o s :: b)%list ->
    (forall u, p = Some u -> In u (row_nodes a) /\ In n (nt_succ g u)) /\
    (forall u, (In u o -> In u (nt_pred g n) /\ p <> Some u) /\
      (nt_directed g = true \/ nt_collapse g n = true -> In u (nt_pred g n) -> p <> Some u -> In u o) /\
      (In u (row_nodes a) -> In u (nt_pred g n) -> p <> Some u -> In u o)).
Proof.
  intros F Hs H.
  destruct (C68_terminates eqb eqb_ok g gl md vc sources F Hs) as (ls' & H' & ND & Hr).
  rewrite H in H'. injection H' as <-.
  split; auto. split.
  { intros n Hn. destruct (Hr n Hn) as (s & Hin & R).
    assert (R' : reach (nt_succ g) s n).
    { clear -R. induction R; [constructor|]. eapply reach_step; [exact IHR | now apply open_succ_In]. }
    eapply reach_in; eauto. }
  intros a n p o s b E.
  assert (Hno : forall t, ls = [Text t] -> False).
  { intros t ->. destruct a as [|x a]; [discriminate|]. injection E as _ E. now destruct a. }
  assert (H' : loop eqb g gl md vc (budget g sources) (roots sources) [] [] = Ok ls).
  { unfold generate in H. destruct (nt_nodes g) eqn:En; destruct md as [[| |]|]; try exact H;
      injection H as <-; exfalso; eapply Hno; reflexivity. }
  clear H. split.
  - intros u ->.
    destruct (loop_parents eqb eqb_ok g gl md vc _ _ _ _ _ H') with (a := a) (n := n) (p := u) (o := o) (s := s) (b := b) as ([[] | H1] & H2); auto.
    apply Forall_forall. intros f Hf. unfold linked. rewrite (roots_parent _ _ Hf). now destruct (fr_item f).
  - intros u. destruct (loop_named eqb eqb_ok g gl md vc _ _ _ _ _ H' a n p o s b E u) as (L1 & L2 & L3). auto.
Qed.

(* a directed graph: an edge to a node that has a row is told on that row, in one
   way; nothing else is told.  Whatever is cut. *)
Theorem C86_directed (g : net N) gl md vc sources ls :
  finite_net g -> nt_directed g = true ->
  (forall s, In s sources -> In s (nt_nodes g)) ->
  generate eqb g gl md vc sources = Ok ls ->
  forall u v p others, shows ls v p others ->
    (In v (nt_succ g u) /\ In u (nt_nodes g) <-> exactly_one (p = Some u) (In u others)) /\
    (tells ls u v <-> In v (nt_succ g u) /\ In u (nt_nodes g)).
Proof.
  intros F Hd Hs H. destruct (generate_named g gl md vc sources ls F Hs H) as (ND & Hin & Hrows).
  intros u v p o Hsh.
  assert (G : forall u p o, shows ls v p o -> (In v (nt_succ g u) /\ In u (nt_nodes g) <-> exactly_one (p = Some u) (In u o)) /\
      ((p = Some u \/ In u o) <-> In v (nt_succ g u) /\ In u (nt_nodes g))).
  { clear u p o Hsh. intros u p o (s & Hr). apply in_split in Hr as (a & b & E).
    destruct (Hrows a v p o s b E) as (H1 & H2). specialize (H1 u). destruct (H2 u) as (K1 & K2 & _).
    assert (Hv : In v (nt_nodes g)).
    { apply Hin. rewrite E, row_nodes_app. apply in_or_app. right. now left. }
    assert (Hp : p = Some u -> In v (nt_succ g u) /\ In u (nt_nodes g)).
    { intros Ep. destruct (H1 Ep). split; auto. apply Hin. rewrite E, row_nodes_app. apply in_or_app. auto. }
    assert (Ho : In u o -> In v (nt_succ g u) /\ In u (nt_nodes g)).
    { intros Hu. apply K1 in Hu as (Hu & _). assert (Hun := fn_pred_closed g F u v Hv Hu). split; auto.
      now apply (fn_pred g F u v Hun Hv). }
    assert (Hcase : In v (nt_succ g u) /\ In u (nt_nodes g) -> exactly_one (p = Some u) (In u o)).
    { intros (He & Hun).
      assert (Hdec : p = Some u \/ p <> Some u).
      { destruct p as [w|]; [|right; discriminate]. destruct (eqb w u) eqn:Ew.
        - left. apply eqb_ok in Ew. now subst.
        - right. intros Eq. injection Eq as ->. rewrite (eqb_refl eqb eqb_ok) in Ew. discriminate. }
      destruct Hdec as [Ep | Ep].
      - left. split; auto. intros Hu. apply K1 in Hu. tauto.
      - right. split; auto. apply K2; auto. now apply (fn_pred g F u v Hun Hv). }
    split; split; auto.
    - intros [(Ep & _) | (Hu & _)]; auto.
    - intros [Ep | Hu]; auto.
    - intros He. destruct (Hcase He) as [(Ep & _) | (Hu & _)]; auto. }
  split; [apply G; auto|]. split.
  - intros (p' & o' & Hsh' & Ht). now apply (G u p' o' Hsh').
  - intros He. exists p, o. split; auto. now apply (G u p o Hsh).
Qed.

(* any graph, whatever is cut: an edge between two nodes that have rows is told;
   only edges are told, each at most once on a row; a collapsed node names all its
   neighbours but the one above it *)
Theorem C86_cut (g : net N) gl md vc sources ls :
  finite_net g -> (forall s, In s sources -> In s (nt_nodes g)) ->
  generate eqb g gl md vc sources = Ok ls ->
  (forall u v, In v (nt_succ g u) -> In u (row_nodes ls) -> In v (row_nodes ls) -> u <> v ->
     tells ls u v \/ tells ls v u) /\
  (forall u v p others, shows ls v p others -> In u others -> p <> Some u) /\
  (forall u v, tells ls u v -> In v (nt_succ g u)) /\
  (forall u v p others, shows ls v p others -> nt_collapse g v = true ->
     (In u others <-> In u (nt_pred g v) /\ p <> Some u)).
Proof.
  intros F Hs H. destruct (generate_named g gl md vc sources ls F Hs H) as (ND & Hin & Hrows).
  assert (Hdec : forall (p : option N) u, p = Some u \/ p <> Some u).
  { intros [w|] u; [|right; discriminate]. destruct (eqb w u) eqn:Ew.
    - left. apply eqb_ok in Ew. now subst.
    - right. intros Eq. injection Eq as ->. rewrite (eqb_refl eqb eqb_ok) in Ew. discriminate. }
  assert (Habove : forall u v a p o s b, ls = (a ++ Row (Node v) p o s :: b)%list -> In u (nt_pred g v) -> In u (row_nodes a) -> tells ls u v).
  { intros u v a p o s b E Hp Hu. destruct (Hrows a v p o s b E) as (_ & H2). destruct (H2 u) as (_ & _ & K3).
    exists p, o. split; [exists s; rewrite E; apply in_or_app; right; now left|].
    destruct (Hdec p u) as [|Hne]; auto. }
  split; [|split; [|split]].
  - intros u v He Hu Hv Hne.
    assert (Hun := Hin u Hu). assert (Hvn := Hin v Hv).
    destruct (nt_directed g) eqn:Ed.
    { left. apply row_nodes_In in Hv as (p & o & s & Hr). apply in_split in Hr as (a & b & E).
      destruct (Hrows a v p o s b E) as (_ & H2). destruct (H2 u) as (_ & K2 & _).
      exists p, o. split; [exists s; rewrite E; apply in_or_app; right; now left|].
      destruct (Hdec p u) as [|Hn]; auto. right. apply K2; auto. now apply (fn_pred g F u v Hun Hvn). }
    assert (Hp : In u (nt_pred g v)) by now apply (fn_pred g F u v Hun Hvn).
    assert (Hq : In v (nt_pred g u)) by (rewrite (fn_undirected g F Ed); exact He).
    apply row_nodes_In in Hv as (p & o & s & Hr). apply in_split in Hr as (a & b & E).
    assert (Hpos : In u (row_nodes a) \/ In u (row_nodes b)).
    { rewrite E, row_nodes_app in Hu. apply in_app_or in Hu as [Hu | Hu]; auto. cbn in Hu. destruct Hu as [-> | Hu]; auto. contradiction. }
    destruct Hpos as [Hpa | Hpb]; [left; eapply Habove; eauto|].
    right. apply row_nodes_In in Hpb as (pu & ou & su & Hru). apply in_split in Hru as (b1 & b2 & Eb).
    eapply (Habove v u (a ++ Row (Node v) p o s :: b1)%list pu ou su b2); auto.
    + rewrite E, Eb, <- app_assoc. reflexivity.
    + rewrite row_nodes_app. apply in_or_app. right. now left.
  - intros u v p o (s & Hr) Hu. apply in_split in Hr as (a & b & E). destruct (Hrows a v p o s b E) as (_ & H2).
    now apply (H2 u).
  - intros u v (p & o & (s & Hr) & Ht). apply in_split in Hr as (a & b & E).
    destruct (Hrows a v p o s b E) as (H1 & H2). destruct Ht as [Ep | Hu]; [now apply H1|].
    assert (Hv : In v (nt_nodes g)). { apply Hin. rewrite E, row_nodes_app. apply in_or_app. right. now left. }
    apply (H2 u) in Hu as (Hu & _). assert (Hun := fn_pred_closed g F u v Hv Hu). now apply (fn_pred g F u v Hun Hv).
  - intros u v p o (s & Hr) Hc. apply in_split in Hr as (a & b & E). destruct (Hrows a v p o s b E) as (_ & H2).
    destruct (H2 u) as (K1 & K2 & _). split; [auto|]. intros (Hu & Hne). auto.
Qed.

(* an undirected graph: on the row of one of its ends, in one way *)
Theorem C86_undirected (g : net N) gl vc sources ls :
  finite_net g -> nt_directed g = false -> (forall n, nt_collapse g n = false) ->
  (forall s, In s sources -> In s (nt_nodes g)) ->
  generate eqb g gl None vc sources = Ok ls ->
  (forall u v, In v (nt_succ g u) -> In u (row_nodes ls) -> u <> v -> exactly_one (tells ls u v) (tells ls v u)) /\
  (forall u, In u (nt_succ g u) -> In u (row_nodes ls) -> tells ls u u) /\
  (forall u v p others, shows ls v p others -> In u others -> p <> Some u) /\
  (forall u v, tells ls u v -> In v (nt_succ g u)).
Proof.
  intros F Hd Hcol Hs H. destruct (generate_rows g gl vc sources ls F Hcol Hs H) as (ND & Hin & Hrows).
  assert (Hsym : forall u v, In v (nt_succ g u) -> In u (nt_nodes g) -> In v (nt_nodes g) -> In u (nt_succ g v)).
  { intros u v He Hu Hv. rewrite <- (fn_undirected g F Hd). now apply (fn_pred g F u v Hu Hv). }
  assert (Hedge : forall u v p o, shows ls v p o -> (p = Some u \/ In u o) -> In v (nt_succ g u)).
  { intros u v p o (s & Hr) Ht. apply in_split in Hr as (a & b & E).
    destruct (Hrows a v p o s b E) as (H1 & H2). specialize (H1 u). specialize (H2 u).
    assert (Hv : In v (nt_nodes g)).
    { apply Hin. rewrite E, row_nodes_app. apply in_or_app. right. now left. }
    destruct Ht as [Ep | Hu]; [now apply H1|].
    apply H2 in Hu as (Hu & _). assert (Hun := fn_pred_closed g F u v Hv Hu).
    now apply (fn_pred g F u v Hun Hv). }
  (* [u] is drawn above [v] *)
  assert (Habove : forall u v a pv ov sv b, In v (nt_succ g u) -> u <> v ->
     ls = (a ++ Row (Node v) pv ov sv :: b)%list -> In u (row_nodes a) -> tells ls u v /\ ~ tells ls v u).
  { intros u v a pv ov sv b He Hne E Hu.
    assert (Hv : In v (nt_nodes g)).
    { apply Hin. rewrite E, row_nodes_app. apply in_or_app. right. now left. }
    assert (Hun : In u (nt_nodes g)).
    { apply Hin. rewrite E, row_nodes_app. apply in_or_app. auto. }
    destruct (Hrows a v pv ov sv b E) as (H1 & H2).
    assert (Hsv : shows ls v pv ov). { exists sv. rewrite E. apply in_or_app. right. now left. }
    split.
    - exists pv, ov. split; auto.
      assert (Hdec : pv = Some u \/ pv <> Some u).
      { destruct pv as [w|]; [|right; discriminate]. destruct (eqb w u) eqn:Ew.
        - left. apply eqb_ok in Ew. now subst.
        - right. intros Eq. injection Eq as ->. rewrite (eqb_refl eqb eqb_ok) in Ew. discriminate. }
      destruct Hdec as [Ep | Ep]; auto. right. apply H2.
      split; [now apply (fn_pred g F u v Hun Hv)|]. split; auto.
    - intros (pu & ou & (su & Hru) & Ht).
      assert (Hu' : exists a1 a2, ls = (a1 ++ Row (Node u) pu ou su :: a2)%list /\ ~ In v (row_nodes a1)).
      { apply row_nodes_In in Hu as (p' & o' & s' & Hu). apply in_split in Hu as (a1 & a2 & Ea).
        exists a1, (a2 ++ Row (Node v) pv ov sv :: b)%list.
        assert (Hsu : shows ls u p' o'). { exists s'. rewrite E, Ea. apply in_or_app. left. apply in_or_app. right. now left. }
        destruct (rows_unique ls u p' o' pu ou ND Hsu) as (-> & ->). { now exists su. }
        split.
        - assert (Eu : ls = (a1 ++ Row (Node u) pu ou s' :: a2 ++ Row (Node v) pv ov sv :: b)%list).
          { rewrite E, Ea, <- app_assoc. reflexivity. }
          rewrite Eu in Hru. apply in_app_or in Hru as [Hru | [Hru | Hru]].
          + exfalso. rewrite Eu, row_nodes_app in ND. cbn [row_nodes] in ND. apply NoDup_remove_2 in ND. apply ND.
            apply in_or_app. left. apply row_nodes_In. exists pu, ou, su. exact Hru.
          + replace su with s' by congruence. exact Eu.
          + exfalso. rewrite Eu, row_nodes_app in ND. cbn [row_nodes] in ND. apply NoDup_remove_2 in ND. apply ND.
            apply in_or_app. right. apply row_nodes_In. exists pu, ou, su. exact Hru.
        - intros Hva. rewrite E, Ea, row_nodes_app in ND. cbn [row_nodes] in ND. apply NoDup_remove_2 in ND. apply ND.
          apply in_or_app. left. rewrite row_nodes_app. apply in_or_app. auto. }
      destruct Hu' as (a1 & a2 & Eu & Hnv). destruct (Hrows a1 u pu ou su a2 Eu) as (K1 & K2).
      destruct Ht as [-> | Hvo].
      + destruct (K1 v eq_refl). contradiction.
      + destruct (proj1 (K2 v) Hvo) as (_ & _ & Hx). destruct (Hx Hd He) as [E' | Hc]; [now apply Hne | contradiction]. }
  split; [|split; [|split]].
  - intros u v He Hu Hne.
    assert (Hun := Hin u Hu). assert (Hvn := fn_closed g F u v Hun He).
    assert (Hvr : In v (row_nodes ls)).
    { destruct (C68_reachable eqb eqb_ok g gl vc sources F Hs) as (ls' & H' & _ & Hall).
      rewrite H in H'. injection H' as <-. apply Hall. apply Hall in Hu as (s & Hsin & R). exists s. split; auto.
      eapply reach_step; [exact R|]. unfold open_succ. now rewrite Hcol. }
    apply row_nodes_In in Hvr as (pv & ov & sv & Hrv). apply in_split in Hrv as (a & b & E).
    assert (Hpos : In u (row_nodes a) \/ In u (row_nodes b)).
    { rewrite E, row_nodes_app in Hu. apply in_app_or in Hu as [Hu | Hu]; auto. cbn in Hu. destruct Hu as [-> | Hu]; auto. contradiction. }
    destruct Hpos as [Hpa | Hpb].
    + left. now apply (Habove u v a pv ov sv b).
    + right. apply row_nodes_In in Hpb as (pu & ou & su & Hru). apply in_split in Hru as (b1 & b2 & Eb).
      apply (Habove v u (a ++ Row (Node v) pv ov sv :: b1)%list pu ou su b2); auto.
      * rewrite E, Eb, <- app_assoc. reflexivity.
      * rewrite row_nodes_app. apply in_or_app. right. now left.
  - intros u He Hu. apply row_nodes_In in Hu as (p & o & s & Hr). exists p, o. split; [now exists s|].
    apply in_split in Hr as (a & b & E). destruct (Hrows a u p o s b E) as (H1 & H2).
    right. apply H2. split; [rewrite (fn_undirected g F Hd); exact He|]. split; auto.
    intros Ep. destruct (H1 u Ep) as (Hua & _). rewrite E, row_nodes_app in ND. cbn [row_nodes] in ND.
    apply NoDup_remove_2 in ND. apply ND. apply in_or_app. auto.
  - intros u v p o (s & Hr) Hu. apply in_split in Hr as (a & b & E). destruct (Hrows a v p o s b E) as (_ & H2).
    apply H2 in Hu. tauto.
  - intros u v (p & o & Hsh & Ht). now apply (Hedge u v p o).
Qed.
End Edges.
Print Assumptions C86_directed.
Print Assumptions C86_undirected.
Print Assumptions C86_cut.
(* the triangle 0 - 1 - 2 with 3 hanging at 1; 1 is collapsed *)
Definition cut_net : net nat :=
  let g := net_of false [0; 1; 2; 3]%nat [(0, 1); (1, 2); (2, 0); (1, 3)]%nat in
  mkNet (nt_nodes g) false (nt_succ g) (nt_pred g) (nt_label g) (Nat.eqb 1).
Example C86_cut_case : exists ls,
  generate Nat.eqb cut_net ascii_undirected None false [0]%nat = Ok ls /\ shows ls 1%nat (Some 0%nat) [2; 3]%nat /\
  tells ls 2%nat 1%nat /\ row_nodes ls = [0; 1; 2]%nat.
Proof.
  eexists. split; [vm_compute; reflexivity|]. split; [eexists; vm_compute; auto 10|]. split; [|reflexivity].
  exists (Some 0%nat), [2; 3]%nat. split; [eexists; vm_compute; auto 10 | cbn; auto].
Qed.

Example C86_case : exists ls,
  generate Nat.eqb ex_net ascii_directed None false [0; 4]%nat = Ok ls /\
  shows ls 3%nat (Some 1%nat) [4%nat] /\ tells ls 4%nat 3%nat /\ tells ls 2%nat 0%nat.
Proof.
  eexists. split; [vm_compute; reflexivity|]. split; [|split].
  - eexists. vm_compute. auto 10.
  - exists (Some 1%nat), [4%nat]. split; [eexists; vm_compute; auto 10 | cbn; auto].
  - exists None, [2%nat]. split; [eexists; vm_compute; auto 10 | cbn; auto].
Qed.
Example C86_undirected_case : exists ls,
  generate Nat.eqb (net_of false [0; 1; 2; 3; 4]%nat ex_edges) ascii_undirected None false [0]%nat = Ok ls /\
  map (fun l => match l with Text s => s | Row _ _ _ s => s end) ls =
  ["+-- 0"; "    |-- 1"; "    |   |-- 2 - 0"; "    |   L-- 3"; "    |       L-- 4"; "    L--  ..."]%string.
Proof. eexists. split; vm_compute; reflexivity. Qed.

(** * C87: the default sources *)
Section Sources.
Context {N : Type} (eqb : N -> N -> bool) (eqb_ok : forall a b, eqb a b = true <-> a = b).

(* every node is reached, and no source is reached from another one *)
Theorem C87_directed (g : net N) comp comps : finite_net g -> scc_numbering g comp comps ->
  let srcs := find_sources g comp comps in
  (forall s, In s srcs -> In s (nt_nodes g)) /\
  (forall n, In n (nt_nodes g) -> exists s, In s srcs /\ reach (nt_succ g) s n) /\
  NoDup srcs /\ (forall s s', In s srcs -> In s' srcs -> reach (nt_succ g) s s' -> s = s').
Proof.
  intros F (Hb & Hc) srcs. split; [|split].
  - intros s Hs. eapply find_sources_In, Hs.
  - intros n Hn. apply (sources_reach g F comp comps Hc Hb (List.length (nt_nodes g)) (nt_nodes g) n); auto.
  - assert (Hone : NoDup (map comp srcs)).
    { subst srcs. unfold find_sources. generalize (seq_NoDup comps 0).
      induction (seq 0 comps) as [|c l IH]; intros ND; [constructor|]. inversion ND as [|? ? Hn ND']; subst.
      assert (Hk : forall c', In c' (map comp (flat_map (fun c => if entered g comp c then []
          else match filter (fun n => Nat.eqb (comp n) c) (nt_nodes g) with
               | [] => [] | n :: l => [min_by (fun n => Z.of_nat (List.length (nt_pred g n))) n l] end) l)) -> In c' l).
      { intros c' Hc'. apply in_map_iff in Hc' as (s & <- & Hs). apply in_flat_map in Hs as (c'' & Hin & Hs).
        destruct (entered g comp c''); [destruct Hs|].
        destruct (filter (fun n => Nat.eqb (comp n) c'') (nt_nodes g)) as [|x l'] eqn:El; [destruct Hs|].
        destruct Hs as [<- | []].
        assert (Hs : In (min_by (fun m => Z.of_nat (List.length (nt_pred g m))) x l') (filter (fun n => Nat.eqb (comp n) c'') (nt_nodes g)))
          by (rewrite El; apply min_by_In).
        apply filter_In in Hs as (_ & E). apply Nat.eqb_eq in E. now rewrite E. }
      cbn [flat_map]. rewrite map_app. destruct (entered g comp c); [apply IH; auto|].
      destruct (filter (fun n => Nat.eqb (comp n) c) (nt_nodes g)) as [|x l'] eqn:El; [apply IH; auto|].
      assert (Hs : In (min_by (fun m => Z.of_nat (List.length (nt_pred g m))) x l') (filter (fun n => Nat.eqb (comp n) c) (nt_nodes g)))
        by (rewrite El; apply min_by_In).
      apply filter_In in Hs as (_ & E). apply Nat.eqb_eq in E. cbn [map app]. rewrite E.
      constructor; [|apply IH; auto]. intros Hin. apply Hn. now apply Hk. }
    split; [eapply NoDup_map_inv, Hone|].
    intros s s' Hs Hs' R.
    destruct (find_sources_In g comp comps s Hs) as (Hsn & _).
    destruct (find_sources_In g comp comps s' Hs') as (Hsn' & He).
    assert (E : comp s = comp s').
    { clear Hs Hs' Hsn'. remember (comp s') as c eqn:Ec.
      assert (G : forall t, reach (nt_succ g) s t -> comp t = c -> comp s = c).
      { intros t Rt. induction Rt as [a | a x b Rt IH Hx]; auto. intros Eb. apply IH; auto.
        destruct (Nat.eq_dec (comp x) c) as [|Hne]; auto. exfalso.
        assert (Hxn : In x (nt_nodes g)) by (eapply reach_in; eauto).
        assert (Hent : entered g comp c = true).
        { apply existsb_exists. exists x. split; auto. apply existsb_exists. exists b. split; auto.
          apply andb_true_intro. split; [now apply Nat.eqb_eq|]. now apply negb_true_iff, Nat.eqb_neq. }
        rewrite He in Hent. discriminate. }
      now apply (G s'). }
    clear -Hone Hs Hs' E. induction srcs as [|x l IH]; [destruct Hs|]. cbn in Hone. inversion Hone as [|? ? Hn ND]; subst.
    destruct Hs as [-> | Hs], Hs' as [-> | Hs']; auto.
    + exfalso. apply Hn. rewrite E. now apply in_map.
    + exfalso. apply Hn. rewrite <- E. now apply in_map.
Qed.
Theorem C87_undirected (g : net N) ccs : finite_net g -> components g ccs ->
  let srcs := find_sources_undirected eqb g ccs in
  (forall s, In s srcs -> In s (nt_nodes g)) /\
  (forall n, In n (nt_nodes g) -> exists s, In s srcs /\ reach (nt_succ g) s n).
Proof.
  intros F (H1 & H2 & H3 & _) srcs.
  assert (Hin : forall s, In s srcs <-> exists n l, In (n :: l) ccs /\ s = min_by (degree eqb g) n l).
  { intros s. subst srcs. unfold find_sources_undirected. rewrite sort_by_In, in_flat_map. split.
    - intros ([|n l] & Hcc & Hs); [destruct Hs|]. destruct Hs as [<- | []]. now exists n, l.
    - intros (n & l & Hcc & ->). exists (n :: l). split; auto. now left. }
  split.
  - intros s Hs. apply Hin in Hs as (n & l & Hcc & ->). apply (H1 (n :: l)); auto. apply min_by_In.
  - intros n Hn. destruct (H2 n Hn) as ([|x l] & Hcc & Hx); [destruct Hx|].
    exists (min_by (degree eqb g) x l). split; [apply Hin; eauto|].
    apply (H3 (x :: l)); auto. apply min_by_In.
Qed.
End Sources.
Print Assumptions C87_directed.
Print Assumptions C87_undirected.

(* the components {0,1,2}, {3}, {4}: 0 and 4 are the sources *)
Definition ex_comp (n : nat) : nat := match n with 3%nat => 1 | 4%nat => 2 | _ => 0 end.
Example C87_case : scc_numbering ex_net ex_comp 3 /\ find_sources ex_net ex_comp 3 = [0; 4]%nat.
Proof.
  split; [|vm_compute; reflexivity]. split.
  - intros n Hn. cbn in Hn. intuition (subst; cbn; lia).
  - assert (R01 : reach (nt_succ ex_net) 0%nat 1%nat) by (eapply reach_step; [constructor | vm_compute; auto]).
    assert (R12 : reach (nt_succ ex_net) 1%nat 2%nat) by (eapply reach_step; [constructor | vm_compute; auto]).
    assert (R20 : reach (nt_succ ex_net) 2%nat 0%nat) by (eapply reach_step; [constructor | vm_compute; auto]).
    assert (T : forall a b c, reach (nt_succ ex_net) a b -> reach (nt_succ ex_net) b c -> reach (nt_succ ex_net) a c) by (intros a b c; apply reach_trans).
    assert (S3 : forall a b, reach (nt_succ ex_net) a b -> a = 3%nat -> b = 3%nat).
    { intros a b R Ea. induction R as [|a x b R IH Hx]; auto. rewrite (IH Ea) in Hx. vm_compute in Hx. tauto. }
    assert (S4 : forall a b, reach (nt_succ ex_net) a b -> a <> 4%nat -> b <> 4%nat).
    { intros a b R Ea. induction R as [|a x b R IH Hx]; auto. specialize (IH Ea).
      assert (Hx' : In b [0; 1; 2; 3]%nat); [|cbn in Hx'; intuition (subst; discriminate)].
      destruct x as [|[|[|[|[|x]]]]]; vm_compute in Hx; cbn; intuition. }
    intros a b Ha Hb. cbn in Ha, Hb.
    destruct Ha as [<- | [<- | [<- | [<- | [<- | []]]]]], Hb as [<- | [<- | [<- | [<- | [<- | []]]]]]; cbn [ex_comp];
      (split; [intros E; first [discriminate E | split; eauto 6 using reach_refl]
              | intros (Rab & Rba); first [reflexivity
                 | exfalso; first [ discriminate (S3 _ _ Rab eq_refl) | discriminate (S3 _ _ Rba eq_refl)
                                  | apply (S4 _ _ Rab); [discriminate | reflexivity] | apply (S4 _ _ Rba); [discriminate | reflexivity] ] ]]).
Qed.

(** * C88: max_depth *)
(* a node further away than the limit has a row: vertical chains do not count *)
Theorem C88_vertical_refuted : ~ (forall (g : net nat) vc d sources ls, finite_net g ->
  (forall s, In s sources -> In s (nt_nodes g)) -> 0 < d ->
  generate Nat.eqb g ascii_directed (Some d) vc sources = Ok ls ->
  forall n, In n (row_nodes ls) -> exists s k, In s sources /\ steps (nt_succ g) k s n /\ Z.of_nat k < d).
Proof.
  intros H.
  set (g := net_of true [0; 1; 2; 3; 4]%nat [(0, 1); (1, 2); (2, 3); (3, 4)]%nat).
  destruct (generate Nat.eqb g ascii_directed (Some 3) true [0%nat]) as [ls|] eqn:E; [|vm_compute in E; discriminate].
  assert (F : finite_net g).
  { apply net_of_finite.
    - repeat constructor; cbn; intuition discriminate.
    - repeat (apply Forall_cons; [cbn; intuition|]). apply Forall_nil. }
  destruct (H g true 3 [0%nat] ls F) with (n := 4%nat) as (s & k & [<- | []] & St & Hk); auto.
  - cbn. intros s [<- | []]. auto.
  - lia.
  - vm_compute in E. injection E as <-. cbn. auto 10.
  - assert (G : forall k a b, steps (nt_succ g) k a b -> a = 0%nat -> b = k).
    { clear. intros k a b St. induction St as [|k a b c St IH Hc]; intros Ea; auto. specialize (IH Ea). subst a b.
      destruct k as [|[|[|[|[|k]]]]]; vm_compute in Hc; intuition. }
    specialize (G k _ _ St eq_refl). lia.
Qed.
Print Assumptions C88_vertical_refuted.
(* and a node within the limit may have none: it is reached first by a long path *)
Theorem C88_shown_refuted : ~ (forall (g : net nat) vc d sources ls, finite_net g ->
  (forall s, In s sources -> In s (nt_nodes g)) -> 0 < d -> (forall n, nt_collapse g n = false) ->
  generate Nat.eqb g ascii_directed (Some d) vc sources = Ok ls ->
  forall s k n, In s sources -> steps (nt_succ g) k s n -> Z.of_nat k < d -> In n (row_nodes ls)).
Proof.
  intros H.
  set (g := net_of true [0; 1; 2; 3]%nat [(0, 1); (1, 2); (0, 2); (2, 3)]%nat).
  destruct (generate Nat.eqb g ascii_directed (Some 3) false [0%nat]) as [ls|] eqn:E; [|vm_compute in E; discriminate].
  assert (F : finite_net g).
  { apply net_of_finite.
    - repeat constructor; cbn; intuition discriminate.
    - repeat (apply Forall_cons; [cbn; intuition|]). apply Forall_nil. }
  assert (Hin : In 3%nat (row_nodes ls)).
  { refine (H g false 3 [0%nat] ls F _ _ _ E 0%nat 2%nat 3%nat _ _ _).
    - intros s [<- | []]. cbn. auto.
    - lia.
    - reflexivity.
    - now left.
    - apply steps_S with 2%nat; [|vm_compute; auto]. apply steps_S with 0%nat; [constructor | vm_compute; auto].
    - lia. }
  vm_compute in E. injection E as <-. cbn in Hin. intuition discriminate.
Qed.
Print Assumptions C88_shown_refuted.

Section Depth.
Context {N : Type} (eqb : N -> N -> bool) (eqb_ok : forall a b, eqb a b = true <-> a = b).

Lemma roots_flat d (h : N -> nat -> Prop) sources : 0 < d -> (forall s, In s sources -> h s 0%nat) ->
  Forall (flat d h) (roots sources).
Proof.
  intros Hd Hs. apply Forall_forall. intros f Hf n En.
  assert (Hn : In n sources). { apply roots_nodes, frame_nodes_In. rewrite <- En. now apply in_map. }
  apply in_map_iff in Hf as (ic & <- & _). cbn. split; auto. 
Qed.

(* without vertical chains nothing beyond the limit is shown; in a directed graph
   whose nodes are each at one depth, everything within it is.  Missing: vertical
   chains, and nodes that can be reached at several depths. *)
Theorem C88_depth_partial (g : net N) gl d sources ls : finite_net g ->
  (forall s, In s sources -> In s (nt_nodes g)) -> 0 < d ->
  generate eqb g gl (Some d) false sources = Ok ls ->
  (forall n, In n (row_nodes ls) -> exists s k, In s sources /\ steps (nt_succ g) k s n /\ Z.of_nat k < d) /\
  (nt_directed g = true -> (forall n, nt_collapse g n = false) ->
   (forall s s' k k' n, In s sources -> In s' sources -> steps (nt_succ g) k s n -> steps (nt_succ g) k' s' n -> k = k') ->
   forall s k n, In s sources -> steps (nt_succ g) k s n -> Z.of_nat k < d -> In n (row_nodes ls)).
Proof.
  intros F Hs Hd H.
  destruct (nt_nodes g) as [|x l] eqn:En.
  { assert (sources = []) as ->. { destruct sources as [|s l]; auto. destruct (Hs s (or_introl eq_refl)). }
    assert (ls = [Text (gl_empty gl)]) as ->.
    { unfold generate in H. rewrite En in H. destruct d; try lia; now injection H as <-. }
    split; [intros n [] | intros _ _ _ s k n []]. }
  assert (Hl : loop eqb g gl (Some d) false (budget g sources) (roots sources) [] [] = Ok ls).
  { unfold generate in H. rewrite En in H. destruct d; try lia; exact H. }
  rewrite <- En in Hs. clear H.
  set (h := fun n k => exists s, In s sources /\ steps (nt_succ g) k s n).
  assert (Hh : forall a b k, h a k -> In b (nt_succ g a) -> h b (S k)).
  { intros a b k (s & Hin & St) Hb. exists s. split; auto. eapply steps_S; eauto. }
  assert (Hroots : Forall (flat d h) (roots sources)).
  { apply roots_flat; auto. intros s Hin. exists s. split; auto. constructor. }
  destruct (loop_shallow eqb eqb_ok g gl (Some d) false d h _ _ _ _ _ eq_refl eq_refl Hh Hl Hroots) as (I1 & I2 & I3).
  split.
  - intros n Hn. destruct (I1 n Hn) as (k & (s & Hin & St) & Hk). eauto.
  - intros Hdir Hcol Huniq s k n Hin St. induction St as [a | k a b c St IH Hc]; intros Hk.
    + destruct (I2 a) as [[] | Ha]; auto. now apply roots_nodes.
    + destruct (I3 Hdir b c) as [[] | Hc']; auto.
      * apply IH; auto. lia.
      * intros k' (s' & Hin' & St'). rewrite (Huniq s' a k' k b); auto. lia.
Qed.
End Depth.
Print Assumptions C88_depth_partial.
Example C88_case : exists ls,
  generate Nat.eqb (net_of true [0; 1; 2; 3]%nat [(0, 1); (0, 2); (2, 3)]%nat) ascii_directed (Some 2) false [0]%nat = Ok ls /\
  map (fun l => match l with Text s => s | Row _ _ _ s => s end) ls =
  ["+-- 0"; "    |-> 1"; "    L-> 2"; "        L->  ..."]%string.
Proof. eexists. split; vm_compute; reflexivity. Qed.
