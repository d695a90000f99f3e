(* C135: which nodes the default sources are. *)
From Verif Require Import Py PyProofs NetModel NetSpec NetProofs NetProps.
From Coq Require Import Sorting.Sorted.
Local Open Scope Z_scope.

Section Sources.
Context {N : Type} (eqb : N -> N -> bool) (eqb_ok : forall a b, eqb a b = true <-> a = b).

(* the ends of edges at n: a loop has two of them *)
Definition edge_ends (g : net N) (n : N) : Z :=
  Z.of_nat (List.length (flat_map (fun m => if eqb m n then [m; m] else [m]) (nt_succ g n))).

Lemma min_by_le (k : N -> Z) b l n : In n (b :: l) -> k (min_by k b l) <= k n.
Proof.
  revert b n. induction l as [|m l IH]; intros b n; cbn [min_by].
  - intros [<- |[]]. lia.
  - intros H. destruct (Z.ltb_spec (k m) (k b)).
    + destruct H as [<- |H]; [pose proof (IH m m (or_introl eq_refl)); lia|now apply IH].
    + destruct H as [<- |[<- |H]]; [now apply IH; left|pose proof (IH b b (or_introl eq_refl)); lia|now apply IH; right].
Qed.

Lemma insert_sorted (k : N -> Z) n l : StronglySorted (fun a b => k a <= k b) l -> StronglySorted (fun a b => k a <= k b) (insert_by k n l).
Proof.
  assert (I : forall n l x, In x (insert_by k n l) -> x = n \/ In x l).
  { clear n l. intros n l x. induction l as [|m l IH]; cbn; [intuition|]. destruct (k n <=? k m); cbn; intuition. }
  induction 1 as [|m l H IH F]; cbn; [repeat constructor|].
  destruct (Z.leb_spec (k n) (k m)).
  - constructor; [now constructor|]. constructor; [exact H0|]. eapply Forall_impl; [|exact F]. cbn. intros; lia.
  - constructor; [exact IH|]. rewrite Forall_forall in *. intros x Hx. apply I in Hx as [-> |Hx]; [lia|now apply F].
Qed.

Lemma insert_nodup (k : N -> Z) n l : ~ In n l -> NoDup l -> NoDup (insert_by k n l) /\ (forall x, In x (insert_by k n l) <-> x = n \/ In x l).
Proof.
  induction l as [|m l IH]; cbn; intros Hn Hd.
  - split; [repeat constructor; auto|]. intuition.
  - inversion Hd as [|? ? Hm Hd']; subst. destruct (k n <=? k m).
    + split; [now constructor|]. cbn. intuition.
    + destruct IH as (A & B); [tauto|exact Hd'|]. split.
      * constructor; [|exact A]. rewrite B. intuition.
      * cbn. intros x. rewrite B. intuition.
Qed.

Lemma degree_ends (g : net N) n : NoDup (nt_succ g n) -> degree eqb g n = edge_ends g n.
Proof.
  intros H. unfold degree, edge_ends, memb. induction (nt_succ g n) as [|m l IH]; [reflexivity|].
  inversion H as [|? ? Hm Hd]; subst. specialize (IH Hd). cbn [existsb flat_map List.length].
  assert (S : eqb n m = eqb m n) by (destruct (eqb n m) eqn:E1, (eqb m n) eqn:E2; auto; [apply eqb_ok in E1|apply eqb_ok in E2]; subst; rewrite (proj2 (eqb_ok _ _) eq_refl) in *; discriminate).
  rewrite S. destruct (eqb m n) eqn:E.
  - apply eqb_ok in E. subst m. cbn [orb app List.length]. assert (X : existsb (eqb n) l = false).
    { destruct (existsb (eqb n) l) eqn:E; [|reflexivity]. apply existsb_exists in E as (y & Hy & E). apply eqb_ok in E. subst. contradiction. }
    change (existsb (fun m => eqb n m) l = false) in X. rewrite X in IH. lia.
  - cbn [orb app List.length]. lia.
Qed.

(** In an undirected graph the sources are one node of each connected part, with the fewest
    edge ends in it; parts with fewer edge ends at the source come first. *)
Theorem C135_undirected (g : net N) ccs : finite_net g -> components g ccs -> (forall n, NoDup (nt_succ g n)) ->
  let srcs := find_sources_undirected eqb g ccs in
  (forall s n, In s srcs -> reach (nt_succ g) s n -> edge_ends g s <= edge_ends g n) /\
  NoDup srcs /\ (forall s s', In s srcs -> In s' srcs -> reach (nt_succ g) s s' -> s = s') /\
  StronglySorted (fun s s' => edge_ends g s <= edge_ends g s') srcs.
Proof.
  intros F (H1 & H2 & H3 & H4) Hsucc srcs.
  set (pick := fun cc : list N => match cc with [] => [] | n :: l => [min_by (degree eqb g) n l] end).
  assert (D : forall n, degree eqb g n = edge_ends g n) by (intros n; now apply degree_ends).
  assert (Hp : NoDup (flat_map pick ccs) /\ (forall s s', In s (flat_map pick ccs) -> In s' (flat_map pick ccs) -> reach (nt_succ g) s s' -> s = s')).
  { assert (P : forall cc s, In s (pick cc) -> In s cc) by (intros [|n l] s; [intros []|intros [<- |[]]; apply min_by_In]).
    assert (Q : forall cc s s', In s (pick cc) -> In s' (pick cc) -> s = s') by (intros [|n l] s s'; [intros []|intros [<- |[]] [<- |[]]; reflexivity]).
    assert (Pick : forall l s, In s (flat_map pick l) -> exists cc, In cc l /\ In s (pick cc)) by (intros l s; now rewrite in_flat_map).
    split.
    - clear -H4 P Pick. induction ccs as [|cc ccs IH]; [constructor|]. cbn [flat_map List.concat] in *.
      assert (Hd : NoDup cc /\ NoDup (List.concat ccs) /\ forall x, In x cc -> ~ In x (List.concat ccs)).
      { clear -H4. induction cc as [|x cc IH]; cbn in *; [repeat split; auto; constructor|]. inversion H4 as [|? ? Hx Hd]; subst.
        destruct (IH Hd) as (A & B & C). rewrite in_app_iff in Hx. split; [constructor; tauto|]. split; [exact B|].
        intros y [<- |Hy]; [tauto|now apply C]. }
      destruct Hd as (A & B & C). destruct cc as [|n l]; [now apply IH|]. cbn [pick app]. constructor; [|now apply IH].
      intros Hin. apply Pick in Hin as (cc & Hcc & Hs). apply (C (min_by (degree eqb g) n l)); [apply min_by_In|].
      apply in_concat. exists cc. split; [exact Hcc|now apply P].
    - intros s s' Hs Hs' R. apply Pick in Hs as (cc & Hcc & Hs). apply Pick in Hs' as (cc' & Hcc' & Hs').
      assert (In s' cc) by (apply (H3 cc s s'); auto).
      assert (E : cc = cc'); [|subst cc'; now apply (Q cc)].
      assert (Hb : In s' cc') by now apply P. clear -H4 Hcc Hcc' H Hb.
      induction ccs as [|c ccs IH]; [destruct Hcc|]. cbn in H4.
      assert (Hd : NoDup (List.concat ccs) /\ forall x, In x c -> ~ In x (List.concat ccs)).
      { clear -H4. induction c as [|x cc IH]; cbn in *; [auto|]. inversion H4 as [|? ? Hx Hd]; subst.
        destruct (IH Hd) as (B & C). rewrite in_app_iff in Hx. split; [exact B|]. intros y [<- |Hy]; [tauto|now apply C]. }
      destruct Hd as (Hd & Hx). destruct Hcc as [-> |Hcc], Hcc' as [-> |Hcc'].
      + reflexivity.
      + exfalso. apply (Hx s' H). apply in_concat. eauto.
      + exfalso. apply (Hx s' Hb). apply in_concat. eauto.
      + now apply IH. }
  destruct Hp as (Pd & Pr).
  assert (S : forall l, NoDup l -> NoDup (sort_by (degree eqb g) l) /\ (forall x, In x (sort_by (degree eqb g) l) <-> In x l) /\
      StronglySorted (fun a b => degree eqb g a <= degree eqb g b) (sort_by (degree eqb g) l)).
  { induction l as [|n l IH]; cbn; intros Hd; [split; [constructor|split; [tauto|constructor]]|].
    inversion Hd as [|? ? Hn Hd']; subst. destruct (IH Hd') as (A & B & C).
    destruct (insert_nodup (degree eqb g) n (sort_by (degree eqb g) l)) as (A' & B'); [now rewrite B|exact A|].
    split; [exact A'|]. split; [|now apply insert_sorted]. intros x. rewrite B', B. intuition. }
  destruct (S _ Pd) as (A & B & C). change (sort_by (degree eqb g) (flat_map pick ccs)) with srcs in *.
  split; [|split; [exact A|split]].
  - intros s n Hs R. rewrite <- !D. apply B in Hs. apply in_flat_map in Hs as ([|m l] & Hcc & Hs); [destruct Hs|]. destruct Hs as [<- |[]].
    apply min_by_le. apply (H3 (m :: l) (min_by (degree eqb g) m l) n); auto. apply min_by_In.
  - intros s s' Hs Hs'. apply Pr; now apply B.
  - clear -C D. induction C as [|x l H IH F]; constructor; auto. eapply Forall_impl; [|exact F]. cbn. intros y Hy. now rewrite <- !D.
Qed.

(** In a directed graph a source has the fewest incoming edges of the nodes on cycles with it. *)
Theorem C135_directed (g : net N) comp comps : finite_net g -> scc_numbering g comp comps ->
  forall s n, In s (find_sources g comp comps) -> reach (nt_succ g) s n -> reach (nt_succ g) n s ->
  (List.length (nt_pred g s) <= List.length (nt_pred g n))%nat.
Proof.
  intros F (Hb & Hc) s n Hs R1 R2. destruct (find_sources_In g comp comps s Hs) as (Hsn & _).
  assert (Hn : In n (nt_nodes g)) by (eapply reach_in; eauto).
  assert (E : comp s = comp n) by (apply Hc; auto).
  unfold find_sources in Hs. apply in_flat_map in Hs as (c & _ & Hs). destruct (entered g comp c); [destruct Hs|].
  destruct (filter (fun m => Nat.eqb (comp m) c) (nt_nodes g)) as [|m l] eqn:El; [destruct Hs|]. destruct Hs as [<- |[]].
  set (k := fun m => Z.of_nat (List.length (nt_pred g m))) in *.
  assert (Hk : In (min_by k m l) (m :: l)) by apply min_by_In. rewrite <- El in Hk. apply filter_In in Hk as (_ & Hk). apply Nat.eqb_eq in Hk.
  assert (K : k (min_by k m l) <= k n); [|unfold k in K at 1; unfold k in K at 2; lia].
  apply min_by_le. rewrite <- El. apply filter_In. split; [exact Hn|]. apply Nat.eqb_eq. congruence.
Qed.
End Sources.
Print Assumptions C135_undirected.
Print Assumptions C135_directed.

(* a triangle with a loop at 0 and a path 3 - 4: the loop counts twice *)
Definition loop_net : net nat := net_of false [0; 1; 2; 3; 4]%nat [(0, 0); (0, 1); (1, 2); (3, 4)]%nat.
Example C135_case : find_sources_undirected Nat.eqb loop_net [[0; 1; 2]; [3; 4]]%nat = [2; 3]%nat /\
  map (edge_ends Nat.eqb loop_net) [0; 1; 2; 3; 4]%nat = [3; 2; 1; 1; 1] /\ (forall n, In n [0; 1; 2; 3; 4]%nat -> NoDup (nt_succ loop_net n)).
Proof.
  split; [vm_compute; reflexivity|]. split; [vm_compute; reflexivity|].
  intros n Hn. cbn in Hn. intuition (subst; vm_compute; repeat constructor; cbn; intuition discriminate).
Qed.
