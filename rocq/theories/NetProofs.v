(* Lemmas about graph drawing. *)
From Verif Require Import Py PyProofs NetModel NetSpec.
From Coq Require Import Lia.
Local Open Scope list_scope.

Section Proofs.
Context {N : Type} (eqb : N -> N -> bool).
Context (eqb_ok : forall a b, eqb a b = true <-> a = b).

Lemma memb_In n l : memb eqb n l = true <-> In n l.
Proof.
  unfold memb. rewrite existsb_exists. split.
  - intros (m & Hm & E). apply eqb_ok in E. now subst.
  - intros H. exists n. split; auto. now apply eqb_ok.
Qed.
Lemma memb_false n l : memb eqb n l = false <-> ~ In n l.
Proof. rewrite <- memb_In. destruct (memb eqb n l); split; congruence. Qed.
Lemma eqb_refl n : eqb n n = true.
Proof. now apply eqb_ok. Qed.

Context (g : net N) (gl : glyphs) (md : option Z) (vc : bool).
Notation draw := (draw eqb g gl md vc).
Notation loop := (loop eqb g gl md vc).
Notation expand := (expand eqb g md).

Lemma combine_seq_snd {A} (l : list A) k : map snd (combine (seq k (List.length l)) l) = l.
Proof. revert k; induction l; intros k; cbn; auto. now rewrite IHl. Qed.

(* the frames a drawn node pushes *)
Lemma draw_node f n seen : fr_item f = Node n ->
  row_nodes (fst (draw f seen)) = [n] /\
  map fr_item (snd (draw f seen)) = fst (expand f n seen) /\
  Forall (fun f' => fr_parent f' = Some n) (snd (draw f seen)) /\
  (exists s, In (Row (Node n) (fr_parent f) (snd (expand f n seen)) s) (fst (draw f seen))) /\
  (forall i p o s, In (Row i p o s) (fst (draw f seen)) -> i = Node n /\ p = fr_parent f /\ o = snd (expand f n seen)).
Proof.
  intros E. unfold NetModel.draw. rewrite E.
  destruct (prefixes gl f) as [[this next] vert].
  destruct (expand f n seen) as [children others] eqn:Ex. cbn [fst snd].
  split; [|split; [|split; [|split]]].
  - destruct vert; reflexivity.
  - rewrite map_map. cbn [fr_item]. apply combine_seq_snd.
  - apply Forall_forall. intros f' Hf. apply in_map_iff in Hf as (ic & <- & _). reflexivity.
  - eexists. apply in_or_app. right. left. reflexivity.
  - intros i p o s Hin. apply in_app_or in Hin as [Hin | [Hin | []]].
    + destruct vert; [destruct Hin as [Hin | []]; discriminate | destruct Hin].
    + inversion Hin; auto.
Qed.
Lemma draw_ell f seen : fr_item f = Ell ->
  row_nodes (fst (draw f seen)) = [] /\ snd (draw f seen) = [] /\
  (forall n p o s, ~ In (Row (Node n) p o s) (fst (draw f seen))).
Proof.
  intros E. unfold NetModel.draw. rewrite E.
  destruct (prefixes gl f) as [[this next] vert]. cbn [fst snd].
  split; [|split].
  - destruct vert; reflexivity.
  - reflexivity.
  - intros n p o s Hin. apply in_app_or in Hin as [Hin | [Hin | []]].
    + destruct vert; [destruct Hin as [Hin | []]; discriminate | destruct Hin].
    + discriminate.
Qed.

Lemma expand_open f n seen i : In i (fst (expand f n seen)) -> i = Ell \/ exists c, i = Node c /\ In c (open_succ g n).
Proof.
  unfold NetModel.expand, open_succ. cbn [fst].
  set (ch := if nt_directed g then _ else _).
  assert (Hch : forall c, In c ch -> In c (nt_succ g n)).
  { subst ch. intros c. destruct (nt_directed g); auto. intros H. now apply filter_In in H. }
  destruct (at_depth md f || nt_collapse g n) eqn:E.
  - destruct ch; intros []; auto. contradiction.
  - apply orb_false_iff in E as (_ & E). rewrite E.
    intros H. apply in_map_iff in H as (c & <- & Hc). right. exists c. auto.
Qed.
Lemma open_succ_In n c : In c (open_succ g n) -> In c (nt_succ g n).
Proof. unfold open_succ. destruct (nt_collapse g n); [intros [] | auto]. Qed.
Lemma expand_items f n seen i : In i (fst (expand f n seen)) -> i = Ell \/ exists c, i = Node c /\ In c (nt_succ g n).
Proof.
  intros H. destruct (expand_open f n seen i H) as [H1 | (c & H1 & H2)]; auto.
  right. exists c. split; auto. now apply open_succ_In.
Qed.
Lemma expand_length f n seen : List.length (fst (expand f n seen)) <= List.length (nt_succ g n).
Proof.
  unfold NetModel.expand. cbn [fst].
  set (ch := if nt_directed g then _ else _).
  assert (Hch : List.length ch <= List.length (nt_succ g n)).
  { subst ch. destruct (nt_directed g); auto.
    clear. induction (nt_succ g n) as [|c l IH]; cbn; auto. destruct (negb _); cbn; lia. }
  destruct (at_depth md f || nt_collapse g n).
  - destruct ch; cbn in *; lia.
  - rewrite map_length. auto.
Qed.
(* a node drawn in full: all its unseen successors come next *)
Lemma expand_full f n seen c : md = None -> nt_collapse g n = false ->
  In c (nt_succ g n) -> In c seen \/ In (Node c) (fst (expand f n seen)).
Proof.
  intros Hm Hc Hin. unfold NetModel.expand. cbn [fst]. unfold at_depth. rewrite Hm, Hc. cbn [orb].
  destruct (nt_directed g).
  - right. now apply in_map.
  - destruct (memb eqb c seen) eqn:E; [left; now apply memb_In|].
    right. apply in_map. apply filter_In. now rewrite E.
Qed.

(** ** Rows of a run *)

Lemma row_nodes_app (a b : list (line N)) : row_nodes (a ++ b) = row_nodes a ++ row_nodes b.
Proof. induction a as [|[s|[n|] p o s] a IH]; cbn; auto. now rewrite IH. Qed.
Lemma row_nodes_In (ls : list (line N)) n : In n (row_nodes ls) <-> exists p o, shows ls n p o.
Proof.
  unfold shows. induction ls as [|[s|[m|] p o s] ls IH]; cbn.
  - split; [tauto|]. intros (p & o & s & []).
  - rewrite IH. split; intros (p & o & s' & H); exists p, o, s'; intuition discriminate.
  - rewrite IH. split.
    + intros [-> | (p' & o' & s' & H)]; [exists p, o, s; auto | exists p', o', s'; auto].
    + intros (p' & o' & s' & [H | H]); [inversion H; auto | right; now exists p', o', s'].
  - rewrite IH. split; intros (p' & o' & s' & H); exists p', o', s'; intuition discriminate.
Qed.

(* one step of the loop *)
Lemma loop_ind' (P : list (frame N) -> list (option N) -> list N -> list (line N) -> Prop) :
  (forall sk seen, P [] sk seen []) ->
  (forall f st sk seen r, fr_item f = Ell -> P st sk seen r -> P (f :: st) sk seen (fst (draw f seen) ++ r)) ->
  (forall f n st sk seen r ind v1 v2 p, fr_item f = Node n -> p = fr_parent f /\ ind = fr_indents f /\ v1 = fr_vertical f ->
     P (mkFr p (Node n) ind false v1 :: mkFr (Some n) Ell ind true v2 :: st) sk seen r ->
     forall sk', P (f :: st) sk' seen r) ->
  (forall f n st sk sk' seen r, fr_item f = Node n -> In n seen -> P st sk seen r -> P (f :: st) sk' seen r) ->
  (forall f n st sk sk' seen r, fr_item f = Node n -> ~ In n seen ->
     P (snd (draw f (n :: seen)) ++ st) sk (n :: seen) r ->
     P (f :: st) sk' seen (fst (draw f (n :: seen)) ++ r)) ->
  forall fuel st sk seen ls, loop fuel st sk seen = Ok ls -> P st sk seen ls.
Proof.
  intros H0 Hell Hredo Hskip Hdraw. induction fuel as [|fuel IH]; intros st sk seen ls.
  { destruct st; cbn; intros E; inversion E; subst. apply H0. }
  destruct st as [|f st]; cbn [NetModel.loop].
  { intros E; inversion E; subst. apply H0. }
  destruct (fr_item f) as [n|] eqn:Ef.
  - match goal with |- context[if ?b then _ else _] => destruct b eqn:Eb end.
    + intros H. apply IH in H. eapply Hredo; [exact Ef | split; [reflexivity | split; reflexivity] | exact H].
    + destruct (memb eqb n seen) eqn:Em.
      * intros H. apply IH in H. apply memb_In in Em. eapply Hskip; eauto.
      * apply memb_false in Em.
        specialize (Hdraw f n st). destruct (draw f (n :: seen)) as [l fs] eqn:Ed.
        intros H. apply bind_ok in H as (r & Hr & E). inversion E; subst.
        apply IH in Hr. specialize (Hdraw sk sk seen r Ef Em). rewrite Ed in Hdraw. cbn [fst snd] in Hdraw.
        apply Hdraw, Hr.
  - destruct (draw f seen) as [l fs] eqn:Ed.
    destruct (draw_ell f seen Ef) as (_ & Hfs & _). rewrite Ed in Hfs. cbn in Hfs. subst fs. cbn [app].
    intros H. apply bind_ok in H as (r & Hr & E). inversion E; subst.
    apply IH in Hr. specialize (Hell f st sk seen r Ef Hr). rewrite Ed in Hell. exact Hell.
Qed.

Definition frame_nodes (st : list (frame N)) : list N :=
  flat_map (fun f => match fr_item f with Node n => [n] | Ell => [] end) st.
Lemma frame_nodes_app a b : frame_nodes (a ++ b) = frame_nodes a ++ frame_nodes b.
Proof. apply flat_map_app. Qed.
Lemma frame_nodes_In st n : In n (frame_nodes st) <-> In (Node n) (map fr_item st).
Proof.
  unfold frame_nodes. rewrite in_flat_map, in_map_iff. split.
  - intros (f & Hf & H). exists f. destruct (fr_item f) as [m|]; [|easy]. destruct H as [-> | []]; auto.
  - intros (f & E & Hf). exists f. rewrite E. cbn; auto.
Qed.

(* no node has two rows *)
Lemma loop_once fuel st sk seen ls : loop fuel st sk seen = Ok ls ->
  NoDup (row_nodes ls) /\ forall n, In n (row_nodes ls) -> ~ In n seen.
Proof.
  revert fuel st sk seen ls.
  apply (loop_ind' (fun _ _ seen ls => NoDup (row_nodes ls) /\ forall n, In n (row_nodes ls) -> ~ In n seen)).
  - intros. cbn. split; [constructor | auto].
  - intros f st sk seen r Ef IH. rewrite row_nodes_app.
    destruct (draw_ell f seen Ef) as (-> & _). exact IH.
  - auto.
  - auto.
  - intros f n st sk _ seen r Ef Hn (ND & Hd). rewrite row_nodes_app.
    destruct (draw_node f n (n :: seen) Ef) as (-> & _). cbn [app]. split.
    + constructor; auto. intros H. apply (Hd n H). now left.
    + intros m [<- | Hm]; auto. intros Hs. apply (Hd m Hm). now right.
Qed.

(* only nodes reachable from the stack have a row *)
Lemma reach_trans (succ : N -> list N) a b c : reach succ a b -> reach succ b c -> reach succ a c.
Proof. intros H1 H2. induction H2 as [b | b x c H IH Hc]; auto. eapply reach_step; [apply IH, H1 | exact Hc]. Qed.
Lemma loop_sound fuel st sk seen ls : loop fuel st sk seen = Ok ls ->
  forall n, In n (row_nodes ls) -> exists s, In s (frame_nodes st) /\ reach (open_succ g) s n.
Proof.
  revert fuel st sk seen ls.
  apply (loop_ind' (fun st _ _ ls => forall n, In n (row_nodes ls) -> exists s, In s (frame_nodes st) /\ reach (open_succ g) s n)).
  - intros _ _ n [].
  - intros f st sk seen r Ef IH n. rewrite row_nodes_app.
    destruct (draw_ell f seen Ef) as (-> & _). cbn [app]. intros H.
    destruct (IH n H) as (s & Hs & Hr). exists s. split; auto. unfold frame_nodes. cbn. apply in_or_app. auto.
  - intros f n st sk seen r ind v1 v2 p Ef _ IH _ m H. destruct (IH m H) as (s & Hs & Hr).
    exists s. split; auto. unfold frame_nodes in *. cbn in *. rewrite Ef. cbn. auto.
  - intros f n st sk _ seen r Ef _ IH m H. destruct (IH m H) as (s & Hs & Hr).
    exists s. split; auto. unfold frame_nodes in *. cbn. apply in_or_app. auto.
  - intros f n st sk _ seen r Ef Hn IH m. rewrite row_nodes_app.
    destruct (draw_node f n (n :: seen) Ef) as (-> & Hch & _). cbn [app].
    assert (Hself : In n (frame_nodes (f :: st))) by (unfold frame_nodes; cbn; rewrite Ef; cbn; auto).
    intros [<- | H].
    + exists n. split; auto. constructor.
    + destruct (IH m H) as (s & Hs & Hr). rewrite frame_nodes_app in Hs. apply in_app_or in Hs as [Hs | Hs].
      * apply frame_nodes_In in Hs. rewrite Hch in Hs. apply expand_open in Hs as [Hs | (c & Hc & Hin)]; [discriminate|].
        injection Hc as <-. exists n. split; auto. eapply reach_trans; [|exact Hr].
        econstructor; [constructor | exact Hin].
      * exists s. split; auto. unfold frame_nodes. cbn. apply in_or_app. auto.
Qed.

(* every stacked node and every successor of a drawn node is drawn or was seen *)
Lemma loop_complete fuel st sk seen ls : md = None -> loop fuel st sk seen = Ok ls ->
  (forall n, In n (frame_nodes st) -> In n seen \/ In n (row_nodes ls)) /\
  (forall n c, In n (row_nodes ls) -> nt_collapse g n = false -> In c (nt_succ g n) -> In c seen \/ In c (row_nodes ls)).
Proof.
  intros Hmd. revert fuel st sk seen ls.
  apply (loop_ind' (fun st _ seen ls =>
    (forall n, In n (frame_nodes st) -> In n seen \/ In n (row_nodes ls)) /\
    (forall n c, In n (row_nodes ls) -> nt_collapse g n = false -> In c (nt_succ g n) -> In c seen \/ In c (row_nodes ls)))).
  - intros. split; [intros n [] | intros n c []].
  - intros f st sk seen r Ef IH. rewrite row_nodes_app.
    destruct (draw_ell f seen Ef) as (-> & _). unfold frame_nodes. cbn. rewrite Ef. exact IH.
  - intros f n st sk seen r ind v1 v2 p Ef _ IH _. unfold frame_nodes in *. cbn in *. rewrite Ef. exact IH.
  - intros f n st sk _ seen r Ef Hn (I1 & I2). split; auto.
    intros m Hm. unfold frame_nodes in *. cbn in Hm. rewrite Ef in Hm. destruct Hm as [<- | Hm]; auto.
  - intros f n st sk _ seen r Ef Hn (I1 & I2). rewrite row_nodes_app.
    destruct (draw_node f n (n :: seen) Ef) as (-> & Hch & _). cbn [app].
    assert (I1' : forall m, In m (frame_nodes (snd (draw f (n :: seen)) ++ st)) -> In m seen \/ In m (n :: row_nodes r)).
    { intros m Hm. destruct (I1 m Hm) as [[<- | H] | H]; cbn; auto. }
    split.
    + intros m Hm. unfold frame_nodes in Hm. cbn in Hm. rewrite Ef in Hm. destruct Hm as [<- | Hm].
      * right. now left.
      * apply I1'. rewrite frame_nodes_app. apply in_or_app. auto.
    + intros m c [<- | Hm] Hcol Hc.
      * destruct (expand_full f n (n :: seen) c Hmd Hcol Hc) as [[<- | H] | H]; [right; now left | auto|].
        apply I1'. rewrite frame_nodes_app. apply in_or_app. left.
        apply frame_nodes_In. now rewrite Hch.
      * destruct (I2 m c Hm Hcol Hc) as [[<- | H] | H]; cbn; auto.
Qed.

(** ** Termination *)
Definition weight (f : frame N) : nat :=
  match fr_item f with Ell => 1 | Node _ => if fr_last f then 4 else 2 end.
Definition pot (seen : list N) : nat :=
  4 * list_sum (map (fun n => if memb eqb n seen then 0 else List.length (nt_succ g n)) (nt_nodes g)).
Definition weights (st : list (frame N)) : nat := list_sum (map weight st).
Lemma weights_app a b : weights (a ++ b) = weights a + weights b.
Proof. unfold weights. now rewrite map_app, list_sum_app. Qed.
Lemma weights_le st : weights st <= 4 * List.length st.
Proof.
  unfold weights. induction st as [|f st IH]; [cbn; lia|].
  replace (list_sum (map weight (f :: st))) with (weight f + list_sum (map weight st)) by reflexivity.
  assert (weight f <= 4) by (unfold weight; destruct (fr_item f); [destruct (fr_last f)|]; lia).
  cbn [List.length]. lia.
Qed.

Lemma pot_draw n seen : finite_net g -> In n (nt_nodes g) -> ~ In n seen ->
  pot (n :: seen) + 4 * List.length (nt_succ g n) <= pot seen.
Proof.
  intros F Hin Hn. unfold pot. pose proof (fn_nodup g F) as ND. revert Hin ND.
  induction (nt_nodes g) as [|m l IH]; [intros []|]. intros Hin ND. inversion ND as [|? ? Hm ND']; subst.
  cbn [map].
  change (list_sum (?a :: ?b)) with (a + list_sum b).
  destruct Hin as [-> | Hin].
  - assert (Hl : map (fun k => if memb eqb k (n :: seen) then 0 else List.length (nt_succ g k)) l =
                 map (fun k => if memb eqb k seen then 0 else List.length (nt_succ g k)) l).
    { apply map_ext_in. intros k Hk. unfold memb at 1. cbn [existsb].
      destruct (eqb k n) eqn:E; [apply eqb_ok in E; subst; contradiction | reflexivity]. }
    rewrite Hl.
    replace (memb eqb n (n :: seen)) with true by (symmetry; apply memb_In; now left).
    replace (memb eqb n seen) with false by (symmetry; now apply memb_false).
    lia.
  - specialize (IH Hin ND').
    assert (n <> m) by (intros ->; contradiction).
    replace (memb eqb m (n :: seen)) with (memb eqb m seen).
    2:{ unfold memb at 2. cbn [existsb]. destruct (eqb m n) eqn:E; [apply eqb_ok in E; subst; contradiction | reflexivity]. }
    destruct (memb eqb m seen); lia.
Qed.

Lemma draw_length f n seen : fr_item f = Node n ->
  List.length (snd (draw f seen)) <= List.length (nt_succ g n).
Proof.
  intros E. destruct (draw_node f n seen E) as (_ & H & _).
  rewrite <- (map_length fr_item), H. apply expand_length.
Qed.

Lemma loop_total fuel st sk seen : finite_net g -> (forall n, In n (frame_nodes st) -> In n (nt_nodes g)) ->
  weights st + pot seen <= fuel -> exists ls, loop fuel st sk seen = Ok ls.
Proof.
  intros F. revert st sk seen. induction fuel as [|fuel IH]; intros st sk seen Hin Hw.
  { destruct st as [|f st]; [now exists []|].
    exfalso. unfold weights in Hw. cbn [map] in Hw. change (list_sum (?a :: ?b)) with (a + list_sum b) in Hw.
    assert (1 <= weight f) by (unfold weight; destruct (fr_item f); [destruct (fr_last f)|]; lia). lia. }
  destruct st as [|f st]; [now exists []|].
  assert (Hst : forall n, In n (frame_nodes st) -> In n (nt_nodes g)).
  { intros n Hn. apply Hin. unfold frame_nodes. cbn. apply in_or_app. auto. }
  assert (Hwf : weights (f :: st) = weight f + weights st) by reflexivity.
  rewrite Hwf in Hw.
  cbn [NetModel.loop].
  destruct (fr_item f) as [n|] eqn:Ef.
  - assert (Hwn : weight f = if fr_last f then 4 else 2) by (unfold weight; now rewrite Ef).
    assert (Hself : In n (nt_nodes g)).
    { apply Hin. unfold frame_nodes. cbn. rewrite Ef. now left. }
    match goal with |- context[if ?b then _ else _] => destruct b eqn:Eb end.
    + apply andb_prop in Eb as (Eb & _). apply andb_prop in Eb as (Eb & _). rewrite Eb in Hwn.
      apply IH.
      * intros m Hm. unfold frame_nodes in Hm. cbn in Hm. destruct Hm as [<- | Hm]; auto.
      * assert (weights (mkFr (fr_parent f) (Node n) (fr_indents f) false (fr_vertical f)
           :: mkFr (Some n) Ell (fr_indents f) true false :: st) = 2 + (1 + weights st)) by reflexivity.
        lia.
    + destruct (memb eqb n seen) eqn:Em.
      * apply IH; auto. destruct (fr_last f); lia.
      * apply memb_false in Em. pose proof (draw_node f n (n :: seen) Ef) as (_ & Hch & _).
        pose proof (draw_length f n (n :: seen) Ef) as Hlen.
        destruct (draw f (n :: seen)) as [l fs] eqn:Ed. cbn [snd] in *.
        destruct (IH (fs ++ st) sk (n :: seen)) as (r & ->).
        -- intros m Hm. rewrite frame_nodes_app in Hm. apply in_app_or in Hm as [Hm | Hm]; auto.
           apply frame_nodes_In in Hm. rewrite Hch in Hm. apply expand_items in Hm as [Hm | (c & Hc & Hc')]; [discriminate|].
           injection Hc as <-. eapply fn_closed; eauto.
        -- rewrite weights_app. pose proof (weights_le fs). pose proof (pot_draw n seen F Hself Em).
           destruct (fr_last f); lia.
        -- cbn [bind]. eexists; reflexivity.
  - assert (Hwn : weight f = 1) by (unfold weight; now rewrite Ef).
    pose proof (draw_ell f seen Ef) as (_ & Hfs & _).
    destruct (draw f seen) as [l fs] eqn:Ed. cbn [snd] in Hfs. subst fs.
    destruct (IH st sk seen Hst) as (r & Hr); [lia|]. cbn [app]. rewrite Hr. cbn [bind]. eexists; reflexivity.
Qed.

(** ** Roots *)
Lemma roots_items (srcs : list N) : map fr_item (roots srcs) = map Node srcs.
Proof.
  unfold roots. rewrite map_map. cbn [fr_item].
  rewrite <- (map_map snd Node). now rewrite combine_seq_snd.
Qed.
Lemma roots_nodes (srcs : list N) n : In n (frame_nodes (roots srcs)) <-> In n srcs.
Proof.
  rewrite frame_nodes_In, roots_items, in_map_iff. split.
  - intros (m & E & H). now inversion E; subst.
  - intros H. now exists n.
Qed.
Lemma roots_length (srcs : list N) : List.length (roots srcs) = List.length srcs.
Proof. unfold roots. rewrite map_length, combine_length, seq_length. lia. Qed.
Lemma roots_parent (srcs : list N) f : In f (roots srcs) -> fr_parent f = None.
Proof. intros H. apply in_map_iff in H as (ic & <- & _). reflexivity. Qed.

Lemma loop_roots_total srcs : finite_net g -> (forall s, In s srcs -> In s (nt_nodes g)) ->
  exists ls, loop (budget g srcs) (roots srcs) [] [] = Ok ls.
Proof.
  intros F Hs. apply loop_total; auto.
  - intros n Hn. apply Hs. now apply roots_nodes.
  - pose proof (weights_le (roots srcs)) as H. rewrite roots_length in H. unfold budget, pot.
    cbn [memb existsb]. lia.
Qed.

(** ** Edges *)

(* every frame below a drawn node hangs on an edge from it *)
Definition linked (seen : list N) (f : frame N) : Prop :=
  match fr_item f, fr_parent f with
  | Node n, Some p => In p seen /\ In n (nt_succ g p)
  | _, _ => True
  end.
Lemma loop_parents fuel st sk seen ls : loop fuel st sk seen = Ok ls -> Forall (linked seen) st ->
  forall a n p o s b, ls = a ++ Row (Node n) (Some p) o s :: b ->
    (In p seen \/ In p (row_nodes a)) /\ In n (nt_succ g p).
Proof.
  revert fuel st sk seen ls.
  apply (loop_ind' (fun st _ seen ls => Forall (linked seen) st ->
    forall a n p o s b, ls = a ++ Row (Node n) (Some p) o s :: b ->
    (In p seen \/ In p (row_nodes a)) /\ In n (nt_succ g p))).
  - intros _ seen _ a n p o s b E. now destruct a.
  - intros f st sk seen r Ef IH HF a n p o s b E. inversion HF as [|? ? _ HF']; subst.
    destruct (draw_ell f seen Ef) as (Hr & _ & Hno).
    remember (fst (draw f seen)) as l eqn:El. clear El.
    revert a E Hr. induction l as [|x l IHl]; intros a E Hr.
    { cbn in E. eapply IH; eauto. }
    destruct a as [|y a].
    + injection E as -> _. exfalso. apply (Hno n (Some p) o s). now left.
    + injection E as -> E.
      assert (Hrl : row_nodes l = [] /\ row_nodes (y :: a) = row_nodes a).
      { destruct y as [|[m|]]; cbn in *; auto; discriminate. }
      destruct Hrl as (Hrl & ->). apply IHl; auto.
      intros n' p' o' s' H. apply (Hno n' p' o' s'). now right.
  - intros f n st sk seen r ind v1 v2 p Ef (-> & _ & _) IH _ HF. inversion HF as [|? ? HL HF']; subst.
    apply IH. constructor; [|constructor; auto].
    + unfold linked in *. cbn. now rewrite Ef in HL.
    + exact I.
  - intros f n st sk _ seen r Ef Hn IH HF. apply IH. now inversion HF.
  - intros f n st sk _ seen r Ef Hn IH HF a m p o s b E. inversion HF as [|? ? HL HF']; subst.
    destruct (draw_node f n (n :: seen) Ef) as (Hr & Hch & Hpar & _ & Hrow).
    assert (HF2 : Forall (linked (n :: seen)) (snd (draw f (n :: seen)) ++ st)).
    { apply Forall_app. split.
      - rewrite Forall_forall in Hpar |- *. intros f' Hf'. unfold linked. rewrite (Hpar f' Hf').
        destruct (fr_item f') as [c|] eqn:Ec; auto. split; [now left|].
        assert (Hin : In (Node c) (map fr_item (snd (draw f (n :: seen))))) by (rewrite <- Ec; now apply in_map).
        rewrite Hch in Hin. apply expand_items in Hin as [Hin | (c' & Hc & Hin)]; [discriminate|]. now injection Hc as <-.
      - eapply Forall_impl; [|exact HF']. intros f' Hf'. unfold linked in *.
        destruct (fr_item f'); auto. destruct (fr_parent f'); auto. destruct Hf'; split; auto. now right. }
    specialize (IH HF2).
    remember (fst (draw f (n :: seen))) as l eqn:El. clear El.
    assert (G : forall a, l ++ r = a ++ Row (Node m) (Some p) o s :: b ->
       (row_nodes l = [n] -> (In p seen \/ In p (row_nodes a)) /\ In m (nt_succ g p)) /\
       (row_nodes l = [] -> (In p (n :: seen) \/ In p (row_nodes a)) /\ In m (nt_succ g p))).
    { clear a E Hr. induction l as [|x l IHl]; intros a E.
      - split; [discriminate|]. intros _. eapply IH; eauto.
      - destruct a as [|y a].
        + injection E as -> _.
          destruct (Hrow (Node m) (Some p) o s (or_introl eq_refl)) as (Em & Ep & _). injection Em as ->.
          split; [|discriminate]. intros _. unfold linked in HL. rewrite Ef, <- Ep in HL. destruct HL. auto.
        + injection E as -> E.
          destruct (IHl) with (a := a) as (G1 & G2); auto.
          { intros i p' o' s' H. apply (Hrow i p' o' s'). now right. }
          destruct y as [t|[k|] pk ok t]; cbn [row_nodes]; auto.
          split; [|discriminate]. intros Ek. injection Ek as -> El.
          destruct (G2 El) as ([[<- | H1] | H1] & H2); split; auto; right; cbn; auto. }
    exact (proj1 (G a E) Hr).
Qed.

(* the other parents named on the row of a node drawn in full *)
Lemma expand_others f n seen p : at_depth md f = false -> nt_collapse g n = false ->
  In p (snd (expand f n seen)) <->
  In p (nt_pred g n) /\ fr_parent f <> Some p /\
  (nt_directed g = false -> In p (nt_succ g n) -> In p seen).
Proof.
  intros Hd Hc. unfold NetModel.expand. rewrite Hd, Hc. cbn [orb snd].
  rewrite filter_In, andb_true_iff, !negb_true_iff, memb_false.
  assert (Hp : oeqb eqb (Some p) (fr_parent f) = false <-> fr_parent f <> Some p).
  { destruct (fr_parent f) as [q|]; cbn; [|split; congruence].
    split.
    - intros E H. injection H as ->. now rewrite eqb_refl in E.
    - intros H. destruct (eqb p q) eqn:E; auto. apply eqb_ok in E. now subst. }
  rewrite Hp. split; intros (H1 & H2 & H3); repeat split; auto.
  - intros Ed. rewrite Ed in H2. intros Hin.
    destruct (memb eqb p seen) eqn:E; [now apply memb_In|]. exfalso. apply H2.
    apply filter_In. rewrite E. auto.
  - destruct (nt_directed g) eqn:Ed; [intros []|]. intros Hin. apply filter_In in Hin as (Hin & Hneg).
    specialize (H3 eq_refl Hin). apply memb_In in H3. now rewrite H3 in Hneg.
Qed.

(* ... in terms of the drawing alone: in an undirected graph only nodes drawn above *)
Lemma loop_others fuel st sk seen ls : md = None -> (forall n, nt_collapse g n = false) ->
  loop fuel st sk seen = Ok ls ->
  forall a n par o s b, ls = a ++ Row (Node n) par o s :: b ->
  forall p, In p o <-> In p (nt_pred g n) /\ par <> Some p /\
    (nt_directed g = false -> In p (nt_succ g n) -> p = n \/ In p seen \/ In p (row_nodes a)).
Proof.
  intros Hmd Hcol. revert fuel st sk seen ls.
  apply (loop_ind' (fun st _ seen ls =>
    forall a n par o s b, ls = a ++ Row (Node n) par o s :: b ->
    forall p, In p o <-> In p (nt_pred g n) /\ par <> Some p /\
    (nt_directed g = false -> In p (nt_succ g n) -> p = n \/ In p seen \/ In p (row_nodes a)))).
  - intros _ seen a n p o s b E. now destruct a.
  - intros f st sk seen r Ef IH a n par o s b E.
    destruct (draw_ell f seen Ef) as (Hr & _ & Hno).
    remember (fst (draw f seen)) as l eqn:El. clear El.
    revert a E Hr. induction l as [|x l IHl]; intros a E Hr.
    { cbn in E. eapply IH; eauto. }
    destruct a as [|y a].
    + injection E as -> _. exfalso. apply (Hno n par o s). now left.
    + injection E as -> E.
      assert (Hrl : row_nodes l = [] /\ row_nodes (y :: a) = row_nodes a).
      { destruct y as [|[m|]]; cbn in *; auto; discriminate. }
      destruct Hrl as (Hrl & ->). apply IHl; auto.
      intros n' p' o' s' H. apply (Hno n' p' o' s'). now right.
  - intros f n st sk seen r ind v1 v2 p Ef (-> & _ & _) IH _. exact IH.
  - intros f n st sk _ seen r Ef Hn IH. exact IH.
  - intros f n st sk _ seen r Ef Hn IH a m par o s b E.
    destruct (draw_node f n (n :: seen) Ef) as (Hr & Hch & Hpar & _ & Hrow).
    assert (Hself : forall p, In p (snd (expand f n (n :: seen))) <-> In p (nt_pred g n) /\ fr_parent f <> Some p /\
      (nt_directed g = false -> In p (nt_succ g n) -> In p (n :: seen))).
    { intros p. apply expand_others; auto. unfold at_depth. now rewrite Hmd. }
    remember (fst (draw f (n :: seen))) as l eqn:El. clear El.
    assert (G : forall a, l ++ r = a ++ Row (Node m) par o s :: b ->
       (row_nodes l = [n] -> forall p, In p o <-> In p (nt_pred g m) /\ par <> Some p /\
         (nt_directed g = false -> In p (nt_succ g m) -> p = m \/ In p seen \/ In p (row_nodes a))) /\
       (row_nodes l = [] -> forall p, In p o <-> In p (nt_pred g m) /\ par <> Some p /\
         (nt_directed g = false -> In p (nt_succ g m) -> p = m \/ In p (n :: seen) \/ In p (row_nodes a)))).
    { clear a E Hr. induction l as [|x l IHl]; intros a E.
      - split; [discriminate|]. intros _. eapply IH; eauto.
      - destruct a as [|y a].
        + injection E as -> _.
          destruct (Hrow (Node m) par o s (or_introl eq_refl)) as (Em & Ep & Eo). injection Em as ->.
          split; [|discriminate]. intros _ p. rewrite Eo, Hself, Ep. cbn [row_nodes In].
          split; intros (H1 & H2 & H3); repeat split; auto; intros Hd Hi; destruct (H3 Hd Hi) as [H | H]; auto.
          destruct H as [H | []]; auto.
        + injection E as -> E.
          destruct (IHl) with (a := a) as (G1 & G2); auto.
          { intros i p' o' s' H. apply (Hrow i p' o' s'). now right. }
          destruct y as [t|[k|] pk ok t]; cbn [row_nodes]; auto.
          split; [|discriminate]. intros Ek. injection Ek as -> El. intros p. rewrite (G2 El p). cbn [In].
          split; intros (H1 & H2 & H3); repeat split; auto; intros Hd Hi; destruct (H3 Hd Hi) as [H | H]; auto; tauto. }
    exact (proj1 (G a E) Hr).
Qed.

(* whatever is cut: the parents named on a row *)
Lemma expand_named f n seen p :
  (In p (snd (expand f n seen)) -> In p (nt_pred g n) /\ fr_parent f <> Some p) /\
  (nt_directed g = true \/ nt_collapse g n = true ->
   In p (nt_pred g n) -> fr_parent f <> Some p -> In p (snd (expand f n seen))) /\
  (In p seen -> In p (nt_pred g n) -> fr_parent f <> Some p -> In p (snd (expand f n seen))).
Proof.
  unfold NetModel.expand. cbn [snd].
  assert (Hp : oeqb eqb (Some p) (fr_parent f) = false <-> fr_parent f <> Some p).
  { destruct (fr_parent f) as [q|]; cbn; [|split; congruence].
    split.
    - intros E H. injection H as ->. now rewrite eqb_refl in E.
    - intros H. destruct (eqb p q) eqn:E; auto. apply eqb_ok in E. now subst. }
  rewrite !filter_In, !andb_true_iff, !negb_true_iff, !memb_false, !Hp.
  split; [tauto|]. split.
  - intros Hc Hin Hne. split; auto. split; auto. destruct (at_depth md f || nt_collapse g n) eqn:E; [easy|].
    apply orb_false_iff in E as (_ & E). destruct Hc as [-> | Hc]; [easy|congruence].
  - intros Hs Hin Hne. split; auto. split; auto. destruct (at_depth md f || nt_collapse g n); [easy|].
    destruct (nt_directed g); [easy|]. intros H. apply filter_In in H as (_ & H).
    apply negb_true_iff, memb_false in H. contradiction.
Qed.

Lemma loop_named fuel st sk seen ls : loop fuel st sk seen = Ok ls ->
  forall a n par o s b, ls = a ++ Row (Node n) par o s :: b -> forall p,
  (In p o -> In p (nt_pred g n) /\ par <> Some p) /\
  (nt_directed g = true \/ nt_collapse g n = true -> In p (nt_pred g n) -> par <> Some p -> In p o) /\
  (In p seen \/ In p (row_nodes a) -> In p (nt_pred g n) -> par <> Some p -> In p o).
Proof.
  revert fuel st sk seen ls.
  apply (loop_ind' (fun st _ seen ls =>
    forall a n par o s b, ls = a ++ Row (Node n) par o s :: b -> forall p,
    (In p o -> In p (nt_pred g n) /\ par <> Some p) /\
    (nt_directed g = true \/ nt_collapse g n = true -> In p (nt_pred g n) -> par <> Some p -> In p o) /\
    (In p seen \/ In p (row_nodes a) -> In p (nt_pred g n) -> par <> Some p -> In p o))).
  - intros _ seen a n p o s b E. now destruct a.
  - intros f st sk seen r Ef IH a n par o s b E.
    destruct (draw_ell f seen Ef) as (Hr & _ & Hno).
    remember (fst (draw f seen)) as l eqn:El. clear El.
    revert a E Hr. induction l as [|x l IHl]; intros a E Hr.
    { cbn in E. eapply IH; eauto. }
    destruct a as [|y a].
    + injection E as -> _. exfalso. apply (Hno n par o s). now left.
    + injection E as -> E.
      assert (Hrl : row_nodes l = [] /\ row_nodes (y :: a) = row_nodes a).
      { destruct y as [|[m|]]; cbn in *; auto; discriminate. }
      destruct Hrl as (Hrl & ->). apply IHl; auto.
      intros n' p' o' s' H. apply (Hno n' p' o' s'). now right.
  - intros f n st sk seen r ind v1 v2 p Ef (-> & _ & _) IH _. exact IH.
  - intros f n st sk _ seen r Ef Hn IH. exact IH.
  - intros f n st sk _ seen r Ef Hn IH a m par o s b E.
    destruct (draw_node f n (n :: seen) Ef) as (Hr & Hch & Hpar & _ & Hrow).
    pose proof (expand_named f n (n :: seen)) as Hself.
    remember (fst (draw f (n :: seen))) as l eqn:El. clear El.
    assert (G : forall a, l ++ r = a ++ Row (Node m) par o s :: b -> forall p,
       (In p o -> In p (nt_pred g m) /\ par <> Some p) /\
       (nt_directed g = true \/ nt_collapse g m = true -> In p (nt_pred g m) -> par <> Some p -> In p o) /\
       (row_nodes l = [n] -> In p seen \/ In p (row_nodes a) -> In p (nt_pred g m) -> par <> Some p -> In p o) /\
       (row_nodes l = [] -> In p (n :: seen) \/ In p (row_nodes a) -> In p (nt_pred g m) -> par <> Some p -> In p o)).
    { clear a E Hr. induction l as [|x l IHl]; intros a E p.
      - destruct (IH a m par o s b E p) as (I1 & I2 & I3). split; [auto|]. split; [auto|]. split; [discriminate|auto].
      - destruct a as [|y a].
        + injection E as -> _.
          destruct (Hrow (Node m) par o s (or_introl eq_refl)) as (Em & Ep & Eo). injection Em as ->.
          destruct (Hself p) as (S1 & S2 & S3). rewrite Eo, Ep. split; [auto|]. split; [auto|]. split; [|discriminate].
          intros _ [Hp | []]. apply S3. now right.
        + injection E as -> E.
          destruct (IHl) with (a := a) (p := p) as (G1 & G2 & G3 & G4); auto.
          { intros i p' o' s' H. apply (Hrow i p' o' s'). now right. }
          split; [auto|]. split; [auto|].
          destruct y as [t|[k|] pk ok t]; cbn [row_nodes]; auto.
          split; [|discriminate]. intros Ek. injection Ek as -> El. intros Hp. apply G4; auto.
          cbn [In] in *. tauto. }
    intros p. destruct (G a E p) as (G1 & G2 & G3 & _). auto.
Qed.

(** ** Depth *)
Lemma draw_indents f seen f' : vc = false -> fr_vertical f = false -> In f' (snd (draw f seen)) ->
  List.length (fr_indents f') = S (List.length (fr_indents f)) /\ fr_vertical f' = false.
Proof.
  intros Hv Hf. unfold NetModel.draw.
  destruct (prefixes gl f) as [[this next] vert] eqn:Ep.
  match goal with |- context[let '(_, _) := ?x in _] => destruct x as [[children others] text] end.
  cbn [snd]. intros H. apply in_map_iff in H as (ic & <- & _). cbn [fr_indents fr_vertical]. rewrite Hv.
  split; [|reflexivity].
  unfold prefixes in Ep. rewrite Hf in Ep. destruct (fr_indents f) as [|i ind].
  - destruct (fr_last f); injection Ep as <- <- <-; reflexivity.
  - destruct (fr_last f); injection Ep as <- <- <-; cbn [List.length app]; rewrite app_length; cbn [List.length]; lia.
Qed.

(* node frames are not vertical, and indented by a depth [h] allows, below [d] *)
Definition flat (d : Z) (h : N -> nat -> Prop) (f : frame N) : Prop :=
  forall n, fr_item f = Node n -> fr_vertical f = false /\ h n (List.length (fr_indents f)) /\ (Z.of_nat (List.length (fr_indents f)) < d)%Z.

Lemma draw_flat d (h : N -> nat -> Prop) f n seen : md = Some d -> vc = false ->
  (forall a b k, h a k -> In b (nt_succ g a) -> h b (S k)) ->
  fr_item f = Node n -> flat d h f -> Forall (flat d h) (snd (draw f seen)).
Proof.
  intros Hd Hv Hh Ef Hn. destruct (Hn n Ef) as (Hf & Hk & Hlt).
  destruct (draw_node f n seen Ef) as (_ & Hch & _).
  apply Forall_forall. intros f' Hf'. destruct (draw_indents f seen f' Hv Hf Hf') as (Hl & Hv').
  intros c Ec. split; auto. rewrite Hl.
  assert (Hin : In (Node c) (fst (expand f n seen))) by (rewrite <- Hch, <- Ec; now apply in_map).
  destruct (expand_items f n seen (Node c) Hin) as [H | (c' & H & Hc)]; [discriminate|]. injection H as <-.
  split; [now apply Hh with n|].
  unfold NetModel.expand in Hin. cbn [fst] in Hin. unfold at_depth in Hin. rewrite Hd in Hin.
  destruct (Z.of_nat (List.length (fr_indents f)) =? d - 1)%Z eqn:E.
  - cbn [orb] in Hin. match type of Hin with context[match ?x with _ => _ end] => destruct x end.
    + destruct Hin.
    + destruct Hin as [Hin | []]; discriminate.
  - apply Z.eqb_neq in E. lia.
Qed.

Lemma loop_shallow d (h : N -> nat -> Prop) fuel st sk seen ls : md = Some d -> vc = false ->
  (forall a b k, h a k -> In b (nt_succ g a) -> h b (S k)) ->
  loop fuel st sk seen = Ok ls -> Forall (flat d h) st ->
  (forall n, In n (row_nodes ls) -> exists k, h n k /\ (Z.of_nat k < d)%Z) /\
  (forall n, In n (frame_nodes st) -> In n seen \/ In n (row_nodes ls)) /\
  (nt_directed g = true ->
   forall n c, In n (row_nodes ls) -> (forall k, h n k -> (Z.of_nat k < d - 1)%Z) -> nt_collapse g n = false -> In c (nt_succ g n) ->
   In c seen \/ In c (row_nodes ls)).
Proof.
  intros Hd Hv Hh. revert fuel st sk seen ls.
  apply (loop_ind' (fun st _ seen ls => Forall (flat d h) st ->
  (forall n, In n (row_nodes ls) -> exists k, h n k /\ (Z.of_nat k < d)%Z) /\
  (forall n, In n (frame_nodes st) -> In n seen \/ In n (row_nodes ls)) /\
  (nt_directed g = true ->
   forall n c, In n (row_nodes ls) -> (forall k, h n k -> (Z.of_nat k < d - 1)%Z) -> nt_collapse g n = false -> In c (nt_succ g n) ->
   In c seen \/ In c (row_nodes ls)))).
  - intros _ seen _. split; [intros n [] | split; [intros n [] | intros _ n c []]].
  - intros f st sk seen r Ef IH HF. apply Forall_cons_iff in HF as (_ & HF'). rewrite row_nodes_app.
    destruct (draw_ell f seen Ef) as (-> & _). unfold frame_nodes. cbn. rewrite Ef. apply IH; auto.
  - intros f n st sk seen r ind v1 v2 p Ef (_ & -> & ->) IH _ HF. apply Forall_cons_iff in HF as (Hn & HF').
    unfold frame_nodes in *. cbn in *. rewrite Ef. cbn.
    apply IH. constructor; [|constructor; auto].
    + intros m Em. cbn in Em. injection Em as <-. apply (Hn n Ef).
    + intros m Em. discriminate Em.
  - intros f n st sk _ seen r Ef Hn IH HF. apply Forall_cons_iff in HF as (_ & HF').
    destruct (IH HF') as (I1 & I2 & I3). split; auto. split; auto.
    intros m Hm. unfold frame_nodes in *. cbn in Hm. rewrite Ef in Hm. destruct Hm as [<- | Hm]; auto.
  - intros f n st sk _ seen r Ef Hn IH HF. apply Forall_cons_iff in HF as (Hf & HF'). rewrite row_nodes_app.
    destruct (draw_node f n (n :: seen) Ef) as (-> & Hch & _). cbn [app].
    destruct IH as (I1 & I2 & I3).
    { apply Forall_app. split; auto. now apply draw_flat with n. }
    assert (I2' : forall m, In m (frame_nodes (snd (draw f (n :: seen)) ++ st)) -> In m seen \/ In m (n :: row_nodes r)).
    { intros m Hm. destruct (I2 m Hm) as [[<- | H] | H]; cbn; auto. }
    destruct (Hf n Ef) as (Hvf & Hk & Hlt).
    split; [|split].
    + intros m [<- | Hm]; [|auto]. exists (List.length (fr_indents f)). auto.
    + intros m Hm. unfold frame_nodes in Hm. cbn in Hm. rewrite Ef in Hm. destruct Hm as [<- | Hm].
      * right. now left.
      * apply I2'. rewrite frame_nodes_app. apply in_or_app. auto.
    + intros Hdir m c [<- | Hm] Hall Hcol Hc.
      * apply I2'. rewrite frame_nodes_app. apply in_or_app. left. apply frame_nodes_In. rewrite Hch.
        unfold NetModel.expand. cbn [fst]. unfold at_depth. rewrite Hd, Hcol, Hdir.
        specialize (Hall _ Hk).
        replace (Z.of_nat (List.length (fr_indents f)) =? d - 1)%Z with false by (symmetry; apply Z.eqb_neq; lia).
        cbn [orb]. now apply in_map.
      * destruct (I3 Hdir m c Hm Hall Hcol Hc) as [[<- | H] | H]; cbn; auto.
Qed.
End Proofs.

(** ** Sources *)
Section Sources.
Context {N : Type}.
Lemma min_by_In (k : N -> Z) b l : In (min_by k b l) (b :: l).
Proof.
  revert b; induction l as [|n l IH]; intros b; cbn [min_by]; [now left|].
  destruct (k n <? k b)%Z; [right; apply IH|]. destruct (IH b) as [<- | H]; cbn; auto.
Qed.
Lemma insert_by_In (k : N -> Z) n l m : In m (insert_by k n l) <-> m = n \/ In m l.
Proof.
  induction l as [|x l IH]; cbn; [intuition|].
  destruct (k n <=? k x)%Z; cbn; [intuition|]. rewrite IH. intuition.
Qed.
Lemma sort_by_In (k : N -> Z) l m : In m (sort_by k l) <-> In m l.
Proof.
  induction l as [|x l IH]; cbn; [tauto|]. change (In m (insert_by k x (sort_by k l)) <-> x = m \/ In m l).
  rewrite insert_by_In, IH. intuition.
Qed.

Context (g : net N) (F : finite_net g).
Lemma reach_in a b : reach (nt_succ g) a b -> In a (nt_nodes g) -> In b (nt_nodes g).
Proof. intros R Ha. induction R as [a | a x b R IH Hb]; auto. exact (fn_closed g F x b (IH Ha) Hb). Qed.

Notation class_ok comp := (forall a b, In a (nt_nodes g) -> In b (nt_nodes g) ->
  (comp a = comp b <-> reach (nt_succ g) a b /\ reach (nt_succ g) b a)).

(* the source of a component nothing enters *)
Lemma find_sources_class comp comps n : class_ok comp -> (forall m, In m (nt_nodes g) -> comp m < comps) ->
  In n (nt_nodes g) -> entered g comp (comp n) = false ->
  exists s, In s (find_sources g comp comps) /\ In s (nt_nodes g) /\ comp s = comp n.
Proof.
  intros Hc Hb Hn He.
  remember (filter (fun m => Nat.eqb (comp m) (comp n)) (nt_nodes g)) as l eqn:El.
  destruct l as [|x l].
  { exfalso. assert (H : In n []); [|exact H]. rewrite El. apply filter_In. split; auto. apply Nat.eqb_refl. }
  set (s := min_by (fun m => Z.of_nat (List.length (nt_pred g m))) x l).
  assert (Hs : In s (filter (fun m => Nat.eqb (comp m) (comp n)) (nt_nodes g))) by (rewrite <- El; apply min_by_In).
  apply filter_In in Hs as (Hs & E). apply Nat.eqb_eq in E.
  exists s. split; [|auto]. unfold find_sources. apply in_flat_map. exists (comp n). split.
  - apply in_seq. specialize (Hb n Hn). lia.
  - rewrite He, <- El. now left.
Qed.

Lemma find_sources_In comp comps s : In s (find_sources g comp comps) ->
  In s (nt_nodes g) /\ entered g comp (comp s) = false.
Proof.
  unfold find_sources. rewrite in_flat_map. intros (c & _ & H).
  destruct (entered g comp c) eqn:He; [destruct H|].
  destruct (filter (fun n => Nat.eqb (comp n) c) (nt_nodes g)) as [|x l] eqn:El; [destruct H|].
  destruct H as [<- | []].
  assert (Hs : In (min_by (fun m => Z.of_nat (List.length (nt_pred g m))) x l) (filter (fun n => Nat.eqb (comp n) c) (nt_nodes g)))
    by (rewrite El; apply min_by_In).
  apply filter_In in Hs as (Hs & E). apply Nat.eqb_eq in E. now rewrite E.
Qed.

(* ancestors of a node, from any list that contains them *)
Lemma sources_reach comp comps : class_ok comp -> (forall m, In m (nt_nodes g) -> comp m < comps) ->
  forall k anc n, List.length anc <= k -> In n (nt_nodes g) ->
  (forall a, In a (nt_nodes g) -> reach (nt_succ g) a n -> In a anc) ->
  exists s, In s (find_sources g comp comps) /\ reach (nt_succ g) s n.
Proof.
  intros Hc Hb. induction k as [|k IH]; intros anc n Hl Hn Ha.
  { exfalso. assert (In n anc) by (apply Ha; [exact Hn | constructor]). destruct anc; [easy | cbn in Hl; lia]. }
  destruct (entered g comp (comp n)) eqn:He.
  - unfold entered in He. apply existsb_exists in He as (u & Hu & He).
    apply existsb_exists in He as (v & Hv & He). apply andb_prop in He as (E1 & E2).
    apply Nat.eqb_eq in E1. apply negb_true_iff, Nat.eqb_neq in E2.
    assert (Hvn : In v (nt_nodes g)) by exact (fn_closed g F u v Hu Hv).
    destruct (proj1 (Hc v n Hvn Hn) E1) as (Rvn & Rnv).
    assert (Run : reach (nt_succ g) u n).
    { eapply reach_trans; [|exact Rvn]. eapply reach_step; [constructor | exact Hv]. }
    assert (Rnu : ~ reach (nt_succ g) n u).
    { intros R. apply E2. apply Hc; auto. }
    assert (Hnin : In n anc) by (apply Ha; [exact Hn | constructor]).
    apply in_split in Hnin as (l1 & l2 & El).
    destruct (IH (l1 ++ l2) u) as (s & Hs & Rs).
    + subst anc. rewrite app_length in *. cbn [List.length] in Hl. lia.
    + exact Hu.
    + intros a Hain Ra. assert (Hin : In a anc) by (apply Ha; auto; eapply reach_trans; eauto).
      subst anc. apply in_or_app. apply in_app_or in Hin as [H | [H | H]]; auto. subst a. contradiction.
    + exists s. split; auto. eapply reach_trans; eauto.
  - destruct (find_sources_class comp comps n Hc Hb Hn He) as (s & Hs & Hsn & Es).
    exists s. split; auto. now apply (Hc s n Hsn Hn).
Qed.
End Sources.

