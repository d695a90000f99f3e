(* C107: a drawing can be read back. *)
From Verif Require Import Py PyProofs NetModel NetSpec NetProofs NetProps NetParseModel NetParseSpec NetText NetParseProofs.
From Coq Require Import Ascii.

Section Parse.
Context {N : Type} (eqb : N -> N -> bool) (eqb_ok : forall a b, eqb a b = true <-> a = b).

Lemma open_all (g : net N) : (forall n, nt_collapse g n = false) -> forall a b, reach (nt_succ g) a b -> reach (open_succ g) a b.
Proof.
  intros Hcol a b R. induction R as [a | a b c R IH Hc]; [constructor|]. eapply reach_step; [exact IH|].
  unfold open_succ. now rewrite Hcol.
Qed.

(* the edges a drawing tells *)
Lemma row_edges_tells (g : net N) ls x y :
  In (x, y) (flat_map (row_edges g) ls) <-> exists u v, x = nt_label g u /\ y = nt_label g v /\ tells ls u v.
Proof.
  rewrite in_flat_map. split.
  - intros (l & Hl & He). destruct l as [s | [n|] p o s]; try (now destruct He). cbn [row_edges] in He.
    apply in_app_or in He as [He | He].
    + apply in_map_iff in He as (u & E & Hu). inversion E; subst. exists u, n. split; auto. split; auto.
      exists p, o. split; [now exists s | auto].
    + destruct p as [p|]; [|destruct He]. destruct He as [E | []]. inversion E; subst. exists p, n. split; auto. split; auto.
      exists (Some p), o. split; [now exists s | auto].
  - intros (u & v & -> & -> & p & o & (s & Hs) & Ht). eexists. split; [exact Hs|]. cbn [row_edges]. apply in_or_app.
    destruct Ht as [-> | Hu].
    + right. now left.
    + left. apply in_map_iff. eauto.
Qed.

Lemma labels_nodup (g : net N) l : plainly_labelled g -> (forall n, In n l -> In n (nt_nodes g)) -> NoDup l -> NoDup (map (nt_label g) l).
Proof.
  intros (_ & Hinj) Hl ND. induction ND as [|n l Hn ND IH]; cbn; constructor.
  - intros K. apply in_map_iff in K as (m & E & Hm). apply Hn. replace n with m; auto. apply Hinj; auto; apply Hl; [now right | now left].
  - apply IH. intros m Hm. apply Hl. now right.
Qed.

(* what is read from the lines of any drawing with the glyphs of its kind *)
Lemma read_lines (g : net N) d vc sources ls :
  finite_net g -> (forall n, nt_collapse g n = false) -> plainly_labelled g ->
  (forall s, In s sources -> In s (nt_nodes g)) -> nt_nodes g <> [] ->
  generate eqb g (gl_of d) None vc sources = Ok ls ->
  parse_lines (gl_of d) [PF None (-1) false] (map line_text ls) = Ok (map (nt_label g) (row_nodes ls), flat_map (row_edges g) ls) /\
  (forall l, In l ls -> line_text l <> gl_empty (gl_of d) /\ forall w, In w (List.tl (words d)) -> has w (line_text l) = false).
Proof.
  intros F Hcol (Hl & _) Hs Hne H. unfold generate in H. destruct (nt_nodes g) as [|x l] eqn:En; [congruence|]. rewrite <- En in *.
  eapply (parse_loop eqb eqb_ok g d vc F Hcol Hl); [exact H|]. now apply inv_roots.
Qed.

(* the reader, once the kind of the graph is known *)
Lemma parse_kind (g : net N) d vc sources ls :
  finite_net g -> (forall n, nt_collapse g n = false) -> plainly_labelled g ->
  (forall s, In s sources -> In s (nt_nodes g)) -> nt_nodes g <> [] -> sources <> [] ->
  generate eqb g (gl_of d) None vc sources = Ok ls ->
  exists l r, map line_text ls = l :: r /\
    (guess ["L-- "; "|-- "]%string ["L-> "; "|-> "; "<-"; "!"]%string r = d ->
     parse (map line_text ls) = Ok (d, map (nt_label g) (row_nodes ls), flat_map (row_edges g) ls)).
Proof.
  intros F Hcol Hl Hs Hne Hsn H. destruct (read_lines g d vc sources ls F Hcol Hl Hs Hne H) as (Hp & Hlines).
  assert (H' := H). unfold generate in H'. destruct (nt_nodes g) as [|x l] eqn:En; [congruence|]. rewrite <- En in *.
  destruct (first_line eqb g vc _ _ _ _ H' Hsn) as (n & o & r & s & -> & t & Ht).
  cbn [map line_text] in *. exists s, (map line_text r). split; [reflexivity|]. intros Hg.
  assert (Es : exists s', s = String "+" s').
  { destruct Ht as [-> | ->]; destruct d; cbn; eauto. }
  destruct Es as (s' & ->). unfold parse. rewrite Ascii.eqb_refl. cbn [negb].
  change (unambiguous (glyph_items ascii_undirected) (glyph_items ascii_directed)) with ["L-- "; "|-- "]%string.
  change (unambiguous (glyph_items ascii_directed) (glyph_items ascii_undirected)) with ["L-> "; "|-> "; "<-"; "!"]%string.
  rewrite Hg. change (if d then ascii_directed else ascii_undirected) with (gl_of d). rewrite Hp. cbn [bind].
  replace (existsb (String.eqb (gl_empty (gl_of d))) (String "+" s' :: map line_text r)) with false; [reflexivity|].
  symmetry. destruct (existsb _ _) eqn:E; auto. apply existsb_exists in E as (y & Hy & E). apply String.eqb_eq in E. subst y.
  exfalso. destruct Hy as [Hy | Hy].
  - destruct (Hlines _ (or_introl eq_refl)) as (K & _). now elim K.
  - apply in_map_iff in Hy as (z & Hz & Hin). destruct (Hlines z (or_intror Hin)) as (K & _). now elim K.
Qed.

Lemma tells_nodes (g : net N) gl md vc sources ls u v :
  finite_net g -> (forall s, In s sources -> In s (nt_nodes g)) ->
  generate eqb g gl md vc sources = Ok ls -> tells ls u v -> In u (nt_nodes g) /\ In v (nt_nodes g).
Proof.
  intros F Hs H (p & o & (s & Hr) & Ht). destruct (generate_named eqb eqb_ok g gl md vc sources ls F Hs H) as (_ & Hin & Hrows).
  apply in_split in Hr as (a & b & E). destruct (Hrows a v p o s b E) as (H1 & H2).
  assert (Hv : In v (nt_nodes g)). { apply Hin. rewrite E, row_nodes_app. apply in_or_app. right. now left. }
  split; auto. destruct Ht as [Ep | Hu].
  - apply Hin. rewrite E, row_nodes_app. apply in_or_app. left. now apply H1.
  - apply (H2 u) in Hu as (Hu & _). eapply (fn_pred_closed g F); eauto.
Qed.

(* a directed graph, drawn from sources that reach all its nodes: the text gives
   its nodes and edges, and tells that it is directed when it has an edge *)
Theorem C107_directed (g : net N) vc sources :
  finite_net g -> nt_directed g = true -> (forall n, nt_collapse g n = false) -> plainly_labelled g ->
  (forall s, In s sources -> In s (nt_nodes g)) ->
  (forall n, In n (nt_nodes g) -> exists s, In s sources /\ reach (nt_succ g) s n) ->
  exists ls directed ns es,
    generate eqb g ascii_directed None vc sources = Ok ls /\
    parse (map line_text ls) = Ok (directed, ns, es) /\ same_graph g ns es /\
    (directed = true <-> exists u v, In u (nt_nodes g) /\ In v (nt_succ g u)).
Proof.
  intros F Hd Hcol Hl Hs Hcov.
  destruct (C68_reachable eqb eqb_ok g ascii_directed vc sources F Hs) as (ls & H & ND & Hrows).
  exists ls.
  destruct (nt_nodes g) as [|x0 l0] eqn:En.
  { unfold generate in H. rewrite En in H. inversion H; subst. exists false, [], []. split; [unfold generate; now rewrite En|]. split; [reflexivity|].
    split; [|split; [discriminate | intros (u & v & [] & _)]].
    unfold same_graph. rewrite En. split; [constructor|]. split; [|split].
    - intros x. split; [intros [] | intros (n & [] & _)].
    - intros u v [].
    - intros x y []. }
  assert (Hne : nt_nodes g <> []) by congruence. rewrite <- En in *. clear x0 l0 En.
  assert (Hall : forall n, In n (row_nodes ls) <-> In n (nt_nodes g)).
  { intros n. rewrite Hrows. split.
    - intros (s & Hin & R). eapply reach_in; [exact F | | apply (Hs s Hin)].
      clear -R. induction R; [constructor|]. eapply reach_step; [exact IHR | now apply open_succ_In].
    - intros Hn. destruct (Hcov n Hn) as (s & Hin & R). exists s. split; auto. now apply open_all. }
  assert (Hsn : sources <> []).
  { intros ->. destruct (nt_nodes g) as [|n l]; [congruence|]. destruct (Hcov n (or_introl eq_refl)) as (s & [] & _). }
  assert (Hgraph : same_graph g (map (nt_label g) (row_nodes ls)) (flat_map (row_edges g) ls)).
  { pose proof Hl as (Hp & Hinj). split; [apply labels_nodup; auto; intros n; apply Hall|]. split; [|split].
    - intros x. rewrite in_map_iff. split.
      + intros (n & <- & Hn). exists n. split; auto. now apply Hall.
      + intros (n & Hn & ->). exists n. split; auto. now apply Hall.
    - intros u v Hu Hv. apply Hall in Hv as Hv'. apply row_nodes_In in Hv' as (p & o & Hsh).
      destruct (C86_directed eqb eqb_ok g ascii_directed None vc sources ls F Hd Hs H u v p o Hsh) as (_ & HT). split.
      + intros He. left. apply row_edges_tells. exists u, v. split; auto. split; auto. now apply HT.
      + intros [He | (Hf & _)]; [|congruence]. apply row_edges_tells in He as (u' & v' & E1 & E2 & HT').
        assert (Ht := HT'). destruct Ht as (p' & o' & Hsh' & _).
        assert (Hv'' : In v' (nt_nodes g)) by (apply Hall, row_nodes_In; eauto).
        assert (v = v') by auto. subst v'.
        destruct (C86_directed eqb eqb_ok g ascii_directed None vc sources ls F Hd Hs H u' v p o Hsh) as (_ & HT2).
        apply HT2 in HT' as (K1 & K2). assert (u = u') by auto. now subst.
    - intros x y He. apply row_edges_tells in He as (u & v & -> & -> & HT). assert (Ht := HT). destruct Ht as (p & o & Hsh & _).
      destruct (C86_directed eqb eqb_ok g ascii_directed None vc sources ls F Hd Hs H u v p o Hsh) as (_ & HT2).
      apply HT2 in HT as (K1 & K2). exists u, v. repeat split; auto. apply Hall, row_nodes_In; eauto. }
  destruct (existsb (fun n => match nt_succ g n with [] => false | _ => true end) (nt_nodes g)) eqn:Ee.
  - (* some edge *)
    apply existsb_exists in Ee as (u & Hu & Eu). assert (Hsu : nt_succ g u <> []) by (now destruct (nt_succ g u)).
    destruct (parse_kind g true vc sources ls F Hcol Hl Hs Hne Hsn H) as (l & r & El & Hp).
    eexists true, _, _. split; [exact H|]. split; [|split; [exact Hgraph|]].
    + apply Hp. apply guess_true.
      * intros y i Hy Hi. destruct (read_lines g true vc sources ls F Hcol Hl Hs Hne H) as (_ & Hw).
        assert (Hy' : In y (map line_text ls)) by (rewrite El; now right).
        apply in_map_iff in Hy' as (z & <- & Hz). destruct (Hw z Hz) as (_ & K). apply K. exact Hi.
      * assert (H' := H). unfold generate in H'. destruct (nt_nodes g) as [|x0 l0] eqn:En; [congruence|]. rewrite <- En in *.
        destruct ls as [|l1 ls']; [discriminate|]. cbn [map] in El. inversion El; subst l r.
        destruct (rest_marked eqb eqb_ok g vc _ _ _ _ Hd Hcol H') as (z & i & Hz & Hi & E).
        { exists u. split; auto. now apply Hall. }
        exists (line_text z), i. split; [now apply in_map | auto].
    + split; auto. intros _. destruct (nt_succ g u) as [|v ?] eqn:E; [congruence|]. exists u, v. split; auto. rewrite E. now left.
  - (* no edge *)
    assert (Hno : forall n, In n (nt_nodes g) -> nt_succ g n = []).
    { intros n Hn. destruct (nt_succ g n) eqn:E; auto. assert (K : existsb (fun n => match nt_succ g n with [] => false | _ => true end) (nt_nodes g) = true).
      { apply existsb_exists. exists n. split; auto. now rewrite E. } congruence. }
    assert (Hiso : forall n, In n (nt_nodes g) -> nt_succ g n = [] /\ nt_pred g n = []).
    { intros n Hn. split; auto. destruct (nt_pred g n) as [|m ?] eqn:E; auto. exfalso.
      assert (Hm : In m (nt_pred g n)) by (rewrite E; now left). assert (Hmn := fn_pred_closed g F m n Hn Hm).
      apply (fn_pred g F m n Hmn Hn) in Hm. rewrite (Hno m Hmn) in Hm. destruct Hm. }
    assert (H' : generate eqb g (gl_of false) None vc sources = Ok ls).
    { unfold generate in *. destruct (nt_nodes g) as [|x0 l0] eqn:En; [congruence|]. rewrite <- En in *.
      change (gl_of false) with ascii_undirected. rewrite <- loop_isolated; auto.
      intros f Hf. destruct (roots_frame _ _ Hf) as (E1 & E2 & E3 & n & E4 & E5). repeat split; auto. exists n. split; auto. }
    destruct (parse_kind g false vc sources ls F Hcol Hl Hs Hne Hsn H') as (l & r & El & Hp).
    eexists false, _, _. split; [exact H|]. split; [|split; [exact Hgraph|]].
    + apply Hp. apply guess_false. intros y i Hy Hi.
      destruct (read_lines g false vc sources ls F Hcol Hl Hs Hne H') as (_ & Hw).
      assert (Hy' : In y (map line_text ls)) by (rewrite El; now right).
      apply in_map_iff in Hy' as (z & <- & Hz). destruct (Hw z Hz) as (_ & K). apply K. exact Hi.
    + split; [discriminate|]. intros (u & v & Hu & Hv). rewrite (Hno u Hu) in Hv. destruct Hv.
Qed.

(* an undirected graph *)
Theorem C107_undirected (g : net N) vc sources :
  finite_net g -> nt_directed g = false -> (forall n, nt_collapse g n = false) -> plainly_labelled g ->
  (forall s, In s sources -> In s (nt_nodes g)) ->
  (forall n, In n (nt_nodes g) -> exists s, In s sources /\ reach (nt_succ g) s n) ->
  exists ls ns es,
    generate eqb g ascii_undirected None vc sources = Ok ls /\
    parse (map line_text ls) = Ok (false, ns, es) /\ same_graph g ns es.
Proof.
  intros F Hd Hcol Hl Hs Hcov.
  destruct (C68_reachable eqb eqb_ok g ascii_undirected vc sources F Hs) as (ls & H & ND & Hrows).
  exists ls.
  destruct (nt_nodes g) as [|x0 l0] eqn:En.
  { unfold generate in H. rewrite En in H. inversion H; subst. exists [], []. split; [unfold generate; now rewrite En|]. split; [reflexivity|].
    unfold same_graph. rewrite En. split; [constructor|]. split; [|split].
    - intros x. split; [intros [] | intros (n & [] & _)].
    - intros u v [].
    - intros x y []. }
  assert (Hne : nt_nodes g <> []) by congruence. rewrite <- En in *. clear x0 l0 En.
  assert (Hall : forall n, In n (row_nodes ls) <-> In n (nt_nodes g)).
  { intros n. rewrite Hrows. split.
    - intros (s & Hin & R). eapply reach_in; [exact F | | apply (Hs s Hin)].
      clear -R. induction R; [constructor|]. eapply reach_step; [exact IHR | now apply open_succ_In].
    - intros Hn. destruct (Hcov n Hn) as (s & Hin & R). exists s. split; auto. now apply open_all. }
  assert (Hsn : sources <> []).
  { intros ->. destruct (nt_nodes g) as [|n l]; [congruence|]. destruct (Hcov n (or_introl eq_refl)) as (s & [] & _). }
  destruct (C86_undirected eqb eqb_ok g ascii_undirected vc sources ls F Hd Hcol Hs H) as (T1 & T2 & _ & T3).
  assert (Hgraph : same_graph g (map (nt_label g) (row_nodes ls)) (flat_map (row_edges g) ls)).
  { pose proof Hl as (Hp & Hinj). split; [apply labels_nodup; auto; intros n; apply Hall|].
    assert (Hends : forall u v, tells ls u v -> In u (nt_nodes g) /\ In v (nt_nodes g)) by (intros; eapply tells_nodes; eauto).
    assert (Hsym : forall u v, In u (nt_nodes g) -> In v (nt_nodes g) -> In v (nt_succ g u) -> In u (nt_succ g v)).
    { intros u v Hu Hv He. rewrite <- (fn_undirected g F Hd). now apply (fn_pred g F u v Hu Hv). }
    split; [|split].
    - intros x. rewrite in_map_iff. split.
      + intros (n & <- & Hn). exists n. split; auto. now apply Hall.
      + intros (n & Hn & ->). exists n. split; auto. now apply Hall.
    - intros u v Hu Hv. split.
      + intros He. assert (Hdec : u = v \/ u <> v).
        { destruct (eqb u v) eqn:E; [left; now apply eqb_ok | right; intros ->]. assert (Q := proj2 (eqb_ok v v) eq_refl); congruence. }
        destruct Hdec as [<- | Hneq].
        * left. apply row_edges_tells. exists u, u. split; auto. split; auto. apply T2; auto. now apply Hall.
        * destruct (T1 u v He) as [(K & _) | (K & _)]; auto; [now apply Hall | left | right; split; auto];
            apply row_edges_tells; eauto.
      + intros [He | (_ & He)]; apply row_edges_tells in He as (a & b & E1 & E2 & HT);
          destruct (Hends a b HT) as (Ka & Kb); apply T3 in HT.
        * assert (u = a) by auto. assert (v = b) by auto. now subst.
        * assert (v = a) by auto. assert (u = b) by auto. subst. now apply Hsym.
    - intros x y He. apply row_edges_tells in He as (u & v & -> & -> & HT). destruct (Hends u v HT). eauto 10. }
  destruct (parse_kind g false vc sources ls F Hcol Hl Hs Hne Hsn H) as (l & r & El & Hp).
  eexists _, _. split; [exact H|]. split; [|exact Hgraph].
  apply Hp. apply guess_false. intros y i Hy Hi.
  destruct (read_lines g false vc sources ls F Hcol Hl Hs Hne H) as (_ & Hw).
  assert (Hy' : In y (map line_text ls)) by (rewrite El; now right).
  apply in_map_iff in Hy' as (z & <- & Hz). destruct (Hw z Hz) as (_ & K). apply K. exact Hi.
Qed.
End Parse.
Print Assumptions C107_directed.
Print Assumptions C107_undirected.

(* the example graph with numbers as labels *)
Definition numbered (directed : bool) : net nat :=
  let g := net_of directed [0; 1; 2; 3; 4]%nat ex_edges in
  mkNet (nt_nodes g) (nt_directed g) (nt_succ g) (nt_pred g) (fun n => N_str (N.of_nat n)) (nt_collapse g).
Lemma numbered_finite d : finite_net (numbered d).
Proof. destruct (ex_net_finite d). constructor; auto. Qed.
Lemma numbered_plain d : plainly_labelled (numbered d).
Proof.
  assert (K : forall n, In n [0; 1; 2; 3; 4]%nat -> plain_label (N_str (N.of_nat n))).
  { intros n Hn. split; [|split].
    - cbn in Hn. repeat (destruct Hn as [<- | Hn]; [discriminate|]). destruct Hn.
    - cbn in Hn. repeat (destruct Hn as [<- | Hn]; [discriminate|]). destruct Hn.
    - intros c Hc. cbn in Hn. repeat (destruct Hn as [<- | Hn]; [vm_compute in Hc; destruct c as [[] [] [] [] [] [] [] []]; try discriminate Hc; reflexivity|]). destruct Hn. }
  split; [exact K|]. intros m n Hm Hn E. apply (f_equal parse_nat) in E.
  cbn in Hm, Hn; repeat (destruct Hm as [<- | Hm]; [repeat (destruct Hn as [<- | Hn]; [try reflexivity; vm_compute in E; discriminate|]); destruct Hn|]); destruct Hm.
Qed.
Example C107_case : forall d,
  (forall n, In n (nt_nodes (numbered d)) -> exists s, In s [0; 4]%nat /\ reach (nt_succ (numbered d)) s n) /\
  exists ls, generate Nat.eqb (numbered d) (if d then ascii_directed else ascii_undirected) None true [0; 4]%nat = Ok ls /\
    parse (map line_text ls) =
      Ok (d, ["0"; "1"; "2"; "3"; "4"],
          if d then [("2", "0"); ("0", "1"); ("1", "2"); ("4", "3"); ("1", "3")]
          else [("0", "1"); ("0", "2"); ("1", "2"); ("1", "3"); ("3", "4")])%string.
Proof.
  intros d. split.
  - assert (R : forall a b c, reach (nt_succ (numbered d)) a b -> In c (nt_succ (numbered d) b) -> reach (nt_succ (numbered d)) a c) by (intros; eapply reach_step; eauto).
    assert (R0 : reach (nt_succ (numbered d)) 0%nat 0%nat) by constructor.
    assert (R1 : reach (nt_succ (numbered d)) 0%nat 1%nat) by (apply (R _ 0%nat); auto; destruct d; cbn; auto).
    intros n Hn. cbn in Hn. destruct Hn as [<- | [<- | [<- | [<- | [<- | []]]]]].
    + exists 0%nat. split; [now left | exact R0].
    + exists 0%nat. split; [now left | exact R1].
    + exists 0%nat. split; [now left|]. apply (R _ 1%nat); auto. destruct d; cbn; auto.
    + exists 0%nat. split; [now left|]. apply (R _ 1%nat); auto. destruct d; cbn; auto.
    + exists 4%nat. split; [right; now left | constructor].
  - destruct d; eexists; (split; [vm_compute; reflexivity | vm_compute; reflexivity]).
Qed.

(* without an edge the text of a directed graph is taken for that of an undirected one *)
Theorem C107_kind_refuted : ~ (forall (g : net nat) vc sources ls directed ns es,
  finite_net g -> plainly_labelled g -> nt_directed g = true ->
  (forall s, In s sources <-> In s (nt_nodes g)) ->
  generate Nat.eqb g ascii_directed None vc sources = Ok ls ->
  parse (map line_text ls) = Ok (directed, ns, es) -> directed = true).
Proof.
  intros H. specialize (H (mkNet [0]%nat true (fun _ => []) (fun _ => []) (fun _ => "a"%string) (fun _ => false)) false [0]%nat).
  discriminate (H [Row (Node 0%nat) None [] "+-- a"%string] false ["a"%string] []).
  - constructor; cbn.
    + constructor; [intros [] | constructor].
    + intros a b _ [].
    + intros a. constructor.
    + intros a. constructor.
    + intros a b _ _. tauto.
    + intros a b _ [].
    + discriminate.
  - split; cbn.
    + intros n _. split; [discriminate|]. split; [discriminate|]. intros c Hc. destruct c as [[] [] [] [] [] [] [] []]; try discriminate Hc; reflexivity.
    + intros m n [<- | []] [<- | []] _. reflexivity.
  - reflexivity.
  - reflexivity.
  - reflexivity.
  - reflexivity.
Qed.
Print Assumptions C107_kind_refuted.
