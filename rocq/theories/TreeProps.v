(* Properties of walks over operation trees. *)
From Verif Require Import Py PyProofs TreeModel TreeSpec TreeProofs.
From Coq Require Import ZifyBool.
Local Open Scope Z_scope.

(** warp(concat(crop(load 0), load 0, concat(load 1))); the two loads share an
    object *)
Definition ex_n (i : nat) (c : string) : label := mkN (Some i) c i.
Definition ex_load : tree := TUnary (ex_n 0 "DelayedLoad") None.
Definition ex_tree : tree :=
  TUnary (ex_n 5 "DelayedWarp") (Some (TNary (ex_n 4 "DelayedChannelConcat")
    [TUnary (ex_n 2 "DelayedCrop") (Some ex_load); ex_load; TNary (ex_n 3 "DelayedChannelConcat") [TUnary (ex_n 1 "DelayedLoad") None]])).

(** * C59: traversal *)

Theorem C59_traverse t : exists out ps,
  traverse t = Ok out /\ lists t (fun _ => True) ps /\
  Forall2 (fun p pn => node_at t p = Some (snd pn) /\ above t p = fst pn) ps out.
Proof.
  exists (map (fun q => (above t q, nd t q)) (order true t)), (order true t). split; [|split].
  - unfold traverse. rewrite <- (app_nil_r (order true t)). rewrite <- (map_id (order true t)).
    change ([(None, t)]) with (map (fun q => (above t q, nd t q)) [[]]).
    rewrite traverse_walk.
    + cbn [flat_map]. unfold below. cbn [nd node_at]. reflexivity.
    + repeat constructor. discriminate.
    + rewrite weight_cons. unfold weight, nd. cbn. lia.
  - apply lists_all.
  - assert (H : forall p, In p (order true t) -> node_at t p <> None) by (intros p; apply order_In).
    induction (order true t) as [|p ps IH]; cbn; constructor.
    + split; [|reflexivity]. apply nd_valid. apply H. now left.
    + apply IH. intros q Hq. apply H. now right.
Qed.
Print Assumptions C59_traverse.

Theorem C59_leafs t : exists out ps,
  leafs t = Ok out /\ lists t childless ps /\ Forall2 (fun p n => node_at t p = Some n) ps out.
Proof.
  exists (map (nd t) (filter (leaf_pos t) (order true t))), (filter (leaf_pos t) (order true t)). split; [|split].
  - unfold leafs. change [t] with (map (nd t) [[]]). rewrite leafs_walk.
    + cbn [flat_map]. unfold below. cbn [nd node_at]. change (nd t []) with t. rewrite app_nil_r. cbn [app]. now rewrite map_id.
    + repeat constructor. discriminate.
    + rewrite weight_cons. unfold weight, nd. cbn. lia.
  - apply lists_order. intros p n E. unfold leaf_pos, nd, childless. rewrite E. destruct (children n); split; congruence.
  - assert (H : forall p, In p (filter (leaf_pos t) (order true t)) -> node_at t p <> None).
    { intros p Hp. apply filter_In in Hp as [Hp _]. now apply order_In in Hp. }
    induction (filter (leaf_pos t) (order true t)) as [|p ps IH]; cbn; constructor.
    + apply nd_valid. apply H. now left.
    + apply IH. intros q Hq. apply H. now right.
Qed.
Print Assumptions C59_leafs.

(* one graph node per position, all with different names, and one edge from the
   name of the parent to the name of every position but the root *)
Theorem C59_graph t : exists g ps (nm : list nat -> string),
  traversed_graph t = Ok g /\ lists t (fun _ => True) ([] :: ps) /\
  NoDup (map fst (gr_nodes g)) /\
  Forall2 (fun p kn => fst kn = nm p /\ node_at t p = Some (snd kn)) ([] :: ps) (gr_nodes g) /\
  gr_edges g = map (fun p => (nm (removelast p), nm p)) ps.
Proof.
  assert (E : order false t = [] :: tl (order false t)) by (rewrite order_eq; reflexivity).
  exists (graph_of t (order false t)), (tl (order false t)), (name t). split; [|split; [|split; [|split]]].
  - unfold traversed_graph. change [(None, t)] with (map (fun q => (pid t q, nd t q)) [[]]).
    change 0 with (Z.of_nat (List.length (@nil (list nat)))). change (mkGr [] []) with (graph_of t []).
    apply graph_walk.
    + repeat constructor. discriminate.
    + rewrite weight_cons. unfold weight, nd. cbn. lia.
    + cbn [flat_map app]. unfold below. change (nd t []) with t. rewrite app_nil_r. now rewrite map_id.
  - rewrite <- E. apply lists_all.
  - cbn [graph_of gr_nodes]. rewrite map_map. cbn [fst].
    apply NoDup_map_in; [apply order_NoDup|]. intros p q Hp Hq. now apply name_inj.
  - rewrite <- E. cbn [graph_of gr_nodes]. clear E.
    assert (H : forall p, In p (order false t) -> node_at t p <> None) by (intros p; apply order_In).
    induction (order false t) as [|p ps IH]; cbn; constructor.
    + split; [reflexivity|]. apply nd_valid. apply H. now left.
    + apply IH. intros q Hq. apply H. now right.
  - cbn [graph_of gr_edges]. f_equal. rewrite E at 1. cbn [filter nonroot].
    assert (N : ~ In [] (tl (order false t))). { pose proof (order_NoDup false t) as ND. rewrite E in ND. now inversion ND. }
    clear E. induction (tl (order false t)) as [|p ps IH]; [reflexivity|]. cbn [filter]. destruct p as [|i p]; [destruct N; now left|]. cbn [nonroot].
    f_equal. apply IH. intros X. apply N. now right.
Qed.
Print Assumptions C59_graph.

Example C59_example :
  rmap (map (fun pn => n_class (label_of (snd pn)))) (traverse ex_tree)
    = Ok ["DelayedWarp"; "DelayedChannelConcat"; "DelayedChannelConcat"; "DelayedLoad"; "DelayedLoad"; "DelayedCrop"; "DelayedLoad"]%string /\
  rmap (map (fun n => n_id (label_of n))) (leafs ex_tree) = Ok [Some 1; Some 0; Some 0]%nat /\
  rmap gr_edges (traversed_graph ex_tree)
    = Ok [("DelayedWarp_0", "DelayedChannelConcat_1"); ("DelayedChannelConcat_1", "DelayedCrop_2"); ("DelayedCrop_2", "DelayedLoad_3");
          ("DelayedChannelConcat_1", "DelayedLoad_4"); ("DelayedChannelConcat_1", "DelayedChannelConcat_5"); ("DelayedChannelConcat_5", "DelayedLoad_6")]%string.
Proof. repeat split; vm_compute; reflexivity. Qed.

(** * C60: nested parameters *)

Theorem C60_nested_params {V} (kwargs : list (string * V)) t (st : nat -> list (string * V)) :
  NoDup (map fst kwargs) -> (forall m, NoDup (map fst (st m))) ->
  exists st', set_nested_params kwargs t st = Ok st' /\
  forall m,
    (* the keys, in order, are those it had *)
    map fst (st' m) = map fst (st m) /\
    (* the dictionary of a node of the tree: given keys it has are overridden *)
    ((exists p n, node_at t p = Some n /\ n_meta (label_of n) = m) -> forall k, dict_get k (st' m) = wanted kwargs (st m) k) /\
    (* any other dictionary is unchanged *)
    ((forall p n, node_at t p = Some n -> n_meta (label_of n) <> m) -> st' m = st m).
Proof.
  intros Hk Hst. destruct (C59_traverse t) as (out & ps & E & [ND L] & F). unfold set_nested_params. rewrite E. cbn [bind].
  eexists. split; [reflexivity|]. intros m.
  assert (Hf : forall l (s : metas), fold_left (fun st pn => update_meta kwargs st (n_meta (label_of (snd pn)))) l s
      = fold_left (fun st m => update_meta kwargs st m) (map (fun pn : option tree * tree => n_meta (label_of (snd pn))) l) s).
  { induction l as [|x l IH]; intros s; [reflexivity|]. cbn. apply IH. }
  rewrite Hf. destruct (params_fold kwargs (map (fun pn : option tree * tree => n_meta (label_of (snd pn))) out) Hk st Hst m) as (H1 & H2 & H3).
  split; [exact H1|].
  assert (IN : In m (map (fun pn : option tree * tree => n_meta (label_of (snd pn))) out) <-> exists p n, node_at t p = Some n /\ n_meta (label_of n) = m).
  { split.
    - intros X. apply in_map_iff in X as (pn & <- & Hpn). clear -F Hpn. induction F as [|p pn' ps out [H _] F IH]; [destruct Hpn|].
      destruct Hpn as [->|X]; [eauto|auto].
    - intros (p & n & Ep & En). assert (Hp : In p ps) by (apply L; eauto). clear -F Hp Ep En. induction F as [|p' pn ps out [H _] F IH]; [destruct Hp|].
      destruct Hp as [->|X]; [|right; now apply IH]. left. rewrite Ep in H. injection H as ->. exact En. }
  split; [intros X; apply H2; now apply IN|]. intros X. apply H3. intros Y. apply IN in Y as (p & n & Ep & En). now apply (X p n).
Qed.
Print Assumptions C60_nested_params.

Example C60_nested_params_example :
  let st := fun m => match m with 5%nat => [("interpolation", 1); ("dsize", 7)] | 2%nat => [("dsize", 8)] | 9%nat => [("interpolation", 4)] | _ => [] end%string in
  rmap (fun st' => map st' [5; 2; 9]%nat) (set_nested_params [("interpolation", 3); ("nosuch", 0)]%string ex_tree st)
  = Ok [[("interpolation", 3); ("dsize", 7)]; [("dsize", 8)]; [("interpolation", 4)]]%string.
Proof. reflexivity. Qed.

(** * C62: leaf paths *)

Theorem C62_leaf_paths_refuted :
  ~ (forall t, objects t -> exists out, leaf_paths t = Ok out).
Proof.
  intros H. destruct (H (TNary (ex_n 0 "DelayedChannelConcat") [])) as (out & E).
  - intros [|i p] [|j q] n m E1 E2 _; cbn in *; try (destruct i; discriminate); try (destruct j; discriminate). congruence.
  - vm_compute in E. discriminate E.
Qed.
Print Assumptions C62_leaf_paths_refuted.

(* full statement: the same without the hypothesis that no concatenation is empty *)
Theorem C62_leaf_paths_partial t :
  objects t -> (forall p n, node_at t p = Some n -> is_concat n -> ~ childless n) ->
  exists out ps, leaf_paths t = Ok out /\ lists t childless ps /\
    Forall2 (fun p lc => node_at t p = Some (fst lc) /\ chain (snd lc) (ops_along t p)) ps out.
Proof.
  intros Ho Hc.
  assert (Hp : forall q, valid t q -> leaf_pos t q = true -> exists r, contract None None (up_from t q) = Ok r /\ chain r (ops_along t q)).
  { intros q V L. apply contract_ok; try assumption. intros C. apply (Hc q (nd t q)); [now apply nd_valid|exact C|].
    unfold leaf_pos, childless in *. now destruct (children (nd t q)). }
  pose (part := fun q => match contract None None (up_from t q) with Ok r => r | Err _ => t end).
  exists (map (fun q => (nd t q, part q)) (filter (leaf_pos t) (order true t))), (filter (leaf_pos t) (order true t)). split; [|split].
  - unfold leaf_paths. change [[t]] with (map (up_from t) [[]]). rewrite (leaf_paths_walk t part).
    + cbn [flat_map]. unfold below. change (nd t []) with t. rewrite app_nil_r. cbn [app]. now rewrite map_id.
    + repeat constructor. discriminate.
    + rewrite weight_cons. unfold weight, nd. cbn. lia.
    + intros q V L. destruct (Hp q V L) as (r & E & _). unfold part. now rewrite E.
  - apply lists_order. intros p n E. unfold leaf_pos, nd, childless. rewrite E. destruct (children n); split; congruence.
  - assert (H : forall p, In p (filter (leaf_pos t) (order true t)) -> valid t p /\ leaf_pos t p = true).
    { intros p Hq. apply filter_In in Hq as [Hq L]. split; [now apply order_In in Hq|exact L]. }
    induction (filter (leaf_pos t) (order true t)) as [|p ps IH]; cbn; constructor.
    + destruct (H p (or_introl eq_refl)) as [V L]. cbn [fst snd]. split; [now apply nd_valid|]. destruct (Hp p V L) as (r & E & C).
      unfold part. now rewrite E.
    + apply IH. intros q Hq. apply H. now right.
Qed.
Print Assumptions C62_leaf_paths_partial.

(* the crop below the warp and the concatenation ends up directly below the warp *)
Example C62_leaf_paths_example :
  rmap (map snd) (leaf_paths ex_tree) =
  Ok (let w sub := TUnary (mkN None "DelayedWarp" 5) (Some sub) in
      [w (TUnary (ex_n 1 "DelayedLoad") None); w ex_load; w (TUnary (ex_n 2 "DelayedCrop") (Some ex_load))]) /\
  ops_along ex_tree [0; 0; 0]%nat = [("DelayedWarp", 5); ("DelayedCrop", 2); ("DelayedLoad", 0)]%nat%string.
Proof. split; vm_compute; reflexivity. Qed.

Example C62_hypotheses_example :
  objects ex_tree /\ forall p n, node_at ex_tree p = Some n -> is_concat n -> ~ childless n.
Proof.
  assert (D : forall p n, node_at ex_tree p = Some n -> In p (order true ex_tree)).
  { intros p n E. apply order_In. congruence. }
  vm_compute in D. split.
  - assert (N : forall p n, node_at ex_tree p = Some n -> In n (map (nd ex_tree) (order true ex_tree))).
    { intros p n E. apply in_map_iff. exists p. split; [unfold nd; now rewrite E|exact (D p n E)]. }
    vm_compute in N. intros p q n m E1 E2. apply N in E1. apply N in E2. clear -E1 E2.
    repeat match goal with H : _ \/ _ |- _ => destruct H as [<-|H] | H : False |- _ => destruct H end;
      cbn; intros X; (reflexivity || discriminate X).
  - intros p n E C. pose proof (D p n E) as P.
    repeat (destruct P as [<-|P]; [cbn in E; injection E as <-; (discriminate || (destruct C as (? & ? & C); discriminate))|]); destruct P.
Qed.
