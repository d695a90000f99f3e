(* C28: overviews of warps with a chosen size. *)
From Verif Require Import Py PyProofs GeomModel GeomProofs GraphModel GraphSpec GraphBase GraphOpt GraphSize GraphTotal GraphProps OvTotal OvConcatProps OvGrowProofs OvGrowDq OvGrowProps.
From Coq Require Import Qround.
Local Open Scope Z_scope.

(* half of an image of w0 x 16 pixels moved one column to the right and shown on w x 16 pixels *)
Definition ex_canvas (w0 w : Z) : node :=
  the (mkOverview (Warp (img 1 w0 16 ["a"%string] (Some 3)) (aff_translate 1 0) (w, 16) default_algo) 1).

Lemma ex_canvas_made w0 w : 0 <= w0 -> 0 <= w -> made (ex_canvas w0 w).
Proof. intros H0 H. apply made_ov; [|reflexivity]. apply made_warp; [|reflexivity|cbn; lia]. apply made_img; lia. Qed.

Lemma moved_stays f s M d no : (exists l, s = Leaf l /\ l_kind l = Data) \/ (exists l k z, s = Overview (Leaf l) k z) -> num_overviews s = Ok no ->
  close_identity (al_eps default_algo) M = false -> split_levels axis_oracle M = Ok None -> absorbs axis_oracle M = false ->
  opt_warp axis_oracle f s M d default_algo = Ok (Warp s M d default_algo).
Proof.
  intros Hs Hn Hc Hl Ha.
  assert (R : (sp <- split_warp axis_oracle f s M d default_algo ;;
    match sp with Some n => n' <- opt_sub f n ;; f n' | None => absorb axis_oracle s M d default_algo end) = Ok (Warp s M d default_algo)).
  { unfold split_warp. rewrite Hn. cbn [bind]. assert (A : absorb axis_oracle s M d default_algo = Ok (Warp s M d default_algo)).
    { unfold absorb. rewrite Ha. reflexivity. }
    destruct no as [n|]; [|exact A]. destruct (n =? 0); [exact A|]. rewrite Hl. exact A. }
  unfold opt_warp. destruct Hs as [(l & -> & Hk)|(l & k & z & ->)]; cbv beta iota zeta; rewrite Hc, andb_false_r; [unfold is_nans; rewrite Hk|]; exact R.
Qed.

Lemma ex_canvas_optimized w0 w : exists C t', warp_after_overview 1 (aff_translate 1 0) = Ok C /\ optimizes axis_oracle (ex_canvas w0 w) t' /\
  dsize t' = Some (auto_dsize C (overview_dsize 1 (w0, 16))).
Proof.
  destruct (warp_after_overview 1 (aff_translate 1 0)) as [C|] eqn:EC; [|discriminate]. exists C.
  pose (s := img 1 w0 16 ["a"%string] (Some 3)). pose (v := Overview s 1 (overview_dsize 1 (w0, 16))).
  exists (Warp v C (auto_dsize C (overview_dsize 1 (w0, 16))) default_algo). split; [reflexivity|]. split; [|reflexivity].
  set (D := auto_dsize C (overview_dsize 1 (w0, 16))). pose (M := aff_translate 1 0).
  assert (N : warp_after_overview_node s M 1 = Ok (Warp v C D default_algo)) by (unfold warp_after_overview_node, M; rewrite EC; reflexivity).
  assert (W : O axis_oracle 7 (Warp s M (w, 16) default_algo) = Ok (Warp s M (w, 16) default_algo)).
  { rewrite O_warp. change (O axis_oracle 6 s) with (Ok s). cbn [bind].
    apply (moved_stays _ s _ _ (Some 3)); [left; eexists; split; reflexivity|reflexivity..]. }
  assert (V : O axis_oracle 7 (Warp v C D default_algo) = Ok (Warp v C D default_algo)).
  { rewrite O_warp. change (O axis_oracle 6 v) with (Ok v). cbn [bind].
    apply (moved_stays _ v _ _ (Some 2)); [right; eexists _, _, _; reflexivity|reflexivity|..]; clear -EC; vm_compute in EC; injection EC as <-; reflexivity. }
  apply (O_opts _ 8). change (ex_canvas w0 w) with (Overview (Warp s M (w, 16) default_algo) 1 (overview_dsize 1 (w, 16))).
  rewrite O_overview, W. cbn [bind opt_overview]. change (1 =? 0) with false. cbv iota. rewrite N. cbn [bind]. rewrite V. reflexivity.
Qed.

Lemma half_len n : 0 <= n -> overview_len 1 (2 * n) = n.
Proof. intros H. rewrite overview_len_ceil by lia. change (2 ^ 1) with 2. replace (- (2 * n)) with ((- n) * 2) by lia. rewrite Z.div_mul by lia. lia. Qed.

Lemma half_canvas n C : 0 <= n -> warp_after_overview 1 (aff_translate 1 0) = Ok C -> auto_dsize C (overview_dsize 1 (2 * n, 16)) = (n + 1, 8).
Proof.
  intros Hn EC. unfold overview_dsize. cbn [fst snd]. rewrite half_len by lia. change (overview_len 1 16) with 8.
  assert (U : unit_lin C /\ (b1 C == 1 # 2)%Q /\ (b2 C == 0)%Q).
  { vm_compute in EC. injection EC as <-. repeat split; reflexivity. }
  destruct U as (U & U1 & U2). rewrite (auto_unit C n 8 U) by lia. f_equal.
  - rewrite (Qceiling_comp _ (inject_Z n + (1 # 2))) by now rewrite U1. 
    pose proof (ceil_ge (inject_Z n + (1 # 2))) as A. pose proof (ceil_lt (inject_Z n + (1 # 2))) as B. set (c := Qceiling (inject_Z n + (1 # 2))) in *. clearbody c.
    assert (X : (inject_Z n < inject_Z c)%Q) by lra. assert (Y : (inject_Z c < inject_Z (n + 2))%Q) by (rewrite inject_Z_plus; change (inject_Z 2) with 2%Q; lra).
    rewrite <- Zlt_Qlt in X, Y. lia.
  - rewrite (Qceiling_comp _ (inject_Z 8)) by (rewrite U2; reflexivity). apply ceil_Z.
Qed.

(** With warps of a chosen size there is no bound: the size can grow and shrink by any
    amount.  An overview of a warp becomes a warp of an overview, and the size chosen for
    the warp is forgotten. *)
Theorem C28_unbounded_refuted : forall N, 0 <= N ->
  (exists t t' w w' h, made t /\ optimizes axis_oracle t t' /\ dsize t = Some (w, h) /\ dsize t' = Some (w', h) /\ w + N <= w') /\
  (exists t t' w w' h, made t /\ optimizes axis_oracle t t' /\ dsize t = Some (w, h) /\ dsize t' = Some (w', h) /\ w' + N <= w).
Proof.
  intros N HN. split.
  - destruct (ex_canvas_optimized (2 * (N + 1)) (2 * 1)) as (C & t' & EC & Ho & Hd).
    rewrite (half_canvas (N + 1) C ltac:(lia) EC) in Hd.
    exists (ex_canvas (2 * (N + 1)) (2 * 1)), t', 1, (N + 1 + 1), 8. split; [apply ex_canvas_made; lia|].
    split; [exact Ho|]. split; [reflexivity|]. split; [exact Hd|lia].
  - destruct (ex_canvas_optimized (2 * 8) (2 * (N + 9))) as (C & t' & EC & Ho & Hd).
    rewrite (half_canvas 8 C ltac:(lia) EC) in Hd.
    exists (ex_canvas (2 * 8) (2 * (N + 9))), t', (N + 9), 9, 8. split; [apply ex_canvas_made; lia|].
    split; [exact Ho|]. split; [|split; [exact Hd|lia]].
    unfold ex_canvas, mkOverview. cbn [dsize the]. unfold overview_dsize. cbn [fst snd]. now rewrite half_len by lia.
Qed.
Print Assumptions C28_unbounded_refuted.
