(* C28 with overviews: how much optimize() can change the size. *)
From Verif Require Import Py PyProofs GeomModel GraphModel GraphSpec GraphBase GraphOpt GraphSize GraphTotal GraphProps OvTotal OvConcatProps OvGrowProofs OvGrowDq.
Local Open Scope Z_scope.

(* crops, band selections, dequantizations and overviews of one image, with some pixel everywhere *)
Fixpoint pyramid (t : node) : Prop :=
  match t with
  | Leaf l => l_kind l = Data /\ 0 < fst (l_dsize l) /\ 0 < snd (l_dsize l)
  | Crop s _ _ _ d _ _ => pyramid s /\ 0 < fst d /\ 0 < snd d
  | Dequant s _ _ => pyramid s
  | Overview s k _ => pyramid s /\ 0 <= k
  | _ => False
  end.

Lemma pyramid_nf o t : sane o -> tight t -> pyramid t ->
  forall g r n, O o g t = Ok r -> dsize t = Some n -> nf n r \/ nfd n r.
Proof.
  intros So. induction t as [l|ps d IH|s ys xs ci d nm nc IH|s M d al IH|s q d IH|s k d IH] using node_ind'; intros Ht Hp g r n H Hd; try contradiction.
  - apply O_leaf in H. subst r. injection Hd as <-. destruct Hp as (Hk & Hw & Hh). left. apply nf_base. now apply base_leaf.
  - destruct g; [discriminate|]. rewrite O_crop in H. apply bind_ok in H as (s1 & H1 & H2). cbn in Ht, Hp, Hd. injection Hd as <-.
    destruct Ht as (Ht & _ & -> & w & h & Hs & X1 & X2 & Y1 & Y2), Hp as (Hp & P1 & P2).
    assert (W : window (w, h) ys xs) by (cbn in P1, P2; unfold iv_len in P1, P2; unfold window; cbn; lia).
    destruct (IH Ht Hp _ _ _ H1 Hs) as [Hn|Hn]; [left; eapply crop_nf|right; eapply crop_nfd]; eassumption.
  - destruct g; [discriminate|]. rewrite O_dequant in H. apply bind_ok in H as (s1 & H1 & H2). cbn in Ht, Hp, Hd.
    destruct Ht as (Ht & ->). assert (Hs : dsize s = Some n) by (now destruct (dsize s)). clear Hd. rename Hs into Hd. rewrite Hd in H2. destruct (IH Ht Hp _ _ _ H1 Hd) as [Hn|Hn]; [right; eapply dq_nf; eassumption|].
    exfalso. eapply dq_nfd; eassumption.
  - destruct g; [discriminate|]. rewrite O_overview in H. apply bind_ok in H as (s1 & H1 & H2). cbn in Ht, Hp, Hd. injection Hd as <-.
    destruct Ht as (Ht & z & Hs & ->), Hp as (Hp & Hk).
    destruct (IH Ht Hp _ _ _ H1 Hs) as [Hn|Hn]; [left; eapply ov_nf|right; eapply ov_nfd]; eassumption.
Qed.

(** C28 for crops, band selections, dequantizations and overviews of one image, stacked in any way:
    optimize() never makes it smaller, and larger by at most two pixels along each axis. *)
Theorem C28_overviews_partial : forall o t t' w h, sane o -> made t -> pyramid t -> optimizes o t t' -> dsize t = Some (w, h) ->
  exists w' h', dsize t' = Some (w', h') /\ w <= w' <= w + 2 /\ h <= h' <= h + 2.
Proof.
  intros o t t' w h So Hm Hp H Hd. apply made_ok in Hm as (_ & Ht). apply opts_O in H as (f & H).
  assert (S : exists m, dsize t' = Some m /\ nears (w, h) m).
  { destruct (pyramid_nf o t So Ht Hp f t' (w, h) H Hd) as [G|G]; [exact (nf_size _ _ G)|exact (nfd_size _ _ G)]. }
  destruct S as ([w' h'] & E & Hn). exists w', h'. split; [exact E|exact Hn].
Qed.
Print Assumptions C28_overviews_partial.

Lemma joined_ind' (K P : node -> Prop) : (forall t, K t -> P t) -> (forall ps d, Forall P ps -> P (Concat ps d)) -> forall t, joined K t -> P t.
Proof.
  intros HK HP. fix IH 2. intros t [t0 H|ps d H]; [now apply HK|]. apply HP. induction H as [|p ps H Hs IHs]; constructor; [now apply IH|exact IHs].
Qed.

(** The same for such images, and images that use no overviews, put together by concatenation. *)
Theorem C28_joined_partial : forall o t t' w h, sane o -> made t -> joined (fun p => pyramid p \/ ov_free p) t -> optimizes o t t' ->
  dsize t = Some (w, h) -> exists w' h', dsize t' = Some (w', h') /\ w <= w' <= w + 2 /\ h <= h' <= h + 2.
Proof.
  intros o t t' w h So Hm Hj. destruct (made_ok _ Hm) as [Hw Ht]. clear Hm. revert Hw Ht t' w h.
  pattern t. eapply joined_ind'; [| |exact Hj]; clear t Hj.
  - intros t [Hp|Hp] Hw Ht t' w h H Hd.
    + apply opts_O in H as (f & H). assert (S : exists m, dsize t' = Some m /\ nears (w, h) m).
      { destruct (pyramid_nf o t So Ht Hp f t' (w, h) H Hd) as [G|G]; [exact (nf_size _ _ G)|exact (nfd_size _ _ G)]. }
      destruct S as ([w' h'] & E & Hn). exists w', h'. split; [exact E|exact Hn].
    + destruct (opts_kept _ _ _ Hw Hp Ht H) as (E & _). exists w, h. rewrite <- Hd. split; [exact E|lia].
  - intros ps d IH Hw Ht t' w h (f & b & H) Hd. apply wf_concat in Hw as (Hw & _). apply tight_concat in Ht as (Hne & Ht & Hs).
    destruct f; [discriminate|]. cbn [optimize] in H. apply bind_ok in H as (rs & H1 & H).
    assert (Same : exists w' h', dsize (Concat ps d) = Some (w', h') /\ w <= w' <= w + 2 /\ h <= h' <= h + 2) by (exists w, h; split; [exact Hd|lia]).
    destruct (forallb snd rs); [injection H as <- _; exact Same|].
    destruct (mkConcat (map fst rs)) as [n|] eqn:E; injection H as <- _; [|exact Same].
    destruct ps as [|p ps]; [congruence|]. cbn [mapR] in H1. apply bind_ok in H1 as ([p' bp] & Hp & H1). apply bind_ok in H1 as (rs' & _ & H1).
    injection H1 as <-. inversion IH; inversion Hw; inversion Ht; inversion Hs; subst.
    match goal with X : wf p -> _ |- _ => destruct (X ltac:(assumption) ltac:(assumption) p' w h) as (w' & h' & E1 & E2); [exists f, bp; exact Hp|exact Hd|] end.
    exists w', h'. split; [|exact E2]. unfold mkConcat in E. cbn [map fst] in E. destruct (forallb _ _); [|discriminate]. injection E as <-. exact E1.
Qed.
Print Assumptions C28_joined_partial.

(* half of the dequantized rows 6 and 7 and columns 2..5 of half of rows 7..24 and columns 34..45 of 48 x 31 pixels *)
Definition ex_grows : node :=
  the (mkOverview (mkDequant (the (crop_to (the (mkOverview (the (crop_to (img 1 48 31 ["a"; "b"]%string (Some 3)) 7 25 34 46)) 1)) 6 8 2 6)) (Some 1)) 1).

Lemma made_ov s k : made s -> mkOverview s k = Ok (the (mkOverview s k)) -> made (the (mkOverview s k)).
Proof. intros Hm H. exact (made_overview _ _ _ Hm H). Qed.

(** Two pixels more do occur. *)
Theorem C28_grows_by_two : sane axis_oracle /\ made ex_grows /\ pyramid ex_grows /\ dsize ex_grows = Some (2, 1) /\
  exists t', optimizes axis_oracle ex_grows t' /\ dsize t' = Some (3, 3).
Proof.
  split; [exact axis_sane|]. split.
  { apply made_ov; [|reflexivity]. apply made_dequant. apply made_crop_to; [|reflexivity]. apply made_ov; [|reflexivity].
    apply made_crop_to; [|reflexivity]. apply made_img; lia. }
  split; [vm_compute; intuition discriminate|]. split; [reflexivity|].
  eexists. split; [exists 30%nat, false; vm_compute; reflexivity|]. reflexivity.
Qed.
Print Assumptions C28_grows_by_two.

Lemma ex_grows_made : made ex_grows.
Proof. exact (proj1 (proj2 C28_grows_by_two)). Qed.

(* next to the same window of a second file *)
Definition ex_grows_joined : node :=
  concat_of [ex_grows; concat_of [the (mkOverview (the (crop_to (the (mkOverview (the (crop_to (img 2 48 31 ["c"%string] (Some 3)) 7 25 34 46)) 1)) 6 8 2 6)) 1)]].

Example C28_joined_case : made ex_grows_joined /\ joined (fun p => pyramid p \/ ov_free p) ex_grows_joined /\
  dsize ex_grows_joined = Some (2, 1) /\ exists t', optimizes axis_oracle ex_grows_joined t' /\ dsize t' = Some (3, 3).
Proof.
  split; [|split; [|split]].
  - unfold ex_grows_joined. match goal with |- made (concat_of ?l) => apply (made_concat l) end; [|discriminate|reflexivity].
    repeat apply Forall_cons; try apply Forall_nil; [exact ex_grows_made|].
    match goal with |- made (concat_of ?l) => apply (made_concat l) end; [|discriminate|reflexivity].
    repeat apply Forall_cons; try apply Forall_nil.
    apply made_ov; [|reflexivity]. apply made_crop_to; [|reflexivity]. apply made_ov; [|reflexivity].
    apply made_crop_to; [|reflexivity]. apply made_img; lia.
  - apply joined_all. repeat apply Forall_cons; try apply Forall_nil; [apply joined_one|apply joined_all; repeat apply Forall_cons; try apply Forall_nil; apply joined_one];
      left; vm_compute; intuition discriminate.
  - reflexivity.
  - exists (the (rmap fst (optimize axis_oracle 40 ex_grows_joined))). split; [exists 40%nat, false; vm_compute; reflexivity|vm_compute; reflexivity].
Qed.
