(* optimize() of images put next to each other. *)
From Verif Require Import Py PyProofs GeomModel GraphModel GraphSpec GraphBase GraphOpt GraphSound GraphSize GraphTotal WarpTotal WarpCanon GraphProps OvTotal.
Local Open Scope Z_scope.

(* images of the class K, concatenated, also several times *)
Inductive joined (K : node -> Prop) : node -> Prop :=
| joined_one t : K t -> joined K t
| joined_all ps d : Forall (joined K) ps -> joined K (Concat ps d).

(* no overviews to use, named channels and warps that can be inverted (C32_optimize_total_partial) *)
Definition plain_image (t : node) : Prop := ov_free t /\ warps_all invertible t /\ names t <> None.

(* optimize() returns, or raises KeyError *)
Definition returns_or_key o t : Prop := (exists t', optimizes o t t') \/ optimize_raises o t KeyError.

Lemma parts_return o ps : Forall (fun p => exists t', optimizes o p t') ps ->
  exists f rs, forall g, (f <= g)%nat -> mapR (optimize o g) ps = Ok rs.
Proof.
  induction 1 as [|p ps (t' & f & b & Hf) _ (f2 & rs & H2)]; [exists 0%nat, []; reflexivity|].
  exists (Nat.max f f2), ((t', b) :: rs). intros g Hg. cbn [mapR].
  rewrite (optimize_mono _ _ _ _ _ (ltac:(lia) : (f <= g)%nat) Hf). cbn [bind]. rewrite H2 by lia. reflexivity.
Qed.

Lemma parts_end o ps : Forall (returns_or_key o) ps ->
  (exists f rs, forall g, (f <= g)%nat -> mapR (optimize o g) ps = Ok rs) \/
  (exists f, forall g, (f <= g)%nat -> mapR (optimize o g) ps = Err KeyError).
Proof.
  induction 1 as [|p ps Hp _ IH]; [left; exists 0%nat, []; reflexivity|].
  destruct Hp as [(t' & f & b & Hf)|(f & Hf)].
  - destruct IH as [(f2 & rs & H2)|(f2 & H2)]; [left; exists (Nat.max f f2), ((t', b) :: rs)|right; exists (Nat.max f f2)]; intros g Hg; cbn [mapR];
      rewrite (optimize_mono _ _ _ _ _ (ltac:(lia) : (f <= g)%nat) Hf); cbn [bind]; rewrite H2 by lia; reflexivity.
  - right. exists f. intros g Hg. cbn [mapR]. now rewrite Hf.
Qed.

Lemma concat_ret o ps d f rs : mapR (optimize o f) ps = Ok rs -> exists t', optimizes o (Concat ps d) t'.
Proof.
  intros H. assert (E : exists r, optimize o (S f) (Concat ps d) = Ok r).
  { cbn [optimize]. rewrite H. cbn [bind]. destruct (forallb snd rs); [eauto|]. destruct (mkConcat (map fst rs)); eauto. }
  destruct E as ([t' b] & E). exists t', (S f), b. exact E.
Qed.

Lemma concat_ends o ps d : Forall (returns_or_key o) ps -> returns_or_key o (Concat ps d).
Proof.
  intros H. destruct (parts_end o ps H) as [(f & rs & Hf)|(f & Hf)].
  - left. eapply concat_ret. now apply (Hf f).
  - right. exists (S f). intros [|g] Hg; [lia|]. cbn [optimize]. rewrite Hf by lia. reflexivity.
Qed.

Lemma joined_rule (K : node -> Prop) (P : node -> Prop) t :
  (forall t, wf t -> tight t -> dq_once t -> K t -> P t) -> (forall ps d, Forall P ps -> P (Concat ps d)) ->
  wf t -> tight t -> dq_once t -> joined K t -> P t.
Proof.
  intros HK HP. revert t. fix IH 5. intros t Hw Ht Hq Hj. destruct Hj as [t Hk|ps d Hj]; [now apply HK|].
  apply HP. apply wf_concat in Hw as (Hw & _). apply tight_concat in Ht as (_ & Ht & _).
  cbn [dq_once] in Hq. rewrite forall_parts_Forall in Hq.
  induction Hj as [|p ps Hp Hj IHj]; [constructor|]. inversion Hw; inversion Ht; inversion Hq; subst. constructor; [now apply IH|now apply IHj].
Qed.

Lemma plain_returns o t : wf t -> tight t -> dq_once t -> plain_image t -> exists t', optimizes o t t'.
Proof.
  intros Hw Ht Hq (H1 & H2 & H3). destruct (optimize_total_warps o t) as (n & k & H & _); [|exact Hq|eauto].
  repeat split; auto.
Qed.

(** C32 for concatenations (of concatenations) of images over one file each, overviews in
    use, and of images that use none: optimize() returns or raises the KeyError of C32_overviews_refuted. *)
Theorem C32_joined_partial : forall o t, sane o -> made t ->
  joined (fun p => one_image (fun M al => ~ aff_det M == 0 /\ al_nearest al = false)%Q p \/ plain_image p) t -> dq_once t ->
  (exists t', optimizes o t t') \/ optimize_raises o t KeyError.
Proof.
  intros o t So Hm Hj Hq. destruct (made_ok _ Hm) as [Hw Ht].
  eapply (joined_rule _ (returns_or_key o)); try eassumption; [|apply concat_ends].
  intros t0 Hw0 Ht0 Hq0 [H0|H0]; [|left; now apply plain_returns].
  exact (pipe_returns o _ t0 So (fun M al H => H) Hw0 Ht0 H0 Hq0).
Qed.
Print Assumptions C32_joined_partial.

(** Shrinking along the axes always returns. *)
Theorem C32_joined_shrink_partial : forall t, made t -> joined (fun p => one_image shrinks p \/ plain_image p) t -> dq_once t ->
  exists t', optimizes axis_oracle t t'.
Proof.
  intros t Hm Hj Hq. destruct (made_ok _ Hm) as [Hw Ht].
  eapply (joined_rule _ (fun t => exists t', optimizes axis_oracle t t')); try eassumption.
  - intros t0 Hw0 Ht0 Hq0 [H0|H0]; [now apply pipe_shrinks|now apply plain_returns].
  - intros ps d H. destruct (parts_return _ _ H) as (f & rs & Hf). eapply concat_ret. now apply (Hf f).
Qed.
Print Assumptions C32_joined_shrink_partial.

(* half of an overview of a file next to a part of another file and an enlarged image *)
Definition ex_joined : node :=
  concat_of [the (mkWarp_auto (the (mkOverview (the (crop_to (img 1 64 48 ["a"%string] (Some 3)) 0 40 8 48)) 1)) (aff_scale (1#2) (1#2)) default_algo);
             concat_of [mkDequant (the (crop_to (img 2 64 48 ["b"; "c"]%string (Some 1)) 1 11 0 10)) (Some 1);
                        the (mkWarp_auto (img 3 2 2 ["d"%string] None) (aff_scale 5 5) default_algo)]].

Example C32_joined_case : made ex_joined /\ joined (fun p => one_image shrinks p \/ plain_image p) ex_joined /\ dq_once ex_joined /\
  exists t', optimizes axis_oracle ex_joined t' /\ t' <> ex_joined.
Proof.
  split; [|split; [|split]].
  - unfold ex_joined. match goal with |- made (concat_of ?l) => apply (made_concat l) end; [|discriminate|reflexivity]. repeat apply Forall_cons; try apply Forall_nil.
    + apply made_warp; [|reflexivity|vm_compute; intuition discriminate].
      eapply (made_overview (the (crop_to (img 1 64 48 ["a"%string] (Some 3)) 0 40 8 48)) 1); [|reflexivity].
      eapply made_crop_to; [|reflexivity]. apply made_img; lia.
    + match goal with |- made (concat_of ?l) => apply (made_concat l) end; [|discriminate|reflexivity]. repeat apply Forall_cons; try apply Forall_nil.
      * apply made_dequant. eapply made_crop_to; [|reflexivity]. apply made_img; lia.
      * apply made_warp; [|reflexivity|vm_compute; intuition discriminate]. apply made_img; lia.
  - apply joined_all. repeat apply Forall_cons; try apply Forall_nil.
    + apply joined_one. left. vm_compute. intuition discriminate.
    + apply joined_all. repeat apply Forall_cons; try apply Forall_nil; apply joined_one; [left|right].
      * vm_compute. intuition discriminate.
      * vm_compute. intuition discriminate.
  - vm_compute. tauto.
  - exists (the (rmap fst (optimize axis_oracle 40 ex_joined))). split; [|vm_compute; discriminate].
    exists 40%nat, false. vm_compute. reflexivity.
Qed.
