(* Property theorems about the samples a channel selection shows.  Vocabulary
   (GraphSpec.v): [vis t x y c s] - the output coordinate (x, y) of band c of the
   graph t shows the sample s; [optimizes o t t'] - optimize() of t returns t';
   [made t] - t was built by constructor calls of the API, warps and overviews
   included; [nans_free], [ov_free] - no missing data, nothing that makes
   optimize() read an overview. *)
From Verif Require Import Py PyProofs GeomModel GraphModel GraphSpec GraphBase GraphTake GraphSize GraphTotal FinalModel FinalSpec FinalProofs GraphProps TakeModel TakeSpec TakeProofs NamedProofs TakeVisProofs.
From Coq Require Import ZifyBool.
Local Open Scope Z_scope.

(** C144: take_channels(req) shows, at band i and any coordinate, exactly what the
    graph shows there in the channel named by the i-th requested code, and NaN
    inside the canvas (nothing outside) if there is no such channel. *)
Theorem C144_samples : forall t nl lazy same p req t',
  made t -> names t = Some nl -> NoDup nl -> req <> [] -> take_named t lazy same p req = Ok t' ->
  made t' /\ dsize t' = dsize t /\
  (forall i c b x y s, nth_error req i = Some c -> nth_error nl b = Some c ->
     (vis t' x y (Z.of_nat i) s <-> vis t x y (Z.of_nat b) s)) /\
  (forall i c x y s, nth_error req i = Some c -> ~ In c nl ->
     (vis t' x y (Z.of_nat i) s <-> s = NaN [] /\ exists d, dsize t = Some d /\ inside d x y)) /\
  (forall k x y s, vis t' x y k s -> 0 <= k < Z.of_nat (List.length req)).
Proof.
  intros t nl lazy same p req t' Hm Hnl Hnd Hreq H.
  destruct (take_named_vis _ _ _ _ _ _ _ Hm Hnl Hnd Hreq H) as (H1 & H2 & _ & Hv).
  split; [exact H1|]. split; [exact H2|]. split; [|split].
  - intros i c b x y s Hi Hb. rewrite Hv. split.
    + intros (c' & _ & Hc' & [(b' & Hb' & Hs) | (Hni & _)]); rewrite Nat2Z.id in Hc'; assert (c' = c) by congruence; subst c'.
      * assert (b' = b); [|now subst]. eapply NoDup_nth_error; [exact Hnd| |congruence]. apply nth_error_Some. congruence.
      * exfalso. apply Hni. eapply nth_error_In; exact Hb.
    + intros Hs. exists c. split; [lia|]. rewrite Nat2Z.id. split; [exact Hi|]. left. eauto.
  - intros i c x y s Hi Hni. rewrite Hv. split.
    + intros (c' & _ & Hc' & [(b' & Hb' & Hs) | (_ & Hs)]); rewrite Nat2Z.id in Hc'; assert (c' = c) by congruence; subst c'.
      * exfalso. apply Hni. eapply nth_error_In; exact Hb'.
      * exact Hs.
    + intros Hs. exists c. split; [lia|]. rewrite Nat2Z.id. split; [exact Hi|]. right. split; [exact Hni|exact Hs].
  - intros k x y s Hs. apply Hv in Hs as (c & H0 & Hc & _).
    assert (Hl : (Z.to_nat k < List.length req)%nat) by (apply nth_error_Some; congruence). lia.
Qed.
Print Assumptions C144_samples.

(** ... and optimize() of the selection keeps all of it: whatever the selected
    channel shows is shown at the requested band, and a missing channel is NaN. *)
Theorem C144_optimized : forall o t nl lazy same p req t' t'',
  made t -> names t = Some nl -> NoDup nl -> req <> [] -> (nans_free t /\ incl req nl) \/ ov_free t ->
  take_named t lazy same p req = Ok t' -> optimizes o t' t'' ->
  (forall i c b x y s, nth_error req i = Some c -> nth_error nl b = Some c ->
     vis t x y (Z.of_nat b) s -> vis t'' x y (Z.of_nat i) s) /\
  (forall i c x y d, nth_error req i = Some c -> ~ In c nl -> dsize t = Some d -> inside d x y ->
     vis t'' x y (Z.of_nat i) (NaN [])).
Proof.
  intros o t nl lazy same p req t' t'' Hm Hnl Hnd Hreq Hf H Ho.
  destruct (take_named_vis _ _ _ _ _ _ _ Hm Hnl Hnd Hreq H) as (H1 & _ & Hp & _).
  destruct (C144_samples _ _ _ _ _ _ _ Hm Hnl Hnd Hreq H) as (_ & _ & Hv & Hn & _).
  assert (Hf' : nans_free t' \/ ov_free t').
  { destruct Hf as [[Hf Hi] | Hf].
    - left. apply Hp; auto. apply inherited_nans.
    - right. apply Hp; auto; [apply inherited_ov|]. right. intros l _. exact I. }
  split.
  - intros i c b x y s Hi Hb Hs. eapply optimize_samples; [exact H1|exact Hf'|exact Ho|]. now apply (Hv i c b x y s Hi Hb).
  - intros i c x y d Hi Hni Hd Hin. eapply optimize_samples; [exact H1|exact Hf'|exact Ho|]. apply (Hn i c x y _ Hi Hni). eauto.
Qed.
Print Assumptions C144_optimized.

(* an image scaled by 2 beside a plain one: 'd|q|b' shows the second image, NaN
   and the scaled first image *)
Definition tv_warp : node := the (mkWarp_auto (img 1 3 2 ["a"; "b"]%string None) (aff_scale 2 2) default_algo).
Definition tv_cat : node := concat_of [tv_warp; img 2 6 4 ["c"; "d"]%string None].

Example C144_case : made tv_cat /\ ov_free tv_cat /\ names tv_cat = Some ["a"; "b"; "c"; "d"]%string /\
  exists t' t'', take_named tv_cat true false ReturnNan ["d"; "q"; "b"]%string = Ok t' /\ optimizes axis_oracle t' t'' /\
    vis tv_cat 3 1 1 (Samp 1 1 (3#2) (1#2) []) /\ vis t'' 3 1 2 (Samp 1 1 (3#2) (1#2) []) /\ vis t'' 3 1 1 (NaN []).
Proof.
  assert (Hm : made tv_cat).
  { apply (made_concat [tv_warp; img 2 6 4 ["c"; "d"]%string None]); [|discriminate|vm_compute; reflexivity].
    constructor; [|constructor; [apply made_img; lia|constructor]].
    apply made_warp; [apply made_img; lia|reflexivity|cbn; lia]. }
  assert (Hov : ov_free tv_cat) by (vm_compute; tauto).
  assert (Hs : vis tv_cat 3 1 1 (Samp 1 1 (3#2) (1#2) [])).
  { split; [vm_compute; intuition discriminate|]. cbn. split; [vm_compute; intuition discriminate|].
    exists (3#2), (1#2). split; [reflexivity|]. split; [reflexivity|]. split; [vm_compute; intuition discriminate|].
    split; [exists 2; split; [reflexivity|lia]|]. exists (3#2), (1#2). repeat split; reflexivity. }
  assert (Ht : exists t' t'', take_named tv_cat true false ReturnNan ["d"; "q"; "b"]%string = Ok t' /\ optimizes axis_oracle t' t'').
  { eexists. eexists. split; [vm_compute; reflexivity|]. exists 40%nat, false. vm_compute. reflexivity. }
  destruct Ht as (t' & t'' & Ht & Ho). split; [exact Hm|]. split; [exact Hov|]. split; [vm_compute; reflexivity|].
  exists t', t''. split; [exact Ht|]. split; [exact Ho|]. split; [exact Hs|].
  assert (Hnd : NoDup ["a"; "b"; "c"; "d"]%string).
  { repeat constructor; cbn; intuition discriminate. }
  destruct (C144_optimized axis_oracle tv_cat ["a"; "b"; "c"; "d"]%string true false ReturnNan ["d"; "q"; "b"]%string t' t'' Hm) as [Hk Hn];
    [vm_compute; reflexivity|exact Hnd|discriminate|right; exact Hov|exact Ht|exact Ho|]. split.
  - exact (Hk 2%nat "b"%string 1%nat 3%Q 1%Q _ eq_refl eq_refl Hs).
  - apply (Hn 1%nat "q"%string 3%Q 1%Q (6, 4)); [reflexivity| |vm_compute; reflexivity|vm_compute; intuition discriminate].
    cbn. intuition discriminate.
Qed.
