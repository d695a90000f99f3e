(* Property theorems about missing data whose channels are given as a number
   (DelayedNans(dsize, channels=3)).  Vocabulary: GraphSpec.v, FinalSpec.v. *)
From Verif Require Import Py PyProofs GeomModel GeomProofs GraphModel GraphSpec GraphBase FinalModel FinalSpec GraphProps.
Local Open Scope Z_scope.

(* n bands of missing data without names *)
Definition unnamed (id : Z) (d : size) (n : Z) : node := Leaf (MkLeaf id Nans d None (Some n) None).

Lemma embed_inside D i : 0 <= fst i -> fst i <= snd i -> snd i <= D -> embed_axis D (fst i) (snd i) 0 = Ok (i, (0, 0)).
Proof.
  intros H1 H2 H3. destruct (embed_axis_total D (fst i) (snd i) 0 H2) as ([d0 d1] & [e0 e1] & E). rewrite E.
  unfold embed_axis in E. destruct i as [a b]. cbn [fst snd] in *. destruct (_ <? _) in E; [discriminate|].
  injection E as E0 E1 E2 E3. repeat f_equal; lia.
Qed.

Lemma axis_inside n i : 0 <= fst i -> fst i <= snd i -> snd i <= n -> axis_slice n i = (fst i, iv_len i).
Proof. intros. unfold axis_slice, slice_bound, iv_len. destruct (fst i <? 0) eqn:?; [lia|]. destruct (snd i <? 0) eqn:?; [lia|]. f_equal; lia. Qed.

(** C142: before optimizing, a crop of unnamed missing data has its bands, all of
    them missing; after optimizing their number is unknown and finalizing raises. *)
Theorem C142_lost_by_crops : forall {V} (W : world V) o id w h n sl t, 0 <= w -> 0 <= h ->
  mkCrop (unnamed id (w, h) n) (Some sl) None = Ok t ->
  num_channels t = Some n /\
  (exists a, finalize W t = Ok a /\ dsize t = Some (a_w a, a_h a) /\ a_c a = Some n /\ forall r c b, a_pix a r c b = w_nan W) /\
  exists t', optimizes o t t' /\ dsize t' = dsize t /\ num_channels t' = None /\ finalize W t' = Err TypeError.
Proof.
  intros V W o id w h n [sy sx] t Hw Hh H. unfold mkCrop in H. cbn [unnamed dsize l_dsize] in H.
  apply bind_ok in H as ([ys xs] & E & H). apply bind_ok in E as (y & Ey & E). apply bind_ok in E as (x & Ex & E).
  injection E as <- <-. cbn [bind] in H. injection H as <-.
  destruct (wrap_clip_bounds h sy y Hh Ey) as (Y1 & Y2 & Y3). destruct (wrap_clip_bounds w sx x Hw Ex) as (X1 & X2 & X3).
  split; [reflexivity|]. split.
  - eexists. split; [|split; [|split]].
    + cbn [finalize finalize_leaf unnamed l_nc l_dsize l_kind bind rmap]. unfold index_array. cbn [a_h a_w a_c].
      rewrite (axis_inside h y), (axis_inside w x) by assumption. cbn [rmap atleast3 a_c]. reflexivity.
    + reflexivity.
    + reflexivity.
    + reflexivity.
  - eexists. split; [|split; [|split]].
    + exists 2%nat, false. cbn [optimize rmap bind fst unnamed]. unfold opt_crop. cbn [bind is_nans l_kind unnamed].
      unfold nans_crop. cbn [bind l_names l_dsize fst snd]. rewrite (embed_inside h y), (embed_inside w x) by assumption.
      cbn [bind]. reflexivity.
    + reflexivity.
    + reflexivity.
    + reflexivity.
Qed.
Print Assumptions C142_lost_by_crops.

(* the same for warps, unless the warp is no change at all *)
Theorem C142_lost_by_warps : forall {V} (W : world V) o id d n M e al,
  ~ (e = d /\ close_identity (al_eps al) M = true) ->
  let t := Warp (unnamed id d n) M e al in
  num_channels t = Some n /\
  exists t', optimizes o t t' /\ dsize t' = dsize t /\ num_channels t' = None /\ finalize W t' = Err TypeError.
Proof.
  intros V W o id d n M e al Hne t. split; [reflexivity|].
  exists (nans_warp (MkLeaf id Nans d None (Some n) None) e). split; [|split; [|split]]; try reflexivity.
  exists 2%nat, false. unfold t, unnamed. cbn [optimize rmap bind fst]. unfold opt_warp.
  destruct (opt_size_eqb (Some e) (dsize (Leaf (MkLeaf id Nans d None (Some n) None))) && close_identity (al_eps al) M)%bool eqn:E.
  - exfalso. apply Hne. apply andb_true_iff in E as [E1 E2]. split; [|exact E2]. cbn [dsize l_dsize opt_size_eqb] in E1.
    destruct e as [e1 e2], d as [d1 d2]. unfold size_eqb in E1. cbn in E1. apply andb_true_iff in E1 as [A B].
    apply Z.eqb_eq in A, B. now subst.
  - cbn [bind]. cbv beta iota zeta. reflexivity.
Qed.
Print Assumptions C142_lost_by_warps.

(* a band selection of unnamed missing data cannot be optimized at all *)
Theorem C142_band_selection_raises : forall {V} (W : world V) o id w h n l t, 0 <= w -> 0 <= h ->
  Forall (fun i => 0 <= i < n) l -> mkCrop (unnamed id (w, h) n) None (Some l) = Ok t ->
  (exists a, finalize W t = Ok a /\ a_c a = Some (Z.of_nat (List.length l)) /\ forall r c b, a_pix a r c b = w_nan W) /\
  optimize_raises o t AssertionError.
Proof.
  intros V W o id w h n l t Hw Hh Hl H. unfold mkCrop in H. cbn [unnamed dsize l_dsize bind names l_names] in H. injection H as <-. split.
  - assert (E : mapR (np_index n) l = Ok l).
    { induction Hl as [|i l Hi _ IH]; [reflexivity|]. cbn [mapR]. unfold np_index at 1.
      replace ((- n <=? i) && (i <? n))%bool with true by (symmetry; apply andb_true_iff; split; lia).
      replace (i <? 0) with false by lia. cbn [bind]. now rewrite IH. }
    destruct (axis_slice h (0, h)) eqn:Eh, (axis_slice w (0, w)) eqn:Ew. eexists. split; [|split].
    + cbn [finalize finalize_leaf unnamed l_nc l_dsize l_kind bind rmap]. unfold index_array. cbn [a_h a_w a_c].
      rewrite Eh, Ew, E. cbn [bind rmap atleast3 a_c]. reflexivity.
    + reflexivity.
    + reflexivity.
  - exists 2%nat. intros [|[|fuel]] Hf; [lia|lia|]. reflexivity.
Qed.
Print Assumptions C142_band_selection_raises.

(** Hence the property as stated is false; *)
Theorem C142_keeps_bands_refuted :
  (exists t, dsize t = Some (4, 3) /\ num_channels t = Some 3 /\
     forall o t', optimizes o t t' -> num_channels t' = None /\ forall (V : Type) (W : world V), finalize W t' = Err TypeError) /\
  (exists t, num_channels t = Some 1 /\ forall o, optimize_raises o t AssertionError).
Proof.
  split.
  - assert (H : exists t, mkCrop (unnamed 1 (10, 8) 3) (Some ((Some 1, Some 4), (Some 0, Some 4))) None = Ok t /\ dsize t = Some (4, 3)).
    { eexists. split; [vm_compute; reflexivity|reflexivity]. }
    destruct H as (t & H & Hd). exists t.
    split; [exact Hd|]. split; [injection H as <-; reflexivity|]. intros o t' Ho. split.
    + destruct (C142_lost_by_crops (World (fun _ _ _ _ => tt) (fun _ => false) tt tt (fun _ _ => tt)) o 1 10 8 3 _ _ ltac:(lia) ltac:(lia) H) as (_ & _ & t1 & O1 & _ & N1 & _).
      now rewrite (C32_result_unique _ _ _ _ Ho O1).
    + intros V W. destruct (C142_lost_by_crops W o 1 10 8 3 _ _ ltac:(lia) ltac:(lia) H) as (_ & _ & t1 & O1 & _ & _ & F1).
      now rewrite (C32_result_unique _ _ _ _ Ho O1).
  - assert (H : exists t, mkCrop (unnamed 1 (10, 8) 3) None (Some [1]) = Ok t /\ num_channels t = Some 1).
    { eexists. split; [vm_compute; reflexivity|reflexivity]. }
    destruct H as (t & H & Hn). exists t. split; [exact Hn|]. intros o.
    now apply (C142_band_selection_raises (World (fun _ _ _ _ => tt) (fun _ => false) tt tt (fun _ _ => tt)) o 1 10 8 3 [1]); [lia|lia|repeat constructor; lia|].
Qed.
Print Assumptions C142_keeps_bands_refuted.
