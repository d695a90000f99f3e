(* C30 without conditions on finalize. *)
From Verif Require Import Py PyProofs GeomModel GeomProofs GraphModel GraphSpec GraphBase GraphTake GraphOpt GraphMain GraphSound GraphSize GraphTotal FinalModel FinalSpec FinalProofs GraphProps CutProofs.
From Coq Require Import Lqa.
Local Open Scope Z_scope.

(** C30 for windows of whole enlargements: if every warp is nearest, enlarges by whole
    factors and shows a window of the enlarged image (the whole, or one that does not start
    in its corner), then the image and its optimized form both finalize, and to the same
    array, pixel by pixel. *)
Theorem C30_windows_partial : forall {V} (W : world V) o t t',
  made t -> ov_free t -> warps_sized cut_warp t -> all_3d W t -> optimizes o t t' ->
  exists a a', finalize W t = Ok a /\ finalize W t' = Ok a' /\ same_array a a'.
Proof. intros V W o t t' Hm Hr Hs H3 (f & b & H). eapply optimize_cut; eassumption. Qed.
Print Assumptions C30_windows_partial.

(* 4 x 2 pixels doubled, columns 1..7 and rows 0..3 of that tripled, and a crop of the result *)
Definition ex_cut : node :=
  the (crop_to (Warp (Warp (img 1 4 2 ["a"; "b"]%string None) (Aff 2 0 0 2 (-1) 0) (6, 3) nn)
    (aff_scale 3 3) (18, 9) nn) 2 8 1 17).

Example C30_windows_case : made ex_cut /\ ov_free ex_cut /\ warps_sized cut_warp ex_cut /\ all_3d ex_world ex_cut /\
  exists t', optimizes axis_oracle ex_cut t' /\ t' <> ex_cut /\ dsize t' = Some (16, 6).
Proof.
  split.
  { eapply made_crop_to; [|reflexivity]. repeat apply made_warp; try reflexivity; cbn; try lia. apply made_img; lia. }
  split; [vm_compute; tauto|]. split.
  { cbn. split; [|split; [|exact I]].
    - split; [reflexivity|]. exists 6, 3, 3, 3, 0, 0. cbn. repeat split; try reflexivity; try lia.
    - split; [reflexivity|]. exists 4, 2, 2, 2, 1, 0. cbn. repeat split; try reflexivity; try lia. }
  split; [vm_compute; tauto|]. eexists. split; [exists 30%nat, false; vm_compute; reflexivity|].
  split; [discriminate|reflexivity].
Qed.

(* two pixels tripled, the first four columns of that, and the last three of these *)
Definition ex_corner : node :=
  Warp (Warp (img 1 2 1 ["a"%string] None) (aff_scale 3 1) (4, 1) nn) (aff_translate (-1) 0) (3, 1) nn.

(** The exception for windows in the corner is needed: such a warp is a resize of the whole
    image to the requested size, but a window once it is fused with a translation. *)
Theorem C30_corner_refuted : ~ forall t t', made t -> ov_free t -> all_3d ex_world t -> optimizes axis_oracle t t' ->
  warps_sized (fun sz M d al => cut_warp sz M d al \/
    exists w h p q, sz = Some (w, h) /\ al_nearest al = true /\ M = aff_scale (inject_Z p) (inject_Z q) /\
      0 < p /\ 0 < q /\ 0 < fst d <= p * w /\ 0 < snd d <= q * h) t ->
  exists a a', finalize ex_world t = Ok a /\ finalize ex_world t' = Ok a' /\ same_array a a'.
Proof.
  intros H. destruct (H ex_corner (the (rmap fst (optimize axis_oracle 30 ex_corner)))) as (a & a' & Ha & Ha' & _ & _ & _ & E).
  - repeat apply made_warp; try reflexivity; cbn; try lia. apply made_img; lia.
  - vm_compute; tauto.
  - vm_compute; tauto.
  - exists 30%nat, false. vm_compute. reflexivity.
  - cbn. split; [left|split; [right|exact I]].
    + split; [reflexivity|]. exists 4, 1, 1, 1, 1, 0. cbn. repeat split; try reflexivity; try lia.
    + exists 2, 1, 3, 1. cbn. repeat split; try reflexivity; try lia.
  - destruct (observe (fun a => (a_h a, a_w a, a_c a, a_pix a 0 1 0)) (finalize ex_world ex_corner) (1, 3, Some 1, 1010)) as (b & Hb & Eb); [vm_compute; reflexivity|].
    destruct (observe (fun a => a_pix a 0 1 0) (finalize ex_world (the (rmap fst (optimize axis_oracle 30 ex_corner)))) 1000) as (b' & Hb' & Eb'); [vm_compute; reflexivity|].
    rewrite Ha in Hb. rewrite Ha' in Hb'. injection Hb as <-. injection Hb' as <-. injection Eb as E1 E2 E3 E4.
    specialize (E 0 1 0). rewrite E1, E2, E3, E4, Eb' in E. specialize (E ltac:(lia) ltac:(lia) ltac:(lia)). discriminate E.
Qed.
Print Assumptions C30_corner_refuted.
