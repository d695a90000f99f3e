(* Property theorems about optimize() and finalize() of delayed graphs.
   Vocabulary (GraphSpec.v, FinalSpec.v): [made t] - the tree t was built by
   constructor calls of the API; [built t] - made, with exact operations only
   (leafs, crops, band selections, concatenation, dequantization, missing-data
   leafs); [optimizes o t t'] - t.optimize() returns t'; [finalize W t] - the
   array of t when the leafs hold the pixel data of the world W; [vis t x y c s]
   - the output coordinate (x, y) of band c shows the sample s.  The oracle [o]
   stands for numeric decisions and is arbitrary. *)
From Verif Require Import Py PyProofs GeomModel GraphModel GraphSpec GraphTotal WarpCanon FinalModel FinalSpec FinalProofs.
From Verif Require OvTotal.
Local Open Scope Z_scope.

(** Example trees *)

Definition the (r : result node) : node :=
  match r with Ok t => t | Err _ => Leaf (MkLeaf 0 Nans (0, 0) None None None) end.

(* compute an observation of a finalized array *)
Lemma observe {A B} (f : A -> B) r x : rmap f r = Ok x -> exists a, r = Ok a /\ f a = x.
Proof. destruct r as [a|]; [|discriminate]. cbn. intros [= <-]. eauto. Qed.

Definition img (id w h : Z) (nm : list string) (ov : option Z) : node :=
  Leaf (MkLeaf id Data (w, h) (Some nm) (Some (Z.of_nat (List.length nm))) ov).
Definition nan_img (w h : Z) (nm : list string) : node :=
  Leaf (MkLeaf 0 Nans (w, h) (Some nm) (Some (Z.of_nat (List.length nm))) None).
Definition crop_to (t : node) (y0 y1 x0 x1 : Z) : result node :=
  mkCrop t (Some ((Some y0, Some y1), (Some x0, Some x1))) None.
Definition concat_of (ps : list node) : node :=
  match mkConcat ps with Some c => c | None => Concat [] None end.

(* concat([dequantize(rgb image cropped to 5x4), nan image])[1:3, :4] with bands
   3, 1, 0 *)
Definition ex_parts : list node :=
  [mkDequant (the (crop_to (img 7 8 9 ["r"; "g"; "b"]%string None) 2 6 1 6)) (Some 1); nan_img 5 4 ["n"%string]].
Definition ex_cat : node := concat_of ex_parts.
Definition ex_tree : node := the (mkCrop ex_cat (Some ((Some 1, Some 3), (None, Some 4))) (Some [3; 1; 0])).

(* pixel values that tell leaf, row, column and band apart *)
Definition ex_world : world Z :=
  World (fun id r c b => 1000 * id + 100 * r + 10 * c + b) (fun _ => false) (-1) (-2) (fun q v => v + 100000 * q).

Lemma made_img id w h nm ov : 0 <= w -> 0 <= h -> made (img id w h nm ov).
Proof.
  intros. apply made_leaf; [|cbn; auto]. split; [|discriminate].
  exists (Z.of_nat (List.length nm)). cbn. auto with zarith.
Qed.

Lemma made_nan_img w h nm : 0 <= w -> 0 <= h -> made (nan_img w h nm).
Proof.
  intros. apply made_leaf; [|cbn; auto]. split; [|discriminate].
  exists (Z.of_nat (List.length nm)). cbn. auto with zarith.
Qed.

Lemma made_crop_to t y0 y1 x0 x1 : made t -> crop_to t y0 y1 x0 x1 = Ok (the (crop_to t y0 y1 x0 x1)) ->
  made (the (crop_to t y0 y1 x0 x1)).
Proof. intros Hm H. exact (made_crop _ _ _ Hm H). Qed.

Lemma ex_built : built ex_tree.
Proof.
  split; [|vm_compute; tauto].
  apply (made_bands ex_cat (Some ((Some 1, Some 3), (None, Some 4))) [3; 1; 0]).
  - apply (made_concat ex_parts); [|discriminate|reflexivity]. constructor; [|constructor; [|constructor]].
    + apply made_dequant. apply made_crop_to; [|reflexivity]. apply made_img; lia.
    + apply made_nan_img; lia.
  - discriminate.
  - intros n [= <-]. repeat constructor; lia.
  - reflexivity.
Qed.

Lemma ex_3d : all_3d ex_world ex_tree.
Proof. vm_compute. tauto. Qed.

(** C27: for trees of exact operations, finalizing the optimized tree gives the
    same array as finalizing the tree itself, pixel by pixel and band by band. *)
Theorem C27_same_array : forall {V} (W : world V) o t t', built t -> all_3d W t -> optimizes o t t' ->
  exists a a', finalize W t = Ok a /\ finalize W t' = Ok a' /\ same_array a a'.
Proof. exact @optimize_same_array. Qed.
Print Assumptions C27_same_array.

Example C27_case : exists t' a, optimizes axis_oracle ex_tree t' /\ t' <> ex_tree /\
  finalize ex_world t' = Ok a /\ a_h a = 2 /\ a_w a = 4 /\ a_c a = Some 3 /\
  a_pix a 1 2 0 = -1 /\ a_pix a 1 2 1 = 100000 + 7000 + 400 + 30 + 1.
Proof.
  eexists. 
  destruct (observe (fun a => (a_h a, a_w a, a_c a, a_pix a 1 2 0, a_pix a 1 2 1)) (finalize ex_world (the (rmap fst (optimize axis_oracle 30 ex_tree)))) (2, 4, Some 3, -1, 107431))
    as (a & Ha & E); [vm_compute; reflexivity|]. injection E as E1 E2 E3 E4 E5.
  exists a. split; [exists 30%nat, false; vm_compute; reflexivity|]. split; [discriminate|].
  split; [exact Ha|]. repeat split; assumption.
Qed.

(* C74: with 2-d data in a leaf the claim is false: selecting a band of a dequantized
   2-d image works before optimize() and raises IndexError afterwards. *)
Theorem C74_flat_data_optimize_refuted : exists (W : world Z) t t' a, built t /\ optimizes axis_oracle t t' /\
  finalize W t = Ok a /\ finalize W t' = Err IndexError.
Proof.
  exists (World (fun id r c b => r + c) (fun _ => true) (-1) (-2) (fun q v => v + q)),
    (the (mkCrop (mkDequant (img 1 3 3 ["a"%string] None) (Some 1)) None (Some [0]))).
  eexists _, _. split.
  - split; [|vm_compute; tauto].
    apply (made_bands (mkDequant (img 1 3 3 ["a"%string] None) (Some 1)) None [0]);
      [|discriminate| |reflexivity].
    + apply made_dequant. apply made_img; lia.
    + intros n [= <-]. repeat constructor; lia.
  - split; [exists 30%nat, false; vm_compute; reflexivity|]. split; vm_compute; reflexivity.
Qed.
Print Assumptions C74_flat_data_optimize_refuted.

(** C28: optimize() keeps size, number of channels and channel names, for every
    tree in which no overview occurs and no warp sits above a file with stored
    overviews.  Without missing-data leafs the channels are kept also when
    overviews are involved. *)
Theorem C28_metadata_partial : forall o t t', made t -> ov_free t -> optimizes o t t' ->
  dsize t' = dsize t /\ num_channels t' = num_channels t /\ names t' = names t.
Proof. exact optimize_metadata. Qed.
Print Assumptions C28_metadata_partial.

Theorem C28_channels : forall o t t', made t -> nans_free t -> optimizes o t t' ->
  num_channels t' = num_channels t /\ names t' = names t.
Proof. exact optimize_channels. Qed.
Print Assumptions C28_channels.

Definition ex_half (w0 : Z) (ov : option Z) : node :=
  the (mkWarp_auto (the (crop_to (img 1 16 16 ["a"%string] ov) 1 (1 + w0) 1 (1 + w0)))
         (aff_scale (1#2) (1#2)) default_algo).

Lemma ex_half_made w0 ov : w0 = 4 \/ w0 = 5 -> made (ex_half w0 ov).
Proof.
  intros [-> | ->].
  - apply made_warp; [|reflexivity|cbn; lia]. apply (made_crop_to (img 1 16 16 ["a"%string] ov) 1 5 1 5); [|reflexivity].
    apply made_img; lia.
  - apply made_warp; [|reflexivity|cbn; lia]. apply (made_crop_to (img 1 16 16 ["a"%string] ov) 1 6 1 6); [|reflexivity].
    apply made_img; lia.
Qed.

(* The size is not kept in general: a 4x4 crop at an odd position of a file with
   overviews, scaled by a half, is 2x2, and its optimized form is 3x3. *)
Theorem C28_metadata_refuted : exists t t', made t /\ nans_free t /\ optimizes axis_oracle t t' /\
  dsize t = Some (2, 2) /\ dsize t' = Some (3, 3).
Proof.
  exists (ex_half 4 (Some 2)). eexists. split; [apply ex_half_made; auto|]. split; [reflexivity|].
  split; [exists 30%nat, false; vm_compute; reflexivity|]. split; reflexivity.
Qed.
Print Assumptions C28_metadata_refuted.

Example C28_case : exists t', made (ex_half 5 None) /\ ov_free (ex_half 5 None) /\
  nans_free (ex_half 5 None) /\ optimizes axis_oracle (ex_half 5 None) t' /\ dsize t' = Some (3, 3).
Proof.
  eexists. split; [apply ex_half_made; auto|]. split; [vm_compute; tauto|]. split; [reflexivity|].
  split; [exists 30%nat, false; vm_compute; reflexivity|]. reflexivity.
Qed.

(** C29: a sample that is visible through every intermediate canvas stays visible
    at the same output coordinate, in the same band, from the same location of the
    same leaf, and lies inside every canvas of the optimized tree. *)
Theorem C29_samples_kept : forall o t t', made t -> nans_free t \/ ov_free t -> optimizes o t t' ->
  forall x y c s, vis t x y c s -> vis t' x y c s.
Proof. exact optimize_samples. Qed.
Print Assumptions C29_samples_kept.

(* a warp with overviews available: output (1/2, 3/2) shows source (2, 4) *)
Example C29_case : exists t', made (ex_half 5 (Some 2)) /\ nans_free (ex_half 5 (Some 2)) /\
  optimizes axis_oracle (ex_half 5 (Some 2)) t' /\ t' <> ex_half 5 (Some 2) /\
  vis (ex_half 5 (Some 2)) (1#2) (3#2) 0 (Samp 1 0 2 4 []).
Proof.
  eexists. split; [apply ex_half_made; auto|]. split; [reflexivity|].
  split; [exists 30%nat, false; vm_compute; reflexivity|]. split; [discriminate|].
  cbn. split; [unfold inside; cbn; repeat split; discriminate|].
  exists 1%Q, 3%Q. split; [reflexivity|]. split; [reflexivity|].
  split; [unfold inside; cbn; repeat split; discriminate|]. exists 0. split; [reflexivity|].
  split; [unfold inside; cbn; repeat split; discriminate|]. split; [exists 1; auto with zarith|].
  exists 2%Q, 4%Q. repeat split.
Qed.

(** C30: "with nearest-neighbour translations the optimized tree shows the same
    pixels" is false: fusing two translations drops the intermediate canvas, the
    fused identity is resized to the requested size, and a fused warp may raise. *)
Definition nn : algo := Algo true 0 0 0.
Definition ex_shift (i w1 j w2 : Z) : node :=
  Warp (Warp (img 1 4 1 ["a"%string] None) (aff_translate (inject_Z i) 0) (w1, 1) nn)
       (aff_translate (inject_Z j) 0) (w2, 1) nn.

Lemma ex_shift_made i w1 j w2 : 0 <= w1 -> 0 <= w2 -> made (ex_shift i w1 j w2).
Proof. intros. repeat apply made_warp; try reflexivity; cbn; try lia. apply made_img; lia. Qed.

Theorem C30_same_pixels_refuted :
  (exists t t' a a', made t /\ all_3d ex_world t /\ optimizes axis_oracle t t' /\
     finalize ex_world t = Ok a /\ finalize ex_world t' = Ok a' /\
     a_pix a 0 1 0 = 1010 /\ a_pix a' 0 1 0 = 1020 /\ a_w a = 2 /\ a_h a = 1) /\
  (exists t t' a, made t /\ all_3d ex_world t /\ optimizes axis_oracle t t' /\
     finalize ex_world t = Ok a /\ finalize ex_world t' = Err IndexError).
Proof.
  split.
  - exists (ex_shift 1 5 (-1) 2). eexists.
    destruct (observe (fun a => (a_pix a 0 1 0, a_w a, a_h a)) (finalize ex_world (ex_shift 1 5 (-1) 2)) (1010, 2, 1))
      as (a & Ha & E); [vm_compute; reflexivity|]. injection E as E1 E2 E3.
    destruct (observe (fun a => a_pix a 0 1 0) (finalize ex_world (the (rmap fst (optimize axis_oracle 30 (ex_shift 1 5 (-1) 2))))) 1020)
      as (a' & Ha' & E'); [vm_compute; reflexivity|].
    exists a, a'. split; [apply ex_shift_made; lia|]. split; [vm_compute; tauto|].
    split; [exists 30%nat, false; vm_compute; reflexivity|].
    split; [exact Ha|]. split; [exact Ha'|]. auto.
  - exists (ex_shift 3 6 3 8). eexists.
    destruct (observe (fun a => tt) (finalize ex_world (ex_shift 3 6 3 8)) tt) as (a & Ha & _); [vm_compute; reflexivity|].
    exists a. split; [apply ex_shift_made; lia|]. split; [vm_compute; tauto|].
    split; [exists 30%nat, false; vm_compute; reflexivity|]. split; [exact Ha|vm_compute; reflexivity].
Qed.
Print Assumptions C30_same_pixels_refuted.

(** What does hold: with nearest-neighbour warps that enlarge by whole factors and move
    the image by whole pixels, all of them towards the same side in each direction (right
    or left by the sign of u, down or up by that of v), if both trees finalize, the arrays
    have the same shape and agree at every pixel whose centre is visible through every
    intermediate canvas; there both hold the value of that sample.  Missing: warps that
    move against each other, pixels outside some intermediate canvas. *)
Theorem C30_same_pixels_partial : forall {V} (W : world V) u v o t t' a a', u <> 0 -> v <> 0 ->
  made t -> ov_free t -> warps_sized (whole_warp u v) t -> all_3d W t -> optimizes o t t' ->
  finalize W t = Ok a -> finalize W t' = Ok a' ->
  a_h a' = a_h a /\ a_w a' = a_w a /\ a_c a' = a_c a /\
  forall r c k s, vis t (centre c) (centre r) k s ->
    a_pix a r c k = value W s /\ a_pix a' r c k = value W s.
Proof.
  exact (fun V W u v o t t' a a' Hu Hv Hm Hr Hs H3 H => match H with ex_intro _ f (ex_intro _ b Ho) =>
           fun Ha Ha' => optimize_whole_pixels W u v o f t t' b a a' Hu Hv Hm Hr Hs H3 Ho Ha Ha' end).
Qed.
Print Assumptions C30_same_pixels_partial.

Example C30_case : exists t' a a', made (ex_shift 1 4 1 5) /\ ov_free (ex_shift 1 4 1 5) /\
  warps_sized (whole_warp 1 1) (ex_shift 1 4 1 5) /\ all_3d ex_world (ex_shift 1 4 1 5) /\
  optimizes axis_oracle (ex_shift 1 4 1 5) t' /\
  finalize ex_world (ex_shift 1 4 1 5) = Ok a /\ finalize ex_world t' = Ok a' /\
  vis (ex_shift 1 4 1 5) (centre 3) (centre 0) 0 (Samp 1 0 (centre 1) (centre 0) []) /\ a_pix a' 0 3 0 = 1010.
Proof.
  eexists.
  destruct (observe (fun a => tt) (finalize ex_world (ex_shift 1 4 1 5)) tt) as (a & Ha & _); [vm_compute; reflexivity|].
  destruct (observe (fun a => a_pix a 0 3 0) (finalize ex_world (the (rmap fst (optimize axis_oracle 30 (ex_shift 1 4 1 5))))) 1010)
    as (a' & Ha' & E'); [vm_compute; reflexivity|].
  exists a, a'. split; [apply ex_shift_made; lia|]. split; [vm_compute; tauto|].
  split. { cbn. repeat split; exists 1, 1, 1, 0; repeat split; lia. }
  split; [vm_compute; tauto|]. split; [exists 30%nat, false; vm_compute; reflexivity|].
  split; [exact Ha|]. split; [exact Ha'|]. split; [|exact E'].
  cbn. split; [unfold inside; cbn; repeat split; discriminate|].
  exists (centre 2), (centre 0). split; [reflexivity|]. split; [reflexivity|].
  split; [unfold inside; cbn; repeat split; discriminate|].
  exists (centre 1), (centre 0). split; [reflexivity|]. split; [reflexivity|].
  split; [unfold inside; cbn; repeat split; discriminate|]. split; [exists 1; auto with zarith|].
  exists (centre 1), (centre 0). repeat split.
Qed.

(* an enlargement of an enlargement, moved to the left: output pixel 4 is at 13/12 of
   the source, the optimized tree has a single warp *)
Definition ex_zoom : node :=
  let w1 := the (mkWarp_auto (img 1 4 1 ["a"%string] None) (aff_scale 2 2) nn) in
  Warp (the (mkWarp_auto w1 (aff_scale 3 3) nn)) (aff_translate (-2) 0) (22, 6) nn.
Example C30_case_enlarged : exists t' a a', made ex_zoom /\ ov_free ex_zoom /\
  warps_sized (whole_warp (-1) 1) ex_zoom /\ all_3d ex_world ex_zoom /\ optimizes axis_oracle ex_zoom t' /\
  (exists s M d al, t' = Warp (Leaf s) M d al) /\
  finalize ex_world ex_zoom = Ok a /\ finalize ex_world t' = Ok a' /\
  vis ex_zoom (centre 4) (centre 0) 0 (Samp 1 0 (13#12) (1#12) []) /\ a_pix a' 0 4 0 = 1010.
Proof.
  eexists.
  destruct (observe (fun a => tt) (finalize ex_world ex_zoom) tt) as (a & Ha & _); [vm_compute; reflexivity|].
  destruct (observe (fun a => a_pix a 0 4 0) (finalize ex_world (the (rmap fst (optimize axis_oracle 30 ex_zoom)))) 1010)
    as (a' & Ha' & E'); [vm_compute; reflexivity|].
  exists a, a'. split. { repeat (apply made_warp; [|reflexivity|cbn; lia]). apply made_img; lia. }
  split; [vm_compute; tauto|].
  split. { cbn. split; [|split; [|split; [|exact I]]]; (split; [reflexivity|]).
    - exists 1, 1, (-2), 0. repeat split; lia.
    - exists 3, 3, 0, 0. repeat split; try lia. intros _ _. exists 8, 2. split; reflexivity.
    - exists 2, 2, 0, 0. repeat split; try lia. intros _ _. exists 4, 1. split; reflexivity. }
  split; [vm_compute; tauto|]. split; [exists 30%nat, false; vm_compute; reflexivity|]. split; [do 4 eexists; reflexivity|].
  split; [exact Ha|]. split; [exact Ha'|]. split; [|exact E'].
  cbn. split; [unfold inside; cbn; repeat split; discriminate|].
  exists (13#2), (1#2). split; [reflexivity|]. split; [reflexivity|].
  split; [unfold inside; cbn; repeat split; discriminate|].
  exists (13#6), (1#6). split; [reflexivity|]. split; [reflexivity|].
  split; [unfold inside; cbn; repeat split; discriminate|].
  exists (13#12), (1#12). split; [reflexivity|]. split; [reflexivity|].
  split; [unfold inside; cbn; repeat split; discriminate|]. split; [exists 1; auto with zarith|].
  exists (13#12), (1#12). repeat split.
Qed.

(** C31: a tree of exact operations finalizes, and its size, number of channels
    and names describe the array. *)
Theorem C31_shape_is_metadata : forall {V} (W : world V) t, built t -> all_3d W t ->
  exists a n, finalize W t = Ok a /\ dsize t = Some (a_w a, a_h a) /\
    num_channels t = Some n /\ a_c a = Some n /\
    match names t with Some nm => Z.of_nat (List.length nm) = n | None => True end.
Proof. exact @shape_is_metadata. Qed.
Print Assumptions C31_shape_is_metadata.

Example C31_case : built ex_tree /\ all_3d ex_world ex_tree /\ dsize ex_tree = Some (4, 2) /\
  num_channels ex_tree = Some 3 /\ names ex_tree = Some ["n"; "g"; "r"]%string.
Proof. split; [apply ex_built|]. split; [apply ex_3d|]. repeat split. Qed.

(* C74: over 2-d data the claim is false: the leaf reports one channel, its array has
   no channel axis. *)
Theorem C74_flat_data_shape_refuted : exists (W : world Z) t a, built t /\
  finalize W t = Ok a /\ num_channels t = Some 1 /\ a_c a = None.
Proof.
  exists (World (fun id r c b => r + c) (fun _ => true) (-1) (-2) (fun q v => v + q)),
    (img 1 3 3 ["a"%string] None). eexists.
  split; [split; [apply made_img; lia|exact I]|]. split; [vm_compute; reflexivity|]. split; reflexivity.
Qed.
Print Assumptions C74_flat_data_shape_refuted.

(* What remains true: whenever an image over 2-d data finalizes, the result is that
   of the same image over H x W x 1 data, up to the missing channel axis; so two
   finalized results, before and after optimize(), agree.  Missing: that they
   finalize at all, and the axis. *)
Theorem C74_flat_data_partial : forall {V} (W : world V) t, flat_one W t ->
  (forall a, finalize W t = Ok a -> finalize (unflat W) t = Ok (atleast3 a)) /\
  (forall o t' a a', built t -> optimizes o t t' -> finalize W t = Ok a -> finalize W t' = Ok a' ->
     same_array (atleast3 a) (atleast3 a')).
Proof.
  intros V W t Hf. split; [now apply unflat_finalize|]. intros. eapply flat_optimized; eassumption.
Qed.
Print Assumptions C74_flat_data_partial.

Definition flat_world : world Z := World (fun id r c b => 10 * r + c) (fun _ => true) (-1) (-2) (fun q v => v + q).
Definition flat_tree : node := mkDequant (the (crop_to (img 1 5 4 ["a"%string] None) 1 3 1 4)) (Some 1).
Example C74_case : flat_one flat_world flat_tree /\ built flat_tree /\
  rmap (fun a => (a_h a, a_w a, a_c a, a_pix a 1 2 0)) (finalize flat_world flat_tree) = Ok (2, 3, Some 1, 24) /\
  rmap (fun a => (a_h a, a_w a, a_c a, a_pix a 1 2 0))
    (finalize flat_world (the (rmap fst (optimize axis_oracle 30 flat_tree)))) = Ok (2, 3, Some 1, 24).
Proof.
  split; [intros _; reflexivity|]. split; [split; [|vm_compute; tauto]|split; vm_compute; reflexivity].
  apply made_dequant. apply made_crop_to; [|reflexivity]. apply made_img; lia.
Qed.

(** C32: "optimize() never fails on a tree without overviews" is false: a
    dequantization of a dequantized image and a band selection from a
    concatenation with an unnamed part raise AssertionError, and a crop of an
    image flattened onto a line by a warp cannot invert the transform. *)
Theorem C32_optimize_total_refuted : forall o,
  (exists t, built t /\ names t <> None /\ optimize_raises o t AssertionError) /\
  (exists t, built t /\ dq_once t /\ optimize_raises o t AssertionError) /\
  (exists t, made t /\ ov_free t /\ names t <> None /\ dq_once t /\ optimize_raises o t OtherError).
Proof.
  intros o. split; [|split].
  - exists (mkDequant (mkDequant (img 1 2 2 ["a"%string] None) (Some 1)) (Some 2)).
    split; [|split; [discriminate|]].
    + split; [|vm_compute; tauto]. do 2 apply made_dequant. apply made_img; lia.
    + exists 3%nat. intros fuel H. do 3 (destruct fuel as [|fuel]; [lia|]). reflexivity.
  - set (u := Leaf (MkLeaf 1 Data (2, 2) None (Some 1) None)). 
    set (c := concat_of [u; img 2 2 2 ["a"%string] None]).
    exists (the (mkCrop c None (Some [1]))). split; [split|split].
    + apply (made_bands c None [1]); [|discriminate| |reflexivity].
      * apply (made_concat [u; img 2 2 2 ["a"%string] None]); [|discriminate|reflexivity].
        constructor; [|constructor; [apply made_img; lia|constructor]].
        apply made_leaf; [|cbn; lia]. split; [|discriminate]. exists 1. cbn. auto with zarith.
      * intros n [= <-]. repeat constructor; lia.
    + vm_compute. tauto.
    + vm_compute. tauto.
    + exists 4%nat. intros fuel H. do 4 (destruct fuel as [|fuel]; [lia|]). reflexivity.
  - set (w := Warp (img 1 4 4 ["a"%string] None) (Aff 1 1 1 1 0 0) (4, 4) default_algo).
    exists (the (crop_to w 0 2 0 2)). split; [|split; [|split; [discriminate|split]]].
    + apply (made_crop_to w 0 2 0 2); [|reflexivity]. apply made_warp; [apply made_img; lia|reflexivity|cbn; lia].
    + vm_compute. tauto.
    + vm_compute. tauto.
    + exists 4%nat. intros fuel H. do 4 (destruct fuel as [|fuel]; [lia|]).
      cbn. unfold absorb. cbn. destruct (absorbs o _); reflexivity.
Qed.
Print Assumptions C32_optimize_total_refuted.

(** Otherwise it returns: every tree without overviews to use, with named channels,
    invertible warps and no image dequantized twice can be optimized. *)
Theorem C32_optimize_total_partial : forall o t, made t -> ov_free t -> warps_all invertible t ->
  names t <> None -> dq_once t -> exists t', optimizes o t t'.
Proof. exact optimize_returns_warps. Qed.
Print Assumptions C32_optimize_total_partial.

(* more fuel does not change a result, so "returns" does not depend on it *)
Theorem C32_result_unique : forall o t t1 t2, optimizes o t t1 -> optimizes o t t2 -> t1 = t2.
Proof. exact optimizes_det. Qed.
Print Assumptions C32_result_unique.

Example C32_case : built ex_tree /\ names ex_tree <> None /\ dq_once ex_tree.
Proof. split; [apply ex_built|]. split; [discriminate|]. vm_compute. tauto. Qed.

(* bands of a concatenation, enlarged, turned by 45 degrees, and cropped *)
Definition ex_warps : node :=
  the (crop_to (Warp (the (mkWarp_auto ex_tree (aff_scale 2 (3#2)) default_algo))
    (Aff 1 (-1) 1 1 2 0) (9, 9) default_algo) 1 7 2 7).

Lemma ex_warps_made : made ex_warps.
Proof.
  apply (made_crop_to (Warp (the (mkWarp_auto ex_tree (aff_scale 2 (3#2)) default_algo)) (Aff 1 (-1) 1 1 2 0) (9, 9) default_algo) 1 7 2 7); [|reflexivity].
  apply made_warp; [|reflexivity|cbn; lia]. apply made_warp; [apply ex_built|reflexivity|cbn; lia].
Qed.

Example C32_case_warps : made ex_warps /\ ov_free ex_warps /\ warps_all invertible ex_warps /\
  names ex_warps <> None /\ dq_once ex_warps /\ dsize ex_warps = Some (5, 6).
Proof.
  split; [exact ex_warps_made|]. split; [vm_compute; tauto|]. split; [vm_compute; intuition discriminate|].
  split; [discriminate|]. split; [vm_compute; tauto|reflexivity].
Qed.

(** With overviews in use: operations over one image whose number of overviews is
    known, with warps that are invertible and not nearest, either return or raise
    KeyError, whatever the overview levels.  [sane o]: the numeric decisions return,
    and see no scaling in a translation. *)
Theorem C32_overviews_partial : forall o t, sane o -> made t ->
  one_image (fun M al => ~ aff_det M == 0 /\ al_nearest al = false)%Q t -> dq_once t ->
  (exists t', optimizes o t t') \/ optimize_raises o t KeyError.
Proof. intros o t So. apply OvTotal.optimize_ends; auto. Qed.
Print Assumptions C32_overviews_partial.

(** Warps along the axes that do not enlarge always return. *)
Theorem C32_overviews_shrink_partial : forall t, made t -> one_image shrinks t -> dq_once t ->
  exists t', optimizes axis_oracle t t'.
Proof. exact OvTotal.optimize_shrinks. Qed.
Print Assumptions C32_overviews_shrink_partial.

(* the first overview, moved, cropped beyond the image, and doubled *)
Definition ex_beyond : node :=
  let ov := the (mkOverview (img 1 16 16 ["a"%string] (Some 2)) 1) in
  Warp (the (crop_to (Warp ov (aff_translate 100 0) (200, 8) default_algo) 0 4 0 10))
    (aff_scale 2 2) (20, 8) default_algo.

(** The KeyError is real: a crop that shows nothing of an enlarged overview. *)
Theorem C32_overviews_refuted : exists t, made t /\
  one_image (fun M al => ~ aff_det M == 0 /\ al_nearest al = false)%Q t /\ dq_once t /\
  optimize_raises axis_oracle t KeyError.
Proof.
  exists ex_beyond. split; [|split; [|split]].
  - apply made_warp; [|reflexivity|cbn; lia]. eapply made_crop_to; [|reflexivity].
    apply made_warp; [|reflexivity|cbn; lia]. apply (made_overview (img 1 16 16 ["a"%string] (Some 2)) 1); [|reflexivity]. apply made_img; lia.
  - vm_compute. intuition discriminate.
  - vm_compute. tauto.
  - exists 12%nat. intros fuel H. do 12 (destruct fuel as [|fuel]; [lia|]). vm_compute. reflexivity.
Qed.
Print Assumptions C32_overviews_refuted.

(* bands of a crop of a quarter of the first of two overviews *)
Definition ex_pyramid : node :=
  the (crop_to (mkDequant (the (mkWarp_auto (the (mkOverview (the (crop_to (img 1 64 48 ["a"%string] (Some 3)) 1 40 3 60)) 1))
    (aff_scale (1#4) (1#4)) default_algo)) (Some 1)) 1 4 1 5).

Example C32_case_overviews : sane axis_oracle /\ made ex_pyramid /\ one_image shrinks ex_pyramid /\ dq_once ex_pyramid /\
  exists t', optimizes axis_oracle ex_pyramid t' /\ t' <> ex_pyramid.
Proof.
  split; [exact OvTotal.axis_sane|]. split; [|split; [|split]].
  - eapply made_crop_to; [|reflexivity]. apply made_dequant. apply made_warp; [|reflexivity|vm_compute; intuition discriminate].
    eapply (made_overview (the (crop_to (img 1 64 48 ["a"%string] (Some 3)) 1 40 3 60)) 1); [|reflexivity].
    eapply made_crop_to; [|reflexivity]. apply made_img; lia.
  - vm_compute. intuition discriminate.
  - vm_compute. tauto.
  - exists (the (rmap fst (optimize axis_oracle 40 ex_pyramid))). split; [|vm_compute; discriminate].
    exists 40%nat, false. vm_compute. reflexivity.
Qed.

(** C33: "optimizing an optimized tree gives it back" is false: doubling the first
    overview of a file leaves an identity warp, which only a second optimize()
    removes. *)
Theorem C33_idempotent_refuted : exists t t' t'', made t /\ nans_free t /\
  optimizes axis_oracle t t' /\ optimizes axis_oracle t' t'' /\ t' <> t''.
Proof.
  set (ov := the (mkOverview (img 1 16 16 ["a"%string] (Some 2)) 1)).
  exists (the (mkWarp_auto ov (aff_scale 2 2) default_algo)). eexists _, _.
  split. { apply made_warp; [|reflexivity|cbn; lia]. apply (made_overview (img 1 16 16 ["a"%string] (Some 2)) 1); [|reflexivity].
           apply made_img; lia. }
  split; [reflexivity|]. split; [exists 30%nat, false; vm_compute; reflexivity|].
  split; [exists 30%nat, false; vm_compute; reflexivity|]. discriminate.
Qed.
Print Assumptions C33_idempotent_refuted.

(** It holds for trees without overviews to use, with named channels, invertible
    warps and no image dequantized twice. *)
Theorem C33_idempotent_partial : forall o t t', made t -> ov_free t -> warps_all invertible t ->
  names t <> None -> dq_once t -> optimizes o t t' -> optimizes o t' t'.
Proof. exact optimize_idem_warps. Qed.
Print Assumptions C33_idempotent_partial.

Example C33_case : exists t', optimizes axis_oracle ex_tree t' /\ t' <> ex_tree /\ optimizes axis_oracle t' t'.
Proof.
  eexists. split; [exists 30%nat, false; vm_compute; reflexivity|]. split; [discriminate|].
  exists 30%nat, false. vm_compute. reflexivity.
Qed.

(** C73: "an overview of an image that stores no overviews can be optimized" is
    false: an overview of a crop of an in-memory image (whose overview count is
    unknown) raises TypeError. *)
Theorem C73_overview_of_memory_refuted : exists t, made t /\ nans_free t /\ dsize t = Some (2, 2) /\
  optimize_raises axis_oracle t TypeError.
Proof.
  set (c := the (crop_to (img 1 16 16 ["a"%string] None) 1 5 1 5)).
  exists (the (mkOverview c 1)). split.
  { apply (made_overview c 1); [|reflexivity].
    apply (made_crop (img 1 16 16 ["a"%string] None) (Some ((Some 1, Some 5), (Some 1, Some 5)))); [|reflexivity].
    apply made_img; lia. }
  split; [reflexivity|]. split; [reflexivity|].
  exists 8%nat. intros fuel H. do 8 (destruct fuel as [|fuel]; [lia|]). vm_compute. reflexivity.
Qed.
Print Assumptions C73_overview_of_memory_refuted.

(** It holds when the number of overviews is known, even if it is zero: any
    overviews, crops, band selections and a dequantization can be optimized. *)
Theorem C73_overview_partial : forall o t, sane o -> made t -> one_image (fun _ _ => False) t -> dq_once t ->
  exists t', optimizes o t t'.
Proof. exact OvTotal.optimize_no_warps. Qed.
Print Assumptions C73_overview_partial.

Example C73_case : exists t t', sane axis_oracle /\ made t /\ one_image (fun _ _ => False) t /\ dq_once t /\
  dsize t = Some (2, 2) /\ optimizes axis_oracle t t' /\ t' <> t.
Proof.
  set (c := the (crop_to (img 1 16 16 ["a"%string] (Some 0)) 1 5 1 5)).
  exists (the (mkOverview c 1)), (the (rmap fst (optimize axis_oracle 40 (the (mkOverview c 1))))).
  split; [exact OvTotal.axis_sane|]. split.
  { apply (made_overview c 1); [|reflexivity]. eapply made_crop_to; [|reflexivity]. apply made_img; lia. }
  split; [vm_compute; intuition discriminate|]. split; [vm_compute; tauto|]. split; [reflexivity|]. split; [|vm_compute; discriminate].
  exists 40%nat, false. vm_compute. reflexivity.
Qed.
