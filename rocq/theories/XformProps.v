(* Property theorems about get_transform_from and undo_warp.
   Vocabulary (XformSpec.v): [chain t] - image operations over a single leaf;
   [moves t u v x y] - the leaf point (u, v) ends up at (x, y) of t; [regular t] -
   no warp of t is singular; [same_map A B] - the transforms agree everywhere;
   [shows_area t] - three points that are not on a line show data; [picks t c] -
   the chain c is t with one part chosen in every concatenation. *)
From Verif Require Import Py PyProofs GeomModel GeomProofs GraphModel GraphSpec GraphBase GraphSize GraphProps XformModel XformSpec XformProofs.
Local Open Scope Q_scope.

(** Example chains over one 16x16 leaf *)
Definition xf_leaf : node := img 1 16 16 ["a"%string] (Some 2%Z).
Definition xf_crop : node := the (crop_to xf_leaf 2 14 4 14).
Definition xf_rot : affine := Aff 0 (-3) 3 0 40 5.
Definition xf_a : node := the (mkWarp_auto xf_crop xf_rot default_algo).
Definition xf_b : node := the (mkOverview xf_crop 1).
Definition xf_half : node := Warp xf_crop (Aff (1#2) 0 0 (1#2) 1 0) (7, 7)%Z default_algo.

Lemma xf_crop_made : made xf_crop.
Proof. apply made_crop_to; [apply made_img; lia|reflexivity]. Qed.

Lemma in_box d x y : 0 <= x -> x <= inject_Z (fst d) -> 0 <= y -> y <= inject_Z (snd d) -> inside d x y.
Proof. intros. split; split; assumption. Qed.

(** C49: the transform takes every point of src to the point of dst that shows the
    same leaf location, and exists when no warp of src is singular. *)
Theorem C49_same_point : forall dst src, chain src -> chain dst -> regular src ->
  exists T, get_transform_from dst src = Ok T /\
    forall u v x y, moves src u v x y -> moves dst u v (ax T x y) (ay T x y).
Proof.
  intros dst src Hs Hd Hr. destruct (gtf_total _ _ Hs Hd Hr) as (T & HT).
  exists T. split; [exact HT|]. intros u v x y. now apply gtf_moves.
Qed.
Print Assumptions C49_same_point.

(** C46: both ways of taking overviews have the same transform from every image. *)
Theorem C46_same_transform : forall s a b t u v src,
  mkOverview s a = Ok t -> mkOverview t b = Ok u -> mkOverview s (a + b) = Ok v ->
  chain s -> chain src -> regular src ->
  exists T T', get_transform_from u src = Ok T /\ get_transform_from v src = Ok T' /\ same_map T T'.
Proof. exact overview_twice_transform. Qed.
Print Assumptions C46_same_transform.

Example C46_same_transform_case : exists t u v,
  mkOverview xf_crop 1 = Ok t /\ mkOverview t 2 = Ok u /\ mkOverview xf_crop (1 + 2) = Ok v /\
  chain xf_crop /\ chain xf_leaf /\ regular xf_leaf.
Proof. do 3 eexists. repeat (split; [vm_compute; try reflexivity; exact I|]). exact I. Qed.

Theorem C49_compose : forall c b a T1 T2, chain a -> chain b -> chain c ->
  get_transform_from b a = Ok T1 -> get_transform_from c b = Ok T2 ->
  exists T, get_transform_from c a = Ok T /\ same_map T (aff_mul T2 T1).
Proof. exact gtf_compose. Qed.
Print Assumptions C49_compose.

Theorem C49_self : forall t T, get_transform_from t t = Ok T -> same_map T aff_id.
Proof. exact gtf_self_any. Qed.
Print Assumptions C49_self.

Theorem C49_inverse : forall b a T1 T2, chain a -> chain b ->
  get_transform_from b a = Ok T1 -> get_transform_from a b = Ok T2 ->
  same_map (aff_mul T2 T1) aff_id /\ same_map (aff_mul T1 T2) aff_id.
Proof. intros b a T1 T2 Ha Hb H1 H2. split; eapply gtf_inverse; [exact Ha|exact Hb|exact H1|exact H2|exact Hb|exact Ha|exact H2|exact H1]. Qed.
Print Assumptions C49_inverse.

Example C49_case : chain xf_a /\ chain xf_b /\ regular xf_a /\ regular xf_b /\
  moves xf_a 6 5 31 11 /\ moves xf_b 6 5 1 (3#2) /\
  exists T, get_transform_from xf_b xf_a = Ok T /\ ax T 31 11 == 1 /\ ay T 31 11 == 3#2.
Proof.
  split; [exact I|]. split; [exact I|]. split; [cbn; split; [discriminate|exact I]|]. split; [exact I|].
  split; [cbn; exists 2, 3; repeat split|]. split; [cbn; repeat split|].
  eexists. split; [vm_compute; reflexivity|]. split; reflexivity.
Qed.

(** C93: optimize() does not change the transforms of an image that shows an area of
    its data, neither as source nor as target.  Missing: images that show no area
    (below), missing-data leafs (below). *)
Theorem C93_optimize_partial : forall o a a' b T1 T2, made a -> chain a -> nans_free a -> shows_area a -> chain b ->
  optimizes o a a' -> get_transform_from b a = Ok T1 -> get_transform_from a b = Ok T2 ->
  exists T1' T2', get_transform_from b a' = Ok T1' /\ get_transform_from a' b = Ok T2' /\
    same_map T1' T1 /\ same_map T2' T2.
Proof.
  intros o a a' b T1 T2 Hm Hc Hn Ha Hb Ho H1 H2. destruct (made_ok _ Hm) as (Hw & _).
  destruct (optimizes_transform o a a' Hw Hc Hn Ha Ho) as (Hc' & A & A' & EA & EA' & S).
  destruct (gtf_chain_ok _ _ _ Hc Hb H1) as (A1 & B1 & E1 & E2 & D1 & ->). rewrite EA in E1. injection E1 as <-.
  destruct (gtf_chain_ok _ _ _ Hb Hc H2) as (B2 & A2 & E3 & E4 & D2 & ->). rewrite EA in E4. injection E4 as <-.
  rewrite E2 in E3. injection E3 as <-.
  rewrite (gtf_chain _ _ _ _ EA' E2), (gtf_chain _ _ _ _ E2 EA').
  assert (D' : ~ aff_det A' == 0) by (now rewrite <- (same_det _ _ S)).
  rewrite (aff_inv_total _ D'), (aff_inv_total _ D2). cbn [bind]. eexists _, _. split; [reflexivity|]. split; [reflexivity|].
  split; apply same_mul; try apply same_refl; [|now apply same_sym]. apply same_sym, inv_same; assumption.
Qed.
Print Assumptions C93_optimize_partial.

Example C93_optimize_case : exists a', made xf_half /\ chain xf_half /\ nans_free xf_half /\ shows_area xf_half /\
  optimizes axis_oracle xf_half a' /\ a' <> xf_half /\ regular xf_half.
Proof.
  eexists. split; [apply made_warp; [apply xf_crop_made|reflexivity|cbn; lia]|]. split; [exact I|]. split; [reflexivity|]. split.
  { exists (1, 0), (2, 0), (1, 1). split; [unfold triangle; cbn; discriminate|].
    assert (K : forall z u v, 0 <= u <= 10 -> 0 <= v <= 12 -> fst z == 1 + (1#2) * u -> snd z == (1#2) * v ->
      exists c s, vis xf_half (fst z) (snd z) c s).
    { intros z u v Hu Hv Ex Ey. exists 0%Z, (Samp 1 0 (u + 4) (v + 2) []). unfold xf_half.
      change xf_crop with (Crop xf_leaf (2, 14)%Z (4, 14)%Z None (10, 12)%Z None None). cbn [vis].
      split; [apply in_box; cbn [fst snd]; unfold inject_Z; lra|]. exists u, v.
      split; [unfold ax; cbn [a11 a12 b1]; lra|]. split; [unfold ay; cbn [a21 a22 b2]; lra|].
      split; [apply in_box; cbn [fst snd]; unfold inject_Z; lra|]. exists 0%Z. split; [reflexivity|]. cbn [fst snd].
      split; [apply in_box; cbn [fst snd l_dsize]; unfold inject_Z; lra|].
      split; [exists 1%Z; auto with zarith|]. exists (u + 4), (v + 2). repeat split. }
    intros z [-> | [-> | ->]]; [apply (K _ 0 0)|apply (K _ 2 0)|apply (K _ 0 2)]; cbn; repeat split; lra. }
  split; [exists 30%nat, false; vm_compute; reflexivity|]. split; [discriminate|]. cbn. split; [discriminate|exact I].
Qed.

(* Without data in view the claim is false: a window of a doubled 10x10 image
   beyond its border is moved by optimize(); and a warped missing-data image
   becomes a leaf of its own. *)
Definition xf_beyond : node :=
  the (crop_to (Warp (img 1 10 10 ["a"%string] None) (aff_scale 2 2) (100, 100)%Z default_algo) 50 60 50 60).
Definition xf_nans : node := Warp (nan_img 4 4 ["a"%string]) (aff_scale 2 2) (8, 8)%Z default_algo.

Theorem C93_optimize_refuted :
  (exists a a' b T T', made a /\ chain a /\ regular a /\ nans_free a /\ chain b /\ optimizes axis_oracle a a' /\
     get_transform_from b a = Ok T /\ get_transform_from b a' = Ok T' /\ ~ same_map T' T) /\
  (exists a a' b T T', made a /\ chain a /\ regular a /\ chain b /\ optimizes axis_oracle a a' /\
     get_transform_from b a = Ok T /\ get_transform_from b a' = Ok T' /\ ~ same_map T' T).
Proof.
  split.
  - exists xf_beyond. eexists. exists (img 1 10 10 ["a"%string] None). eexists _, _. split.
    { apply made_crop_to; [|reflexivity]. apply made_warp; [apply made_img; lia|reflexivity|cbn; lia]. }
    split; [exact I|]. split; [cbn; split; [discriminate|exact I]|]. split; [reflexivity|]. split; [exact I|].
    split; [exists 30%nat, false; vm_compute; reflexivity|]. split; [vm_compute; reflexivity|]. split; [vm_compute; reflexivity|].
    intros H. destruct (H 0 0) as [H1 _]. discriminate H1.
  - exists xf_nans. eexists. exists (nan_img 4 4 ["a"%string]). eexists _, _. split.
    { apply made_warp; [apply made_nan_img; lia|reflexivity|cbn; lia]. }
    split; [exact I|]. split; [cbn; split; [discriminate|exact I]|]. split; [exact I|].
    split; [exists 30%nat, false; vm_compute; reflexivity|]. split; [vm_compute; reflexivity|]. split; [vm_compute; reflexivity|].
    intros H. destruct (H 1 0) as [H1 _]. discriminate H1.
Qed.
Print Assumptions C93_optimize_refuted.

(** C91: with concatenations.  The reported transform relates the positions of one
    leaf that both images have. *)
Theorem C91_common_leaf_partial : forall dst src T, ~ (chain src /\ chain dst) -> get_transform_from dst src = Ok T ->
  exists s d ls ld, picks src s /\ picks dst d /\ base s = Some ls /\ base d = Some ld /\ l_id ls = l_id ld /\
    forall u v x y, moves s u v x y -> moves d u v (ax T x y) (ay T x y).
Proof.
  intros dst src T Hc H. destruct (gtf_concat _ _ _ Hc H) as (i & s & d & ls & ld & A & B & P1 & P2 & B1 & B2 & L1 & L2 & EA & EB & HA & ->).
  exists s, d, ls, ld. split; [exact P1|]. split; [exact P2|]. split; [exact B1|]. split; [exact B2|]. split; [congruence|].
  intros u v x y M. rewrite (from_leaf_moves _ _ _ _ _ _ EA) in M. rewrite (from_leaf_moves _ _ _ _ _ _ EB).
  destruct M as [M1 M2]. rewrite ax_mul, ay_mul, M1, M2. destruct (inv_left A u v HA) as [I1 I2].
  rewrite I1, I2. split; reflexivity.
Qed.
Print Assumptions C91_common_leaf_partial.

Definition xf_l1 : node := img 1 4 4 ["a"%string] None.
Definition xf_l2 : node := img 2 4 4 ["b"%string] None.
Definition xf_cat1 : node := concat_of [Warp xf_l1 (aff_scale 2 2) (8, 8)%Z default_algo; Warp xf_l2 (aff_scale 1 1) (8, 8)%Z default_algo].
Definition xf_cat2 : node := concat_of [xf_l2; xf_l1].

(* Which leaf is taken depends on the order of the target's parts, so back and
   forth is not the identity, and it is reported also between images over
   different leafs when no concatenation is involved. *)
Theorem C91_concat_refuted :
  (exists a b T1 T2, made a /\ made b /\ regular a /\ regular b /\
     get_transform_from b a = Ok T1 /\ get_transform_from a b = Ok T2 /\ ~ same_map (aff_mul T2 T1) aff_id) /\
  (exists a b la lb T, made a /\ made b /\ base a = Some la /\ base b = Some lb /\ l_id la <> l_id lb /\
     get_transform_from b a = Ok T).
Proof.
  split.
  - exists xf_cat1, xf_cat2. eexists _, _.
    split. { apply (made_concat [Warp xf_l1 (aff_scale 2 2) (8, 8)%Z default_algo; Warp xf_l2 (aff_scale 1 1) (8, 8)%Z default_algo]);
             [|discriminate|reflexivity].
             repeat apply Forall_cons; [| |constructor]; (apply made_warp; [apply made_img; lia|reflexivity|cbn; lia]). }
    split. { apply (made_concat [xf_l2; xf_l1]); [|discriminate|reflexivity].
             repeat apply Forall_cons; [| |constructor]; apply made_img; lia. }
    split; [cbn; repeat split; discriminate|]. split; [cbn; repeat split|].
    split; [vm_compute; reflexivity|]. split; [vm_compute; reflexivity|].
    intros H. destruct (H 1 0) as [H1 _]. discriminate H1.
  - exists xf_l1, xf_l2. eexists _, _, _. split; [apply made_img; lia|]. split; [apply made_img; lia|].
    split; [reflexivity|]. split; [reflexivity|]. split; [discriminate|]. vm_compute. reflexivity.
Qed.
Print Assumptions C91_concat_refuted.

Example C91_case : ~ (chain xf_cat1 /\ chain xf_cat2) /\ exists T, get_transform_from xf_cat2 xf_cat1 = Ok T.
Proof. split; [intros [[] _]|]. eexists. vm_compute. reflexivity. Qed.

(** C50.  [codec_ok c] is what is assumed of kwimage's decomposition (XformSpec.v).
    A codec over the rationals that satisfies it: *)
Definition pair_codec : codec affine :=
  Codec (fun M => [("offset"%string, M); ("scale"%string, M)])
        (fun d => let B := match dict_get "offset" d with Some M => M | None => aff_id end in
                  let L := match dict_get "scale" d with Some M => M | None => aff_id end in
                  Aff (a11 L) (a12 L) (a21 L) (a22 L) (b1 B) (b2 B)).

Lemma pair_codec_ok : codec_ok pair_codec.
Proof.
  assert (K : forall d : list (string * affine), dict_get "offset" (filter (fun kv => negb (String.eqb (fst kv) "offset")) d) = None /\
    dict_get "scale" (filter (fun kv => negb (String.eqb (fst kv) "offset")) d) = dict_get "scale" d).
  { induction d as [|[k M] d [IH1 IH2]]; [split; reflexivity|]. cbn [filter fst]. destruct (String.eqb_spec k "offset") as [->|N].
    - cbn [negb]. split; [exact IH1|]. rewrite IH2. reflexivity.
    - cbn [negb dict_get]. destruct (String.eqb_spec "offset" k) as [<-|_]; [congruence|]. split; [exact IH1|].
      now rewrite IH2. }
  split; [|split; [|split; [|split]]].
  - intros M _ x y. split; reflexivity.
  - intros M _. repeat constructor; cbn; tauto.
  - intros d x y. destruct (K d) as [K1 K2]. cbn [coerce pair_codec]. rewrite K1, K2. unfold ax; cbn. ring.
  - intros d x y. destruct (K d) as [K1 K2]. cbn [coerce pair_codec]. rewrite K1, K2. unfold ay; cbn. ring.
  - intros x y. split; reflexivity.
Qed.

(** After undo_warp() every sample that was in view is found at its own leaf
    coordinates. *)
Theorem C50_aligned : forall {V} (c : codec V) o fuel t sq rw t' W, codec_ok c ->
  made t -> chain t -> nans_free t -> undo_warp c o fuel t None None sq rw = Ok (t', W) ->
  forall x y k i b u v dq, vis t x y k (Samp i b u v dq) -> vis t' u v k (Samp i b u v dq).
Proof. intros V c o fuel t sq rw t' W Hok Hm Hc Hn. destruct (made_ok _ Hm) as (Hw & _). now apply undo_aligned. Qed.
Print Assumptions C50_aligned.

(** If an area was in view, the transform from the leaf is now the identity, and
    the returned warp (without squash_nans) is the transform from the image to
    the undone image. *)
Theorem C50_leaf_coordinates : forall {V} (c : codec V) o fuel t t' W sq, codec_ok c ->
  made t -> chain t -> nans_free t -> shows_area t ->
  undo_warp c o fuel t None None sq true = Ok (t', W) ->
  chain t' /\ (forall u v x y, moves t' u v x y <-> x == u /\ y == v) /\
  (sq = false -> exists U T, W = Some U /\ get_transform_from t' t = Ok T /\ same_map U T).
Proof.
  intros V c o fuel t t' W sq Hok Hm Hc Hn Ha H. destruct (made_ok _ Hm) as (Hw & _).
  destruct (undo_transform_id c o fuel t sq true t' W Hok Hc Hn Hw Ha H) as (Hc' & A & A' & HA & HA' & Hd & S & HW).
  split; [exact Hc'|]. split.
  - intros u v x y. rewrite (from_leaf_moves _ _ _ _ _ _ HA'). destruct (S u v) as [S1 S2].
    rewrite ax_id in S1. rewrite ay_id in S2. rewrite S1, S2. reflexivity.
  - intros Hsq. destruct (HW Hsq eq_refl) as (U & -> & HU). exists U, (aff_mul A' (aff_inv_raw A)). split; [reflexivity|].
    split; [rewrite (gtf_chain _ _ _ _ HA HA'), (aff_inv_total _ Hd); reflexivity|].
    eapply same_trans; [exact HU|]. apply same_sym. eapply same_trans; [apply same_mul; [exact S|apply same_refl]|]. apply mul_id_l.
Qed.
Print Assumptions C50_leaf_coordinates.

(** With the offset retained, every sample is found at its leaf coordinates
    relative to the leaf location (u0, v0) of the image's origin. *)
Theorem C50_retain_offset : forall {V} (c : codec V) o fuel t sq rw t' W, codec_ok c ->
  made t -> chain t -> nans_free t ->
  undo_warp c o fuel t None (Some ["offset"%string]) sq rw = Ok (t', W) ->
  forall u0 v0, moves t u0 v0 0 0 ->
  forall x y k i b u v dq, vis t x y k (Samp i b u v dq) -> u0 <= u -> v0 <= v ->
    vis t' (u - u0) (v - v0) k (Samp i b u v dq).
Proof. intros V c o fuel t sq rw t' W Hok Hm Hc Hn. destruct (made_ok _ Hm) as (Hw & _). now apply undo_keep_offset. Qed.
Print Assumptions C50_retain_offset.

(** retain and remove are complementary; giving both is an error; removing nothing
    applies the identity. *)
Theorem C50_complement : forall {V} (c : codec V) o fuel t rm rt sq rw, codec_ok c ->
  (forall k, In k ["offset"; "scale"; "shearx"; "theta"]%string -> (In k rt <-> ~ In k rm)) ->
  undo_warp c o fuel t (Some rm) None sq rw = undo_warp c o fuel t None (Some rt) sq rw.
Proof. exact @undo_complement. Qed.
Print Assumptions C50_complement.

Theorem C50_exclusive : forall {V} (c : codec V) o fuel t rm rt sq rw,
  undo_warp c o fuel t (Some rm) (Some rt) sq rw = Err ValueError.
Proof. reflexivity. Qed.
Print Assumptions C50_exclusive.

Theorem C50_remove_nothing : forall {V} (c : codec V) o fuel t t' W, codec_ok c -> made t -> chain t -> nans_free t ->
  undo_warp c o fuel t (Some []) None false true = Ok (t', W) -> exists U, W = Some U /\ same_map U aff_id.
Proof. intros V c o fuel t t' W Hok Hm Hc Hn. destruct (made_ok _ Hm) as (Hw & _). now apply undo_nothing. Qed.
Print Assumptions C50_remove_nothing.

(** undo_warps() of a concatenation undoes every part. *)
Theorem C50_parts : forall {V} (c : codec V) o fuel ps rt sq rw out,
  undo_warps c o fuel ps None rt sq rw = Ok out ->
  Forall2 (fun p r => undo_warp c o fuel p None rt sq rw = Ok r) ps out.
Proof. exact @undo_warps_parts. Qed.
Print Assumptions C50_parts.

Example C50_case : codec_ok pair_codec /\ made xf_a /\ chain xf_a /\ nans_free xf_a /\ vis xf_a 31 11 0 (Samp 1 0 6 5 []) /\
  (exists t' W, undo_warp pair_codec axis_oracle 30 xf_a None None false true = Ok (t', W) /\ t' <> xf_a) /\
  (exists t' W, undo_warp pair_codec axis_oracle 30 xf_a None (Some ["offset"%string]) false true = Ok (t', W)) /\
  (exists t' W, undo_warp pair_codec axis_oracle 30 xf_a (Some []) None false true = Ok (t', W)) /\
  (exists out, undo_warps pair_codec axis_oracle 30 [xf_a; xf_b] None None false true = Ok out).
Proof.
  split; [apply pair_codec_ok|]. split; [apply made_warp; [apply xf_crop_made|reflexivity|cbn; lia]|]. split; [exact I|]. split; [reflexivity|].
  split. { cbn. split; [apply in_box; discriminate|]. exists 2, 3. split; [reflexivity|]. split; [reflexivity|].
           split; [apply in_box; discriminate|]. exists 0%Z. split; [reflexivity|]. split; [apply in_box; discriminate|].
           split; [exists 1%Z; auto with zarith|]. exists 6, 5. repeat split. }
  split; [eexists _, _; split; [vm_compute; reflexivity|discriminate]|].
  split; [eexists _, _; vm_compute; reflexivity|]. split; [eexists _, _; vm_compute; reflexivity|].
  eexists. vm_compute. reflexivity.
Qed.

(** C92: "the returned warp is the transform from the image to the undone image" is
    false with squash_nans: an image with data is not squashed, the returned warp
    is. *)
Theorem C92_returned_warp_refuted : exists t t' U T, made t /\ chain t /\ nans_free t /\
  undo_warp pair_codec axis_oracle 30 t None None true true = Ok (t', Some U) /\
  get_transform_from t' t = Ok T /\ ~ same_map U T.
Proof.
  exists xf_b. eexists _, _, _. split.
  { apply (made_overview xf_crop 1); [apply xf_crop_made|reflexivity]. }
  split; [exact I|]. split; [reflexivity|]. split; [vm_compute; reflexivity|]. split; [vm_compute; reflexivity|].
  intros H. destruct (H 1 0) as [H1 _]. discriminate H1.
Qed.
Print Assumptions C92_returned_warp_refuted.

(** Without squash_nans it is, for an image that shows an area of its data. *)
Theorem C92_returned_warp_partial : forall {V} (c : codec V) o fuel t t' W, codec_ok c ->
  made t -> chain t -> nans_free t -> shows_area t ->
  undo_warp c o fuel t None None false true = Ok (t', W) ->
  exists U T, W = Some U /\ get_transform_from t' t = Ok T /\ same_map U T.
Proof. intros V c o fuel t t' W Hok Hm Hc Hn Ha H. destruct (C50_leaf_coordinates c o fuel t t' W false Hok Hm Hc Hn Ha H) as (_ & _ & G). auto. Qed.
Print Assumptions C92_returned_warp_partial.

(** C113: "undo_warp(squash_nans=True) turns missing data into one pixel" is false:
    missing data that was dequantized or made an overview comes back in full size. *)
Theorem C113_squash_refuted : exists t t' W, made t /\ chain t /\ (forall l, base t = Some l -> l_kind l = Nans) /\
  undo_warp pair_codec axis_oracle 30 t None None true true = Ok (t', W) /\ dsize t' = Some (600, 400)%Z.
Proof.
  exists (Dequant (nan_img 600 400 ["n"%string]) (Some 3%Z) (Some (600, 400)%Z)). eexists _, _. split.
  { apply (made_dequant (nan_img 600 400 ["n"%string])). apply made_nan_img; lia. }
  split; [exact I|]. split; [intros l [= <-]; reflexivity|]. split; [vm_compute; reflexivity|]. reflexivity.
Qed.
Print Assumptions C113_squash_refuted.

(** It holds for missing data below any number of crops and warps: whatever is
    undone and whatever size (w, h) the undone image has without squash_nans, with it
    the image is one pixel of missing data with the same bands, also when the warp is
    returned. *)
Theorem C113_squash_partial : forall {V} (c : codec V) o fuel t rm rt rw t0 W0 w h, missing t ->
  undo_warp c o fuel t rm rt false rw = Ok (t0, W0) -> dsize t0 = Some (w, h) -> (0 < w)%Z -> (0 < h)%Z ->
  exists l' W, undo_warp c o fuel t rm rt true rw = Ok (Leaf l', W) /\ l_kind l' = Nans /\
    l_dsize l' = (1, 1)%Z /\ l_names l' = names t0.
Proof. intros V. exact (@squashed V). Qed.
Print Assumptions C113_squash_partial.

Example C113_case :
  let t := Warp (nan_img 600 400 ["n"%string; "m"%string]) (Aff 2 0 0 2 7 9) (1200, 800)%Z default_algo in
  missing t /\ exists t0 W0, undo_warp pair_codec axis_oracle 30 t None None false true = Ok (t0, W0) /\
    dsize t0 = Some (597, 396)%Z.
Proof. cbv zeta. split; [reflexivity|]. eexists _, _. split; [vm_compute; reflexivity|]. reflexivity. Qed.
