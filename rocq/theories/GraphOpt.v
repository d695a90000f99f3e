(* Every rewrite rule of optimize() keeps channel metadata and provenance. *)
From Verif Require Import Py PyProofs GeomModel GeomProofs GraphModel GraphSpec GraphBase GraphTake.
From Coq Require Import Qabs ZifyBool.
Local Open Scope Q_scope.

(** ** What a rewrite keeps *)

Definition pregood (r : regime) (t t' : node) : Prop :=
  wf t' /\ reg r t' /\ names t' = names t /\ num_channels t' = num_channels t /\
  (forall x y c s, vis t x y c s -> vis t' x y c s).

Lemma pregood_refl r t : wf t -> reg r t -> pregood r t t.
Proof. intros; split; [|split; [|split; [|split]]]; auto. Qed.

Lemma pregood_trans r a b c : pregood r a b -> pregood r b c -> pregood r a c.
Proof.
  intros (_ & _ & H3 & H4 & H5) (G1 & G2 & G3 & G4 & G5).
  split; [exact G1|]. split; [exact G2|]. split; [congruence|]. split; [congruence|]. auto.
Qed.

Lemma pregood_rsub r a b : pregood (rsub r) a b -> pregood r a b.
Proof.
  intros (H1 & H2 & H). split; [exact H1|]. split; [now apply reg_rsub|exact H].
Qed.

(** ** Shapes of optimized graphs *)

Inductive tag := HLeaf | HConcat | HCrop | HWarp | HDeq | HOv.

Definition hd (t : node) : tag :=
  match t with
  | Leaf _ => HLeaf | Concat _ _ => HConcat | Crop _ _ _ _ _ _ _ => HCrop
  | Warp _ _ _ _ => HWarp | Dequant _ _ _ => HDeq | Overview _ _ _ => HOv
  end.

Fixpoint nf (t : node) : Prop :=
  match t with
  | Leaf _ | Concat _ _ => True
  | Crop s _ _ _ _ _ _ => nf s /\ hd s <> HConcat /\ hd s <> HCrop /\ hd s <> HDeq
  | Warp s _ _ _ => nf s /\ hd s <> HConcat /\ hd s <> HWarp
  | Dequant s _ _ => nf s /\ hd s <> HConcat /\ hd s <> HDeq /\ hd s <> HWarp
  | Overview s _ _ => nf s /\ hd s = HLeaf
  end.

(* not a crop of missing values *)
Definition no_cn (t : node) : Prop :=
  match t with Crop (Leaf l) _ _ _ _ _ _ => is_nans l = false | _ => True end.
Definition nanP (t : node) : Prop :=
  no_cn t /\ match t with Warp s _ _ _ => no_cn s | _ => True end.

Definition good (r : regime) (t t' : node) : Prop :=
  pregood r t t' /\ nf t' /\ nanP t'.

Lemma pregood_good r a b c : pregood r a b -> good r b c -> good r a c.
Proof. intros H (H1 & H2). split; [eapply pregood_trans; eassumption|exact H2]. Qed.

Lemma good_rsub r a b : good (rsub r) a b -> good r a b.
Proof. intros (H1 & H2). split; [now apply pregood_rsub|exact H2]. Qed.

Lemma nans_free_no_cn t : nans_free t -> no_cn t.
Proof.
  destruct t as [l|ps d|s ys xs ci d nm nc|s M d al|s q d|s k d]; cbn; auto.
  destruct s; cbn; auto. unfold is_nans. now intros ->.
Qed.

Lemma nans_free_nanP t : nans_free t -> nanP t.
Proof.
  intros H. split; [now apply nans_free_no_cn|]. destruct t; auto. apply nans_free_no_cn. exact H.
Qed.

(** ** Congruence *)

Lemma pregood_crop r s s' ys xs ci d nm nc :
  wf (Crop s ys xs ci d nm nc) -> pregood r s s' ->
  pregood r (Crop s ys xs ci d nm nc) (Crop s' ys xs ci d nm nc).
Proof.
  intros Hw (H1 & H2 & H3 & H4 & H5). split; [|split; [|split; [|split]]].
  - cbn [wf] in *. rewrite H3, H4. tauto.
  - now apply reg_crop.
  - cbn. now rewrite H3.
  - cbn. now rewrite H4.
  - intros x y c smp. cbn [vis]. intros (Hi & b & Hb & Hv). eauto.
Qed.

Lemma pregood_warp r s s' M d al : wf (Warp s M d al) -> pregood (rsub r) s s' ->
  pregood r (Warp s M d al) (Warp s' M d al).
Proof.
  intros Hw (H1 & H2 & H3 & H4 & H5). split; [|split; [|split; [|split]]].
  - cbn [wf] in *. tauto.
  - now apply reg_warp.
  - exact H3.
  - exact H4.
  - intros x y c smp. cbn [vis]. intros (Hi & u & v & Hu & Hv & H). split; [exact Hi|].
    exists u, v. auto.
Qed.

Lemma pregood_deq r s s' q d : pregood r s s' -> pregood r (Dequant s q d) (Dequant s' q d).
Proof.
  intros (H1 & H2 & H3 & H4 & H5). split; [exact H1|]. split; [now apply reg_deq|].
  split; [exact H3|]. split; [exact H4|].
  intros x y c smp. cbn [vis]. intros (Hi & s0 & Hv & ->). split; [exact Hi|]. eauto.
Qed.

Lemma pregood_ov s s' k d : pregood RNansFree s s' ->
  pregood RNansFree (Overview s k d) (Overview s' k d).
Proof.
  intros (H1 & H2 & H3 & H4 & H5). split; [exact H1|]. split; [exact H2|].
  split; [exact H3|]. split; [exact H4|].
  intros x y c smp. cbn [vis]. intros (Hi & Hv). auto.
Qed.

(** ** Crops *)

Lemma wf_nc t : wf t -> exists n, num_channels t = Some n.
Proof. intros H. destruct (wf_meta _ H) as (n & Hn & _). eauto. Qed.

Lemma recrop_vis s ys xs ci n u v b c smp : wf s -> ci_ok (num_channels s) ci ->
  mkCrop s (Some (some_slice ys, some_slice xs)) ci = Ok n ->
  (0 <= fst xs)%Z -> (0 <= fst ys)%Z ->
  vis s u v b smp -> selects ci c b ->
  inject_Z (fst xs) <= u -> u <= inject_Z (snd xs) ->
  inject_Z (fst ys) <= v -> v <= inject_Z (snd ys) ->
  vis n (u - inject_Z (fst xs)) (v - inject_Z (fst ys)) c smp.
Proof.
  intros Hw Hci H Hx0 Hy0 Hv Hb H1 H2 H3 H4. destruct (wf_nc _ Hw) as (m & Hm).
  destruct (mkCrop_spec _ _ _ _ _ Hw Hm Hci H) as (w & h & ys' & xs' & nm & nc & Hd & -> & _ & Hy & Hx).
  destruct (vis_inside _ _ _ _ _ Hv) as ([w' h'] & Hd' & Hi).
  assert (w' = w /\ h' = h) as [-> ->] by (split; congruence).
  destruct Hi as [[Hu0 Hu] [Hv0 Hvh]]. cbn [fst snd] in *.
  assert (Hxle : (fst xs <= snd xs)%Z) by (apply (proj2 (injZ_le _ _)); lra).
  assert (Hyle : (fst ys <= snd ys)%Z) by (apply (proj2 (injZ_le _ _)); lra).
  assert (Hxw : (fst xs <= w)%Z) by (apply (proj2 (injZ_le _ _)); lra).
  assert (Hyh : (fst ys <= h)%Z) by (apply (proj2 (injZ_le _ _)); lra).
  unfold some_slice in *.
  apply wrap_clip_nonneg in Hx; [|lia|lia]. apply wrap_clip_nonneg in Hy; [|lia|lia].
  replace (Z.max 0 (Z.min (fst xs) w)) with (fst xs) in Hx by lia.
  replace (Z.max 0 (Z.min (fst ys) h)) with (fst ys) in Hy by lia.
  subst xs' ys'.
  apply (mkCrop_vis s (fst ys, Z.max 0 (Z.min (snd ys) h)) (fst xs, Z.max 0 (Z.min (snd xs) w)) ci nm nc u v b c smp Hv Hb);
    cbn [fst snd]; auto.
  - destruct (Z.min_spec (snd xs) w) as [[? ->]|[? ->]]; rewrite Z.max_r by lia; assumption.
  - destruct (Z.min_spec (snd ys) h) as [[? ->]|[? ->]]; rewrite Z.max_r by lia; assumption.
Qed.

Lemma crop_pregood_meta r t s ys xs ci n m : wf s -> reg r s -> num_channels s = Some m ->
  ci_ok (num_channels s) ci ->
  mkCrop s (Some (ys, xs)) ci = Ok n ->
  names t = sel (names s) ci -> num_channels t = sel_nc (num_channels s) ci ->
  (forall x y c smp, vis t x y c smp -> vis n x y c smp) ->
  pregood r t n.
Proof.
  intros Hw Hr Hm Hci H Hn Hnc Hv.
  destruct (mkCrop_spec _ _ _ _ _ Hw Hm Hci H) as (w & h & ys' & xs' & nm & nc & Hd & -> & Hwn & _).
  split; [exact Hwn|]. split; [now apply reg_crop|].
  rewrite (crop_names _ _ _ _ _ _ _ Hwn), (crop_nc _ _ _ _ _ _ _ Hwn). auto.
Qed.

Lemma fuse_crops_pregood r s2 ys1 xs1 ci1 d1 nm1 nc1 ys xs ci d nm nc n :
  let t := Crop (Crop s2 ys1 xs1 ci1 d1 nm1 nc1) ys xs ci d nm nc in
  wf t -> reg r t -> fuse_crops s2 ys1 xs1 ci1 ys xs ci = Ok n -> pregood r t n.
Proof.
  intros t Hw Hr H. subst t.
  assert (Hw1 : wf (Crop s2 ys1 xs1 ci1 d1 nm1 nc1)) by apply Hw.
  assert (Hw2 : wf s2) by apply Hw1.
  destruct (wf_nc _ Hw2) as (m & Hm).
  unfold fuse_crops in H. apply bind_ok in H as (nci & Hf & H).
  destruct (fuse_idxs_ok s2 ci1 ci nci m Hm) as (Hci & Hnc & Hnm & Hsel); [|..|exact Hf|].
  - eapply wf_crop_ci; exact Hw1.
  - pose proof (wf_crop_ci _ _ _ _ _ _ _ Hw) as Hc.
    rewrite (crop_nc _ _ _ _ _ _ _ Hw1) in Hc. exact Hc.
  - eapply crop_pregood_meta; [exact Hw2| |exact Hm|exact Hci|exact H| | |].
    + rewrite !reg_crop in Hr. exact Hr.
    + rewrite (crop_names _ _ _ _ _ _ _ Hw), (crop_names _ _ _ _ _ _ _ Hw1). apply Hnm.
      intros l Hl. destruct (wf_meta _ Hw2) as (m' & Hm' & _ & Hlen). rewrite (Hlen _ Hl). congruence.
    + rewrite (crop_nc _ _ _ _ _ _ _ Hw), (crop_nc _ _ _ _ _ _ _ Hw1). exact Hnc.
    + intros x y c smp Hv. cbn [vis] in Hv.
      destruct Hv as (Hi & b1 & Hb1 & Hi1 & b & Hb & Hv).
      destruct Hw as (_ & Hy0 & Hx0 & -> & _). destruct Hw1 as (_ & Hy10 & Hx10 & -> & _).
      destruct Hi as [[Hxa Hxb] [Hya Hyb]]. destruct Hi1 as [[Hxc Hxd] [Hyc Hyd]].
      unfold iv_len in *. cbn [fst snd] in *. rewrite injZ_minus in *.
      change (Some (fuse_axis ys1 ys, fuse_axis xs1 xs))
        with (Some (some_slice (Z.min (fst ys1 + fst ys) (snd ys1), Z.min (fst ys1 + snd ys) (snd ys1)),
                    some_slice (Z.min (fst xs1 + fst xs) (snd xs1), Z.min (fst xs1 + snd xs) (snd xs1))))%Z in H.
      assert (Hfx : (fst xs1 + fst xs <= snd xs1)%Z).
      { apply (proj2 (injZ_le _ _)). rewrite injZ_plus. lra. }
      assert (Hfy : (fst ys1 + fst ys <= snd ys1)%Z).
      { apply (proj2 (injZ_le _ _)). rewrite injZ_plus. lra. }
      pose proof (fun u v b c smp => recrop_vis _ _ _ _ _ u v b c smp Hw2 Hci H) as HR. cbn [fst snd] in HR.
      rewrite (Z.min_l _ _ Hfx), (Z.min_l _ _ Hfy) in HR.
      specialize (HR _ _ _ c _ ltac:(lia) ltac:(lia) Hv (Hsel _ _ _ Hb1 Hb)).
      eapply vis_proper; [| |apply HR]; rewrite ?injZ_plus; try ring; try lra.
      * destruct (Z.min_spec (fst xs1 + snd xs) (snd xs1)) as [[? ->]|[? ->]]; rewrite ?injZ_plus; lra.
      * destruct (Z.min_spec (fst ys1 + snd ys) (snd ys1)) as [[? ->]|[? ->]]; rewrite ?injZ_plus; lra.
Qed.

(** ** Moving a crop below a warp *)

Lemma fast_axis_lo s t n r : (0 <= fst (fst (fast_axis s t n r)))%Z.
Proof. unfold fast_axis. cbn. lia. Qed.

Lemma axis_aligned_spec M : axis_aligned M = true ->
  a12 M == 0 /\ a21 M == 0 /\ 0 < a11 M /\ 0 < a22 M.
Proof.
  unfold axis_aligned. intros H. apply andb_prop in H as [H H4]. apply andb_prop in H as [H H3].
  apply andb_prop in H as [H1 H2]. apply Qeq_bool_iff in H1, H2.
  repeat split; auto.
  - apply Qnot_le_lt. intros G. apply Qle_bool_iff in G. now rewrite G in H3.
  - apply Qnot_le_lt. intros G. apply Qle_bool_iff in G. now rewrite G in H4.
Qed.

Lemma warp_after_crop_spec s M wd al ys xs ci cd nm nc c T :
  wf (Crop (Warp s M wd al) ys xs ci cd nm nc) ->
  warp_after_crop s M ys xs ci cd = Ok (Some (c, T)) ->
  wf c /\ (forall r, reg r s -> reg r c) /\ (exists a b nm' nc', c = Crop s a b ci (iv_len b, iv_len a) nm' nc') /\
  names c = names (Crop (Warp s M wd al) ys xs ci cd nm nc) /\
  num_channels c = num_channels (Crop (Warp s M wd al) ys xs ci cd nm nc) /\
  forall x y k smp, vis (Crop (Warp s M wd al) ys xs ci cd nm nc) x y k smp ->
    exists u v, x == ax T u v /\ y == ay T u v /\ vis c u v k smp.
Proof.
  intros Hw H. assert (Hws : wf s) by apply Hw. destruct (wf_nc _ Hws) as (m & Hm).
  pose proof (wf_crop_ci _ _ _ _ _ _ _ Hw) as Hci. cbn [num_channels] in Hci.
  rewrite (crop_names _ _ _ _ _ _ _ Hw), (crop_nc _ _ _ _ _ _ _ Hw). cbn [names num_channels].
  assert (Hmeta : forall sl, mkCrop s sl ci = Ok c ->
    wf c /\ (forall r, reg r s -> reg r c) /\ (exists a b nm' nc', c = Crop s a b ci (iv_len b, iv_len a) nm' nc') /\
    names c = sel (names s) ci /\ num_channels c = sel_nc (num_channels s) ci).
  { intros sl Hc. destruct (mkCrop_spec _ _ _ _ _ Hws Hm Hci Hc) as (w & h & ys' & xs' & nm' & nc' & Hd & -> & Hwn & _).
    rewrite (crop_names _ _ _ _ _ _ _ Hwn), (crop_nc _ _ _ _ _ _ _ Hwn).
    split; [exact Hwn|]. split; [intros; now apply reg_crop|]. split; [eauto 10|]. auto. }
  unfold warp_after_crop in H. destruct ((fst cd =? 0)%Z || (snd cd =? 0)%Z) eqn:E0; [discriminate|].
  destruct Hw as (_ & Hy0 & Hx0 & -> & _).
  destruct (axis_aligned M) eqn:Eax.
  - destruct (dsize s) as [[w h]|] eqn:Ed; [|discriminate].
    destruct (fast_axis (a11 M) (b1 M) w xs) as [xsl ox] eqn:Efx.
    destruct (fast_axis (a22 M) (b2 M) h ys) as [ysl oy] eqn:Efy.
    apply bind_ok in H as (c0 & Hc & H). injection H as -> <-.
    destruct (Hmeta _ Hc) as (G1 & G2 & G3 & G4 & G5). repeat (split; [assumption|]).
    intros x y k smp Hv. cbn [vis] in Hv. destruct Hv as (Hi & b & Hb & _ & u & v & Hu & Hv & Hs).
    apply axis_aligned_spec in Eax as (A12 & A21 & A11 & A22).
    destruct (vis_inside _ _ _ _ _ Hs) as ([w' h'] & Hd' & [Huw Hvh]).
    assert (w' = w /\ h' = h) as [-> ->] by (split; congruence). cbn [fst snd] in *.
    destruct Hi as [[Hxa Hxb] [Hya Hyb]]. unfold iv_len in *. cbn [fst snd] in *. rewrite injZ_minus in *.
    assert (HU : a11 M * u + b1 M == x + inject_Z (fst xs)).
    { rewrite Hu. unfold ax. rewrite A12. ring. }
    assert (HV : a22 M * v + b2 M == y + inject_Z (fst ys)).
    { rewrite Hv. unfold ay. rewrite A21. ring. }
    pose proof (fast_axis_covers (a11 M) (b1 M) w xs u A11 ltac:(lra) ltac:(lra) ltac:(lra) ltac:(lra)) as Cx.
    pose proof (fast_axis_covers (a22 M) (b2 M) h ys v A22 ltac:(lra) ltac:(lra) ltac:(lra) ltac:(lra)) as Cy.
    pose proof (fast_axis_lo (a11 M) (b1 M) w xs) as Lx. pose proof (fast_axis_lo (a22 M) (b2 M) h ys) as Ly.
    rewrite Efx in Cx, Lx. rewrite Efy in Cy, Ly. destruct xsl as [x0 x1], ysl as [y0 y1]. cbn [fst snd] in *.
    destruct Cx as (Cx1 & Cx2 & Cx3). destruct Cy as (Cy1 & Cy2 & Cy3).
    pose proof (recrop_vis s (y0, y1) (x0, x1) ci c u v b k smp Hws Hci Hc Lx Ly Hs Hb Cx1 Cx2 Cy1 Cy2) as HR.
    exists (u - inject_Z x0), (v - inject_Z y0). cbn [fst snd] in HR.
    split; [|split; [|exact HR]].
    + unfold ax. cbn [a11 a12 b1]. lra.
    + unfold ay. cbn [a21 a22 b2]. lra.
  - apply bind_ok in H as ([[ysl xsl] T0] & Hsw & H). apply bind_ok in H as (c0 & Hc & H).
    injection H as -> ->. destruct (Hmeta _ Hc) as (G1 & G2 & G3 & G4 & G5). repeat (split; [assumption|]).
    intros x y k smp Hv. cbn [vis] in Hv. destruct Hv as (Hi & b & Hb & _ & u & v & Hu & Hv & Hs).
    destruct (vis_inside _ _ _ _ _ Hs) as ([w h] & Hd' & [Huw Hvh]). cbn [fst snd] in *.
    destruct Hi as [[Hxa Hxb] [Hya Hyb]]. unfold iv_len in *. cbn [fst snd] in *. rewrite injZ_minus in *.
    assert (Hxle : (fst xs <= snd xs)%Z) by (apply (proj2 (injZ_le _ _)); lra).
    assert (Hyle : (fst ys <= snd ys)%Z) by (apply (proj2 (injZ_le _ _)); lra).
    destruct (swap_warp_after_crop_covers ys xs M ysl xsl T u v Hsw) as ((Cx1 & Cx2) & (Cy1 & Cy2)); try lra.
    destruct (swap_warp_after_crop_slices ys xs M ysl xsl T Hxle Hyle Hsw) as (Lx & Ly).
    destruct (swap_warp_after_crop_residual ys xs M ysl xsl T u v Hsw) as (Rx & Ry).
    pose proof (recrop_vis s ysl xsl ci c u v b k smp Hws Hci Hc ltac:(lia) ltac:(lia) Hs Hb Cx1 Cx2 Cy1 Cy2) as HR.
    exists (u - inject_Z (fst xsl)), (v - inject_Z (fst ysl)).
    split; [|split; [|exact HR]]; lra.
Qed.

Lemma warp_after_crop_pregood r s M wd al ys xs ci cd nm nc c T :
  wf (Crop (Warp s M wd al) ys xs ci cd nm nc) ->
  reg r (Crop (Warp s M wd al) ys xs ci cd nm nc) ->
  warp_after_crop s M ys xs ci cd = Ok (Some (c, T)) ->
  pregood r (Crop (Warp s M wd al) ys xs ci cd nm nc) (Warp c T cd (drop_backend al)).
Proof.
  intros Hw Hr H. destruct (warp_after_crop_spec _ _ _ _ _ _ _ _ _ _ _ _ Hw H)
    as (G1 & G2 & _ & G4 & G5 & G6).
  split; [|split; [|split; [|split]]].
  - cbn [wf]. split; [exact G1|]. destruct Hw as ((_ & He) & _). exact He.
  - apply reg_warp. apply G2. apply reg_crop in Hr. now apply reg_warp in Hr.
  - exact G4.
  - exact G5.
  - intros x y k smp Hv. pose proof (G6 _ _ _ _ Hv) as (u & v & Hu & Hv' & Hc).
    cbn [vis] in *. split; [apply Hv|]. eauto.
Qed.

(** ** Dequantization *)

Lemma dequant_after_crop_pregood r s q dd ys xs ci d nm nc :
  wf (Crop (Dequant s q dd) ys xs ci d nm nc) ->
  reg r (Crop (Dequant s q dd) ys xs ci d nm nc) ->
  pregood r (Crop (Dequant s q dd) ys xs ci d nm nc) (Dequant (Crop s ys xs ci d nm nc) q (Some d)).
Proof.
  intros Hw Hr. split; [|split; [|split; [|split]]].
  - cbn [wf names num_channels] in *. exact Hw.
  - apply reg_deq, reg_crop. apply reg_crop in Hr. now apply reg_deq in Hr.
  - reflexivity.
  - reflexivity.
  - intros x y c smp. cbn [vis]. intros (Hi & b & Hb & _ & s' & Hv & ->).
    split; [exact Hi|]. exists s'. split; [|reflexivity]. eauto.
Qed.

Lemma dequant_before_warp_pregood r s M wd al q d :
  wf (Warp s M wd al) -> reg r (Warp s M wd al) ->
  pregood r (Dequant (Warp s M wd al) q d) (Warp (mkDequant s q) M wd al).
Proof.
  intros Hw Hr. split; [exact Hw|]. split; [|split; [|split]].
  - apply reg_warp. unfold mkDequant. apply reg_deq. now apply reg_warp in Hr.
  - reflexivity.
  - reflexivity.
  - intros x y c smp. cbn [vis]. intros (_ & s' & (Hi & u & v & Hu & Hv & Hs) & ->).
    split; [exact Hi|]. exists u, v. repeat split; auto.
    + destruct (vis_inside _ _ _ _ _ Hs) as (d' & -> & Hd'). exact Hd'.
    + eauto.
Qed.

(** ** Operations over a concatenation *)

Lemma concat_meta_map ps qs :
  Forall2 (fun p q => names q = names p /\ num_channels q = num_channels p) ps qs ->
  map names qs = map names ps /\ map num_channels qs = map num_channels ps.
Proof.
  induction 1 as [|p q ps qs [H1 H2] F [I1 I2]]; cbn; [auto|]. split; congruence.
Qed.

(* one operation over every part *)
Lemma concat_pregood r t ps qs n :
  wf n -> mkConcat qs = Some n -> Forall (reg r) qs ->
  names t = concat_opt (map names ps) -> num_channels t = sum_opt (map num_channels ps) ->
  Forall2 (fun p q => names q = names p /\ num_channels q = num_channels p) ps qs ->
  (forall x y c s, vis t x y c s -> owner (fun p c' => vis p x y c' s) qs c) ->
  pregood r t n.
Proof.
  intros Hw Hn Hr Ht1 Ht2 F Hv. destruct (concat_meta_map _ _ F) as [M1 M2].
  pose proof Hn as Hn'. apply mkConcat_spec in Hn' as (d & -> & _).
  split; [exact Hw|]. split; [now apply reg_concat|]. cbn [names num_channels].
  rewrite M1, M2. split; [auto|]. split; [auto|].
  intros x y c s H. eapply mkConcat_vis; [exact Hn|]. auto.
Qed.

Lemma Forall2_map_r {A B} (R : A -> B -> Prop) (f : A -> B) l :
  Forall (fun a => R a (f a)) l -> Forall2 R l (map f l).
Proof. induction 1; cbn; constructor; auto. Qed.

Lemma push_warp_pregood r ps cd M d al n :
  wf (Warp (Concat ps cd) M d al) -> reg r (Warp (Concat ps cd) M d al) ->
  mkConcat (map (fun p => Warp p M d al) ps) = Some n ->
  pregood r (Warp (Concat ps cd) M d al) n.
Proof.
  intros [Hw He] Hr Hn. apply wf_concat in Hw as (Hw & Hd & _).
  apply reg_warp, reg_concat in Hr.
  apply (concat_pregood r _ ps (map (fun p => Warp p M d al) ps) n);
    auto.
  - eapply mkConcat_wf; [|exact Hn]. apply Forall_map. eapply Forall_impl; [|exact Hw].
    cbn. auto.
  - apply Forall_map. eapply Forall_impl; [|exact Hr]. intros p Hp. now apply reg_warp.
  - apply Forall2_map_r. apply Forall_forall. auto.
  - intros x y c s. cbn [vis]. intros (Hi & u & v & Hu & Hv & _ & Ho).
    eapply owner_Forall2; [|exact Ho]. apply Forall2_map_r. apply Forall_forall.
    intros p _. split; [reflexivity|]. intros c' Hc'. cbn [vis]. split; [exact Hi|]. exists u, v. auto.
Qed.

Lemma push_dequant_pregood r ps cd q d n :
  wf (Concat ps cd) -> reg r (Concat ps cd) ->
  mkConcat (map (fun p => mkDequant p q) ps) = Some n ->
  pregood r (Dequant (Concat ps cd) q d) n.
Proof.
  intros Hw Hr Hn. apply wf_concat in Hw as (Hw & Hd & _). apply reg_concat in Hr.
  apply (concat_pregood r _ ps (map (fun p => mkDequant p q) ps) n); auto.
  - eapply mkConcat_wf; [|exact Hn]. apply Forall_map. exact Hw.
  - apply Forall_map. eapply Forall_impl; [|exact Hr]. intros p Hp. now apply reg_deq.
  - apply Forall2_map_r. apply Forall_forall. auto.
  - intros x y c s. cbn [vis]. intros (_ & s' & (_ & Ho) & ->).
    eapply owner_Forall2; [|exact Ho]. apply Forall2_map_r. apply Forall_forall.
    intros p _. split; [reflexivity|]. intros c' Hc'. unfold mkDequant. cbn [vis]. split.
    + destruct (vis_inside _ _ _ _ _ Hc') as (d' & -> & Hd'). exact Hd'.
    + eauto.
Qed.

Lemma mkOverview_meta s k n : mkOverview s k = Ok n ->
  exists sz, dsize s = Some sz /\ n = Overview s k (overview_dsize k sz).
Proof.
  unfold mkOverview. destruct (dsize s) as [sz|]; [|discriminate]. intros [= <-]. eauto.
Qed.

Lemma push_overview_pregood ps cd k d qs n :
  wf (Concat ps cd) -> nans_free (Concat ps cd) ->
  mapR (fun p => mkOverview p k) ps = Ok qs -> mkConcat qs = Some n ->
  pregood RNansFree (Overview (Concat ps cd) k d) n.
Proof.
  intros Hw Hr Hq Hn. apply wf_concat in Hw as (Hw & Hd & _).
  apply (reg_concat RNansFree) in Hr. apply mapR_Forall2 in Hq.
  assert (Hwr : Forall (fun p => wf p /\ reg RNansFree p) qs).
  { clear -Hq Hw Hr. induction Hq as [|p q ps qs Hpq F IH]; constructor.
    - apply mkOverview_meta in Hpq as (sz & _ & ->). inversion Hw; inversion Hr; subst. split; assumption.
    - inversion Hw; inversion Hr; subst. auto. }
  apply (concat_pregood RNansFree _ ps qs n); auto.
  - eapply mkConcat_wf; [|exact Hn]. eapply Forall_impl; [|exact Hwr]. cbn. tauto.
  - eapply Forall_impl; [|exact Hwr]. cbn. tauto.
  - eapply Forall2_imp; [|exact Hq]. intros p q Hpq. apply mkOverview_meta in Hpq as (sz & _ & ->). auto.
  - intros x y c s. cbn [vis]. intros (_ & _ & Ho). eapply owner_Forall2; [|exact Ho].
    eapply Forall2_imp; [|exact Hq]. cbn. intros p q Hpq. split.
    + apply mkOverview_meta in Hpq as (sz & _ & ->). reflexivity.
    + intros c' Hc'. eapply mkOverview_vis; eassumption.
Qed.

Lemma push_crop_pregood r ps cd ys xs d qs n :
  wf (Crop (Concat ps cd) ys xs None d None None) -> reg r (Concat ps cd) ->
  mapR (fun p => mkCrop p (Some (some_slice ys, some_slice xs)) None) ps = Ok qs ->
  mkConcat qs = Some n ->
  pregood r (Crop (Concat ps cd) ys xs None d None None) n.
Proof.
  intros (Hwc & Hy0 & Hx0 & -> & _) Hr Hq Hn. apply wf_concat in Hwc as (Hw & Hd & _).
  apply reg_concat in Hr. apply mapR_Forall2 in Hq.
  assert (Hall : Forall2 (fun p q => wf q /\ reg r q /\ names q = names p /\ num_channels q = num_channels p /\
     forall u v c s, vis p u v c s -> inject_Z (fst xs) <= u -> u <= inject_Z (snd xs) ->
       inject_Z (fst ys) <= v -> v <= inject_Z (snd ys) ->
       vis q (u - inject_Z (fst xs)) (v - inject_Z (fst ys)) c s) ps qs).
  { clear Hd Hn. revert Hw Hr. induction Hq as [|p q ps qs Hpq F IH]; intros Hw Hr; constructor.
    - inversion Hw; inversion Hr; subst. destruct (wf_nc p) as (m & Hm); [assumption|].
      destruct (mkCrop_spec p _ None q m ltac:(assumption) Hm I Hpq) as (w & h & a & b & nm & nc & _ & -> & Hwq & _).
      split; [exact Hwq|]. split; [now apply reg_crop|].
      rewrite (crop_names _ _ _ _ _ _ _ Hwq), (crop_nc _ _ _ _ _ _ _ Hwq).
      split; [reflexivity|]. split; [reflexivity|].
      intros u v c s Hv G1 G2 G3 G4.
      eapply (recrop_vis p ys xs None); eauto; [exact I|reflexivity].
    - inversion Hw; inversion Hr; subst. auto. }
  apply (concat_pregood r _ ps qs n); auto.
  - eapply mkConcat_wf; [|exact Hn]. clear -Hall. induction Hall; constructor; tauto.
  - clear -Hall. induction Hall; constructor; tauto.
  - eapply Forall2_imp; [|exact Hall]. cbn. tauto.
  - intros x y c s. cbn [vis]. intros (Hi & b & -> & _ & Ho).
    unfold inside, iv_len in Hi. cbn [fst snd] in Hi. rewrite !injZ_minus in Hi.
    eapply owner_Forall2; [|exact Ho]. eapply Forall2_imp; [|exact Hall].
    cbn. intros p q (_ & _ & _ & Hnc & Hvis). split; [exact Hnc|].
    intros c' Hc'. eapply vis_proper; [| |apply (Hvis _ _ _ _ Hc')]; try ring; lra.
Qed.
