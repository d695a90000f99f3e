(* optimize() keeps channel metadata and provenance: induction over the calls. *)
From Verif Require Import Py PyProofs GeomModel GeomProofs GraphModel GraphSpec GraphBase GraphTake GraphOpt.
From Coq Require Import Qabs ZifyBool.
Local Open Scope Q_scope.

Ltac difH H E := match type of H with context [if ?b then _ else _] => destruct b eqn:E end.

(** ** Overview rules *)

Lemma mkOverview_pregood t s k n : wf s -> nans_free s -> mkOverview s k = Ok n ->
  names t = names s -> num_channels t = num_channels s ->
  (forall x y c smp, vis t x y c smp -> vis s (x * pow2 k) (y * pow2 k) c smp) ->
  pregood RNansFree t n.
Proof.
  intros Hw Hr H Hn Hc Hv. pose proof (fun x y c smp => mkOverview_vis s k n x y c smp H) as HV.
  apply mkOverview_meta in H as (sz & _ & ->).
  split; [exact Hw|]. split; [exact Hr|]. split; [now rewrite Hn|]. split; [now rewrite Hc|]. auto.
Qed.

Lemma fuse_overviews_pregood s k2 d2 k d n :
  wf s -> nans_free s -> mkOverview s (k2 + k) = Ok n ->
  pregood RNansFree (Overview (Overview s k2 d2) k d) n.
Proof.
  intros Hw Hr H. eapply mkOverview_pregood; eauto. intros x y c smp. cbn [vis].
  intros (_ & _ & Hv). eapply vis_proper; [| |exact Hv]; rewrite pow2_plus; ring.
Qed.

Lemma overview0_pregood s k d : wf s -> nans_free s -> k = 0%Z ->
  pregood RNansFree (Overview s k d) s.
Proof.
  intros Hw Hr ->. split; [exact Hw|]. split; [exact Hr|]. split; [reflexivity|]. split; [reflexivity|].
  intros x y c smp (_ & Hv). eapply vis_proper; [| |exact Hv]; rewrite pow2_0; ring.
Qed.

Lemma overview_dequant_pregood s q dd k d : wf s -> nans_free s ->
  pregood RNansFree (Overview (Dequant s q dd) k d) (Dequant (Overview s k d) q (Some d)).
Proof.
  intros Hw Hr. split; [exact Hw|]. split; [exact Hr|]. split; [reflexivity|]. split; [reflexivity|].
  intros x y c smp (Hi & _ & s' & Hv & ->). cbn [vis]. split; [exact Hi|].
  exists s'. split; [|reflexivity]. auto.
Qed.

Lemma auto_inside s M al n u v x y c smp : mkWarp_auto s M al = Ok n ->
  vis s u v c smp -> 0 <= x -> 0 <= y -> x == ax M u v -> y == ay M u v -> vis n x y c smp.
Proof.
  intros H Hv Hx Hy Ex Ey. destruct (vis_inside _ _ _ _ _ Hv) as ([w h] & Hd & Hi).
  unfold mkWarp_auto in H. rewrite Hd in H. injection H as <-. cbn [vis].
  destruct Hi as [Hu Hv']. cbn [fst snd] in *. destruct (auto_dsize_covers M w h u v Hu Hv') as [A B].
  split.
  - split; split; try assumption; [now rewrite Ex|now rewrite Ey].
  - exists u, v. auto.
Qed.

Lemma mkWarp_auto_meta s M al n : mkWarp_auto s M al = Ok n -> exists d, n = Warp s M d al.
Proof. unfold mkWarp_auto. destruct (dsize s); [|discriminate]. intros [= <-]. eauto. Qed.

Lemma warp_after_overview_pregood s B wd al k d n : wf s -> nans_free s ->
  warp_after_overview_node s B k = Ok n ->
  pregood RNansFree (Overview (Warp s B wd al) k d) n.
Proof.
  intros Hw Hr H. unfold warp_after_overview_node in H.
  apply bind_ok in H as (C & HC & H). apply bind_ok in H as (o & Ho & H).
  destruct (warp_after_overview_spec k B) as (C' & HC' & Hspec). rewrite HC in HC'. injection HC' as <-.
  pose proof (mkWarp_auto_meta _ _ _ _ H) as (d' & ->).
  pose proof (mkOverview_meta _ _ _ Ho) as (sz & _ & Eo).
  split; [cbn [wf]; rewrite Eo; split; [exact Hw|reflexivity]|].
  split; [rewrite Eo; exact Hr|]. split; [rewrite Eo; reflexivity|]. split; [rewrite Eo; reflexivity|].
  intros x y c smp HV. cbn [vis] in HV. destruct HV as ([[Hx0 _] [Hy0 _]] & _ & u & v & Hu & Hv & Hs).
  pose proof (pow2_pos k) as P. destruct (Hspec u v) as [Sx Sy].
  eapply (auto_inside o C default_algo _ (u / pow2 k) (v / pow2 k)); [exact H| |exact Hx0|exact Hy0| |].
  - eapply mkOverview_vis; [exact Ho|]. eapply vis_proper; [| |exact Hs]; field; lra.
  - rewrite Sx, <- Hu. field. lra.
  - rewrite Sy, <- Hv. field. lra.
Qed.

Lemma overview_crop_axis_covers k r u : (0 <= fst r)%Z ->
  inject_Z (fst r) <= u -> u <= inject_Z (snd r) ->
  let '((q0, q1), off) := overview_crop_axis k r in
  (0 <= q0)%Z /\ inject_Z q0 <= u / pow2 k /\ u / pow2 k <= inject_Z q1 /\
  (u / pow2 k - inject_Z q0) + off == (u - inject_Z (fst r)) / pow2 k.
Proof.
  intros H0 H1 H2. unfold overview_crop_axis. pose proof (pow2_pos k) as P.
  assert (L : inject_Z (fst r) / pow2 k <= u / pow2 k).
  { apply div_le_iff; [exact P|]. setoid_replace (u / pow2 k * pow2 k) with u by (field; lra). exact H1. }
  assert (U : u / pow2 k <= inject_Z (snd r) / pow2 k).
  { apply div_le_iff; [exact P|]. setoid_replace (inject_Z (snd r) / pow2 k * pow2 k) with (inject_Z (snd r)) by (field; lra). exact H2. }
  assert (N : 0 <= inject_Z (fst r) / pow2 k).
  { apply le_div_iff; [exact P|]. rewrite Qmult_0_l. apply (proj1 (injZ_le 0 _)). exact H0. }
  pose proof (floor_le (inject_Z (fst r) / pow2 k)) as F.
  pose proof (ceil_ge (inject_Z (snd r) / pow2 k)) as C.
  assert (FN : (0 <= Qfloor (inject_Z (fst r) / pow2 k))%Z) by (apply floor_ge_iff; exact N).
  rewrite (Z.max_r _ _ FN). split; [exact FN|]. split; [lra|]. split.
  - assert (CN : inject_Z (Qceiling (inject_Z (snd r) / pow2 k)) <= inject_Z (Z.max 0 (Qceiling (inject_Z (snd r) / pow2 k)))).
    { apply (proj1 (injZ_le _ _)). lia. }
    lra.
  - field. lra.
Qed.

Lemma crop_after_overview_pregood s ys xs ci cd nm nc k d n :
  wf (Crop s ys xs ci cd nm nc) -> nans_free s ->
  crop_after_overview s ys xs ci k = Ok n ->
  pregood RNansFree (Overview (Crop s ys xs ci cd nm nc) k d) n.
Proof.
  intros Hw Hr H. assert (Hws : wf s) by apply Hw. destruct (wf_nc _ Hws) as (m & Hm).
  unfold crop_after_overview in H. apply bind_ok in H as (o & Ho & H).
  destruct (overview_crop_axis k xs) as [qx ox] eqn:Ex.
  destruct (overview_crop_axis k ys) as [qy oy] eqn:Ey.
  apply bind_ok in H as (c & Hc & H).
  pose proof (mkOverview_meta _ _ _ Ho) as (sz & _ & Eo).
  assert (Hwo : wf o) by (rewrite Eo; exact Hws).
  assert (Hro : nans_free o) by (rewrite Eo; exact Hr).
  assert (Hno : names o = names s) by (rewrite Eo; reflexivity).
  assert (Hco : num_channels o = num_channels s) by (rewrite Eo; reflexivity).
  pose proof (wf_crop_ci _ _ _ _ _ _ _ Hw) as Hci. rewrite <- Hco in Hci, Hm.
  destruct (mkCrop_spec _ _ _ _ _ Hwo Hm Hci Hc) as (w & h & a & b & nm' & nc' & _ & Ec & Hwc & _).
  assert (Hnc : names c = names (Crop s ys xs ci cd nm nc)).
  { rewrite Ec in *. rewrite (crop_names _ _ _ _ _ _ _ Hw), (crop_names _ _ _ _ _ _ _ Hwc). now rewrite Hno. }
  assert (Hcc : num_channels c = num_channels (Crop s ys xs ci cd nm nc)).
  { rewrite Ec in *. rewrite (crop_nc _ _ _ _ _ _ _ Hw), (crop_nc _ _ _ _ _ _ _ Hwc). now rewrite Hco. }
  assert (Hrc : nans_free c) by (rewrite Ec; exact Hro).
  assert (HV : forall x y k' smp, vis (Overview (Crop s ys xs ci cd nm nc) k d) x y k' smp ->
     exists u v, x == u + ox /\ y == v + oy /\ vis c u v k' smp).
  { intros x y k' smp. cbn [vis]. intros (_ & Hi & b' & Hb & Hv).
    destruct Hw as (_ & Hy0 & Hx0 & -> & _). unfold inside, iv_len in Hi. cbn [fst snd] in Hi.
    rewrite !injZ_minus in Hi. pose proof (pow2_pos k) as P.
    pose proof (overview_crop_axis_covers k xs (x * pow2 k + inject_Z (fst xs)) Hx0 ltac:(lra) ltac:(lra)) as Cx.
    pose proof (overview_crop_axis_covers k ys (y * pow2 k + inject_Z (fst ys)) Hy0 ltac:(lra) ltac:(lra)) as Cy.
    rewrite Ex in Cx. rewrite Ey in Cy. destruct qx as [qx0 qx1], qy as [qy0 qy1].
    destruct Cx as (X1 & X2 & X3 & X4). destruct Cy as (Y1 & Y2 & Y3 & Y4).
    assert (Hvo : vis o ((x * pow2 k + inject_Z (fst xs)) / pow2 k) ((y * pow2 k + inject_Z (fst ys)) / pow2 k) b' smp).
    { eapply mkOverview_vis; [exact Ho|]. eapply vis_proper; [| |exact Hv]; field; lra. }
    pose proof (recrop_vis o (qy0, qy1) (qx0, qx1) ci c _ _ b' k' smp Hwo Hci Hc X1 Y1 Hvo Hb X2 X3 Y2 Y3) as HR.
    cbn [fst snd] in HR. eexists _, _. split; [|split; [|exact HR]].
    - rewrite X4. field. lra.
    - rewrite Y4. field. lra. }
  destruct (is_identity (aff_translate ox oy)) eqn:Eid.
  - injection H as <-. split; [exact Hwc|]. split; [exact Hrc|]. split; [exact Hnc|]. split; [exact Hcc|].
    intros x y k' smp Hv. apply HV in Hv as (u & v & Hu & Hv' & Hc').
    destruct (is_identity_spec _ Eid u v) as [I1 I2]. rewrite ax_translate in I1. rewrite ay_translate in I2.
    eapply vis_proper; [| |exact Hc']; [rewrite Hu|rewrite Hv']; symmetry; assumption.
  - pose proof (mkWarp_auto_meta _ _ _ _ H) as (d' & ->).
    split; [split; [exact Hwc|reflexivity]|]. split; [exact Hrc|]. split; [exact Hnc|]. split; [exact Hcc|].
    intros x y k' smp Hv. destruct (HV _ _ _ _ Hv) as (u & v & Hu & Hv' & Hc').
    destruct Hv as ([[Hx0 _] [Hy0 _]] & _).
    eapply auto_inside; [exact H|exact Hc'|exact Hx0|exact Hy0| |];
      rewrite ?ax_translate, ?ay_translate; assumption.
Qed.

(** ** Splitting a warp *)

Lemma embed_axis0 D d i o e : (0 <= D)%Z -> embed_axis D 0 d 0 = Ok (i, (o, e)) ->
  i = (0, Z.min D d)%Z /\ o = 0%Z /\ e = (d - Z.min D d)%Z /\ (0 <= d)%Z.
Proof.
  intros HD. unfold embed_axis. dif E; [discriminate|]. intros H. injection H as <- <- <-.
  split; [f_equal; lia|]. split; [lia|]. split; lia.
Qed.

Lemma padded_crop_vis s d n : wf s -> nans_free s ->
  padded_crop_node s (0, snd d)%Z (0, fst d)%Z = Ok n ->
  wf n /\ nans_free n /\ names n = names s /\ num_channels n = num_channels s /\
  forall x y c smp, inside d x y -> vis s x y c smp -> vis n x y c smp.
Proof.
  intros Hw Hr H. destruct d as [W H0]. cbn [fst snd] in *.
  unfold padded_crop_node in H. destruct (dsize s) as [[w h]|] eqn:Ed; [|discriminate].
  apply bind_ok in H as ([[dy dx] tf] & Hp & H). apply bind_ok in H as (c & Hc & H).
  unfold padded_crop in Hp. apply bind_ok in Hp as ([dy' [oy ey]] & Hy & Hp).
  apply bind_ok in Hp as ([dx' [ox ex]] & Hx & Hp). cbn [fst snd] in *.
  destruct (wf_nc _ Hw) as (m & Hm).
  destruct (mkCrop_spec s _ None c m Hw Hm I Hc) as (w' & h' & a & b & nm & nc & _ & Ec & Hwc & _).
  assert (Hrc : nans_free c) by (rewrite Ec; exact Hr).
  assert (Hnc : names c = names s).
  { rewrite Ec in *. now rewrite (crop_names _ _ _ _ _ _ _ Hwc). }
  assert (Hcc : num_channels c = num_channels s).
  { rewrite Ec in *. now rewrite (crop_nc _ _ _ _ _ _ _ Hwc). }
  assert (Edy : dy = dy' /\ dx = dx') by (difH Hp Ep; injection Hp; auto).
  destruct Edy as [-> ->].
  assert (HV : forall x y k smp, inside (W, H0) x y -> vis s x y k smp ->
     vis c x y k smp /\ (0 <= w)%Z /\ (0 <= h)%Z).
  { intros x y k smp [[Hxa Hxb] [Hya Hyb]] Hv.
    destruct (vis_inside _ _ _ _ _ Hv) as ([w2 h2] & Hd2 & [[Hxc Hxd] [Hyc Hyd]]).
    rewrite Ed in Hd2. injection Hd2 as <- <-. cbn [fst snd] in *.
    assert (Hw0 : (0 <= w)%Z) by (apply (proj2 (injZ_le 0 _)); change (inject_Z 0) with 0; lra).
    assert (Hh0 : (0 <= h)%Z) by (apply (proj2 (injZ_le 0 _)); change (inject_Z 0) with 0; lra).
    split; [|auto].
    apply embed_axis0 in Hx as (-> & -> & -> & HW); [|exact Hw0].
    apply embed_axis0 in Hy as (-> & -> & -> & HH); [|exact Hh0].
    pose proof (recrop_vis s _ _ None c x y k k smp Hw I Hc) as HR. cbn [fst snd] in HR.
    eapply vis_proper; [| |apply HR]; try lia; try assumption; try reflexivity;
      change (inject_Z 0) with 0; try ring; try assumption.
    - destruct (Z.min_spec w W) as [[? ->]|[? ->]]; assumption.
    - destruct (Z.min_spec h H0) as [[? ->]|[? ->]]; assumption. }
  destruct tf as [[T d']|].
  - injection H as <-. split; [split; [exact Hwc|reflexivity]|]. split; [exact Hrc|].
    split; [exact Hnc|]. split; [exact Hcc|].
    intros x y k smp Hi Hv. destruct (HV _ _ _ _ Hi Hv) as (Hv' & Hw0 & Hh0).
    apply embed_axis0 in Hx as (-> & -> & -> & HW); [|exact Hw0].
    apply embed_axis0 in Hy as (-> & -> & -> & HH); [|exact Hh0].
    difH Hp Ep; [discriminate|]. injection Hp as <- <-. cbn [vis]. split.
    + unfold iv_len. cbn [fst snd].
      replace (Z.min w W - 0 + 0 + (W - Z.min w W))%Z with W by lia.
      replace (Z.min h H0 - 0 + 0 + (H0 - Z.min h H0))%Z with H0 by lia. exact Hi.
    + exists x, y. rewrite ax_translate, ay_translate. change (inject_Z 0) with 0.
      split; [ring|]. split; [ring|]. exact Hv'.
  - injection H as <-. split; [exact Hwc|]. split; [exact Hrc|].
    split; [exact Hnc|]. split; [exact Hcc|]. intros x y k smp Hi Hv. now destruct (HV _ _ _ _ Hi Hv).
Qed.

Definition opt_good (opt : node -> result node) : Prop :=
  forall r t t', wf t -> reg r t -> opt t = Ok t' -> good r t t'.

Lemma good_pregood r a b : good r a b -> pregood r a b.
Proof. intros [H _]. exact H. Qed.

Lemma split_warp_pregood o opt s M d al n : opt_good opt ->
  wf (Warp s M d al) -> nans_free s -> split_warp o opt s M d al = Ok (Some n) ->
  pregood RNansFree (Warp s M d al) n.
Proof.
  intros Hopt [Hw He] Hr H. unfold split_warp in H. apply bind_ok in H as (no & _ & H).
  destruct no as [no|]; [|discriminate]. destruct (no =? 0)%Z; [discriminate|].
  apply bind_ok in H as (lv & _ & H). destruct lv as [poss|]; [|discriminate].
  cbv zeta in H. set (k := Z.min no poss) in *. clearbody k.
  destruct (k =? 0)%Z; [discriminate|].
  apply bind_ok in H as (R & HR & H). apply bind_ok in H as (ov & Ho & H).
  destruct (split_residual_spec M k) as (R' & HR' & Hs). rewrite HR in HR'. injection HR' as <-.
  pose proof (pow2_pos k) as P.
  pose proof (mkOverview_meta _ _ _ Ho) as (sz & _ & Eo).
  assert (Hwo : wf ov) by (rewrite Eo; exact Hw).
  assert (Hro : nans_free ov) by (rewrite Eo; exact Hr).
  assert (Hno : names ov = names s) by (rewrite Eo; reflexivity).
  assert (Hco : num_channels ov = num_channels s) by (rewrite Eo; reflexivity).
  assert (HV : forall u v c smp, vis s u v c smp -> vis ov (u / pow2 k) (v / pow2 k) c smp).
  { intros u v c smp Hv. eapply mkOverview_vis; [exact Ho|]. eapply vis_proper; [| |exact Hv]; field; lra. }
  destruct (is_identity R) eqn:Eid.
  - assert (HV' : forall x y c smp, vis (Warp s M d al) x y c smp -> inside d x y /\ vis ov x y c smp).
    { intros x y c smp (Hi & u & v & Hu & Hv & Hsv). split; [exact Hi|].
      destruct (Hs u v) as [Sx Sy]. destruct (is_identity_spec _ Eid (u / pow2 k) (v / pow2 k)) as [I1 I2].
      eapply vis_proper; [| |apply HV; exact Hsv].
      - rewrite Hu, <- Sx. symmetry. exact I1.
      - rewrite Hv, <- Sy. symmetry. exact I2. }
    destruct (opt_size_eqb (dsize ov) (Some d)).
    + injection H as <-. split; [exact Hwo|]. split; [exact Hro|]. split; [exact Hno|]. split; [exact Hco|].
      intros x y c smp Hv. now apply HV'.
    + apply bind_ok in H as (c & Hc & H). destruct (opt c) as [n'|] eqn:En; [|discriminate].
      injection H as ->. destruct (padded_crop_vis _ _ _ Hwo Hro Hc) as (G1 & G2 & G3 & G4 & G5).
      eapply pregood_trans; [|apply good_pregood; apply (Hopt RNansFree c n G1 G2 En)].
      split; [exact G1|]. split; [exact G2|]. split; [now rewrite G3|]. split; [now rewrite G4|].
      intros x y k' smp Hv. destruct (HV' _ _ _ _ Hv). auto.
  - injection H as <-. split; [split; [exact Hwo|exact He]|]. split; [exact Hro|].
    split; [exact Hno|]. split; [exact Hco|].
    intros x y c smp (Hi & u & v & Hu & Hv & Hsv). cbn [vis]. split; [exact Hi|].
    exists (u / pow2 k), (v / pow2 k). destruct (Hs u v) as [Sx Sy].
    split; [now rewrite Hu, Sx|]. split; [now rewrite Hv, Sy|]. auto.
Qed.

Lemma ov_less_num t n : ov_less t -> num_overviews t = Ok n -> n = None \/ n = Some 0%Z.
Proof.
  revert n. induction t as [l|ps d IH|s ys xs ci d nm nc IH|s M d al IH|s q d IH|s k d IH] using node_ind';
    intros n; cbn [ov_less num_overviews]; auto.
  - intros H E. injection E as <-. exact H.
  - rewrite forall_parts_Forall. intros H E. apply bind_ok in E as (c & Hc & E).
    destruct c as [|a c]; [discriminate|].
    assert (Ha : a = None \/ a = Some 0%Z).
    { destruct ps as [|p ps]; [discriminate|]. cbn in Hc.
      destruct (num_overviews p) as [a'|] eqn:Ep; [|discriminate]. cbn in Hc.
      apply bind_ok in Hc as (c' & _ & Hc). injection Hc as -> ->.
      inversion IH; inversion H; subst. auto. }
    destruct (forallb (opt_Z_eqb a) c); injection E as <-; auto.
  - contradiction.
Qed.

Lemma split_warp_ov_less o opt s M d al n : ov_less s -> split_warp o opt s M d al = Ok (Some n) -> False.
Proof.
  intros H E. unfold split_warp in E. apply bind_ok in E as (no & Hno & E).
  destruct (ov_less_num _ _ H Hno) as [-> | ->]; discriminate.
Qed.

(** ** Absorbing an overview *)

Lemma lookahead_ov_less n t : ov_less t -> lookahead n t = None.
Proof.
  revert t. induction n as [|n IH]; intros t H; [reflexivity|].
  destruct t; cbn in *; auto; try contradiction; now rewrite IH.
Qed.

Lemma overview_tf_vis os k od x y c smp :
  vis (Overview os k od) x y c smp -> vis (Warp os (overview_tf k) od default_algo) x y c smp.
Proof.
  intros (Hi & Hv). cbn [vis]. split; [exact Hi|]. exists (x * pow2 k), (y * pow2 k).
  pose proof (pow2_pos k). unfold overview_tf. rewrite ax_scale, ay_scale.
  split; [field; lra|]. split; [field; lra|]. exact Hv.
Qed.

(* what absorption does to the child of the warp *)
Lemma absorb_head s M d al head T :
  wf s -> al_eps al == 0 -> nans_free s -> wf head -> nans_free head ->
  names head = names s -> num_channels head = num_channels s ->
  (forall x y c smp, vis s x y c smp -> exists u v, x == ax T u v /\ y == ay T u v /\ vis head u v c smp) ->
  pregood RNansFree (Warp s M d al) (Warp head (aff_mul M T) d (drop_backend al)).
Proof.
  intros Hw He Hr Hwh Hrh Hn Hc HV. split; [split; [exact Hwh|exact He]|]. split; [exact Hrh|].
  split; [exact Hn|]. split; [exact Hc|].
  intros x y c smp (Hi & x' & y' & Ex & Ey & Hv). destruct (HV _ _ _ _ Hv) as (u & v & Hu & Hv' & Hh).
  cbn [vis]. split; [exact Hi|]. exists u, v. rewrite ax_mul, ay_mul. rewrite <- Hu, <- Hv'. auto.
Qed.

Lemma absorb_good o s M d al n :
  wf (Warp s M d al) -> nans_free s -> nf s -> hd s <> HConcat -> hd s <> HWarp ->
  absorb o s M d al = Ok n -> good RNansFree (Warp s M d al) n.
Proof.
  intros Hww Hr Hnf Hc1 Hc2 H. pose proof Hww as [Hw He].
  assert (Hself : good RNansFree (Warp s M d al) (Warp s M d al)).
  { split; [now apply pregood_refl|]. split; [cbn; auto|]. apply nans_free_nanP. exact Hr. }
  unfold absorb in H. destruct (negb (absorbs o M)); [injection H as <-; exact Hself|].
  destruct (lookahead 4 s) as [[chain [[os k] od]]|] eqn:El; [|injection H as <-; exact Hself].
  destruct (1 <? List.length (filter is_lcrop chain))%nat; [injection H as <-; exact Hself|].
  apply bind_ok in H as ([head T] & Hh & H). injection H as <-.
  (* the shapes of the chain *)
  assert (Cases :
    (s = Overview os k od /\ chain = []) \/
    (exists q dd, s = Dequant (Overview os k od) q dd /\ chain = [LDeq q]) \/
    (exists ys xs ci cd nm nc, s = Crop (Overview os k od) ys xs ci cd nm nc /\
        chain = [LCrop ys xs ci cd nm nc]) \/
    (exists q dd ys xs ci cd nm nc, s = Dequant (Crop (Overview os k od) ys xs ci cd nm nc) q dd /\
        chain = [LDeq q; LCrop ys xs ci cd nm nc])).
  { clear Hh Hself. destruct s as [l|ps d0|s ys xs ci d0 nm nc|s M0 d0 al0|s q d0|s k0 d0]; try discriminate.
    - cbn [nf] in Hnf. destruct Hnf as (Hn1 & N1 & N2 & N3).
      destruct s; cbn in El, N1, N2, N3; try discriminate; try congruence.
      injection El as <- <- <- <-. right. right. left. eauto 10.
    - cbn [nf] in Hnf. destruct Hnf as (Hn1 & N1 & N2 & N3).
      destruct s as [l|ps d1|s ys xs ci d1 nm nc|s M0 d1 al0|s q0 d1|s k0 d1];
        cbn in N1, N2, N3; try discriminate; try congruence.
      + cbn [nf] in Hn1. destruct Hn1 as (_ & K1 & K2 & K3).
        destruct s; cbn in El, K1, K2, K3; try discriminate; try congruence.
        injection El as <- <- <- <-. right. right. right. eauto 12.
      + cbn in El. injection El as <- <- <- <-. right. left. eauto.
    - cbn in El. injection El as <- <- <- <-. left. auto. }
  destruct Cases as [[-> ->]|[(q & dd & -> & ->)|[(ys & xs & ci & cd & nm & nc & -> & ->)|(q & dd & ys & xs & ci & cd & nm & nc & -> & ->)]]];
    cbn [rev app fold_right] in Hh.
  - injection Hh as <- <-. cbn [nf] in Hnf. destruct Hnf as [Hn1 Hl].
    split; [|split].
    + apply absorb_head; auto. intros x y c smp Hv. apply overview_tf_vis in Hv.
      destruct Hv as (_ & u & v & Hv). eauto.
    + cbn [nf]. destruct os; try discriminate Hl. cbn. repeat split; discriminate.
    + apply nans_free_nanP. exact Hr.
  - apply bind_ok in Hh as (nd & Hnd & Hh). injection Hh as <- <-. cbn [relayer].
    cbn [nf] in Hnf. destruct Hnf as ((Hn1 & Hl) & _).
    assert (End : nd = dsize os) by (destruct os; try discriminate Hl; cbn in Hnd |- *; congruence).
    subst nd. split; [|split].
    + apply absorb_head; auto. intros x y c smp Hv. cbn [vis] in Hv.
      destruct Hv as (_ & s' & Hv & ->). apply overview_tf_vis in Hv.
      destruct Hv as (_ & u & v & Hu & Hv' & Hv). exists u, v. split; [exact Hu|]. split; [exact Hv'|].
      cbn [vis]. split; [|eauto].
      destruct (vis_inside _ _ _ _ _ Hv) as (d' & -> & Hd'). exact Hd'.
    + destruct os; try discriminate Hl. cbn. repeat split; discriminate.
    + apply nans_free_nanP. exact Hr.
  - apply bind_ok in Hh as (r & Hwac & Hh). destruct r as [[c T']|]; [|discriminate]. injection Hh as <- <-.
    cbn [nf] in Hnf. destruct Hnf as ((Hn1 & Hl) & _).
    assert (Hw' : wf (Crop (Warp os (overview_tf k) od default_algo) ys xs ci cd nm nc)).
    { cbn [wf names num_channels] in Hw |- *. destruct Hw as (W1 & W2). split; [|exact W2].
      split; [exact W1|reflexivity]. }
    destruct (warp_after_crop_spec _ _ _ _ _ _ _ _ _ _ _ _ Hw' Hwac) as (G1 & G2 & (a & b & nm' & nc' & Ec) & G4 & G5 & G6).
    split; [|split].
    + apply absorb_head; auto.
      * apply (G2 RNansFree). exact Hr.
      * intros x y c0 smp Hv. apply G6. cbn [vis] in Hv. destruct Hv as (Hi & b0 & Hb & Hv).
        apply (overview_tf_vis os k od) in Hv. split; [exact Hi|]. exists b0. split; [exact Hb|]. exact Hv.
    + rewrite Ec. destruct os; try discriminate Hl. cbn. repeat split; discriminate.
    + apply nans_free_nanP. apply (G2 RNansFree). exact Hr.
  - apply bind_ok in Hh as (r & Hwac & Hh). destruct r as [[c T']|]; [|discriminate]. injection Hh as <- <-.
    cbn [relayer]. cbn [nf] in Hnf. destruct Hnf as (((Hn1 & Hl) & _) & _).
    assert (Hw' : wf (Crop (Warp os (overview_tf k) od default_algo) ys xs ci cd nm nc)).
    { cbn [wf names num_channels] in Hw |- *. destruct Hw as (W1 & W2). split; [|exact W2].
      split; [exact W1|reflexivity]. }
    destruct (warp_after_crop_spec _ _ _ _ _ _ _ _ _ _ _ _ Hw' Hwac) as (G1 & G2 & (a & b & nm' & nc' & Ec) & G4 & G5 & G6).
    split; [|split].
    + apply absorb_head; auto.
      * apply (G2 RNansFree). exact Hr.
      * intros x y c0 smp Hv. cbn [vis] in Hv. destruct Hv as (_ & s' & (Hi & b0 & Hb & Hv) & ->).
        apply (overview_tf_vis os k od) in Hv.
        destruct (G6 x y c0 s') as (u & v & Hu & Hv' & Hc').
        { split; [exact Hi|]. exists b0. split; [exact Hb|]. exact Hv. }
        exists u, v. split; [exact Hu|]. split; [exact Hv'|]. cbn [vis]. split; [|eauto].
        destruct (vis_inside _ _ _ _ _ Hc') as (d' & -> & Hd'). exact Hd'.
    + rewrite Ec. destruct os; try discriminate Hl. cbn. repeat split; discriminate.
    + apply nans_free_nanP. apply (G2 RNansFree). exact Hr.
Qed.
