(* optimize() of pipelines over one image with a known number of overviews, with
   overviews in use: it terminates, and fails only with the KeyError of an absorbed
   overview below an empty crop. *)
From Verif Require Import Py PyProofs GeomModel GeomProofs GraphModel GraphSpec GraphBase GraphTake GraphOpt GraphMain GraphSound GraphSize GraphTotal WarpTotal CropProofs.
From Coq Require Import ZifyBool Qround Qminmax Lqa.
Local Open Scope Z_scope.

(** ** Linear parts *)

Definition same_lin (A B : affine) : Prop :=
  (a11 A == a11 B)%Q /\ (a12 A == a12 B)%Q /\ (a21 A == a21 B)%Q /\ (a22 A == a22 B)%Q.
Definition unit_lin (M : affine) : Prop := same_lin M (aff_translate 0 0).

Lemma unit_translate x y : unit_lin (aff_translate x y).
Proof. repeat split; reflexivity. Qed.

Lemma unit_mul A B : unit_lin A -> unit_lin B -> unit_lin (aff_mul A B).
Proof.
  unfold unit_lin, same_lin. cbn. intros (A1 & A2 & A3 & A4) (B1 & B2 & B3 & B4).
  rewrite A1, A2, A3, A4, B1, B2, B3, B4. repeat split; ring.
Qed.

Lemma unit_same A B : unit_lin A -> same_lin A B -> unit_lin B.
Proof. unfold unit_lin, same_lin. intros (A1 & A2 & A3 & A4) (B1 & B2 & B3 & B4). repeat split; etransitivity; [symmetry; eassumption|assumption|symmetry; eassumption|assumption|symmetry; eassumption|assumption|symmetry; eassumption|assumption]. Qed.

Lemma scale_inv k : exists I, aff_inv (aff_scale (1 / pow2 k) (1 / pow2 k)) = Ok I /\
  (a11 I == pow2 k)%Q /\ (a12 I == 0)%Q /\ (a21 I == 0)%Q /\ (a22 I == pow2 k)%Q /\ (b1 I == 0)%Q /\ (b2 I == 0)%Q.
Proof.
  pose proof (pow2_pos k) as H. assert (Hn : ~ (pow2 k == 0)%Q) by (intros E; rewrite E in H; discriminate).
  assert (Hd : (aff_det (aff_scale (1 / pow2 k) (1 / pow2 k)) == 1 / (pow2 k * pow2 k))%Q).
  { unfold aff_det, aff_scale. cbn. field. exact Hn. }
  unfold aff_inv. dif E.
  - exfalso. apply Qeq_bool_iff in E. rewrite Hd in E. 
    assert (G : (1 == (1 / (pow2 k * pow2 k)) * (pow2 k * pow2 k))%Q) by (field; exact Hn).
    rewrite E in G. rewrite Qmult_0_l in G. discriminate.
  - eexists. split; [reflexivity|]. unfold aff_inv_raw, aff_det, aff_scale. cbn. repeat split; field; auto.
Qed.

Lemma split_residual_ok M k : exists R, split_residual M k = Ok R /\ same_lin R (aff_mul M (aff_scale (pow2 k) (pow2 k))) /\
  (b1 R == b1 M)%Q /\ (b2 R == b2 M)%Q.
Proof.
  unfold split_residual. destruct (scale_inv k) as (I & -> & H1 & H2 & H3 & H4 & H5 & H6). cbn [bind].
  eexists. split; [reflexivity|]. unfold same_lin, aff_mul, aff_scale. cbn. rewrite H1, H2, H3, H4, H5, H6. repeat split; ring.
Qed.

(** ** Sizes *)

Definition pos_size (d : size) : Prop := 0 <= fst d /\ 0 <= snd d.
(* sizes below warps are not negative, crops are intervals *)
Fixpoint sized (t : node) : Prop :=
  match t with
  | Leaf l => pos_size (l_dsize l)
  | Concat _ _ => False
  | Crop s ys xs _ _ _ _ => sized s /\ (0 <= fst ys <= snd ys) /\ (0 <= fst xs <= snd xs)
  | Warp s _ _ _ => sized s
  | Dequant s _ d => sized s /\ exists z, d = Some z /\ pos_size z
  | Overview s _ d => sized s /\ pos_size d
  end.

Definition not_warp (t : node) : Prop := match t with Warp _ _ _ _ => False | _ => True end.

Lemma sized_some t : sized t -> exists w h, dsize t = Some (w, h).
Proof.
  destruct t as [l|ps d|s ys xs ci d nm nc|s M d al|s q d|s k d]; cbn; intros H; try contradiction.
  - destruct (l_dsize l). eauto.
  - destruct d. eauto.
  - destruct d. eauto.
  - destruct H as (_ & z & -> & _). destruct z. eauto.
  - destruct d. eauto.
Qed.

Lemma sized_dsize t : wf t -> sized t -> not_warp t -> exists w h, dsize t = Some (w, h) /\ 0 <= w /\ 0 <= h.
Proof.
  destruct t as [l|ps d|s ys xs ci d nm nc|s M d al|s q d|s k d]; cbn; intros Hw H Hn; try contradiction.
  - destruct (l_dsize l) as [w h]. exists w, h. auto.
  - destruct Hw as (_ & _ & _ & -> & _). unfold iv_len. eexists _, _. split; [reflexivity|]. lia.
  - destruct H as (_ & [w h] & -> & H1 & H2). exists w, h. auto.
  - destruct H as (_ & H1 & H2). destruct d as [w h]. exists w, h. auto.
Qed.

Lemma wrap_clip_any D a b : 0 <= a <= b -> exists i, wrap_clip D (some_slice (a, b)) = Ok i /\ 0 <= fst i <= snd i.
Proof.
  intros H. unfold wrap_clip, some_slice. cbn [fst snd]. cbv zeta.
  assert (Ea : a <? 0 = false) by lia. assert (Eb : b <? 0 = false) by lia. rewrite Ea, Eb.
  dif E; [lia|]. eexists. split; [reflexivity|]. cbn. lia.
Qed.

(** ** Crops can be built *)

Definition ivals (ys xs : ival) : Prop := (0 <= fst ys <= snd ys) /\ (0 <= fst xs <= snd xs).

Lemma mkCrop_any s sl ci m w h : wf s -> dsize s = Some (w, h) -> num_channels s = Some m -> ci_ok (num_channels s) ci ->
  (exists y x, wrap_clip h (fst sl) = Ok y /\ wrap_clip w (snd sl) = Ok x) ->
  exists ys xs nm nc, mkCrop s (Some sl) ci = Ok (Crop s ys xs ci (iv_len xs, iv_len ys) nm nc) /\
    wf (Crop s ys xs ci (iv_len xs, iv_len ys) nm nc) /\ ivals ys xs.
Proof.
  intros Hw Hd Hm Hci (y & x & Hy & Hx).
  assert (E : exists n, mkCrop s (Some sl) ci = Ok n).
  { unfold mkCrop. rewrite Hd. destruct sl as [sy sx]. cbn [fst snd] in *. rewrite Hy, Hx. cbn [bind].
    destruct ci as [l|]; [|cbn; eauto]. destruct (names s) as [nl|] eqn:En; [|cbn; eauto].
    destruct (wf_meta _ Hw) as (m' & Hm' & _ & Hl). assert (m' = m) by congruence. subst m'.
    destruct (select_total nl l) as (n' & ->); [rewrite (Hl _ En); apply Hci; exact Hm|]. cbn. eauto. }
  destruct E as (n & E). destruct (mkCrop_spec _ _ _ _ _ Hw Hm Hci E) as (w' & h' & ys & xs & nm & nc & _ & -> & Hwc & Hb).
  exists ys, xs, nm, nc. split; [exact E|]. split; [exact Hwc|].
  assert (Hclip : forall D s i, wrap_clip D s = Ok i -> 0 <= fst i <= snd i).
  { intros D0 s0 i0 Hi. pose proof (wrap_clip_fst _ _ _ Hi). split; [assumption|].
    unfold wrap_clip in Hi. cbv zeta in Hi. difH Hi E'; [discriminate|]. injection Hi as <-. cbn in *. lia. }
  destruct sl as [sy sx]. destruct Hb as [Hb1 Hb2]. split; eapply Hclip; eassumption.
Qed.

(** ** Results of rewriting *)

(* n describes the same bands as s, and is as well formed *)
Definition like (s n : node) : Prop :=
  wf n /\ sized n /\ names n = names s /\ num_channels n = num_channels s /\ (dq_free s -> dq_free n).

Lemma like_refl s : wf s -> sized s -> like s s.
Proof. intros H G. repeat split; auto. Qed.

Lemma like_trans a b c : like a b -> like b c -> like a c.
Proof. intros (A1 & A2 & A3 & A4 & A5) (B1 & B2 & B3 & B4 & B5). repeat split; auto; congruence. Qed.

Lemma like_crop s n ys xs ci d nm nc : wf (Crop s ys xs ci d nm nc) -> ivals ys xs -> like s n ->
  like (Crop s ys xs ci d nm nc) (Crop n ys xs ci d nm nc).
Proof.
  intros Hw Hs (N1 & N2 & N3 & N4 & N5). split; [|split; [|split; [|split]]].
  - cbn [wf] in *. rewrite N3, N4. tauto.
  - split; [exact N2|exact Hs].
  - cbn [names]. now rewrite N3.
  - cbn [num_channels]. now rewrite N4.
  - exact N5.
Qed.

(** ** The shape of optimized pipelines *)

Definition data_leaf (l : leaf) : Prop := l_kind l = Data /\ exists n, l_ov l = Some n.

Definition noop (s : node) (M : affine) (d : size) (al : algo) : bool :=
  (opt_size_eqb (Some d) (dsize s) && close_identity (al_eps al) M)%bool.

Lemma axis_bool M : (a12 M == 0)%Q -> (a21 M == 0)%Q -> (0 < a11 M)%Q -> (0 < a22 M)%Q -> axis_aligned M = true.
Proof.
  intros H1 H2 H3 H4. unfold axis_aligned. rewrite !andb_true_iff, !negb_true_iff, !Qeq_bool_iff.
  repeat split; auto; apply not_true_iff_false; rewrite Qle_bool_iff; intros H; lra.
Qed.

(* a negative size only with a translation out of view *)
Definition fits (M : affine) (d : size) : Prop :=
  axis_aligned M = true -> (0 <= fst d \/ (b1 M < 0)%Q) /\ (0 <= snd d \/ (b2 M < 0)%Q).

Lemma fits_pos M d : pos_size d -> fits M d.
Proof. intros [H1 H2] _. auto. Qed.

Lemma fits_auto M z : fits M (auto_dsize M z).
Proof.
  intros _. unfold auto_dsize. cbn [fst snd].
  assert (G : forall a b c e, 0 <= Qceiling (Qmax4 a b c e) \/ (a < 0)%Q).
  { intros a b c e. destruct (Z_le_gt_dec 0 (Qceiling (Qmax4 a b c e))) as [H|H]; [auto|right].
    pose proof (Qle_ceiling (Qmax4 a b c e)) as Hc.
    assert (Hm : (a <= Qmax4 a b c e)%Q).
    { unfold Qmax4. apply (Qle_trans _ (Qmax a b)); apply Q.le_max_l. }
    assert (Hz : (inject_Z (Qceiling (Qmax4 a b c e)) <= inject_Z (-1))%Q) by (rewrite <- Zle_Qle; lia).
    change (inject_Z (-1)) with (-1)%Q in Hz. lra. }
  assert (E1 : (ax M 0 0 == b1 M)%Q) by (unfold ax; ring). assert (E2 : (ay M 0 0 == b2 M)%Q) by (unfold ay; ring).
  split; [rewrite <- E1|rewrite <- E2]; apply G.
Qed.

Lemma fits_comp M A N d : fits M d -> (a12 A == 0)%Q -> (a21 A == 0)%Q -> (0 < a11 A)%Q -> (0 < a22 A)%Q ->
  (b1 A <= 0)%Q -> (b2 A <= 0)%Q -> same_lin N (aff_mul M A) -> (b1 N == b1 (aff_mul M A))%Q -> (b2 N == b2 (aff_mul M A))%Q -> fits N d.
Proof.
  intros HM A12 A21 A11 A22 B1 B2 (L1 & L2 & L3 & L4) E1 E2 Hax. cbn in L1, L2, L3, L4, E1, E2.
  apply axis_aligned_spec in Hax as (N12 & N21 & N11 & N22).
  assert (M12 : (a12 M == 0)%Q). { assert (Z0 : (a12 M * a22 A == 0)%Q) by (rewrite <- N12, L2, A12; ring). apply Qmult_integral in Z0 as [Z0|Z0]; lra. }
  assert (M21 : (a21 M == 0)%Q). { assert (Z0 : (a21 M * a11 A == 0)%Q) by (rewrite <- N21, L3, A21; ring). apply Qmult_integral in Z0 as [Z0|Z0]; lra. }
  assert (M11 : (0 < a11 M)%Q). { apply (Qmult_lt_r _ _ _ A11). rewrite A21 in L1. lra. }
  assert (M22 : (0 < a22 M)%Q). { apply (Qmult_lt_r _ _ _ A22). rewrite A12 in L4. lra. }
  destruct (HM (axis_bool M M12 M21 M11 M22)) as [F1 F2]. rewrite M12 in E1. rewrite M21 in E2. split.
  - destruct F1 as [F1|F1]; [auto|right]. assert ((a11 M * b1 A <= 0)%Q) by nra. lra.
  - destruct F2 as [F2|F2]; [auto|right]. assert ((a22 M * b2 A <= 0)%Q) by nra. lra.
Qed.

(* translations towards the origin *)
Definition shift (M : affine) : Prop := unit_lin M /\ (b1 M <= 0)%Q /\ (b2 M <= 0)%Q.

Lemma fits_shift M A d : fits M d -> shift A -> fits (aff_mul M A) d.
Proof.
  intros HM ((L1 & L2 & L3 & L4) & B1 & B2). cbn in L1, L2, L3, L4.
  eapply (fits_comp M A); try eassumption; try reflexivity; [rewrite L1; reflexivity|rewrite L4; reflexivity|repeat split; reflexivity].
Qed.

Definition shiftd (M : affine) (d : size) : Prop := shift M /\ fits M d.

(* at most one dequantization, over at most one crop, over at most one overview
   of the leaf; an empty crop may also rest on a translated image *)
Fixpoint stage (t : node) : Prop :=
  match t with
  | Leaf l => data_leaf l
  | Overview s k _ => match s with Leaf l => data_leaf l /\ k <> 0 | _ => False end
  | Crop s _ _ _ d _ _ =>
      match s with
      | Leaf l => data_leaf l
      | Overview s' k _ => match s' with Leaf l => data_leaf l /\ k <> 0 | _ => False end
      | Warp w M wd al =>
          stage w /\ (fst d = 0 \/ snd d = 0) /\ shiftd M wd /\ al_nearest al = false /\ noop w M wd al = false
      | _ => False
      end
  | Dequant s _ _ => stage s /\ dq_free s
  | _ => False
  end.

(* a stage, or one transformed by an effective transform of class P *)
Definition piped (P : affine -> size -> Prop) (v : node) : Prop :=
  match v with
  | Warp w M d al => stage w /\ P M d /\ al_nearest al = false /\ noop w M d al = false
  | _ => stage v
  end.

Definition core (v : node) : node := match v with Warp s _ _ _ => s | _ => v end.

Lemma stage_not_warp t : stage t -> not_warp t.
Proof. destruct t; cbn; auto. Qed.

Lemma stage_piped P t : stage t -> piped P t.
Proof. destruct t; cbn; auto. contradiction. Qed.

Lemma piped_core P v : piped P v -> stage (core v).
Proof. destruct v; cbn; auto. tauto. Qed.

Lemma piped_weaken (P Q : affine -> size -> Prop) v : (forall M d, P M d -> Q M d) -> piped P v -> piped Q v.
Proof. intros H. destruct v; cbn; auto. intuition. Qed.

Lemma stage_crop s ys xs ci d nm nc : stage (Crop s ys xs ci d nm nc) -> piped shiftd s.
Proof. cbn [stage]. destruct s as [l|ps d1|s ys1 xs1 ci1 d1 nm1 nc1|s M1 d1 al1|s q1 d1|s k d1]; try contradiction; cbn [piped stage]; try tauto. Qed.

Lemma core_stage t : stage t -> core t = t.
Proof. destruct t; cbn; auto. contradiction. Qed.

Lemma tail_id f v : stage (core v) -> push_tail f v = Ok v /\ crop_tail f v = Ok v.
Proof.
  destruct v as [l|ps d|s ys xs ci d nm nc|s M d al|s q d|s k d]; cbn [core stage]; try contradiction; intros H.
  - split; reflexivity.
  - destruct s as [l|ps d1|s ys1 xs1 ci1 d1 nm1 nc1|s M1 d1 al1|s q1 d1|s k d1]; try contradiction; split; reflexivity.
  - destruct s as [l|ps d1|s ys1 xs1 ci1 d1 nm1 nc1|s M1 d1 al1|s q1 d1|s k d1]; try contradiction; split; reflexivity.
  - destruct s as [l|ps d1|s ys1 xs1 ci1 d1 nm1 nc1|s M1 d1 al1|s q1 d1|s k d1]; try (split; reflexivity); destruct H as [[] _].
  - destruct s; try contradiction. split; reflexivity.
Qed.

Fixpoint nsize (t : node) : nat :=
  match t with
  | Leaf _ | Concat _ _ => 1
  | Crop s _ _ _ _ _ _ | Warp s _ _ _ | Dequant s _ _ | Overview s _ _ => S (nsize s)
  end.

Lemma nsize_ind (P : node -> Prop) : (forall t, (forall s, (nsize s < nsize t)%nat -> P s) -> P t) -> forall t, P t.
Proof.
  intros H. assert (G : forall n t, (nsize t < n)%nat -> P t).
  { induction n as [|n IH]; intros t Hn; [lia|]. apply H. intros s Hs. apply IH. lia. }
  intros t. apply (G (S (nsize t))). lia.
Qed.

(* the remaining overviews are known *)
Lemma stage_num t : stage t -> exists n, num_overviews t = Ok (Some n).
Proof.
  induction t as [t IH] using nsize_ind. destruct t as [l|ps d|s ys xs ci d nm nc|s M d al|s q d|s k d]; intros H; try contradiction.
  - destruct H as (_ & n & E). exists n. cbn. now rewrite E.
  - pose proof (stage_crop _ _ _ _ _ _ _ H) as Hs. cbn [num_overviews].
    destruct s as [l|ps d1|s ys1 xs1 ci1 d1 nm1 nc1|s M1 d1 al1|s q1 d1|s k d1]; try contradiction; try (apply IH; [cbn; lia|exact Hs]).
    cbn [num_overviews]. apply IH; [cbn; lia|apply Hs].
  - destruct H as [H _]. cbn [num_overviews]. apply IH; [cbn; lia|exact H].
  - destruct s; try contradiction. destruct H as ((_ & n & E) & _). exists (n - k). cbn. now rewrite E.
Qed.

(** ** Crops passed below transforms and overviews *)

Lemma fast_offset s t n r : (0 < s)%Q -> (t <= 0)%Q -> 0 <= fst r -> (snd (fast_axis s t n r) <= 0)%Q.
Proof.
  intros Hs Ht Hr. unfold fast_axis. cbv zeta. cbn [snd fst].
  set (q := ((inject_Z (fst r) - t) / s)%Q).
  assert (Hr' : (0 <= inject_Z (fst r))%Q) by (apply (proj1 (injZ_le 0 (fst r))); exact Hr).
  assert (Hq : (0 <= q)%Q).
  { unfold q. apply le_div_iff; [exact Hs|]. lra. }
  set (x := Z.max (Qfloor q) 0 - Z.min (Z.max (Qfloor q) 0) 1).
  assert (Hx : (inject_Z x <= q)%Q).
  { pose proof (Qfloor_le q) as Hf.
    assert (H0 : (inject_Z (Z.max (Qfloor q) 0) <= q)%Q).
    { destruct (Z.max_spec (Qfloor q) 0) as [[_ ->]|[_ ->]]; assumption. }
    assert (H1 : (inject_Z x <= inject_Z (Z.max (Qfloor q) 0))%Q) by (rewrite <- Zle_Qle; unfold x; lia). lra. }
  assert (G : (s * inject_Z x <= inject_Z (fst r) - t)%Q).
  { setoid_replace (inject_Z (fst r) - t)%Q with (s * q)%Q.
    - apply Qmult_le_l; assumption.
    - unfold q. field. intros E0. rewrite E0 in Hs. discriminate. }
  fold x. lra.
Qed.

Lemma like_crops s s' ys xs ci d nm nc ys' xs' d' nm' nc' :
  wf (Crop s ys xs ci d nm nc) -> wf (Crop s' ys' xs' ci d' nm' nc') -> sized (Crop s' ys' xs' ci d' nm' nc') ->
  names s' = names s -> num_channels s' = num_channels s -> (dq_free s -> dq_free s') ->
  like (Crop s ys xs ci d nm nc) (Crop s' ys' xs' ci d' nm' nc').
Proof.
  intros Hw Hw' Hz Hn Hc Hq. split; [exact Hw'|]. split; [exact Hz|]. split; [|split; [|exact Hq]].
  - rewrite (crop_names _ _ _ _ _ _ _ Hw), (crop_names _ _ _ _ _ _ _ Hw'). now rewrite Hn.
  - rewrite (crop_nc _ _ _ _ _ _ _ Hw), (crop_nc _ _ _ _ _ _ _ Hw'). now rewrite Hc.
Qed.

Lemma warp_after_crop_ok s M wd al ys xs ci d nm nc :
  wf (Crop (Warp s M wd al) ys xs ci d nm nc) -> sized (Crop (Warp s M wd al) ys xs ci d nm nc) -> not_warp s ->
  invertible M al ->
  (warp_after_crop s M ys xs ci d = Ok None /\ (fst d = 0 \/ snd d = 0)) \/
  exists a b nm' nc' T, warp_after_crop s M ys xs ci d = Ok (Some (Crop s a b ci (iv_len b, iv_len a) nm' nc', T)) /\
    wf (Crop s a b ci (iv_len b, iv_len a) nm' nc') /\ sized (Crop s a b ci (iv_len b, iv_len a) nm' nc') /\
    like (Crop (Warp s M wd al) ys xs ci d nm nc) (Crop s a b ci (iv_len b, iv_len a) nm' nc') /\
    same_lin M T /\
    (axis_aligned M = true -> (b1 M <= 0)%Q -> (b1 T <= 0)%Q) /\ (axis_aligned M = true -> (b2 M <= 0)%Q -> (b2 T <= 0)%Q).
Proof.
  intros Hw Hz Hnw HM. pose proof (wf_crop_ci _ _ _ _ _ _ _ Hw) as Hci. cbn [num_channels] in Hci.
  assert (Hws : wf s) by apply Hw. assert (Hzs : sized s) by apply Hz. destruct Hz as (_ & By & Bx).
  pose proof Hw as (_ & _ & _ & -> & _).
  unfold warp_after_crop. cbn [fst snd]. dif E; [left; split; [reflexivity|lia]|right].
  assert (Hx : fst xs < snd xs) by (unfold iv_len in E; lia). assert (Hy : fst ys < snd ys) by (unfold iv_len in E; lia).
  destruct (sized_dsize _ Hws Hzs Hnw) as (w & h & Hd & W0 & H0). destruct (wf_nc _ Hws) as (m & Hm).
  assert (K : forall ysl xsl, (exists y, wrap_clip h (some_slice ysl) = Ok y) -> (exists x, wrap_clip w (some_slice xsl) = Ok x) ->
    exists a b nm' nc', mkCrop s (Some (some_slice ysl, some_slice xsl)) ci = Ok (Crop s a b ci (iv_len b, iv_len a) nm' nc') /\
    wf (Crop s a b ci (iv_len b, iv_len a) nm' nc') /\ sized (Crop s a b ci (iv_len b, iv_len a) nm' nc') /\
    like (Crop (Warp s M wd al) ys xs ci (iv_len xs, iv_len ys) nm nc) (Crop s a b ci (iv_len b, iv_len a) nm' nc')).
  { intros ysl xsl (y & Ey) (x & Ex). destruct (mkCrop_any s (some_slice ysl, some_slice xsl) ci m w h Hws Hd Hm Hci) as (a & b & nm' & nc' & K1 & K2 & K3); [eauto|].
    assert (K4 : sized (Crop s a b ci (iv_len b, iv_len a) nm' nc')) by (split; assumption).
    exists a, b, nm', nc'. split; [exact K1|]. split; [exact K2|]. split; [exact K4|]. eapply like_crops; eauto. }
  destruct (axis_aligned M) eqn:Ea.
  - rewrite Hd. pose proof Ea as Ea'. apply axis_aligned_spec in Ea as (A12 & A21 & A11 & A22).
    pose proof (fast_axis_clip (a11 M) (b1 M) w xs A11 W0 Hx) as Hix.
    pose proof (fast_axis_clip (a22 M) (b2 M) h ys A22 H0 Hy) as Hiy.
    pose proof (fun H => fast_offset (a11 M) (b1 M) w xs A11 H ltac:(lia)) as Ox.
    pose proof (fun H => fast_offset (a22 M) (b2 M) h ys A22 H ltac:(lia)) as Oy.
    destruct (fast_axis (a11 M) (b1 M) w xs) as [xsl ox]. destruct (fast_axis (a22 M) (b2 M) h ys) as [ysl oy].
    cbn [fst snd] in *. destruct (K ysl xsl Hiy Hix) as (a & b & nm' & nc' & -> & K2 & K3 & K4). cbn [bind].
    exists a, b, nm', nc'. eexists. split; [reflexivity|]. split; [exact K2|]. split; [exact K3|]. split; [exact K4|].
    split; [|auto]. unfold same_lin. cbn. repeat split; try reflexivity; assumption.
  - assert (Hsw : exists p, swap_warp_after_crop ys xs M = Ok p).
    { unfold swap_warp_after_crop, aff_inv. dif Ed; [apply Qeq_bool_iff in Ed; contradiction|]. cbn [bind]. eauto. }
    destruct Hsw as ([[ysl xsl] T] & Hsw).
    destruct (swap_clip _ _ _ _ _ _ w h W0 H0 Hx Hy Hsw) as (iy & ix & Hiy & Hix). rewrite Hsw. cbn [bind].
    destruct (K ysl xsl (ex_intro _ _ Hiy) (ex_intro _ _ Hix)) as (a & b & nm' & nc' & -> & K2 & K3 & K4). cbn [bind].
    exists a, b, nm', nc', T. split; [reflexivity|]. split; [exact K2|]. split; [exact K3|]. split; [exact K4|].
    split; [|split; discriminate]. unfold swap_warp_after_crop in Hsw. apply bind_ok in Hsw as (I & _ & Hsw). injection Hsw as _ _ <-.
    unfold same_lin. cbn. repeat split; ring.
Qed.

Lemma unit_axis M : unit_lin M -> axis_aligned M = true.
Proof. intros (A1 & A2 & A3 & A4). cbn in *. apply axis_bool; auto; [rewrite A1|rewrite A4]; reflexivity. Qed.

Lemma unit_inv M al : unit_lin M -> invertible M al.
Proof. intros (A1 & A2 & A3 & A4). unfold invertible, aff_det. cbn in *. rewrite A1, A2, A3, A4. discriminate. Qed.

Lemma shift_mul A B : shift A -> shift B -> shift (aff_mul A B).
Proof.
  intros (UA & A1 & A2) (UB & B1 & B2). split; [now apply unit_mul|]. destruct UA as (L1 & L2 & L3 & L4).
  cbn in *. rewrite L1, L2, L3, L4. split; lra.
Qed.

Lemma like_warp s M d al n : wf (Warp s M d al) -> like s n -> like (Warp s M d al) (Warp n M d al).
Proof. intros [Hw He] (N1 & N2 & N3 & N4 & N5). repeat split; auto. Qed.

Lemma overview_size_pos k z : pos_size z -> pos_size (overview_dsize k z).
Proof. intros [H1 H2]. split; cbn; apply overview_len_nonneg; assumption. Qed.

(* the node built when a crop passes below an overview *)
Lemma crop_after_overview_ok s ys xs ci d nm nc k w h :
  wf (Crop s ys xs ci d nm nc) -> ivals ys xs -> dsize s = Some (w, h) ->
  exists a b nm' nc', let c := Crop (Overview s k (overview_dsize k (w, h))) a b ci (iv_len b, iv_len a) nm' nc' in
    wf c /\ ivals a b /\ names c = names (Crop s ys xs ci d nm nc) /\ num_channels c = num_channels (Crop s ys xs ci d nm nc) /\
    (crop_after_overview s ys xs ci k = Ok c \/
     exists Tr td, crop_after_overview s ys xs ci k = Ok (Warp c Tr td default_algo) /\ shiftd Tr td).
Proof.
  intros Hw [Hy Hx] Hd. pose proof (wf_crop_ci _ _ _ _ _ _ _ Hw) as Hci. assert (Hws : wf s) by apply Hw.
  destruct (wf_nc _ Hws) as (m & Hm).
  assert (Ax : forall r, 0 <= fst r <= snd r -> 0 <= fst (fst (overview_crop_axis k r)) <= snd (fst (overview_crop_axis k r)) /\
    (snd (overview_crop_axis k r) <= 0)%Q).
  { intros r Hr. unfold overview_crop_axis. cbv zeta. cbn [fst snd]. pose proof (pow2_pos k) as Hp.
    assert (Hle : (inject_Z (fst r) / pow2 k <= inject_Z (snd r) / pow2 k)%Q).
    { unfold Qdiv. apply Qmult_le_compat_r; [|apply Qlt_le_weak, Qinv_lt_0_compat, Hp]. rewrite <- Zle_Qle. lia. }
    assert (H0 : (0 <= inject_Z (fst r) / pow2 k)%Q).
    { apply le_div_iff; [exact Hp|]. rewrite Qmult_0_l. apply (proj1 (injZ_le 0 (fst r))). lia. }
    pose proof (Qfloor_ceil _ _ Hle) as Hfc. split; [lia|].
    pose proof (Qfloor_le (inject_Z (fst r) / pow2 k)) as Hf.
    destruct (Z.max_spec 0 (Qfloor (inject_Z (fst r) / pow2 k))) as [[_ ->]|[_ ->]]; [lra|].
    change (inject_Z 0) with 0%Q. lra. }
  pose proof (Ax xs Hx) as [Bx Ox]. pose proof (Ax ys Hy) as [By Oy]. unfold crop_after_overview, mkOverview. rewrite Hd. cbn [bind].
  destruct (overview_crop_axis k xs) as [qx ox]. destruct (overview_crop_axis k ys) as [qy oy]. cbn [fst snd] in *.
  set (ov := Overview s k (overview_dsize k (w, h))) in *.
  assert (Hwo : wf ov) by exact Hws.
  destruct (mkCrop_any ov (some_slice qy, some_slice qx) ci m (overview_len k w) (overview_len k h) Hwo eq_refl Hm Hci)
    as (a & b & nm' & nc' & Hc & Hwc & Hi).
  { destruct qx as [x0 x1], qy as [y0 y1]. cbn [fst snd] in *.
    destruct (wrap_clip_any (overview_len k h) y0 y1 By) as (iy & Ey & _).
    destruct (wrap_clip_any (overview_len k w) x0 x1 Bx) as (ix & Ex & _). eauto. }
  exists a, b, nm', nc'. cbv zeta. split; [exact Hwc|]. split; [exact Hi|].
  split; [rewrite (crop_names _ _ _ _ _ _ _ Hw), (crop_names _ _ _ _ _ _ _ Hwc); reflexivity|].
  split; [rewrite (crop_nc _ _ _ _ _ _ _ Hw), (crop_nc _ _ _ _ _ _ _ Hwc); reflexivity|].
  rewrite Hc. cbn [bind]. dif Ei; [left; reflexivity|right]. unfold mkWarp_auto. cbn [dsize].
  eexists _, _. split; [reflexivity|]. split; [|apply fits_auto]. split; [apply unit_translate|]. split; assumption.
Qed.

(* the node built when a transform passes below an overview *)
Lemma warp_after_overview_node_ok s B k w h : dsize s = Some (w, h) ->
  exists C, warp_after_overview_node s B k = Ok (Warp (Overview s k (overview_dsize k (w, h))) C
      (auto_dsize C (overview_dsize k (w, h))) default_algo) /\ same_lin B C /\
    ((b1 B <= 0)%Q -> (b1 C <= 0)%Q) /\ ((b2 B <= 0)%Q -> (b2 C <= 0)%Q).
Proof.
  intros Hd. unfold warp_after_overview_node, warp_after_overview, mkOverview, mkWarp_auto. rewrite Hd.
  destruct (scale_inv k) as (I & EI & H1 & H2 & H3 & H4 & H5 & H6). cbv zeta. rewrite EI. cbn [bind dsize].
  eexists. split; [reflexivity|]. pose proof (pow2_pos k) as Hp.
  assert (Hn : ~ (pow2 k == 0)%Q) by (intros E; rewrite E in Hp; discriminate).
  assert (Hq : (0 < 1 / pow2 k)%Q) by (unfold Qdiv; rewrite Qmult_1_l; apply Qinv_lt_0_compat, Hp).
  split; [unfold same_lin, aff_mul, aff_scale; cbn; rewrite H1, H2, H3, H4; repeat split; field; exact Hn|].
  cbn. rewrite H5, H6. split; intros Hb.
  - setoid_replace ((1 / pow2 k * a11 B + 0 * a21 B) * 0 + (1 / pow2 k * a12 B + 0 * a22 B) * 0 + (1 / pow2 k * b1 B + 0 * b2 B + 0))%Q
      with ((1 / pow2 k) * b1 B)%Q by ring. nra.
  - setoid_replace ((0 * a11 B + 1 / pow2 k * a21 B) * 0 + (0 * a12 B + 1 / pow2 k * a22 B) * 0 + (0 * b1 B + 1 / pow2 k * b2 B + 0))%Q
      with ((1 / pow2 k) * b2 B)%Q by ring. nra.
Qed.

(** ** Endings of a computation with fuel *)

Section Endings.
Variable o : oracle.
(* the class of transforms *)
Variable T : affine -> Prop.

(* with enough fuel, always the same result, or always the KeyError *)
Definition ends {A} (Q : A -> Prop) (r : nat -> result A) : Prop :=
  exists f, (exists n, Q n /\ forall g, (f <= g)%nat -> r g = Ok n) \/
            ((exists M, T M /\ absorbs o M = true) /\ forall g, (f <= g)%nat -> r g = Err KeyError).

Lemma ends_ret {A} (Q : A -> Prop) (r : nat -> result A) n : (forall g, r g = Ok n) -> Q n -> ends Q r.
Proof. intros H Hn. exists 0%nat. left. exists n. auto. Qed.

Lemma ends_bind {A B} (P : A -> Prop) (Q : B -> Prop) r1 (r2 : A -> nat -> result B) :
  ends P r1 -> (forall a, P a -> ends Q (r2 a)) -> ends Q (fun g => bind (r1 g) (fun a => r2 a g)).
Proof.
  intros (f & [(a & Ha & H)|(Hk & H)]) G.
  - destruct (G a Ha) as (f2 & [(b & Hb & H2)|(Hk & H2)]); exists (Nat.max f f2).
    + left. exists b. split; [exact Hb|]. intros g Hg. rewrite H by lia. cbn. apply H2. lia.
    + right. split; [exact Hk|]. intros g Hg. rewrite H by lia. cbn. apply H2. lia.
  - exists f. right. split; [exact Hk|]. intros g Hg. rewrite H by lia. reflexivity.
Qed.

Lemma ends_weaken {A} (P Q : A -> Prop) r : ends P r -> (forall a, P a -> Q a) -> ends Q r.
Proof. intros (f & [(a & Ha & H)|H]) G; exists f; [left; exists a; auto|right; exact H]. Qed.

Lemma ends_ext {A} (Q : A -> Prop) r r' : (forall g, r' g = r g) -> ends Q r -> ends Q r'.
Proof.
  intros E (f & [(a & Ha & H)|[Hk H]]); exists f; [left; exists a|right]; (split; [assumption|]);
    intros g Hg; rewrite E; apply H, Hg.
Qed.

Lemma ends_shift {A} (Q : A -> Prop) (r : nat -> result A) : ends Q (fun g => r (S g)) -> ends Q r.
Proof.
  intros (f & [(a & Ha & H)|[Hk H]]); exists (S f); [left; exists a|right]; (split; [assumption|]);
    intros g Hg; (destruct g; [lia|]); apply H; lia.
Qed.

(* optimize() of t ends in Q *)
Definition E (Q : node -> Prop) (t : node) : Prop := ends Q (fun g => O o g t).

Lemma O_warp g s M d al : O o (S g) (Warp s M d al) = bind (O o g s) (fun s1 => opt_warp o (O o g) s1 M d al).
Proof. unfold O. cbn [optimize]. destruct (rmap fst (optimize o g s)) as [s1|]; [|reflexivity]. cbn [bind].
  change (fun t => rmap fst (optimize o g t)) with (O o g). now destruct (opt_warp o (O o g) s1 M d al). Qed.
Lemma O_crop g s ys xs ci d nm nc : O o (S g) (Crop s ys xs ci d nm nc) = bind (O o g s) (fun s1 => opt_crop (O o g) s1 ys xs ci d nm nc).
Proof. unfold O. cbn [optimize]. destruct (rmap fst (optimize o g s)) as [s1|]; [|reflexivity]. cbn [bind].
  change (fun t => rmap fst (optimize o g t)) with (O o g). now destruct (opt_crop (O o g) s1 ys xs ci d nm nc). Qed.
Lemma O_dequant g s q d : O o (S g) (Dequant s q d) = bind (O o g s) (fun s1 => opt_dequant (O o g) s1 q d).
Proof. unfold O. cbn [optimize]. destruct (rmap fst (optimize o g s)) as [s1|]; [|reflexivity]. cbn [bind].
  change (fun t => rmap fst (optimize o g t)) with (O o g). now destruct (opt_dequant (O o g) s1 q d). Qed.
Lemma O_overview g s k d : O o (S g) (Overview s k d) = bind (O o g s) (fun s1 => opt_overview (O o g) s1 k d).
Proof. unfold O. cbn [optimize]. destruct (rmap fst (optimize o g s)) as [s1|]; [|reflexivity]. cbn [bind].
  change (fun t => rmap fst (optimize o g t)) with (O o g). now destruct (opt_overview (O o g) s1 k d). Qed.

Lemma E_leaf l : E (eq (Leaf l)) (Leaf l).
Proof. apply ends_shift. eapply ends_ret; [|reflexivity]. reflexivity. Qed.

Lemma E_warp P Q s M d al : E P s -> (forall s1, P s1 -> ends Q (fun g => opt_warp o (O o g) s1 M d al)) -> E Q (Warp s M d al).
Proof. intros H G. apply ends_shift. eapply ends_ext; [intros g; apply O_warp|]. eapply ends_bind; eassumption. Qed.
Lemma E_crop P Q s ys xs ci d nm nc : E P s -> (forall s1, P s1 -> ends Q (fun g => opt_crop (O o g) s1 ys xs ci d nm nc)) ->
  E Q (Crop s ys xs ci d nm nc).
Proof. intros H G. apply ends_shift. eapply ends_ext; [intros g; apply O_crop|]. eapply ends_bind; eassumption. Qed.
Lemma E_dequant P Q s q d : E P s -> (forall s1, P s1 -> ends Q (fun g => opt_dequant (O o g) s1 q d)) -> E Q (Dequant s q d).
Proof. intros H G. apply ends_shift. eapply ends_ext; [intros g; apply O_dequant|]. eapply ends_bind; eassumption. Qed.
Lemma E_overview P Q s k d : E P s -> (forall s1, P s1 -> ends Q (fun g => opt_overview (O o g) s1 k d)) -> E Q (Overview s k d).
Proof. intros H G. apply ends_shift. eapply ends_ext; [intros g; apply O_overview|]. eapply ends_bind; eassumption. Qed.

(* a tail that does nothing more *)
Lemma E_tail Q t (tl : (node -> result node) -> node -> result node) :
  E Q t -> (forall n f, Q n -> tl f n = Ok n) -> ends Q (fun g => n <- O o g t ;; tl (O o g) n).
Proof.
  intros H G. eapply ends_bind; [exact H|]. intros a Ha. eapply ends_ret; [|exact Ha]. intros g. apply G, Ha.
Qed.

(** *** Translations neither use nor absorb overviews *)

Hypothesis U_split : forall M, unit_lin M -> split_levels o M = Ok None.
Hypothesis U_abs : forall M, unit_lin M -> absorbs o M = false.

(* opt_warp after fusing with the child, over a stage *)
Definition warp_body (f : node -> result node) (s : node) (M : affine) (d : size) (al : algo) : result node :=
  if noop s M d al then Ok s else
  sp <- split_warp o f s M d al ;;
  match sp with
  | Some n => n' <- opt_sub f n ;; f n'
  | None => absorb o s M d al
  end.

Definition fused (v : node) (M : affine) : affine := match v with Warp _ M1 _ _ => aff_mul M M1 | _ => M end.
Definition fused_al (v : node) (al : algo) : algo := match v with Warp _ _ _ _ => drop_backend al | _ => al end.

Lemma opt_warp_body f v M d al : stage (core v) ->
  opt_warp o f v M d al = warp_body f (core v) (fused v M) d (fused_al v al).
Proof.
  assert (G : forall s M al, stage s -> (let other := fun _ : unit =>
      sp <- split_warp o f s M d al ;;
      match sp with Some n => n' <- opt_sub f n ;; f n' | None => absorb o s M d al end in
    if opt_size_eqb (Some d) (dsize s) && close_identity (al_eps al) M then Ok s
    else match s with
         | Concat _ _ => push_tail f (Warp s M d al)
         | Leaf l => if is_nans l then Ok (nans_warp l d) else other tt
         | _ => other tt
         end) = warp_body f s M d al).
  { intros s M0 al0 H. cbv zeta. unfold warp_body, noop. dif E0; [reflexivity|]. destruct s; try reflexivity; [|contradiction].
    destruct H as [H _]. unfold is_nans. now rewrite H. }
  intros H. unfold opt_warp. destruct v; cbn [core fused fused_al] in *; exact (G _ _ _ H).
Qed.

Lemma unit_stays f s M d al : stage s -> unit_lin M ->
  warp_body f s M d al = Ok (if noop s M d al then s else Warp s M d al).
Proof.
  intros Hs HM. unfold warp_body. dif En; [reflexivity|]. unfold split_warp.
  destruct (stage_num s Hs) as (n & ->). cbn [bind]. rewrite (U_split M HM). unfold absorb. rewrite (U_abs M HM).
  cbn. now destruct (n =? 0).
Qed.

Lemma fix_stage t : stage t -> E (eq t) t.
Proof.
  induction t as [t IH] using nsize_ind. destruct t as [l|ps d|s ys xs ci d nm nc|s M d al|s q d|s k d]; intros H; try contradiction.
  - apply E_leaf.
  - destruct s as [l|ps d1|s ys1 xs1 ci1 d1 nm1 nc1|s M1 d1 al1|s q1 d1|s k d1]; try contradiction.
    + eapply E_crop; [apply E_leaf|]. intros s1 <-. eapply ends_ret; [|reflexivity]. intros g. cbn [opt_crop bind].
      destruct H as [H _]. unfold is_nans. now rewrite H.
    + destruct H as (Hs & Hd & [[Hu _] _] & Ha & Hn). apply (E_crop (eq (Warp s M1 d1 al1))).
      { eapply E_warp; [apply IH; [cbn; lia|exact Hs]|]. intros s1 <-. eapply ends_ret; [|reflexivity]. intros g.
        rewrite opt_warp_body by (rewrite core_stage; exact Hs). rewrite core_stage by exact Hs.
        assert (E1 : fused s M1 = M1) by (destruct s; try reflexivity; contradiction).
        assert (E2 : fused_al s al1 = al1) by (destruct s; try reflexivity; contradiction).
        rewrite E1, E2, unit_stays by assumption. now rewrite Hn. }
      intros s1 <-. eapply ends_ret; [|reflexivity]. intros g. cbn [opt_crop bind]. rewrite Ha. unfold warp_after_crop.
      assert (E0 : ((fst d =? 0) || (snd d =? 0))%bool = true) by lia. rewrite E0. reflexivity.
    + assert (Hs : stage (Overview s k d1)) by exact H. eapply E_crop; [apply IH; [cbn; lia|exact Hs]|]. intros s1 <-.
      eapply ends_ret; [|reflexivity]. intros g. reflexivity.
  - destruct H as [H Hq]. eapply E_dequant; [apply IH; [cbn; lia|exact H]|]. intros s1 <-. eapply ends_ret; [|reflexivity]. intros g.
    unfold opt_dequant. destruct s; try contradiction; reflexivity.
  - destruct s; try contradiction. destruct H as (_ & Hk). eapply E_overview; [apply E_leaf|]. intros s1 <-.
    eapply ends_ret; [|reflexivity]. intros g. cbn [opt_overview bind]. assert (E0 : k =? 0 = false) by lia. now rewrite E0.
Qed.

Lemma stage_fused s M : stage s -> fused s M = M.
Proof. destruct s; try reflexivity; contradiction. Qed.
Lemma stage_fused_al s al : stage s -> fused_al s al = al.
Proof. destruct s; try reflexivity; contradiction. Qed.

Lemma fix_piped (P : affine -> size -> Prop) v : (forall M d, P M d -> unit_lin M) -> piped P v -> E (eq v) v.
Proof.
  intros HP H. destruct v as [l|ps d|s ys xs ci d nm nc|s M d al|s q d|s k d]; try (apply fix_stage; exact H).
  destruct H as (Hs & HM & Ha & Hn). eapply E_warp; [apply fix_stage; exact Hs|]. intros s1 <-. eapply ends_ret; [|reflexivity].
  intros g. rewrite opt_warp_body by (rewrite core_stage; exact Hs). rewrite core_stage by exact Hs.
  rewrite stage_fused, stage_fused_al, unit_stays by eauto. now rewrite Hn.
Qed.

(* a translation over a pipeline *)
Lemma warp_unit (P : affine -> size -> Prop) v M d al : (forall M d, P M d -> unit_lin M) -> P (fused v M) d ->
  stage (core v) -> al_nearest al = false -> (al_eps al == 0)%Q -> wf v -> sized v ->
  exists n, (forall f, opt_warp o f v M d al = Ok n) /\ piped P n /\ like v n /\ core n = core v /\ num_overviews n = num_overviews v.
Proof.
  intros HP HM Hs Ha He Hw Hz.
  assert (Hl : like v (core v)).
  { destruct v; try (apply like_refl; assumption). cbn [core wf sized] in *. repeat split; tauto. }
  assert (Ho : num_overviews (core v) = num_overviews v) by (destruct v; reflexivity).
  eexists. split; [intros f; rewrite opt_warp_body by exact Hs; apply unit_stays; eauto|]. dif En.
  - split; [apply stage_piped; exact Hs|]. split; [exact Hl|]. split; [rewrite core_stage; auto|exact Ho].
  - split. { cbn [piped]. split; [exact Hs|]. split; [exact HM|]. split; [destruct v; exact Ha|exact En]. }
    split; [|split; [reflexivity|exact Ho]]. destruct Hl as (L1 & L2 & L3 & L4 & L5). split; [|split; [|auto]].
    + cbn [wf]. split; [exact L1|]. destruct v; exact He.
    + exact L2.
Qed.

(** *** Crops, dequantizations and overviews over translated stages *)

Definition solid (v : node) : Prop :=
  match core v with Crop _ _ _ _ _ _ _ | Dequant _ _ _ => True | _ => False end.

(* what optimizing t yields when no transform needs looking at *)
Definition res (t n : node) : Prop := piped shiftd n /\ like t n /\ num_overviews n = num_overviews t.

Lemma shift_unit M : shift M -> unit_lin M.
Proof. intros H. apply H. Qed.
Lemma shiftd_unit M d : shiftd M d -> unit_lin M.
Proof. intros H. apply H. Qed.

Lemma warp_shift v M d al : piped shiftd v -> shiftd M d -> al_nearest al = false -> (al_eps al == 0)%Q -> wf v -> sized v ->
  ends (fun n => piped shiftd n /\ like v n /\ core n = core v /\ num_overviews n = num_overviews v)
    (fun g => opt_warp o (O o g) v M d al).
Proof.
  intros Hv HM Ha He Hw Hz. destruct (warp_unit shiftd v M d al) as (n & Hn & G); auto; [apply shiftd_unit|..].
  - destruct v; try exact HM. cbn [fused]. split; [apply shift_mul; [apply HM|apply Hv]|]. apply fits_shift; [apply HM|apply Hv].
  - eapply piped_core; exact Hv.
  - exact (ends_ret _ _ n (fun g => Hn (O o g)) G).
Qed.

Lemma res_tail (t n : node) f : res t n -> push_tail f n = Ok n /\ crop_tail f n = Ok n.
Proof. intros (H & _). apply tail_id. eapply piped_core. exact H. Qed.

Lemma dequant_ok v q d : piped shiftd v -> wf v -> sized v -> dq_free v -> (exists z, d = Some z /\ pos_size z) ->
  ends (fun n => res (Dequant v q d) n /\ solid n) (fun g => opt_dequant (O o g) v q d).
Proof.
  intros Hv Hw Hz Hq Hd.
  destruct v as [l|ps d1|s ys1 xs1 ci1 d1 nm1 nc1|s M1 d1 al1|s q1 d1|s k d1]; try contradiction;
    try (eapply ends_ret; [intros g; reflexivity|]; split; [|exact I]; split; [split; [exact Hv|exact Hq]|]; split; [|reflexivity];
         apply like_refl; [exact Hw|split; [exact Hz|exact Hd]]).
  - destruct Hv as (Hs & HM & Ha & Hn). cbn [opt_dequant].
    assert (Hst : stage (mkDequant s q)) by (split; [exact Hs|exact Hq]).
    destruct (sized_dsize s (proj1 Hw) Hz (stage_not_warp _ Hs)) as (w & h & Hds & W0 & H0).
    assert (Hzs : sized (mkDequant s q)).
    { split; [exact Hz|]. exists (w, h). rewrite Hds. split; [reflexivity|]. split; assumption. }
    apply (E_tail (fun n => res (Dequant (Warp s M1 d1 al1) q d) n /\ solid n) _ push_tail); [|intros n f H; apply (res_tail _ n f (proj1 H))].
    eapply E_warp; [apply fix_stage; exact Hst|]. intros s1 <-.
    eapply ends_weaken; [apply warp_shift; auto; try apply Hw; exact Hst|]. cbv beta. intros n (N1 & N2 & N3 & N4).
    split; [|unfold solid; rewrite N3; exact I]. split; [exact N1|]. split; [|exact N4].
    destruct N2 as (L1 & L2 & L3 & L4 & L5). repeat split; auto.
Qed.

(* the statement for crops, over smaller nodes *)
Definition crop_spec (v : node) : Prop := forall ys xs ci d nm nc,
  piped shiftd v -> wf (Crop v ys xs ci d nm nc) -> sized v -> ivals ys xs ->
  ends (fun n => res (Crop v ys xs ci d nm nc) n /\ solid n) (fun g => opt_crop (O o g) v ys xs ci d nm nc).

(* crop over a translated stage *)
Lemma crop_over_shift w M wd al ys xs ci d nm nc : crop_spec w ->
  piped shiftd (Warp w M wd al) -> wf (Crop (Warp w M wd al) ys xs ci d nm nc) -> sized w -> ivals ys xs ->
  ends (fun n => res (Crop (Warp w M wd al) ys xs ci d nm nc) n /\ solid n) (fun g =>
    r <- warp_after_crop w M ys xs ci d ;;
    match r with
    | None => Ok (Crop (Warp w M wd al) ys xs ci d nm nc)
    | Some (c, T) => n <- O o g (Warp c T d (drop_backend al)) ;; crop_tail (O o g) n
    end).
Proof.
  intros IH (Hs & HM & Ha & Hn) Hw Hz Hi.
  assert (Hzc : sized (Crop (Warp w M wd al) ys xs ci d nm nc)) by (split; assumption).
  destruct (warp_after_crop_ok w M wd al ys xs ci d nm nc Hw Hzc (stage_not_warp _ Hs) (unit_inv _ _ (shiftd_unit _ _ HM)))
    as [[-> Hd]|(a & b & nm' & nc' & T' & -> & Hwc & Hzc' & Hl & Hlin & S1 & S2)]; cbn [bind].
  - eapply ends_ret; [intros g; reflexivity|]. split; [|exact I]. split; [|split; [apply like_refl; assumption|reflexivity]].
    cbn [piped stage]. split; [exact Hs|]. auto.
  - assert (Hsh : shiftd T' d).
    { pose proof (unit_axis _ (shiftd_unit _ _ HM)) as Hax. split.
      - split; [exact (unit_same _ _ (shiftd_unit _ _ HM) Hlin)|]. destruct HM as ((_ & B1 & B2) & _). auto.
      - apply fits_pos. destruct Hw as (_ & _ & _ & -> & _). destruct Hi. split; cbn; unfold iv_len; lia. }
    apply (E_tail (fun n => res (Crop (Warp w M wd al) ys xs ci d nm nc) n /\ solid n) _ crop_tail);
      [|intros n f H; apply (res_tail _ n f (proj1 H))].
    eapply E_warp; [eapply E_crop; [apply fix_stage; exact Hs|intros s1 <-; apply IH; auto using stage_piped; apply Hzc']|].
    cbv beta. intros c' ((R1 & R2 & R3) & R4).
    eapply ends_weaken; [apply warp_shift; auto; [apply Hw|apply R2|apply R2]|]. cbv beta.
    intros n (N1 & N2 & N3 & N4). split; [|unfold solid; rewrite N3; exact R4]. split; [exact N1|]. split.
    + eapply like_trans; [exact Hl|]. eapply like_trans; eassumption.
    + rewrite N4, R3. reflexivity.
Qed.

Lemma crop_ok v : crop_spec v.
Proof.
  induction v as [v IH] using nsize_ind. intros ys xs ci d nm nc Hv Hw Hz Hi.
  destruct v as [l|ps d1|s ys1 xs1 ci1 d1 nm1 nc1|s M1 d1 al1|s q1 d1|s k d1]; try contradiction.
  - eapply ends_ret.
    + intros g. cbn [opt_crop bind]. destruct Hv as [Hk _]. unfold is_nans. rewrite Hk. reflexivity.
    + split; [|exact I]. split; [exact Hv|]. split; [|reflexivity]. apply like_refl; [exact Hw|split; assumption].
  - (* two crops *)
    assert (Hw1 : wf (Crop s ys1 xs1 ci1 d1 nm1 nc1)) by apply Hw. assert (Hws : wf s) by apply Hw1.
    destruct (wf_nc _ Hws) as (m & Hm).
    pose proof (wf_crop_ci _ _ _ _ _ _ _ Hw1) as Hci1. pose proof (wf_crop_ci _ _ _ _ _ _ _ Hw) as Hci.
    rewrite (crop_nc _ _ _ _ _ _ _ Hw1) in Hci. destruct Hz as (Hzs & Iy1 & Ix1). destruct Hi as [Iy Ix].
    destruct (fuse_idxs_total ci1 ci m) as (nci & Hf); [rewrite <- Hm; exact Hci|].
    destruct (fuse_idxs_ok s ci1 ci nci m Hm Hci1 Hci Hf) as (Hnci & Hnc & Hnm & _).
    destruct (sized_some _ Hzs) as (w & h & Hd).
    destruct (mkCrop_any s (fuse_axis ys1 ys, fuse_axis xs1 xs) nci m w h Hws Hd Hm Hnci) as (a & b & nm' & nc' & Hc & Hwc & Hi').
    { assert (K : forall D i1 i2, 0 <= fst i1 <= snd i1 -> 0 <= fst i2 <= snd i2 -> exists i, wrap_clip D (fuse_axis i1 i2) = Ok i).
      { intros D i1 i2 H1 H2. destruct (wrap_clip_any D (Z.min (fst i1 + fst i2) (snd i1)) (Z.min (fst i1 + snd i2) (snd i1)) ltac:(lia)) as (i & Ei & _).
        exists i. exact Ei. }
      destruct (K h ys1 ys Iy1 Iy) as (y & Ey). destruct (K w xs1 xs Ix1 Ix) as (x & Ex). eauto. }
    assert (Hlk : forall n, like (Crop s a b nci (iv_len b, iv_len a) nm' nc') n ->
                   like (Crop (Crop s ys1 xs1 ci1 d1 nm1 nc1) ys xs ci d nm nc) n).
    { intros n (L1 & L2 & L3 & L4 & L5). split; [exact L1|]. split; [exact L2|]. split; [|split; [|exact L5]].
      - rewrite L3. rewrite (crop_names _ _ _ _ _ _ _ Hwc), (crop_names _ _ _ _ _ _ _ Hw), (crop_names _ _ _ _ _ _ _ Hw1).
        symmetry. apply Hnm. intros l El. destruct (wf_meta _ Hws) as (m' & Hm' & _ & Hl). rewrite (Hl _ El). congruence.
      - rewrite L4. rewrite (crop_nc _ _ _ _ _ _ _ Hwc), (crop_nc _ _ _ _ _ _ _ Hw), (crop_nc _ _ _ _ _ _ _ Hw1).
        symmetry. exact Hnc. }
    assert (Hzc : sized (Crop s a b nci (iv_len b, iv_len a) nm' nc')) by (split; assumption).
    assert (Hfc : fuse_crops s ys1 xs1 ci1 ys xs ci = Ok (Crop s a b nci (iv_len b, iv_len a) nm' nc')).
    { unfold fuse_crops. rewrite Hf. cbn [bind]. exact Hc. }
    unfold opt_crop. rewrite Hfc. cbn [bind].
    destruct s as [l|ps d2|s ys2 xs2 ci2 d2 nm2 nc2|s M2 d2 al2|s q2 d2|s k2 d2]; try contradiction.
    + eapply ends_ret; [intros g; destruct Hv as [Hk _]; unfold is_nans; rewrite Hk; reflexivity|].
      split; [|exact I]. split; [exact Hv|]. split; [|reflexivity]. apply Hlk. apply like_refl; assumption.
    + cbn [piped stage] in Hv. destruct Hv as (Hs & _ & HM & Ha & Hn). rewrite Ha.
      eapply ends_weaken; [apply (crop_over_shift s M2 d2 al2 a b nci _ nm' nc'); auto|].
      * apply IH. cbn. lia.
      * cbn [piped]. auto.
      * cbv beta. intros n ((R1 & R2 & R3) & R4). split; [|exact R4]. split; [exact R1|]. split; [apply Hlk; exact R2|exact R3].
    + eapply ends_ret; [intros g; cbn [crop_tail push_tail subdata bind]; reflexivity|].
      split; [|exact I]. split; [exact Hv|]. split; [|reflexivity]. apply Hlk. apply like_refl; assumption.
  - cbn [opt_crop bind]. pose proof Hv as (Hs & HM & Ha & Hn). rewrite Ha. apply crop_over_shift; auto.
  - (* dequantization *)
    cbn [opt_crop bind]. destruct Hv as [Hs Hq].
    assert (Hwc : wf (Crop s ys xs ci d nm nc)) by exact Hw.
    apply (E_tail (fun n => res (Crop (Dequant s q1 d1) ys xs ci d nm nc) n /\ solid n) _ crop_tail);
      [|intros n f H; apply (res_tail _ n f (proj1 H))].
    eapply E_dequant; [eapply E_crop; [apply fix_stage; exact Hs|intros s1 <-; apply IH; auto using stage_piped; apply Hz]|].
    cbv beta. intros c' ((R1 & R2 & R3) & R4). eapply ends_weaken; [apply dequant_ok; auto; try apply R2|].
    + exact Hq.
    + exists d. split; [reflexivity|]. destruct Hw as (_ & _ & _ & -> & _). destruct Hi. split; cbn; unfold iv_len; lia.
    + cbv beta. intros n ((Q1 & Q2 & Q3) & Q4). split; [|exact Q4]. split; [exact Q1|]. split; [|rewrite Q3; exact R3].
      destruct Q2 as (L1 & L2 & L3 & L4 & L5). destruct R2 as (M1 & M2 & M3 & M4 & M5). split; [exact L1|]. split; [exact L2|].
      split; [exact (eq_trans L3 M3)|]. split; [exact (eq_trans L4 M4)|]. cbn. contradiction.
  - eapply ends_ret; [intros g; reflexivity|]. split; [|exact I]. split; [exact Hv|]. split; [|reflexivity].
    apply like_refl; [exact Hw|split; assumption].
Qed.

(* what optimizing overview k of v yields *)
Definition ovres (v : node) (k : Z) (n : node) : Prop :=
  piped shiftd n /\ like v n /\ (forall m, num_overviews v = Ok (Some m) -> num_overviews n = Ok (Some (m - k))) /\
  (solid v -> solid n).

Lemma overview_ok v : forall k d, piped shiftd v -> wf v -> sized v -> (not_warp v -> pos_size d) ->
  ends (ovres v k) (fun g => opt_overview (O o g) v k d).
Proof.
  induction v as [v IH] using nsize_ind. intros k d Hv Hw Hz Hd.
  assert (Htl : forall n f, ovres v k n -> push_tail f n = Ok n).
  { intros n f (H & _). apply tail_id. eapply piped_core. exact H. }
  assert (H0 : k = 0 -> ovres v k v).
  { intros ->. split; [exact Hv|]. split; [apply like_refl; assumption|]. split; [|auto]. intros m ->. now rewrite Z.sub_0_r. }
  destruct v as [l|ps d1|s ys1 xs1 ci1 d1 nm1 nc1|s M1 d1 al1|s q1 d1|s j d1]; try contradiction.
  - cbn [opt_overview bind]. dif Ek; [eapply ends_ret; [intros g; reflexivity|apply H0; lia]|].
    eapply ends_ret; [intros g; reflexivity|]. split; [split; [exact Hv|lia]|]. split.
    + split; [exact Hw|]. split; [split; [exact Hz|apply Hd; exact I]|]. auto.
    + split; [|intros []]. intros m Hm. cbn [num_overviews] in *. injection Hm as ->. reflexivity.
  - (* crop *)
    cbn [opt_overview bind]. dif Ek; [eapply ends_ret; [intros g; apply tail_id; exact Hv|apply H0; lia]|].
    pose proof (stage_crop _ _ _ _ _ _ _ Hv) as Hs. destruct Hz as (Hzs & Hi).
    destruct (sized_some _ Hzs) as (w & h & Hds).
    destruct (crop_after_overview_ok s ys1 xs1 ci1 d1 nm1 nc1 k w h Hw Hi Hds) as (a & b & nm' & nc' & Hwc & Hi' & Hnm & Hnc & Hcase).
    set (od := overview_dsize k (w, h)) in *.
    set (c := Crop (Overview s k od) a b ci1 (iv_len b, iv_len a) nm' nc') in *. cbv zeta in *.
    assert (Hc : E (fun n => piped shiftd n /\ like (Crop s ys1 xs1 ci1 d1 nm1 nc1) n /\
                     (forall m, num_overviews s = Ok (Some m) -> num_overviews n = Ok (Some (m - k))) /\ solid n) c).
    { eapply E_crop.
      - eapply E_overview; [apply (fix_piped shiftd); [apply shiftd_unit|exact Hs]|]. intros s1 <-. apply IH; [cbn; lia|exact Hs|apply Hw|exact Hzs|].
        intros Hnw. destruct (sized_dsize s (proj1 Hw) Hzs Hnw) as (w' & h' & Hds' & W0 & H1).
        assert (w' = w /\ h' = h) as [-> ->] by (split; congruence). unfold od. apply overview_size_pos. split; assumption.
      - cbv beta. intros v1 (V1 & V2 & V3 & V4). 
        assert (V2' : like (Overview s k od) v1) by exact V2.
        pose proof (like_crop (Overview s k od) v1 a b ci1 _ nm' nc' Hwc Hi' V2') as Hlc.
        eapply ends_weaken; [apply crop_ok; [exact V1|apply Hlc|apply V2|exact Hi']|]. cbv beta.
        intros n ((R1 & R2 & R3) & R4). split; [exact R1|]. split; [|split; [|exact R4]].
        + pose proof (like_trans _ _ _ Hlc R2) as (L1 & L2 & L3 & L4 & L5). fold c in L3, L4. split; [exact L1|]. split; [exact L2|].
          split; [congruence|]. split; [congruence|]. exact L5.
        + intros m Hm. rewrite R3. cbn [num_overviews]. apply V3, Hm. }
    assert (Hcase' : exists n0, crop_after_overview s ys1 xs1 ci1 k = Ok n0 /\ E (ovres (Crop s ys1 xs1 ci1 d1 nm1 nc1) k) n0).
    { destruct Hcase as [Hc0|(Tr & td & Hc0 & Hsh)]; (eexists; split; [exact Hc0|]).
      - eapply ends_weaken; [exact Hc|]. cbv beta. intros n (N1 & N2 & N3 & N4). split; [exact N1|]. split; [exact N2|]. split; [exact N3|auto].
      - eapply E_warp; [exact Hc|]. cbv beta. intros c' (C1 & C2 & C3 & C4).
        eapply ends_weaken; [apply warp_shift; auto; [reflexivity|apply C2|apply C2]|]. cbv beta.
        intros n (N1 & N2 & N3 & N4). split; [exact N1|]. split; [eapply like_trans; eassumption|]. split.
        + intros m Hm. rewrite N4. apply C3, Hm.
        + intros _. unfold solid. rewrite N3. exact C4. }
    destruct Hcase' as (n0 & -> & Hn0). cbn [bind]. apply E_tail; assumption.
  - (* transform *)
    cbn [opt_overview bind]. dif Ek; [eapply ends_ret; [intros g; apply tail_id; eapply piped_core; exact Hv|apply H0; lia]|].
    destruct Hv as (Hs & HM & Ha & Hn).
    destruct (sized_dsize s (proj1 Hw) Hz (stage_not_warp _ Hs)) as (w & h & Hds & W0 & H1).
    destruct (warp_after_overview_node_ok s M1 k w h Hds) as (C & -> & Hlin & B1 & B2). cbn [bind].
    assert (HC : shiftd C (auto_dsize C (overview_dsize k (w, h)))).
    { split; [|apply fits_auto]. split; [exact (unit_same _ _ (shiftd_unit _ _ HM) Hlin)|split; [apply B1|apply B2]; apply HM]. }
    apply E_tail; [|exact Htl]. eapply E_warp.
    + eapply E_overview; [apply fix_stage; exact Hs|]. intros s1 <-. apply IH; auto using stage_piped; [apply Hw|].
      intros _. apply overview_size_pos. split; assumption.
    + cbv beta. intros v1 (V1 & V2 & V3 & V4). eapply ends_weaken; [apply warp_shift; auto; [reflexivity|apply V2|apply V2]|].
      cbv beta. intros n (N1 & N2 & N3 & N4). split; [exact N1|]. split.
      { pose proof (like_trans _ _ _ V2 N2) as L. exact L. }
      split; [intros m Hm; rewrite N4; apply V3, Hm|]. intros Hso. unfold solid. rewrite N3. apply V4. 
      unfold solid in *. cbn [core] in Hso. rewrite core_stage by exact Hs. exact Hso.
  - (* dequantization *)
    cbn [opt_overview bind]. dif Ek; [eapply ends_ret; [intros g; apply tail_id; exact Hv|apply H0; lia]|].
    destruct Hv as [Hs Hq]. assert (Hpd : pos_size d) by (apply Hd; exact I).
    apply E_tail; [|exact Htl]. eapply E_dequant.
    + eapply E_overview; [apply fix_stage; exact Hs|]. intros s1 <-. apply IH; auto using stage_piped. apply Hz.
    + cbv beta. intros v1 (V1 & V2 & V3 & V4). eapply ends_weaken; [apply dequant_ok; auto; [apply V2|apply V2|apply V2, Hq|eauto]|].
      cbv beta. intros n ((R1 & R2 & R3) & R4). split; [exact R1|]. split; [|split; [|auto]].
      * destruct R2 as (L1 & L2 & L3 & L4 & _). destruct V2 as (_ & _ & K3 & K4 & _). split; [exact L1|]. split; [exact L2|].
        split; [exact (eq_trans L3 K3)|]. split; [exact (eq_trans L4 K4)|]. intros [].
      * intros m Hm. rewrite R3. apply V3, Hm.
  - (* two overviews *)
    destruct s as [l|ps d2|s ys2 xs2 ci2 d2 nm2 nc2|s M2 d2 al2|s q2 d2|s k2 d2]; try contradiction.
    destruct Hv as [Hl Hj]. unfold opt_overview, mkOverview. cbn [dsize bind].
    assert (Hm' : forall m, num_overviews (Overview (Leaf l) j d1) = Ok (Some m) -> l_ov l = Some (m + j)).
    { intros m Hm. cbn in Hm. destruct (l_ov l) as [n|]; [|discriminate]. injection Hm as <-. f_equal. lia. }
    dif Ek; (eapply ends_ret; [intros g; reflexivity|]).
    + split; [exact Hl|]. split; [split; [exact Hw|split; [apply Hz|auto]]|]. split; [|intros []].
      intros m Hm. cbn. rewrite (Hm' m Hm). do 2 f_equal. lia.
    + split; [split; [exact Hl|lia]|]. split.
      { split; [exact Hw|]. split; [|auto]. split; [apply Hz|]. apply overview_size_pos. apply Hz. }
      split; [|intros []]. intros m Hm. cbn. rewrite (Hm' m Hm). do 2 f_equal. lia.
Qed.

(** *** General transforms *)

Hypothesis T_same : forall M N, T M -> same_lin M N -> T N.
Hypothesis T_unit : forall M, unit_lin M -> T M.
Hypothesis T_inv : forall M, T M -> ~ (aff_det M == 0)%Q.
Hypothesis T_mul : forall M N, T M -> T N -> T (aff_mul M N).
Hypothesis T_split : forall M, T M -> split_levels o M = Ok None \/
  exists p, split_levels o M = Ok (Some p) /\ 0 <= p /\ forall k, k <= p -> T (aff_mul M (aff_scale (pow2 k) (pow2 k))).
Hypothesis T_abs : forall M, T M -> absorbs o M = true -> forall k, T (aff_mul M (aff_scale (1 / pow2 k) (1 / pow2 k))).

(* a stage, or one transformed *)
Definition gpipe (v : node) : Prop :=
  stage (core v) /\ match v with Warp _ M d al => T M /\ al_nearest al = false /\ fits M d | _ => True end.

Lemma stage_gpipe s : stage s -> gpipe s.
Proof. intros H. split; [rewrite core_stage; exact H|]. destruct s; auto. contradiction. Qed.

Lemma warp_gpipe s M d al : stage s -> T M -> al_nearest al = false -> fits M d -> gpipe (Warp s M d al).
Proof. intros. split; auto. Qed.

Definition unitd (M : affine) (d : size) : Prop := unit_lin M /\ fits M d.

Lemma piped_gpipe v : piped unitd v -> gpipe v.
Proof.
  intros H. destruct v as [l|ps d1|s ys1 xs1 ci1 d1 nm1 nc1|s M1 d1 al1|s q1 d1|s j d1]; try (apply stage_gpipe; exact H).
  destruct H as (Hs & HM & Ha & _). apply warp_gpipe; auto; [apply T_unit|]; apply HM.
Qed.

Lemma shiftd_unitd v : piped shiftd v -> piped unitd v.
Proof. apply piped_weaken. intros M d [[H _] F]. split; assumption. Qed.

Lemma like_warp' s n M d al : like s n -> (al_eps al == 0)%Q -> like s (Warp n M d al).
Proof. intros (N1 & N2 & N3 & N4 & N5) He. repeat split; auto. Qed.

Lemma pow2_inv_pos k : (0 < 1 / pow2 k)%Q.
Proof. unfold Qdiv. rewrite Qmult_1_l. apply Qinv_lt_0_compat, pow2_pos. Qed.

Lemma overview_tf_axis k : axis_aligned (overview_tf k) = true.
Proof. apply axis_bool; cbn; try reflexivity; apply pow2_inv_pos. Qed.

(* absorbing the overview of a leaf, possibly below a crop *)
Lemma absorb_crop l k ys xs ci d nm nc od : data_leaf l ->
  wf (Crop (Overview (Leaf l) k od) ys xs ci d nm nc) -> sized (Crop (Overview (Leaf l) k od) ys xs ci d nm nc) ->
  (warp_after_crop (Leaf l) (overview_tf k) ys xs ci d = Ok None) \/
  exists c A, warp_after_crop (Leaf l) (overview_tf k) ys xs ci d = Ok (Some (c, A)) /\ stage c /\ dq_free c /\
    like (Crop (Overview (Leaf l) k od) ys xs ci d nm nc) c /\ same_lin (overview_tf k) A /\ (b1 A <= 0)%Q /\ (b2 A <= 0)%Q /\
    solid c /\ exists z, dsize c = Some z /\ pos_size z.
Proof.
  intros Hl Hw Hz.
  destruct (warp_after_crop_ok (Leaf l) (overview_tf k) (0, 0) default_algo ys xs ci d nm nc) as
    [[-> _]|(a & b & nm' & nc' & A & -> & Hwc & Hzc & Hlk & Hlin & S1 & S2)].
  - cbn [wf] in *. destruct Hw as (H1 & H2 & H3 & H4 & H5). split; [split; [exact H1|reflexivity]|]. split; [exact H2|]. split; [exact H3|]. split; [exact H4|exact H5].
  - destruct Hz as ((H1 & _) & H2). split; assumption.
  - exact I.
  - unfold invertible, overview_tf, aff_scale, aff_det. cbn. pose proof (pow2_inv_pos k). nra.
  - left. reflexivity.
  - right. eexists _, A. split; [reflexivity|]. split; [exact Hl|]. split; [exact I|]. split; [exact Hlk|]. split; [exact Hlin|].
    split; [apply S1; [apply overview_tf_axis|cbn; lra]|]. split; [apply S2; [apply overview_tf_axis|cbn; lra]|]. split; [exact I|].
    eexists. split; [reflexivity|]. destruct Hzc as (_ & By & Bx). split; cbn; unfold iv_len; lia.
Qed.

Lemma absorb_ok s M d al : stage s -> wf s -> sized s -> T M -> al_nearest al = false -> (al_eps al == 0)%Q -> fits M d ->
  ends (fun n => gpipe n /\ like s n /\ (solid s -> solid n)) (fun _ => absorb o s M d al).
Proof.
  intros Hs Hw Hz HM Ha He HF. unfold absorb. destruct (absorbs o M) eqn:Eab; cbn [negb].
  2:{ eapply ends_ret; [reflexivity|]. split; [apply warp_gpipe; assumption|]. split; [apply like_warp'; [apply like_refl; assumption|exact He]|].
      unfold solid. cbn [core]. now rewrite core_stage. }
  assert (Hstay : ends (fun n => gpipe n /\ like s n /\ (solid s -> solid n)) (fun _ => Ok (Warp s M d al))).
  { eapply ends_ret; [reflexivity|]. split; [apply warp_gpipe; assumption|]. split; [apply like_warp'; [apply like_refl; assumption|exact He]|].
    unfold solid. cbn [core]. now rewrite core_stage. }
  (* the absorbed transform *)
  assert (HTA : forall k A, same_lin (overview_tf k) A -> (b1 A <= 0)%Q -> (b2 A <= 0)%Q -> T (aff_mul M A) /\ fits (aff_mul M A) d).
  { intros k A Hlin A1 A2. split.
    - eapply T_same; [apply (T_abs M HM Eab k)|]. destruct Hlin as (L1 & L2 & L3 & L4). unfold overview_tf, aff_scale in *. unfold same_lin. cbn in *.
      rewrite <- L1, <- L2, <- L3, <- L4. repeat split; ring.
    - destruct Hlin as (L1 & L2 & L3 & L4). pose proof (pow2_inv_pos k). unfold overview_tf, aff_scale in *. cbn in L1, L2, L3, L4.
      eapply (fits_comp M A); try eassumption; try reflexivity;
        [rewrite <- L2; reflexivity|rewrite <- L3; reflexivity|rewrite <- L1; assumption|rewrite <- L4; assumption|repeat split; reflexivity]. }
  assert (Hrefl : forall k, T (aff_mul M (overview_tf k)) /\ fits (aff_mul M (overview_tf k)) d).
  { intros k. apply (HTA k); [repeat split; reflexivity|cbn; lra|cbn; lra]. }
  (* a new child *)
  assert (Hnew : forall head A, stage head -> like s head -> (solid s -> solid head) -> T (aff_mul M A) -> fits (aff_mul M A) d ->
    ends (fun n => gpipe n /\ like s n /\ (solid s -> solid n)) (fun _ => Ok (Warp head (aff_mul M A) d (drop_backend al)))).
  { intros head A H1 H2 H3 H4 H5. eapply ends_ret; [reflexivity|]. split; [apply warp_gpipe; assumption|]. split; [apply like_warp'; [exact H2|exact He]|].
    intros G. specialize (H3 G). unfold solid in *. cbn [core]. rewrite core_stage in H3 by exact H1. exact H3. }
  assert (Hbad : ends (fun n => gpipe n /\ like s n /\ (solid s -> solid n)) (fun _ => Err KeyError)).
  { exists 0%nat. right. split; [eauto|reflexivity]. }
  destruct s as [l|ps d1|s ys1 xs1 ci1 d1 nm1 nc1|s M1 d1 al1|s q1 d1|s j d1]; try contradiction.
  - exact Hstay.
  - destruct s as [l|ps d2|s ys2 xs2 ci2 d2 nm2 nc2|s M2 d2 al2|s q2 d2|s k2 d2]; try contradiction; try exact Hstay.
    destruct s as [l|ps d3|s ys2 xs2 ci2 d3 nm2 nc2|s M2 d3 al2|s q2 d3|s k3 d3]; try contradiction.
    destruct Hs as [Hl Hk]. cbn [lookahead filter is_lcrop List.length Nat.ltb Nat.leb rev app].
    destruct (absorb_crop l k2 ys1 xs1 ci1 d1 nm1 nc1 d2 Hl Hw Hz) as [-> |(c & A & -> & C1 & C2 & C3 & C4 & C5 & C6 & C7 & _)]; cbn [bind].
    + exact Hbad.
    + cbn [rev fold_right]. destruct (HTA k2 A C4 C5 C6). apply Hnew; auto.
  - destruct Hs as [Hs Hq]. destruct s as [l|ps d2|s ys2 xs2 ci2 d2 nm2 nc2|s M2 d2 al2|s q2 d2|s k2 d2]; try contradiction; try exact Hstay.
    + destruct s as [l|ps d3|s ys3 xs3 ci3 d3 nm3 nc3|s M3 d3 al3|s q3 d3|s k3 d3]; try contradiction; try exact Hstay.
      destruct s as [l|ps d4|s ys4 xs4 ci4 d4 nm4 nc4|s M4 d4 al4|s q4 d4|s k4 d4]; try contradiction.
      destruct Hs as [Hl Hk]. cbn [lookahead filter is_lcrop List.length Nat.ltb Nat.leb rev app].
      destruct (absorb_crop l k3 ys2 xs2 ci2 d2 nm2 nc2 d3 Hl Hw (proj1 Hz)) as [-> |(c & A & -> & C1 & C2 & C3 & C4 & C5 & C6 & C7 & z & Z1 & Z2)]; cbn [bind].
      * exact Hbad.
      * cbn [rev app fold_right relayer]. destruct (HTA k3 A C4 C5 C6). apply Hnew; auto.
        { split; [exact C1|exact C2]. }
        destruct C3 as (K1 & K2 & K3 & K4 & K5). split; [exact K1|]. split; [split; [exact K2|eauto]|]. split; [exact K3|]. split; [exact K4|intros []].
    + destruct s as [l|ps d3|s ys3 xs3 ci3 d3 nm3 nc3|s M3 d3 al3|s q3 d3|s k3 d3]; try contradiction.
      destruct Hs as [Hl Hk]. cbn [lookahead filter is_lcrop List.length Nat.ltb Nat.leb rev app bind meta_dsize dsize fold_right relayer].
      destruct (Hrefl k2). apply Hnew; auto.
      * split; [exact Hl|exact I].
      * split; [exact Hw|]. destruct Hz as ((Z1 & Z2) & Z3). split; [split; [exact Z1|eauto]|]. split; [reflexivity|]. split; [reflexivity|intros []].
  - destruct s as [l|ps d2|s ys2 xs2 ci2 d2 nm2 nc2|s M2 d2 al2|s q2 d2|s k2 d2]; try contradiction.
    destruct Hs as [Hl Hk]. cbn [lookahead filter is_lcrop List.length Nat.ltb Nat.leb rev app bind].
    destruct (Hrefl j). apply Hnew; auto.
    split; [exact Hw|]. split; [apply Hz|]. auto.
Qed.

(* opt_sub does nothing on optimized nodes *)
Lemma opt_sub_same n : piped unitd n -> solid n -> ends (eq n) (fun g => opt_sub (O o g) n).
Proof.
  intros Hn Hso. destruct n as [l|ps d1|s ys1 xs1 ci1 d1 nm1 nc1|s M1 d1 al1|s q1 d1|s j d1]; try contradiction; cbn [opt_sub].
  - apply (ends_bind (eq s)); [|intros ? <-; eapply ends_ret; reflexivity].
    apply (fix_piped shiftd); [apply shiftd_unit|]. eapply stage_crop. exact Hn.
  - apply (ends_bind (eq s)); [|intros ? <-; eapply ends_ret; reflexivity]. apply fix_stage, Hn.
  - apply (ends_bind (eq s)); [|intros ? <-; eapply ends_ret; reflexivity]. apply fix_stage, Hn.
Qed.

Lemma padded_ok s d w h : wf s -> sized s -> dsize s = Some (w, h) -> 0 <= w -> 0 <= h -> pos_size d ->
  exists a b, (let c := Crop s a b None (iv_len b, iv_len a) None None in
    wf c /\ ivals a b /\
    (padded_crop_node s (0, snd d) (0, fst d) = Ok c \/
     exists A pd, padded_crop_node s (0, snd d) (0, fst d) = Ok (Warp c A pd default_algo) /\ unit_lin A /\ pos_size pd)).
Proof.
  intros Hw Hz Hd W0 H0 [D1 D2]. unfold padded_crop_node. rewrite Hd. unfold padded_crop, embed_axis. cbn [fst snd].
  assert (E1 : snd d <? 0 = false) by lia. assert (E2 : fst d <? 0 = false) by lia. rewrite E1, E2. cbn [bind]. cbv zeta.
  destruct (wf_nc _ Hw) as (m & Hm).
  set (dy := (Z.min h (Z.max 0 (0 - 0)), Z.min h (Z.max 0 (snd d + 0)))).
  set (dx := (Z.min w (Z.max 0 (0 - 0)), Z.min w (Z.max 0 (fst d + 0)))).
  assert (Hdy : 0 <= fst dy <= snd dy) by (unfold dy; cbn; lia). assert (Hdx : 0 <= fst dx <= snd dx) by (unfold dx; cbn; lia).
  clearbody dy dx.
  destruct (mkCrop_any s (some_slice dy, some_slice dx) None m w h Hw Hd Hm I) as (a & b & nm & nc & Hc & Hwc & Hi).
  { destruct dy as [y0 y1], dx as [x0 x1]. cbn in Hdy, Hdx. destruct (wrap_clip_any h y0 y1 Hdy) as (iy & Ey & _).
    destruct (wrap_clip_any w x0 x1 Hdx) as (ix & Ex & _). eauto. }
  assert (En : nm = None /\ nc = None) by apply Hwc. destruct En as [-> ->].
  exists a, b. cbv zeta. split; [exact Hwc|]. split; [exact Hi|].
  match goal with |- context [if ?x then _ else _] => destruct x end; cbn [bind]; rewrite Hc; cbn [bind]; [left; reflexivity|right].
  eexists _, _. split; [reflexivity|]. split; [apply unit_translate|]. split; cbn; unfold iv_len; lia.
Qed.

Lemma warp_stage N : forall s m M d al, (Z.abs_nat m < N)%nat -> stage s -> wf s -> sized s -> num_overviews s = Ok (Some m) ->
  T M -> al_nearest al = false -> (al_eps al == 0)%Q -> fits M d ->
  ends (fun n => gpipe n /\ like s n) (fun g => warp_body (O o g) s M d al).
Proof.
  induction N as [|N IH]; intros s m M d al HN Hs Hw Hz Hm HM Ha He HF; [lia|]. unfold warp_body.
  dif En; [eapply ends_ret; [reflexivity|]; split; [apply stage_gpipe; exact Hs|apply like_refl; assumption]|].
  assert (Habs : ends (fun n => gpipe n /\ like s n) (fun _ => absorb o s M d al)).
  { eapply ends_weaken; [apply absorb_ok; eassumption|]. intros n (N1 & N2 & _). auto. }
  unfold split_warp. rewrite Hm. cbn [bind]. dif Em; [exact Habs|].
  destruct (T_split M HM) as [-> |(p & -> & Hp & HTk)]; cbn [bind]; [exact Habs|]. cbv zeta.
  dif Ek; [exact Habs|]. set (k := Z.min m p) in *. assert (Hkp : k <= p) by lia.
  assert (Hdec : (Z.abs_nat (m - k) < N)%nat) by lia. clearbody k.
  destruct (split_residual_ok M k) as (R & -> & Rlin & Rb1 & Rb2). cbn [bind].
  assert (HR : T R) by (eapply T_same; [apply (HTk k Hkp)|]; destruct Rlin as (L1 & L2 & L3 & L4); repeat split; symmetry; assumption).
  assert (HFR : fits R d).
  { pose proof (pow2_pos k). eapply (fits_comp M (aff_scale (pow2 k) (pow2 k))); try eassumption; cbn; try reflexivity; try assumption; try lra.
    all: first [rewrite Rb1; ring|rewrite Rb2; ring]. }
  destruct (sized_dsize s Hw Hz (stage_not_warp _ Hs)) as (w & h & Hds & W0 & H0).
  unfold mkOverview. rewrite Hds. cbn [bind dsize]. set (od := overview_dsize k (w, h)).
  assert (Hod : pos_size od) by (apply overview_size_pos; split; assumption).
  (* the overview of s, optimized *)
  assert (Hov : E (ovres s k) (Overview s k od)).
  { eapply E_overview; [apply fix_stage; exact Hs|]. intros s1 <-. apply overview_ok; auto using stage_piped. }
  destruct (is_identity R) eqn:EI.
  - (* no residual: the overview, cropped or padded to the size *)
    pose proof EI as EI'. unfold is_identity in EI'. rewrite !andb_true_iff, !Qeq_bool_iff in EI'.
    destruct EI' as [[[[[R11 R12] R21] R22] RB1] RB2].
    dif Esz.
    + (* the overview itself *)
      cbn [bind opt_sub]. eapply (ends_bind (eq (Overview s k od))).
      * apply (ends_bind (eq s)); [apply fix_stage; exact Hs|]. intros ? <-. eapply ends_ret; reflexivity.
      * intros ? <-. eapply ends_weaken; [exact Hov|]. intros n (N1 & N2 & _). split; [|exact N2].
        apply piped_gpipe, shiftd_unitd, N1.
    + (* cropped or padded *)
      assert (Hpd : pos_size d).
      { assert (Rax : axis_aligned R = true) by (apply axis_bool; auto; [rewrite R11|rewrite R22]; reflexivity).
        destruct (HFR Rax) as [F1 F2]. split; [destruct F1|destruct F2]; auto; lra. }
      destruct (padded_ok (Overview s k od) d (fst od) (snd od)) as (a & b & Hwc & Hi & Hcase); auto.
      { split; assumption. } { apply Hod. } { apply Hod. } 
      cbv zeta in *. set (c := Crop (Overview s k od) a b None (iv_len b, iv_len a) None None) in *.
      assert (Hc : E (fun n => piped shiftd n /\ like s n /\ solid n) c).
      { eapply E_crop; [exact Hov|]. cbv beta. intros v1 (V1 & V2 & V3 & V4).
        assert (V2' : like (Overview s k od) v1) by exact V2.
        pose proof (like_crop (Overview s k od) v1 a b None _ None None Hwc Hi V2') as Hlc.
        eapply ends_weaken; [apply crop_ok; [exact V1|apply Hlc|apply V2|exact Hi]|]. cbv beta.
        intros n ((R1 & R2 & R3) & R4). split; [exact R1|]. split; [|exact R4].
        pose proof (like_trans _ _ _ Hlc R2) as L. exact L. }
      assert (Hcase' : exists c0, padded_crop_node (Overview s k od) (0, snd d) (0, fst d) = Ok c0 /\
                         E (fun n => piped unitd n /\ like s n /\ solid n) c0).
      { destruct Hcase as [Hc0|(A & pd & Hc0 & HA & Hpp)]; (eexists; split; [exact Hc0|]).
        - eapply ends_weaken; [exact Hc|]. cbv beta. intros n (N1 & N2 & N3). auto using shiftd_unitd.
        - eapply E_warp; [exact Hc|]. cbv beta. intros c' (C1 & C2 & C3).
          destruct (warp_unit unitd c' A pd default_algo) as (n & Hn & N1 & N2 & N3 & N4); try apply C2; try reflexivity.
          + intros M0 d0 H1. apply H1.
          + split; [|apply fits_pos; exact Hpp]. destruct c'; try exact HA. cbn [fused]. apply unit_mul; [exact HA|apply C1].
          + eapply piped_core. exact C1.
          + eapply ends_ret; [intros g; apply Hn|]. split; [exact N1|]. split; [eapply like_trans; eassumption|].
            unfold solid. rewrite N3. exact C3. }
      destruct Hcase' as (c0 & -> & Hc0). cbn [bind].
      eapply (ends_bind (fun sp => exists n, sp = Some n /\ piped unitd n /\ like s n /\ solid n)).
      * destruct Hc0 as (f & [(n & Hn & H)|[Hk H]]); exists f; [left|right].
        -- exists (Some n). split; [eauto|]. intros g Hg. rewrite H by exact Hg. reflexivity.
        -- split; [exact Hk|]. intros g Hg. rewrite H by exact Hg. reflexivity.
      * cbv beta. intros ? (n & -> & N1 & N2 & N3). eapply (ends_bind (eq n)); [apply opt_sub_same; assumption|].
        intros ? <-. eapply ends_weaken; [apply (fix_piped unitd); [intros M0 d0 H1; apply H1|exact N1]|].
        intros ? <-. split; [apply piped_gpipe; exact N1|exact N2].
  - (* a residual transform over the overview *)
    cbn [bind opt_sub]. eapply (ends_bind (fun n => exists v, n = Warp v R d (drop_backend al) /\ ovres s k v)).
    + eapply ends_bind; [exact Hov|]. cbv beta. intros v Hv. eapply ends_ret; [reflexivity|]. eauto.
    + cbv beta. intros ? (v & -> & V1 & V2 & V3 & V4). 
      eapply E_warp; [apply (fix_piped shiftd); [apply shiftd_unit|exact V1]|]. intros s1 <-.
      pose proof (piped_core _ _ V1) as Vc.
      eapply ends_ext; [intros g; apply opt_warp_body; exact Vc|].
      assert (Vl : like s (core v)).
      { destruct v; try exact V2. destruct V2 as ((L1 & _) & L2 & L3 & L4 & L5). repeat split; auto. }
      eapply ends_weaken; [apply (IH (core v) (m - k) (fused v R)); auto; try apply Vl|].
      * specialize (V3 m Hm). destruct v; exact V3.
      * destruct v; try exact HR. cbn [fused]. apply T_mul; [exact HR|]. apply T_unit. apply V1.
      * destruct v; exact Ha.
      * destruct v; exact He.
      * destruct v; try exact HFR. cbn [fused]. apply fits_shift; [exact HFR|]. apply V1.
      * cbv beta. intros n (N1 & N2). split; [exact N1|]. eapply like_trans; eassumption.
Qed.

(** *** Whole pipelines *)

(* a pipeline of operations over one image *)
Definition gres (t n : node) : Prop := gpipe n /\ like t n.

Lemma gpipe_core v : gpipe v -> stage (core v).
Proof. intros H. apply H. Qed.

Lemma warp_over v M d al : gpipe v -> wf v -> sized v -> T M -> al_nearest al = false -> (al_eps al == 0)%Q -> 
  fits (fused v M) d -> ends (gres v) (fun g => opt_warp o (O o g) v M d al).
Proof.
  intros Hv Hw Hz HM Ha He HF. pose proof (gpipe_core _ Hv) as Hs.
  eapply ends_ext; [intros g; apply opt_warp_body; exact Hs|].
  assert (Hl : like v (core v)).
  { destruct v; try (apply like_refl; assumption). cbn [core wf sized] in *. repeat split; tauto. }
  destruct (stage_num _ Hs) as (m & Hm).
  eapply ends_weaken; [apply (warp_stage (S (Z.abs_nat m)) (core v) m); auto; try apply Hl|].
  - destruct v; try exact HM. cbn [fused]. apply T_mul; [exact HM|]. apply Hv.
  - destruct v; exact Ha.
  - destruct v; exact He.
  - cbv beta. intros n (N1 & N2). split; [exact N1|]. eapply like_trans; eassumption.
Qed.

Lemma crop_over v ys xs ci d nm nc : gpipe v -> wf (Crop v ys xs ci d nm nc) -> sized v -> ivals ys xs -> 0 < fst d -> 0 < snd d ->
  ends (gres (Crop v ys xs ci d nm nc)) (fun g => opt_crop (O o g) v ys xs ci d nm nc).
Proof.
  intros Hv Hw Hz Hi D1 D2.
  assert (Hst : stage v -> ends (gres (Crop v ys xs ci d nm nc)) (fun g => opt_crop (O o g) v ys xs ci d nm nc)).
  { intros Hs. eapply ends_weaken; [apply crop_ok; auto using stage_piped|]. cbv beta. intros n ((R1 & R2 & _) & _).
    split; [apply piped_gpipe, shiftd_unitd, R1|exact R2]. }
  destruct v as [l|ps d1|s ys1 xs1 ci1 d1 nm1 nc1|s M1 d1 al1|s q1 d1|s j d1]; try (apply Hst; apply (gpipe_core _ Hv)).
  destruct Hv as (Hs & HM & Ha & HF). cbn [core] in Hs. cbn [opt_crop bind]. rewrite Ha.
  assert (Hzc : sized (Crop (Warp s M1 d1 al1) ys xs ci d nm nc)) by (split; assumption).
  destruct (warp_after_crop_ok s M1 d1 al1 ys xs ci d nm nc Hw Hzc (stage_not_warp _ Hs) (T_inv _ HM))
    as [[_ Hd]|(a & b & nm' & nc' & T' & -> & Hwc & Hzc' & Hl & Hlin & _)]; cbn [bind]; [lia|].
  apply (E_tail (gres (Crop (Warp s M1 d1 al1) ys xs ci d nm nc)) _ crop_tail);
    [|intros n f H; apply tail_id; apply (gpipe_core _ (proj1 H))].
  eapply E_warp; [eapply E_crop; [apply fix_stage; exact Hs|intros s1 <-; apply crop_ok; auto using stage_piped; apply Hzc']|].
  cbv beta. intros c' ((R1 & R2 & R3) & R4).
  eapply ends_weaken; [apply warp_over; auto; try apply R2|].
  - apply piped_gpipe, shiftd_unitd, R1.
  - eapply T_same; [exact HM|exact Hlin].
  - apply Hw.
  - apply fits_pos. destruct d. split; cbn in *; lia.
  - intros n (N1 & N2). split; [exact N1|]. eapply like_trans; [exact Hl|]. eapply like_trans; eassumption.
Qed.

Lemma dequant_over v q d : gpipe v -> wf v -> sized v -> dq_free v -> (exists z, d = Some z /\ pos_size z) ->
  ends (gres (Dequant v q d)) (fun g => opt_dequant (O o g) v q d).
Proof.
  intros Hv Hw Hz Hq Hd.
  assert (Hst : stage v -> ends (gres (Dequant v q d)) (fun g => opt_dequant (O o g) v q d)).
  { intros Hs. eapply ends_weaken; [apply dequant_ok; auto using stage_piped|]. cbv beta. intros n ((R1 & R2 & _) & _).
    split; [apply piped_gpipe, shiftd_unitd, R1|exact R2]. }
  destruct v as [l|ps d1|s ys1 xs1 ci1 d1 nm1 nc1|s M1 d1 al1|s q1 d1|s j d1]; try (apply Hst; apply (gpipe_core _ Hv)).
  destruct Hv as (Hs & HM & Ha & HF). cbn [core] in Hs. cbn [opt_dequant].
  assert (Hst' : stage (mkDequant s q)) by (split; [exact Hs|exact Hq]).
  destruct (sized_dsize s (proj1 Hw) Hz (stage_not_warp _ Hs)) as (w & h & Hds & W0 & H0).
  assert (Hzs : sized (mkDequant s q)).
  { split; [exact Hz|]. exists (w, h). rewrite Hds. split; [reflexivity|]. split; assumption. }
  apply (E_tail (gres (Dequant (Warp s M1 d1 al1) q d)) _ push_tail); [|intros n f H; apply tail_id; apply (gpipe_core _ (proj1 H))].
  eapply E_warp; [apply fix_stage; exact Hst'|]. intros s1 <-.
  eapply ends_weaken; [apply warp_over; auto; [apply stage_gpipe; exact Hst'|apply Hw|apply Hw]|].
  intros n (N1 & L1 & L2 & L3 & L4 & L5). split; [exact N1|]. repeat split; auto.
Qed.

Lemma overview_over v k d : gpipe v -> wf v -> sized v -> (not_warp v -> pos_size d) ->
  ends (gres v) (fun g => opt_overview (O o g) v k d).
Proof.
  intros Hv Hw Hz Hd.
  assert (Hst : stage v -> ends (gres v) (fun g => opt_overview (O o g) v k d)).
  { intros Hs. eapply ends_weaken; [apply overview_ok; auto using stage_piped|]. intros n (R1 & R2 & _).
    split; [apply piped_gpipe, shiftd_unitd, R1|exact R2]. }
  destruct v as [l|ps d1|s ys1 xs1 ci1 d1 nm1 nc1|s M1 d1 al1|s q1 d1|s j d1]; try (apply Hst; apply (gpipe_core _ Hv)).
  cbn [opt_overview bind]. dif Ek; [eapply ends_ret; [intros g; apply tail_id; apply (gpipe_core _ Hv)|split; [exact Hv|apply like_refl; assumption]]|].
  destruct Hv as (Hs & HM & Ha & HF). cbn [core] in Hs.
  destruct (sized_dsize s (proj1 Hw) Hz (stage_not_warp _ Hs)) as (w & h & Hds & W0 & H1).
  destruct (warp_after_overview_node_ok s M1 k w h Hds) as (C & -> & Hlin & _). cbn [bind].
  apply (E_tail (gres (Warp s M1 d1 al1)) _ push_tail); [|intros n f H; apply tail_id; apply (gpipe_core _ (proj1 H))].
  eapply E_warp.
  - eapply E_overview; [apply fix_stage; exact Hs|]. intros s1 <-. apply overview_ok; auto using stage_piped; [apply Hw|].
    intros _. apply overview_size_pos. split; assumption.
  - cbv beta. intros v1 (V1 & V2 & V3 & V4).
    eapply ends_weaken; [apply warp_over; auto; try apply V2; try reflexivity|].
    + apply piped_gpipe, shiftd_unitd, V1.
    + eapply T_same; eassumption.
    + destruct v1; try apply fits_auto. cbn [fused]. apply fits_shift; [apply fits_auto|apply V1].
    + intros n (N1 & N2). split; [exact N1|]. exact (like_trans _ _ _ V2 N2).
Qed.

(* pipelines as a user builds them *)
Fixpoint user_pipe (t : node) : Prop :=
  match t with
  | Leaf l => data_leaf l
  | Concat _ _ => False
  | Crop s _ _ _ d _ _ => user_pipe s /\ 0 < fst d /\ 0 < snd d
  | Warp s M _ al => user_pipe s /\ T M /\ al_nearest al = false
  | Dequant s _ _ | Overview s _ _ => user_pipe s
  end.

Lemma tight_sized t : tight t -> user_pipe t -> sized t.
Proof.
  induction t as [l|ps d IH|s ys xs ci d nm nc IH|s M d al IH|s q d IH|s k d IH] using node_ind'; intros Ht Hu; try contradiction.
  - exact Ht.
  - destruct Ht as (Ht & _ & _ & w & h & _ & Hx & _ & Hy & _). split; [apply IH; [exact Ht|apply Hu]|]. split; assumption.
  - apply IH; [apply Ht|apply Hu].
  - destruct Ht as (Ht & ->). split; [apply IH; assumption|]. destruct (tight_dsize _ Ht) as (w & h & -> & W0 & H0). eexists. split; [reflexivity|]. split; assumption.
  - destruct Ht as (Ht & z & Hz & ->). split; [apply IH; assumption|]. destruct (tight_dsize _ Ht) as (w & h & E0 & W0 & H0).
    rewrite E0 in Hz. injection Hz as <-. apply overview_size_pos. split; assumption.
Qed.

Theorem pipe_ends t : wf t -> tight t -> user_pipe t -> dq_once t -> E (gres t) t.
Proof.
  induction t as [l|ps d IH|s ys xs ci d nm nc IH|s M d al IH|s q d IH|s k d IH] using node_ind'; intros Hw Ht Hu Hq; try contradiction.
  - eapply ends_weaken; [apply E_leaf|]. intros ? <-. split; [apply stage_gpipe; exact Hu|apply like_refl; [exact Hw|exact Ht]].
  - pose proof (tight_sized _ Ht Hu) as (Hzs & Hi). destruct Hu as (Hu & D1 & D2).
    eapply E_crop; [apply IH; [apply Hw|apply Ht|exact Hu|exact Hq]|]. intros v (V1 & V2).
    pose proof (like_crop s v ys xs ci d nm nc Hw Hi V2) as Hlc.
    eapply ends_weaken; [apply crop_over; auto; [apply Hlc|apply V2]|]. intros n (N1 & N2). split; [exact N1|]. eapply like_trans; eassumption.
  - destruct Hu as (Hu & HM & Ha). destruct Hw as [Hw He]. destruct Ht as [Ht Hd].
    eapply E_warp; [apply IH; assumption|]. intros v (V1 & V2).
    eapply ends_weaken; [apply warp_over; auto; try apply V2; apply fits_pos; exact Hd|]. intros n (N1 & N2). split; [exact N1|].
    exact (like_trans _ _ _ V2 N2).
  - pose proof (tight_sized _ Ht Hu) as (Hzs & Hd). destruct Ht as [Ht _]. 
    eapply E_dequant; [apply IH; auto; apply dq_free_once; exact Hq|].
    intros v (V1 & V2). eapply ends_weaken; [apply dequant_over; auto; [apply V2|apply V2|apply V2, Hq]|].
    intros n (N1 & L1 & L2 & L3 & L4 & _). destruct V2 as (_ & _ & K3 & K4 & _). split; [exact N1|]. split; [exact L1|]. split; [exact L2|].
    split; [exact (eq_trans L3 K3)|]. split; [exact (eq_trans L4 K4)|]. intros [].
  - pose proof (tight_sized _ Ht Hu) as (Hzs & Hd). destruct Ht as [Ht _].
    eapply E_overview; [apply IH; assumption|]. intros v (V1 & V2).
    eapply ends_weaken; [apply overview_over; auto; apply V2|]. intros n (N1 & N2). split; [exact N1|]. exact (like_trans _ _ _ V2 N2).
Qed.

End Endings.

(** ** The theorems *)

Lemma unit_translates M : unit_lin M <-> translates M.
Proof. unfold unit_lin, same_lin, translates. cbn. tauto. Qed.

Lemma one_image_user (P : affine -> algo -> Prop) T t : (forall M al, P M al -> T M /\ al_nearest al = false) ->
  one_image P t -> user_pipe T t.
Proof.
  intros HP. induction t as [l|ps d IH|s ys xs ci d nm nc IH|s M d al IH|s q d IH|s k d IH] using node_ind'; cbn; auto.
  - intros [H1 H2]. split; [exact H1|]. destruct (l_ov l) as [n|]; [eauto|congruence].
  - intros (H1 & H2). auto.
  - intros (H1 & H2). split; [auto|]. auto.
Qed.

Lemma same_det A B : same_lin A B -> (aff_det A == aff_det B)%Q.
Proof. intros (H1 & H2 & H3 & H4). unfold aff_det. now rewrite H1, H2, H3, H4. Qed.

Lemma scale_det x y : (aff_det (aff_scale x y) == x * y)%Q.
Proof. unfold aff_det, aff_scale. cbn. ring. Qed.

Lemma pow2_nz k : ~ (pow2 k == 0)%Q.
Proof. pose proof (pow2_pos k) as H. intros E. rewrite E in H. discriminate. Qed.

Lemma pipe_returns o (P : affine -> algo -> Prop) t : sane o -> (forall M al, P M al -> ~ (aff_det M == 0)%Q /\ al_nearest al = false) ->
  wf t -> tight t -> one_image P t -> dq_once t -> (exists t', optimizes o t t') \/ optimize_raises o t KeyError.
Proof.
  intros [S1 S2] HP Hw Ht Ho Hq.
  destruct (pipe_ends o (fun M => ~ (aff_det M == 0)%Q)) with (t := t) as (f & [(n & Hn & H)|[_ H]]); auto.
  - intros M H. apply S2. now apply unit_translates.
  - intros M H. apply S2. now apply unit_translates.
  - intros M N HM Hl. now rewrite <- (same_det _ _ Hl).
  - intros M H. exact (unit_inv M default_algo H).
  - intros M N HM HN. rewrite det_mul. now apply Qmul_nz.
  - intros M HM. destruct (S1 M HM) as ([p|] & Hr & Hp); [right|left; exact Hr]. exists p. split; [exact Hr|]. split; [now apply Hp|].
    intros k _. rewrite det_mul, scale_det. apply Qmul_nz; [exact HM|]. apply Qmul_nz; apply pow2_nz.
  - intros M HM _ k. rewrite det_mul, scale_det. pose proof (pow2_inv_pos k) as Hp.
    apply Qmul_nz; [exact HM|]. apply Qmul_nz; intros E0; rewrite E0 in Hp; discriminate.
  - eapply one_image_user; eassumption.
  - left. exists n. specialize (H f (Nat.le_refl f)). apply O_opts in H. exact H.
  - right. exists f. intros fuel Hf. specialize (H fuel Hf). unfold O in H. destruct (optimize o fuel t) as [[a b]|e]; [discriminate|].
    cbn in H. congruence.
Qed.

Theorem optimize_ends o (P : affine -> algo -> Prop) t : sane o -> (forall M al, P M al -> ~ (aff_det M == 0)%Q /\ al_nearest al = false) ->
  made t -> one_image P t -> dq_once t -> (exists t', optimizes o t t') \/ optimize_raises o t KeyError.
Proof. intros So HP Hm. destruct (made_ok _ Hm) as [Hw Ht]. now apply (pipe_returns o P). Qed.

Theorem optimize_no_warps o t : sane o -> made t -> one_image (fun _ _ => False) t -> dq_once t -> exists t', optimizes o t t'.
Proof.
  intros [S1 S2] Hm Ho Hq. destruct (made_ok _ Hm) as [Hw Ht].
  assert (U : forall M, unit_lin M -> split_levels o M = Ok None /\ absorbs o M = false) by (intros M H; apply S2; now apply unit_translates).
  destruct (pipe_ends o unit_lin) with (t := t) as (f & [(n & Hn & H)|[(M & HM & Ha) _]]); auto.
  - intros M H. now apply U.
  - intros M H. now apply U.
  - apply unit_same.
  - intros M H. exact (unit_inv M default_algo H).
  - apply unit_mul.
  - intros M H. left. now apply U.
  - intros M H Ha. destruct (U M H). congruence.
  - eapply one_image_user; [|exact Ho]. intros M al [].
  - exists n. specialize (H f (Nat.le_refl f)). apply O_opts in H. exact H.
  - destruct (U M HM). congruence.
Qed.

Lemma axis_sane : sane axis_oracle.
Proof.
  split.
  - intros M HM. cbn [axis_oracle split_levels]. destruct (axis_aligned M) eqn:Ea; cbn [negb]; [|eexists; split; [reflexivity|discriminate]].
    match goal with |- context [if ?x then _ else _] => destruct x end; [eexists; split; [reflexivity|discriminate]|].
    apply axis_aligned_spec in Ea as (_ & _ & A11 & A22).
    assert (E : exists n rx ry, prepare_scale_residual (a11 M) (a22 M) = Ok (n, rx, ry)).
    { unfold prepare_scale_residual. pose proof (Q.le_max_l (a11 M) (a22 M)). dif E0; [|eauto].
      apply Qle_bool_iff in E0. lra. }
    destruct E as (n & rx & ry & E). rewrite E. cbn [bind]. eexists. split; [reflexivity|]. intros p [= <-].
    now destruct (prepare_scale_residual_spec _ _ _ _ _ E) as (_ & H & _).
  - intros M (H1 & H2 & H3 & H4). cbn [axis_oracle split_levels absorbs].
    assert (E1 : Qle_bool (a11 M) (1#2) = false) by (apply not_true_iff_false; rewrite Qle_bool_iff; lra).
    assert (E2 : Qle_bool 2 (a11 M) = false) by (apply not_true_iff_false; rewrite Qle_bool_iff; lra).
    assert (E3 : Qle_bool 2 (a22 M) = false) by (apply not_true_iff_false; rewrite Qle_bool_iff; lra).
    rewrite E1, E2, E3. cbn [negb orb]. rewrite andb_false_r. split; [now destruct (axis_aligned M)|reflexivity].
Qed.

Lemma pipe_shrinks t : wf t -> tight t -> one_image shrinks t -> dq_once t -> exists t', optimizes axis_oracle t t'.
Proof.
  intros Hw Ht Ho Hq.
  set (T := fun M => shrinks M default_algo).
  assert (Habs : forall M, T M -> absorbs axis_oracle M = false).
  { intros M (H1 & H2 & H3 & H4 & _). cbn [axis_oracle absorbs].
    assert (E2 : Qle_bool 2 (a11 M) = false) by (apply not_true_iff_false; rewrite Qle_bool_iff; lra).
    assert (E3 : Qle_bool 2 (a22 M) = false) by (apply not_true_iff_false; rewrite Qle_bool_iff; lra).
    rewrite E2, E3. apply andb_false_r. }
  assert (TU : forall M, unit_lin M -> T M).
  { intros M (H1 & H2 & H3 & H4). cbn in *. split; [exact H2|]. split; [exact H3|]. rewrite H1, H4. split; [lra|]. split; [lra|reflexivity]. }
  destruct (pipe_ends axis_oracle T) with (t := t) as (f & [(n & Hn & H)|[(M & HM & Ha) _]]); auto.
  - intros M H. apply axis_sane. now apply unit_translates.
  - intros M N (H1 & H2 & H3 & H4 & H5) (L1 & L2 & L3 & L4). split; [now rewrite <- L2|]. split; [now rewrite <- L3|].
    rewrite <- L1, <- L4. auto.
  - intros M (H1 & H2 & H3 & H4 & _). unfold aff_det. rewrite H1, H2. nra.
  - intros M N (H1 & H2 & H3 & H4 & _) (G1 & G2 & G3 & G4 & _). unfold T, shrinks. cbn. rewrite H1, H2, G1, G2.
    split; [ring|]. split; [ring|]. split; [nra|]. split; [nra|reflexivity].
  - intros M HT. pose proof HT as (H1 & H2 & H3 & H4 & _). cbn [axis_oracle split_levels]. rewrite (axis_bool M) by (try assumption; lra). cbn [negb].
    dif Eh; [left; reflexivity|right].
    assert (E1 : exists n rx ry, prepare_scale_residual (a11 M) (a22 M) = Ok (n, rx, ry)).
    { unfold prepare_scale_residual. pose proof (Q.le_max_l (a11 M) (a22 M)). dif E0; [|eauto]. apply Qle_bool_iff in E0. lra. }
    destruct E1 as (n & rx & ry & E1). rewrite E1. cbn [bind]. exists n. split; [reflexivity|].
    destruct (prepare_scale_residual_spec _ _ _ _ _ E1) as (P1 & P2 & _ & _ & P5 & _). split; [exact P2|].
    intros k Hk. pose proof (pow2_pos k) as Kp. assert (Hmono : (pow2 k <= pow2 n)%Q).
    { replace n with (k + (n - k)) by lia. rewrite pow2_plus. pose proof (pow2_ge1 (n - k) ltac:(lia)). nra. }
    assert (Hmax : (Qmax (a11 M) (a22 M) <= 1)%Q) by (apply Q.max_lub; lra). destruct (P5 Hmax) as [_ P6].
    pose proof (Q.le_max_l (a11 M) (a22 M)). pose proof (Q.le_max_r (a11 M) (a22 M)).
    unfold T, shrinks. cbn. rewrite H1, H2. split; [ring|]. split; [ring|]. 
    split; [split; nra|]. split; [split; nra|reflexivity].
  - intros M HT Ha. rewrite (Habs M HT) in Ha. discriminate.
  - eapply one_image_user; [|exact Ho]. intros M al (H1 & H2 & H3 & H4 & H5). split; [repeat split; auto; lra|exact H5].
  - exists n. specialize (H f (Nat.le_refl f)). apply O_opts in H. exact H.
  - rewrite (Habs M HM) in Ha. discriminate.
Qed.

Theorem optimize_shrinks t : made t -> one_image shrinks t -> dq_once t -> exists t', optimizes axis_oracle t t'.
Proof. intros Hm. destruct (made_ok _ Hm) as [Hw Ht]. now apply pipe_shrinks. Qed.
