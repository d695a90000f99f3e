(* optimize() terminates without an error on trees with invertible warps and no
   overviews to use, and optimizing its result changes nothing. *)
From Verif Require Import Py PyProofs GeomModel GeomProofs GraphModel GraphSpec GraphBase GraphTake GraphOpt GraphMain GraphSound GraphSize GraphTotal.
From Coq Require Import ZifyBool Qround Lqa.
Local Open Scope Z_scope.

(** ** Invertible warps stay invertible *)

Lemma det_mul A B : (aff_det (aff_mul A B) == aff_det A * aff_det B)%Q.
Proof. unfold aff_det, aff_mul. cbn. ring. Qed.

Lemma det_translate x y : (aff_det (aff_translate x y) == 1)%Q.
Proof. unfold aff_det, aff_translate. cbn. ring. Qed.

Lemma Qmul_nz a b : (~ a == 0 -> ~ b == 0 -> ~ a * b == 0)%Q.
Proof. intros Ha Hb H. apply Qmult_integral in H as [H|H]; auto. Qed.

Lemma warp_after_crop_det s M ys xs ci cd c T : (~ aff_det M == 0)%Q ->
  warp_after_crop s M ys xs ci cd = Ok (Some (c, T)) -> (~ aff_det T == 0)%Q.
Proof.
  intros HM H. unfold warp_after_crop in H. difH H E; [discriminate|]. destruct (axis_aligned M) eqn:Ea.
  - destruct (dsize s) as [[w h]|]; [|discriminate].
    destruct (fast_axis (a11 M) (b1 M) w xs) as [xsl ox]. destruct (fast_axis (a22 M) (b2 M) h ys) as [ysl oy].
    apply bind_ok in H as (c0 & Hc & H). injection H as _ <-.
    apply axis_aligned_spec in Ea as (A12 & A21 & A11 & A22).
    assert (E' : (aff_det (Aff (a11 M) 0 0 (a22 M) ox oy) == a11 M * a22 M)%Q) by (unfold aff_det; cbn; ring).
    rewrite E'. apply Qmul_nz; lra.
  - apply bind_ok in H as ([[ysl xsl] T0] & Hsw & H). apply bind_ok in H as (c0 & Hc & H). injection H as _ <-.
    unfold swap_warp_after_crop in Hsw. apply bind_ok in Hsw as (I & _ & Hsw). injection Hsw as _ _ <-.
    rewrite !det_mul, !det_translate. intros G. apply HM. lra.
Qed.

Lemma invertible_fusable : fusable invertible.
Proof.
  split.
  - intros M al s ys xs ci cd c T HM _ H. eapply warp_after_crop_det; eassumption.
  - intros M al M1 al1 H1 H2. unfold invertible in *. rewrite det_mul. now apply Qmul_nz.
Qed.

(** ** Trees that can be optimized *)

Definition wnice (t : node) : Prop :=
  wf t /\ tight t /\ ov_free t /\ warps_all invertible t /\ names t <> None.

Lemma wnice_kept t n : wnice t -> wf n -> ov_free n -> names n = names t -> kept t n -> wnice n.
Proof.
  intros (Hw & Ht & Hr & Hi & Hn) W R E (_ & T & K). split; [exact W|]. split; [exact T|].
  split; [exact R|]. split; [exact (keeps_all _ _ K _ invertible_fusable Hi)|congruence].
Qed.

Lemma wnice_opts o t n : wnice t -> opts o t n ->
  wnice n /\ dsize n = dsize t /\ names n = names t /\ num_channels n = num_channels t.
Proof.
  intros Hn Ho. pose proof Hn as (Hw & Ht & Hr & _).
  destruct (opts_good o ROvFree t n Hw Hr Ho) as ((Hw' & Hr' & Hnm & Hnc & _) & _).
  pose proof (opts_kept o t n Hw Hr Ht Ho) as Hk.
  split; [|split; [apply Hk|auto]]. eapply wnice_kept; eassumption.
Qed.

Lemma opts_ov_less o t n : wf t -> ov_less t -> opts o t n -> ov_less n.
Proof. intros Hw Hr Ho. now destruct (opts_good o ROvLess t n Hw Hr Ho) as ((_ & Hr' & _) & _). Qed.

Lemma wnice_crop_sub s ys xs ci d nm nc : wnice (Crop s ys xs ci d nm nc) -> wnice s.
Proof.
  intros (Hw & Ht & Hr & Hi & Hn). split; [apply Hw|]. split; [apply Ht|]. split; [exact Hr|]. split; [exact Hi|].
  intros E. destruct Hw as (_ & _ & _ & _ & Hci). cbn in Hn. rewrite E in *. destruct ci; [|destruct Hci as [-> ->]; congruence].
  destruct Hci as (_ & _ & ->). congruence.
Qed.

Lemma wnice_crop s s1 ys xs ci d nm nc : wnice (Crop s ys xs ci d nm nc) -> wnice s1 ->
  dsize s1 = dsize s -> names s1 = names s -> num_channels s1 = num_channels s ->
  wnice (Crop s1 ys xs ci d nm nc).
Proof.
  intros (Hw & Ht & Hr & Hi & Hn) (W & T & R & I & N) E1 E2 E3.
  split; [|split; [|split; [exact R|split; [exact I|]]]].
  - cbn [wf] in *. rewrite E2, E3. tauto.
  - cbn [tight] in *. rewrite E1. tauto.
  - cbn [names] in *. now rewrite E2.
Qed.

Lemma wnice_warp_sub s M d al : wnice (Warp s M d al) -> wnice s /\ ov_less s /\ invertible M al /\ (al_eps al == 0)%Q.
Proof.
  intros ((Hw & He) & (Ht & _) & Hr & (Hi & His) & Hn). split; [|auto].
  split; [exact Hw|]. split; [exact Ht|]. split; [now apply ov_less_free|]. auto.
Qed.

Lemma wnice_warp s M d al : wnice s -> ov_less s -> invertible M al -> (al_eps al == 0)%Q ->
  0 <= fst d /\ 0 <= snd d -> wnice (Warp s M d al).
Proof. intros (Hw & Ht & Hr & Hi & Hn) Hl HM He Hd. split; [|split; [|split; [|split]]]; cbn; auto. Qed.

Lemma wnice_dequant s q : wnice s -> wnice (mkDequant s q).
Proof. intros (Hw & Ht & Hr & Hi & Hn). split; [|split; [|split; [|split]]]; cbn; auto. Qed.

Lemma wnice_concat ps d : wnice (Concat ps d) -> Forall wnice ps.
Proof.
  intros (Hw & Ht & Hr & Hi & Hn). apply wf_concat in Hw as (Hw & _). apply tight_concat in Ht as (_ & Ht & _).
  apply (reg_concat ROvFree ps d) in Hr. cbn [reg] in Hr. apply warps_concat in Hi. cbn [names] in Hn.
  destruct (concat_opt (map names ps)) as [l|] eqn:E; [|congruence].
  rewrite Forall_forall in *. intros p Hp. split; [auto|]. split; [auto|]. split; [exact (Hr p Hp)|]. split; [auto|].
  eapply concat_opt_known; [exact E|]. now apply in_map.
Qed.

Lemma mkConcat_wnice ps n : ps <> [] -> Forall wnice ps -> mkConcat ps = Some n -> wnice n.
Proof.
  intros Hne F H. assert (F1 : forall p, In p ps -> wnice p) by (apply Forall_forall; exact F).
  split; [|split; [|split; [|split]]].
  - eapply mkConcat_wf; [|exact H]. apply Forall_forall. intros p Hp. now apply F1.
  - eapply mkConcat_tight; [exact Hne| |exact H]. apply Forall_forall. intros p Hp. now apply F1.
  - apply mkConcat_spec in H as (d & -> & _). apply (reg_concat ROvFree). apply Forall_forall. intros p Hp. now apply F1.
  - eapply mkConcat_warps; [|exact H]. apply Forall_forall. intros p Hp. now apply F1.
  - apply mkConcat_spec in H as (d & -> & _). cbn [names].
    destruct (concat_opt_total (map names ps)) as (r & ->); [|discriminate].
    intros o Ho. apply in_map_iff in Ho as (p & <- & Hp). now apply F1.
Qed.

Lemma wnice_take t idxs t' m : wnice t -> num_channels t = Some m -> in_range m idxs -> idxs <> [] ->
  take_idx t idxs = Ok t' -> wnice t' /\ dsize t' = dsize t.
Proof.
  intros (Hw & Ht & Hr & Hwi & Hn) Hm Hrg Hi H.
  destruct (take_idx_takes _ _ _ _ Hw Hm Hrg H) as (T1 & T2 & T3 & _ & T5 & _).
  split; [|auto]. split; [exact T1|]. split; [eapply take_idx_tight; eassumption|].
  split; [exact (T2 ROvFree Hr)|]. split; [eapply take_idx_warps; eassumption|]. rewrite T3.
  destruct (names t) as [l|] eqn:E; [|congruence]. cbn. destruct (wf_meta _ Hw) as (m' & Hm' & _ & Hl).
  destruct (select_total l idxs) as (n' & ->); [|discriminate].
  rewrite (Hl _ E). assert (m' = m) by congruence. now subst.
Qed.

(* a crop of a named image of known size *)
Lemma mkCrop_wnice s sl ci w h m : wnice s -> dsize s = Some (w, h) -> num_channels s = Some m ->
  ci_ok (num_channels s) ci -> ci <> Some [] ->
  (forall sy sx, sl = Some (sy, sx) -> exists y x, wrap_clip h sy = Ok y /\ wrap_clip w sx = Ok x) ->
  exists ys xs nm nc, mkCrop s sl ci = Ok (Crop s ys xs ci (iv_len xs, iv_len ys) nm nc) /\
    wnice (Crop s ys xs ci (iv_len xs, iv_len ys) nm nc).
Proof.
  intros Hs Hd Hm Hci Hne Hsl. pose proof Hs as (Hw & Ht & Hr & Hi & Hn).
  destruct (names s) as [nl|] eqn:En; [|congruence].
  destruct (mkCrop_total s sl ci w h nl m Hw Ht Hd Hm) as (c & Hc); auto.
  { intros l ->. apply Hci. exact Hm. }
  pose proof (mkCrop_tight _ _ _ _ Ht Hne Hc) as Htc.
  destruct (mkCrop_spec _ _ _ _ _ Hw Hm Hci Hc) as (w' & h' & ys & xs & nm & nc & _ & -> & Hwc & _).
  exists ys, xs, nm, nc. split; [exact Hc|]. split; [exact Hwc|]. split; [exact Htc|]. split; [exact Hr|]. split; [exact Hi|].
  rewrite (crop_names _ _ _ _ _ _ _ Hwc), En. destruct ci as [l|]; cbn; [|discriminate].
  destruct (wf_meta _ Hw) as (m' & Hm' & _ & Hl). destruct (select_total nl l) as (n' & ->); [|discriminate].
  rewrite (Hl _ En). assert (m' = m) by congruence. subst. apply Hci. exact Hm.
Qed.

(** ** Moving a crop below a warp succeeds *)

Lemma Qceil_nonneg q : (0 <= q)%Q -> 0 <= Qceiling q.
Proof.
  intros H. apply Z.lt_pred_le. rewrite Zlt_Qlt. pose proof (Qle_ceiling q).
  change (inject_Z (-1) < inject_Z (Qceiling q))%Q. assert (inject_Z (-1) < 0)%Q by reflexivity. lra.
Qed.

Lemma Qfloor_ceil q r : (q <= r)%Q -> Qfloor q <= Qceiling r.
Proof.
  intros H. rewrite Zle_Qle. pose proof (Qfloor_le q). pose proof (Qle_ceiling r). lra.
Qed.

Lemma fast_axis_clip s t n r : (0 < s)%Q -> 0 <= n -> fst r < snd r ->
  exists i, wrap_clip n (some_slice (fst (fast_axis s t n r))) = Ok i.
Proof.
  intros Hs Hn Hr. unfold fast_axis, some_slice. cbv zeta. cbn [fst snd].
  set (x0f := ((inject_Z (fst r) - t) / s)%Q). set (x1f := ((inject_Z (snd r) - t) / s)%Q).
  assert (Hle : (x0f <= x1f)%Q).
  { unfold x0f, x1f, Qdiv. apply Qmult_le_compat_r; [|apply Qlt_le_weak, Qinv_lt_0_compat, Hs].
    assert ((inject_Z (fst r) <= inject_Z (snd r))%Q) by (rewrite <- Zle_Qle; lia). lra. }
  assert (Hfc := Qfloor_ceil _ _ Hle).
  assert (Hpad : 0 <= (if Z.max (snd r - fst r) 0 =? 0 then 0
     else Qceiling (Qmax (x1f - x0f) 0 / inject_Z (Z.max (snd r - fst r) 0)))).
  { dif E; [lia|]. apply Qceil_nonneg. apply Qle_shift_div_l.
    - change 0%Q with (inject_Z 0). rewrite <- Zlt_Qlt. lia.
    - rewrite Qmult_0_l. apply Q.le_max_r. }
  revert Hpad. generalize (if Z.max (snd r - fst r) 0 =? 0 then 0
     else Qceiling (Qmax (x1f - x0f) 0 / inject_Z (Z.max (snd r - fst r) 0))) as pad. intros pad Hpad.
  assert (Hneg : Qceiling x1f < 0 -> Qfloor x0f < 0) by lia.
  revert Hfc Hneg. generalize (Qfloor x0f) (Qceiling x1f). intros a b Hab Hneg.
  unfold wrap_clip. cbv beta zeta. cbn [fst snd].
  assert (G : forall u v : Z, u <= v -> exists i : ival, (if v <? u then Err ValueError else Ok (u, v)) = Ok i).
  { intros u v H. assert (E : v <? u = false) by lia. rewrite E. eauto. }
  apply G. repeat match goal with |- context [if ?c then _ else _] => destruct c eqn:? end; lia.
Qed.

Lemma swap_clip ys xs M ysl xsl T w h : 0 <= w -> 0 <= h -> fst xs < snd xs -> fst ys < snd ys ->
  swap_warp_after_crop ys xs M = Ok (ysl, xsl, T) ->
  exists y x, wrap_clip h (some_slice ysl) = Ok y /\ wrap_clip w (some_slice xsl) = Ok x.
Proof.
  intros Hw Hh Hx Hy H. destruct (swap_warp_after_crop_slices ys xs M ysl xsl T ltac:(lia) ltac:(lia) H) as (Lx & Ly).
  assert (G : forall D i, 0 <= D -> 0 <= fst i -> fst i <= snd i -> exists r, wrap_clip D (some_slice i) = Ok r).
  { intros D [a b] HD Ha Hab. cbn in Ha, Hab. unfold wrap_clip, some_slice. cbv beta zeta. cbn [fst snd].
    assert (Ea : a <? 0 = false) by lia. assert (Eb : b <? 0 = false) by lia. rewrite Ea, Eb. dif E; eauto; exfalso; lia. }
  destruct (G h ysl) as (y & ->); [lia|lia|lia|]. destruct (G w xsl) as (x & ->); [lia|lia|lia|]. eauto.
Qed.

Lemma warp_after_crop_total s M wd al ys xs ci d nm nc : wnice (Crop (Warp s M wd al) ys xs ci d nm nc) ->
  warp_after_crop s M ys xs ci d = Ok None /\ (fst d = 0 \/ snd d = 0) \/
  exists a b nm' nc' T, warp_after_crop s M ys xs ci d = Ok (Some (Crop s a b ci (iv_len b, iv_len a) nm' nc', T)) /\
    wnice (Crop s a b ci (iv_len b, iv_len a) nm' nc').
Proof.
  intros Hn. pose proof (wnice_crop_sub _ _ _ _ _ _ _ Hn) as Hnw. destruct (wnice_warp_sub _ _ _ _ Hnw) as (Hs & _ & HM & _).
  pose proof Hn as (Hw & Ht & _). pose proof (wf_crop_ci _ _ _ _ _ _ _ Hw) as Hci. cbn [num_channels] in Hci.
  destruct Ht as (_ & Hne & -> & w0 & h0 & Hd0 & B1 & B2 & B3 & B4). cbn [fst snd].
  unfold warp_after_crop. cbn [fst snd]. dif E; [left; split; [reflexivity|lia]|right].
  assert (Hx : fst xs < snd xs) by (unfold iv_len in E; lia). assert (Hy : fst ys < snd ys) by (unfold iv_len in E; lia).
  destruct (tight_dsize _ (proj1 (proj2 Hs))) as (w & h & Hd & W0 & H0). destruct (wf_nc _ (proj1 Hs)) as (m & Hm).
  destruct (axis_aligned M) eqn:Ea.
  - rewrite Hd. apply axis_aligned_spec in Ea as (_ & _ & A11 & A22).
    destruct (fast_axis_clip (a11 M) (b1 M) w xs A11 W0 Hx) as (ix & Hix).
    destruct (fast_axis_clip (a22 M) (b2 M) h ys A22 H0 Hy) as (iy & Hiy).
    destruct (fast_axis (a11 M) (b1 M) w xs) as [xsl ox]. destruct (fast_axis (a22 M) (b2 M) h ys) as [ysl oy].
    cbn [fst] in Hix, Hiy.
    destruct (mkCrop_wnice s (Some (some_slice ysl, some_slice xsl)) ci w h m Hs Hd Hm Hci Hne) as (a & b & nm' & nc' & Hc & Hnc).
    { intros sy sx [= <- <-]. eauto. }
    rewrite Hc. cbn [bind]. eauto 10.
  - assert (Hsw : exists p, swap_warp_after_crop ys xs M = Ok p).
    { unfold swap_warp_after_crop, aff_inv. dif Ed; [apply Qeq_bool_iff in Ed; contradiction|]. cbn [bind]. eauto. }
    destruct Hsw as ([[ysl xsl] T] & Hsw).
    destruct (swap_clip _ _ _ _ _ _ w h W0 H0 Hx Hy Hsw) as (iy & ix & Hiy & Hix).
    destruct (mkCrop_wnice s (Some (some_slice ysl, some_slice xsl)) ci w h m Hs Hd Hm Hci Hne) as (a & b & nm' & nc' & Hc & Hnc).
    { intros sy sx [= <- <-]. eauto. }
    rewrite Hsw. cbn [bind]. rewrite Hc. cbn [bind]. eauto 10.
Qed.

(** ** Canonical pipelines over one leaf *)

(* Crops sit on leafs with data, or on warps they cannot pass; warps that do
   nothing are gone; no two warps, crops or dequantizations are adjacent. *)
Fixpoint pipe (t : node) : Prop :=
  match t with
  | Leaf _ => True
  | Crop s _ _ _ d _ _ =>
      pipe s /\ match s with
                | Leaf l => is_nans l = false
                | Warp _ _ _ al => al_nearest al = true \/ fst d = 0 \/ snd d = 0
                | _ => False
                end
  | Warp s M d al =>
      pipe s /\ (opt_size_eqb (Some d) (dsize s) && close_identity (al_eps al) M)%bool = false /\
      match s with
      | Leaf l => is_nans l = false
      | Crop _ _ _ _ _ _ _ | Dequant _ _ _ => True
      | _ => False
      end
  | Dequant s _ _ =>
      pipe s /\ dq_free s /\ match s with Leaf _ | Crop _ _ _ _ _ _ _ => True | _ => False end
  | Concat _ _ | Overview _ _ _ => False
  end.

Lemma pipe_num t : pipe t -> exists n, num_overviews t = Ok n.
Proof.
  induction t as [l|ps d IH|s ys xs ci d nm nc IH|s M d al IH|s q d IH|s k d IH] using node_ind'; cbn [pipe num_overviews];
    intros H; try contradiction; eauto; apply IH, H.
Qed.

Lemma pipe_push f t : pipe t -> push_tail f t = Ok t.
Proof.
  destruct t as [l|ps d|s ys xs ci d nm nc|s M d al|s q d|s k d]; cbn [pipe]; try contradiction; [reflexivity|..];
    destruct s; try reflexivity; cbn; tauto.
Qed.

Lemma pipe_crop_tail f t : pipe t -> crop_tail f t = Ok t.
Proof.
  intros H. pose proof (pipe_push f t H) as Hp.
  destruct t as [l|ps d|s ys xs ci d nm nc|s M d al|s q d|s k d]; cbn [crop_tail]; auto.
  destruct s; auto. cbn in H. tauto.
Qed.

(* a warp over a tree without overviews to use stays *)
Lemma other_same o f s M d al : pipe s -> ov_less s ->
  (sp <- split_warp o f s M d al ;;
   match sp with Some n => n' <- opt_sub f n ;; f n' | None => absorb o s M d al end) = Ok (Warp s M d al).
Proof.
  intros Hp Hl. destruct (pipe_num s Hp) as (no & Hno).
  assert (E : split_warp o f s M d al = Ok None).
  { unfold split_warp. rewrite Hno. cbn [bind]. destruct (ov_less_num _ _ Hl Hno) as [-> | ->]; reflexivity. }
  rewrite E. cbn [bind]. unfold absorb. rewrite (lookahead_ov_less _ _ Hl). now destruct (negb (absorbs o M)).
Qed.

Lemma warp_pipe_aux o f s M d al : pipe s -> ov_less s -> (match s with Warp _ _ _ _ => False | _ => True end) ->
  exists n, (if (opt_size_eqb (Some d) (dsize s) && close_identity (al_eps al) M)%bool then Ok s
  else match s with
       | Concat _ _ => push_tail f (Warp s M d al)
       | Leaf l => if is_nans l then Ok (nans_warp l d) else
          (sp <- split_warp o f s M d al ;;
           match sp with Some n => n' <- opt_sub f n ;; f n' | None => absorb o s M d al end)
       | _ => (sp <- split_warp o f s M d al ;;
           match sp with Some n => n' <- opt_sub f n ;; f n' | None => absorb o s M d al end)
       end) = Ok n /\ pipe n /\ (dq_free s -> dq_free n).
Proof.
  intros Hp Hl Hnw. destruct (opt_size_eqb (Some d) (dsize s) && close_identity (al_eps al) M)%bool eqn:E.
  { exists s. auto. }
  pose proof (other_same o f s M d al Hp Hl) as Ho. rewrite Ho.
  destruct s as [l|ps d0|s ys xs ci d0 nm nc|s M1 d0 al0|s q d0|s k d0]; try contradiction;
    try (eexists; split; [reflexivity|]; split; [|auto]; cbn [pipe]; split; [exact Hp|]; split; [exact E|exact I]).
  destruct (is_nans l) eqn:El.
  - eexists. split; [reflexivity|]. cbn. auto.
  - eexists. split; [reflexivity|]. cbn [pipe]. auto.
Qed.

Lemma warp_pipe o f s M d al : pipe s -> ov_less s ->
  exists n, opt_warp o f s M d al = Ok n /\ pipe n /\ (dq_free s -> dq_free n).
Proof.
  intros Hp Hl. unfold opt_warp.
  destruct s as [l|ps d0|s ys xs ci d0 nm nc|s M1 d0 al0|s q d0|s k d0]; try exact (warp_pipe_aux o f _ M d al Hp Hl I); try contradiction.
  apply (warp_pipe_aux o f s (aff_mul M M1) d (drop_backend al)); [apply Hp|exact Hl|].
  cbn [pipe] in Hp. destruct s; tauto.
Qed.

Lemma pipe_opts o t : pipe t -> ov_free t -> opts o t t.
Proof.
  induction t as [l|ps d IH|s ys xs ci d nm nc IH|s M d al IH|s q d IH|s k d IH] using node_ind'; intros Hp Hr; try contradiction.
  - apply opts_leaf.
  - destruct Hp as [Hp Hs]. eapply (opts_crop _ _ s _ _ _ _ _ _ _ 0); [apply IH; assumption|]. unfold opt_crop.
    destruct s; try contradiction; cbn [bind].
    + now rewrite Hs.
    + destruct (al_nearest al); [reflexivity|]. unfold warp_after_crop.
      assert (E : ((fst d =? 0) || (snd d =? 0))%bool = true) by (destruct Hs as [Hs|[Hs|Hs]]; [discriminate|lia|lia]).
      rewrite E. reflexivity.
  - destruct Hp as (Hp & Hne & Hs). cbn [ov_free] in Hr.
    assert (Hst : opt_warp o (O o 0) s M d al = Ok (Warp s M d al)).
    { unfold opt_warp. pose proof (other_same o (O o 0) s M d al Hp Hr) as Ho.
      destruct s; try contradiction; cbv beta iota zeta; rewrite Hne; try exact Ho. rewrite Hs. exact Ho. }
    pose proof (IH Hp (ov_less_free _ Hr)) as Hs'. apply opts_O in Hs' as (g & Hg). exists (S g), false. cbn [optimize].
    change (rmap fst (optimize o g s)) with (O o g s). rewrite Hg. cbn [bind].
    change (fun t => rmap fst (optimize o g t)) with (O o g).
    rewrite (opt_warp_mono _ _ _ _ _ _ _ _ (le_O o 0 g ltac:(lia)) Hst). reflexivity.
  - destruct Hp as (Hp & _ & Hs). eapply (opts_dequant _ _ s _ _ _ 0); [apply IH; assumption|].
    unfold opt_dequant, push_tail. destruct s; try contradiction; reflexivity.
Qed.

Lemma opts_warp o s s1 M d al n f : opts o s s1 -> opt_warp o (O o f) s1 M d al = Ok n ->
  opts o (Warp s M d al) n.
Proof.
  intros Hs H. apply opts_O in Hs as (g & Hs). exists (S (Nat.max f g)), false. cbn [optimize].
  change (fun t => rmap fst (optimize o (Nat.max f g) t)) with (O o (Nat.max f g)).
  change (rmap fst (optimize o (Nat.max f g) s)) with (O o (Nat.max f g) s).
  rewrite (le_O o g (Nat.max f g) ltac:(lia) _ _ Hs). cbn [bind].
  now rewrite (opt_warp_mono _ _ _ _ _ _ _ _ (le_O o f (Nat.max f g) ltac:(lia)) H).
Qed.

(* what optimize() of a crop does once the child is optimized *)
Lemma opts_crop_inv o s s1 ys xs ci d nm nc n : opts o s s1 -> opts o (Crop s ys xs ci d nm nc) n ->
  exists f, opt_crop (O o f) s1 ys xs ci d nm nc = Ok n.
Proof.
  intros (g & b & Hg) (f & b' & H). destruct f as [|f]; [discriminate|]. cbn [optimize] in H.
  apply bind_ok in H as (s2 & E1 & H). apply bind_ok in H as (n' & E2 & H). injection H as <- <-.
  change (fun t => rmap fst (optimize o f t)) with (O o f) in E2.
  destruct (optimize o f s) as [[a ba]|] eqn:Ea; [|discriminate]. injection E1 as <-.
  pose proof (optimize_det _ _ _ _ _ _ Ea Hg) as E. injection E as -> _. eauto.
Qed.

Lemma dequant_pipe o s q : pipe s -> dq_free s -> wnice s ->
  exists f n, opt_dequant (O o f) s q (dsize s) = Ok n /\ pipe n.
Proof.
  intros Hp Hf Hn. unfold opt_dequant.
  destruct s as [l|ps d0|s ys xs ci d0 nm nc|s M d0 al|s q0 d0|s k d0]; try contradiction.
  - exists 0%nat. eexists. split; [reflexivity|]. cbn. auto.
  - exists 0%nat. eexists. rewrite pipe_push by (cbn [pipe dq_free] in *; auto). split; [reflexivity|]. cbn [pipe dq_free] in *. auto.
  - destruct (wnice_warp_sub _ _ _ _ Hn) as (Hs & Hl & _).
    assert (Hps : pipe (mkDequant s q)).
    { unfold mkDequant. destruct Hp as (Hp & _ & Hk). cbn [pipe]. split; [exact Hp|]. cbn [dq_free] in Hf. split; [exact Hf|].
      destruct s; try contradiction; exact I. }
    destruct (warp_pipe o (O o 0) (mkDequant s q) M d0 al Hps Hl) as (n & Hw & Hpn & _).
    assert (Ho : opts o (Warp (mkDequant s q) M d0 al) n).
    { eapply opts_warp; [|exact Hw]. apply pipe_opts; [exact Hps|]. cbn. now apply ov_less_free. }
    apply opts_O in Ho as (f & Ho). exists f, n. rewrite Ho. cbn [bind]. split; [now apply pipe_push|exact Hpn].
Qed.
