(* Proofs about the image operations of ApiModel.v. *)
From Verif Require Import Py PyProofs GeomModel GeomProofs GraphModel GraphSpec GraphBase GraphTotal
  WarpTotal WarpCanon ApiModel ApiSpec.
From Coq Require Import Qfield Qabs.
Local Open Scope Q_scope.

(** ** Crops *)

Lemma crop_plain s sl ci t m : wf s -> num_channels s = Some m -> ci_ok (Some m) ci ->
  api_crop s sl ci true true 0 false = Ok t ->
  exists w h ys xs, dsize s = Some (w, h) /\
    match sl with
    | Some (sy, sx) => wrap_clip h sy = Ok ys /\ wrap_clip w sx = Ok xs
    | None => ys = (0, h)%Z /\ xs = (0, w)%Z
    end /\
    dsize t = Some (iv_len xs, iv_len ys) /\
    num_channels t = sel_nc (num_channels s) ci /\ names t = sel (names s) ci /\
    forall x y c smp, vis t x y c smp <->
      inside (iv_len xs, iv_len ys) x y /\
      exists b, selects ci c b /\ vis s (x + inject_Z (fst xs)) (y + inject_Z (fst ys)) b smp.
Proof.
  intros Hw Hm Hci H. unfold api_crop in H. cbn in H.
  assert (Hci' : ci_ok (num_channels s) ci) by now rewrite Hm.
  destruct (mkCrop_spec _ _ _ _ _ Hw Hm Hci' H) as (w & h & ys & xs & nm & nc & Hd & -> & Hwt & Hsl).
  exists w, h, ys, xs. split; [exact Hd|]. split; [exact Hsl|]. split; [reflexivity|].
  split; [now apply crop_nc|]. split; [now apply crop_names|]. intros. cbn. reflexivity.
Qed.

Lemma wf_warp_default c T d : wf c -> wf (Warp c T d default_algo).
Proof. cbn. split; [assumption|reflexivity]. Qed.

Lemma inside_closed w h x y : inside (w, h) x y <-> 0 <= x <= inject_Z w /\ 0 <= y <= inject_Z h.
Proof. reflexivity. Qed.

(* the padded window of one axis: what is cropped and what is added *)
Lemma embed_touch D a b p d0 d1 e0 e1 : (0 <= D)%Z -> (0 <= p)%Z -> (a - p <= D)%Z -> (0 <= b + p)%Z ->
  embed_axis D a b p = Ok ((d0, d1), (e0, e1)) ->
  (a <= b)%Z /\ (0 <= d0 <= d1)%Z /\ (d1 <= D)%Z /\ d0 = Z.max 0 (a - p) /\ d1 = Z.min D (b + p) /\
  e0 = (d0 - (a - p))%Z /\ e1 = (b + p - d1)%Z.
Proof.
  intros HD Hp H1 H2 H. unfold embed_axis in H. cbv zeta in H. destruct (b <? a)%Z eqn:E; [discriminate|].
  injection H as <- <- <- <-. lia.
Qed.

Lemma padded_view s sl pad t w h : wf s -> dsize s = Some (w, h) -> (0 <= w)%Z -> (0 <= h)%Z -> (0 <= pad)%Z ->
  api_padded_crop s sl pad = Ok t ->
  let ys := plain_bounds h (fst sl) in
  let xs := plain_bounds w (snd sl) in
  (fst xs <= snd xs)%Z /\ (fst ys <= snd ys)%Z /\
  ((fst xs - pad <= w)%Z -> (0 <= snd xs + pad)%Z -> (fst ys - pad <= h)%Z -> (0 <= snd ys + pad)%Z ->
   forall x y c smp, vis t x y c smp <->
     inside (iv_len xs + 2 * pad, iv_len ys + 2 * pad)%Z x y /\
     vis s (x + inject_Z (fst xs - pad)) (y + inject_Z (fst ys - pad)) c smp) /\
  dsize t = Some (iv_len xs + 2 * pad, iv_len ys + 2 * pad)%Z /\
  num_channels t = num_channels s /\ names t = names s.
Proof.
  intros Hw Hd Hw0 Hh0 Hp H ys xs. destruct (wf_meta _ Hw) as (m & Hm & _ & _).
  unfold api_padded_crop in H. rewrite Hd in H. cbn [fst snd] in H. fold ys xs in H.
  apply bind_ok in H as ([[dy dx] tf] & Hpc & H). apply bind_ok in H as (c & Hc & H).
  unfold padded_crop in Hpc. cbn [fst snd] in Hpc.
  apply bind_ok in Hpc as ([[y0 y1] [oy ey]] & EY & Hpc). apply bind_ok in Hpc as ([[x0 x1] [ox ex]] & EX & Hpc).
  assert (Ly : (fst ys <= snd ys)%Z) by (unfold embed_axis in EY; destruct (snd ys <? fst ys)%Z eqn:E; [discriminate|lia]).
  assert (Lx : (fst xs <= snd xs)%Z) by (unfold embed_axis in EX; destruct (snd xs <? fst xs)%Z eqn:E; [discriminate|lia]).
  destruct (embed_axis_window h (fst ys) (snd ys) pad Hh0 Hp Ly) as (y0' & y1' & oy' & ey' & EY' & Y1 & Y2 & Y3 & _).
  destruct (embed_axis_window w (fst xs) (snd xs) pad Hw0 Hp Lx) as (x0' & x1' & ox' & ex' & EX' & X1 & X2 & X3 & _).
  rewrite EY in EY'. rewrite EX in EX'. injection EY' as <- <- <- <-. injection EX' as <- <- <- <-.
  split; [exact Lx|]. split; [exact Ly|].
  assert (Hdd : dy = (y0, y1) /\ dx = (x0, x1)) by (destruct (_ && _)%bool in Hpc; injection Hpc as <- <- <-; auto).
  destruct Hdd as [-> ->]. pose proof Hc as Hc'.
  destruct (mkCrop_spec s _ None _ _ Hw Hm I Hc) as (w' & h' & cy & cx & nm & nc & Hd' & -> & Hwt & Hy & Hx).
  rewrite Hd in Hd'. injection Hd' as <- <-. unfold some_slice in Hy, Hx. cbn [fst snd] in Hy, Hx.
  rewrite wrap_clip_id in Hy by lia. rewrite wrap_clip_id in Hx by lia. injection Hy as <-. injection Hx as <-.
  pose proof (crop_nc _ _ _ _ _ _ _ Hwt) as Enc. pose proof (crop_names _ _ _ _ _ _ _ Hwt) as Enm.
  cbn [sel sel_nc] in Enc, Enm.
  destruct ((oy =? 0) && (ey =? 0) && (ox =? 0) && (ex =? 0))%Z%bool eqn:E0 in Hpc.
  - injection Hpc as <-. injection H as <-. rewrite !andb_true_iff, !Z.eqb_eq in E0. destruct E0 as (((-> & ->) & ->) & ->).
    split; [|split; [unfold iv_len in *; cbn [dsize fst snd]; do 2 f_equal; lia|auto]].
    intros T1 T2 T3 T4 x y k smp.
    destruct (embed_touch _ _ _ _ _ _ _ _ Hh0 Hp T3 T4 EY) as (_ & _ & _ & EY0 & EY1 & EY2 & EY3).
    destruct (embed_touch _ _ _ _ _ _ _ _ Hw0 Hp T1 T2 EX) as (_ & _ & _ & EX0 & EX1 & EX2 & EX3).
    cbn [vis selects]. unfold iv_len. cbn [fst snd].
    replace (x1 - x0)%Z with (snd xs - fst xs + 2 * pad)%Z by lia.
    replace (y1 - y0)%Z with (snd ys - fst ys + 2 * pad)%Z by lia.
    replace (fst xs - pad)%Z with x0 by lia. replace (fst ys - pad)%Z with y0 by lia.
    split.
    + intros (Hi & b & -> & Hv). split; assumption.
    + intros (Hi & Hv). split; [assumption|]. eauto.
  - injection Hpc as <-. injection H as <-.
    split; [|split; [unfold iv_len in *; cbn [dsize fst snd]; do 2 f_equal; lia|auto]].
    intros T1 T2 T3 T4 x y k smp.
    destruct (embed_touch _ _ _ _ _ _ _ _ Hh0 Hp T3 T4 EY) as (_ & _ & _ & EY0 & EY1 & EY2 & EY3).
    destruct (embed_touch _ _ _ _ _ _ _ _ Hw0 Hp T1 T2 EX) as (_ & _ & _ & EX0 & EX1 & EX2 & EX3).
    cbn [vis selects]. unfold iv_len. cbn [fst snd].
    replace (x1 - x0 + ox + ex)%Z with (snd xs - fst xs + 2 * pad)%Z by lia.
    replace (y1 - y0 + oy + ey)%Z with (snd ys - fst ys + 2 * pad)%Z by lia.
    replace (fst xs - pad)%Z with (x0 - ox)%Z by lia. replace (fst ys - pad)%Z with (y0 - oy)%Z by lia.
    assert (XI : forall a b, inject_Z (a - b) == inject_Z a - inject_Z b)
      by (intros; unfold Z.sub; rewrite inject_Z_plus, inject_Z_opp; reflexivity).
    split.
    + intros (Hi & x' & y' & Hx & Hy & Hi' & b & -> & Hv). split; [assumption|].
      rewrite ax_translate in Hx. rewrite ay_translate in Hy.
      eapply vis_proper; [| |exact Hv]; rewrite XI; lra.
    + intros (Hi & Hv). split; [assumption|]. destruct (vis_inside _ _ _ _ _ Hv) as (d & Hd' & Hin).
      rewrite Hd in Hd'. injection Hd' as <-. destruct Hin as [Hin1 Hin2]. cbn [fst snd] in Hin1, Hin2.
      exists (x - inject_Z ox), (y - inject_Z oy). rewrite ax_translate, ay_translate.
      split; [ring|]. split; [ring|].
      rewrite XI in Hin1, Hin2. destruct Hi as [Hi1 Hi2]. cbn [fst snd] in Hi1, Hi2.
      rewrite inject_Z_plus, XI, inject_Z_mult in Hi1, Hi2.
      split.
      * assert (C1 : inject_Z x0 == 0 \/ inject_Z ox == 0).
        { destruct (Z.eq_dec x0 0) as [-> | N]; [left; reflexivity|right]. assert (ox = 0)%Z as -> by lia. reflexivity. }
        assert (C2 : inject_Z y0 == 0 \/ inject_Z oy == 0).
        { destruct (Z.eq_dec y0 0) as [-> | N]; [left; reflexivity|right]. assert (oy = 0)%Z as -> by lia. reflexivity. }
        assert (C3 : inject_Z x1 == inject_Z w \/ inject_Z x1 == inject_Z (snd xs) + inject_Z pad).
        { rewrite <- inject_Z_plus. destruct (Z.min_spec w (snd xs + pad)) as [[_ M]|[_ M]]; rewrite M in EX1; subst x1; auto with qarith. }
        assert (C4 : inject_Z y1 == inject_Z h \/ inject_Z y1 == inject_Z (snd ys) + inject_Z pad).
        { rewrite <- inject_Z_plus. destruct (Z.min_spec h (snd ys + pad)) as [[_ M]|[_ M]]; rewrite M in EY1; subst y1; auto with qarith. }
        assert (D1 : inject_Z ox == inject_Z x0 - inject_Z (fst xs) + inject_Z pad)
          by (rewrite EX2 at 1; rewrite !XI; ring).
        assert (D2 : inject_Z oy == inject_Z y0 - inject_Z (fst ys) + inject_Z pad)
          by (rewrite EY2 at 1; rewrite !XI; ring).
        assert (P0 : 0 <= inject_Z pad) by (change 0 with (inject_Z 0); rewrite <- Zle_Qle; lia).
        unfold inside. cbn [fst snd]. rewrite !XI. change (inject_Z 2) with 2 in *.
        split; split; lra.
      * exists k. split; [reflexivity|]. eapply vis_proper; [| |exact Hv]; rewrite XI; ring.
Qed.

(** ** Warps *)

Lemma api_warp_size close s M d al lazy t w h : (0 <= w)%Z -> (0 <= h)%Z -> exact_close close ->
  dsize s = Some (w, h) -> api_warp close s M d al lazy = Ok t ->
  dsize t = Some (match d with Some d => d | None => auto_dsize M (w, h) end).
Proof.
  intros Hw Hh Hc Hd H. unfold api_warp in H. rewrite Hd in H.
  destruct (lazy && lazy_warp_noop close (w, h) (Some M) d)%bool eqn:E.
  - injection H as <-. rewrite andb_true_iff in E. destruct E as [_ E].
    destruct (lazy_warp_noop_spec close w h (Some M) d Hw Hh Hc E) as [[-> | ->] [_ Ha]]; rewrite ?Ha; exact Hd.
  - destruct d as [d|]; [now injection H as <-|]. unfold mkWarp_auto in H. rewrite Hd in H. now injection H as <-.
Qed.

Lemma api_warp_vis close s M d al lazy t w h : (0 <= w)%Z -> (0 <= h)%Z -> exact_close close ->
  dsize s = Some (w, h) -> api_warp close s M d al lazy = Ok t ->
  forall x y c smp, vis t x y c smp <->
    inside (match d with Some d => d | None => auto_dsize M (w, h) end) x y /\
    exists x' y', x == ax M x' y' /\ y == ay M x' y' /\ vis s x' y' c smp.
Proof.
  intros Hw Hh Hc Hd H x y c smp. unfold api_warp in H. rewrite Hd in H.
  destruct (lazy && lazy_warp_noop close (w, h) (Some M) d)%bool eqn:E.
  - injection H as <-. rewrite andb_true_iff in E. destruct E as [_ E].
    destruct (lazy_warp_noop_spec close w h (Some M) d Hw Hh Hc E) as [Hs [HM Ha]].
    assert (Es : match d with Some d => d | None => auto_dsize M (w, h) end = (w, h)) by (destruct Hs as [-> | ->]; congruence).
    rewrite Es. split.
    + intros Hv. destruct (vis_inside _ _ _ _ _ Hv) as (d' & Hd' & Hi). rewrite Hd in Hd'. injection Hd' as <-.
      split; [exact Hi|]. exists x, y. destruct (HM x y) as [-> ->]. repeat split; auto with qarith.
    + intros (_ & x' & y' & Hx & Hy & Hv). destruct (HM x' y') as [E1 E2]. rewrite E1 in Hx. rewrite E2 in Hy.
      eapply vis_proper; [| |exact Hv]; auto with qarith.
  - destruct d as [d|].
    + injection H as <-. reflexivity.
    + unfold mkWarp_auto in H. rewrite Hd in H. injection H as <-. reflexivity.
Qed.

Lemma api_warp_meta close s M d al lazy t : api_warp close s M d al lazy = Ok t ->
  num_channels t = num_channels s /\ names t = names s.
Proof.
  unfold api_warp, mkWarp_auto. destruct (dsize s); [|discriminate].
  destruct (_ && _)%bool; [intros [= <-]; auto|]. destruct d; intros [= <-]; auto.
Qed.

Lemma resize_total close s w h d al lazy : dsize s = Some (w, h) -> (0 < w)%Z -> (0 < h)%Z ->
  exists t, api_resize close s d al lazy = Ok t.
Proof.
  intros Hd Hw Hh. unfold api_resize, api_scale, api_warp. rewrite Hd.
  destruct ((w =? 0) || (h =? 0))%Z%bool eqn:E; [rewrite orb_true_iff, !Z.eqb_eq in E; lia|].
  destruct (_ && _)%bool; eauto.
Qed.

Lemma inject_pos n : (0 < n)%Z -> 0 < inject_Z n.
Proof. change 0 with (inject_Z 0). now rewrite <- Zlt_Qlt. Qed.

Lemma resize_vis close s d al lazy t w h : (0 < w)%Z -> (0 < h)%Z -> (0 < fst d)%Z -> (0 < snd d)%Z ->
  exact_close close -> dsize s = Some (w, h) -> api_resize close s d al lazy = Ok t ->
  dsize t = Some d /\ num_channels t = num_channels s /\ names t = names s /\
  forall x y c smp, vis t x y c smp <->
    inside d x y /\
    vis s (x * inject_Z w / inject_Z (fst d)) (y * inject_Z h / inject_Z (snd d)) c smp.
Proof.
  intros Hw Hh Hdw Hdh Hc Hd H. unfold api_resize in H. rewrite Hd in H.
  destruct (_ || _)%bool; [discriminate|]. unfold api_scale in H.
  pose proof (api_warp_size _ _ _ _ _ _ _ _ _ (Z.lt_le_incl _ _ Hw) (Z.lt_le_incl _ _ Hh) Hc Hd H) as Es. cbn in Es.
  destruct (api_warp_meta _ _ _ _ _ _ _ H) as [E1 E2].
  split; [exact Es|]. split; [exact E1|]. split; [exact E2|].
  intros x y c smp. rewrite (api_warp_vis _ _ _ _ _ _ _ _ _ (Z.lt_le_incl _ _ Hw) (Z.lt_le_incl _ _ Hh) Hc Hd H). cbv beta iota.
  pose proof (inject_pos _ Hw). pose proof (inject_pos _ Hh).
  pose proof (inject_pos _ Hdw). pose proof (inject_pos _ Hdh).
  split.
  - intros (Hi & x' & y' & Hx & Hy & Hv). split; [exact Hi|]. rewrite ax_scale in Hx. rewrite ay_scale in Hy.
    eapply vis_proper; [| |exact Hv]; [rewrite Hx|rewrite Hy]; field; repeat split; lra.
  - intros (Hi & Hv). split; [exact Hi|]. eexists _, _. split; [|split; [|exact Hv]].
    + rewrite ax_scale. field. repeat split; lra.
    + rewrite ay_scale. field. repeat split; lra.
Qed.

Lemma inside_rescale d w h x y : (0 < fst d)%Z -> (0 < snd d)%Z -> (0 < w)%Z -> (0 < h)%Z -> inside d x y ->
  inside (w, h) (x * inject_Z w / inject_Z (fst d)) (y * inject_Z h / inject_Z (snd d)).
Proof.
  intros Hdw Hdh Hw Hh [[A B] [C D]].
  assert (G : forall a n m, (0 < n)%Z -> (0 < m)%Z -> 0 <= a -> a <= inject_Z n -> 0 <= a * inject_Z m / inject_Z n <= inject_Z m).
  { clear. intros a n m Hn Hm Ha Hb. pose proof (inject_pos _ Hn). pose proof (inject_pos _ Hm). split.
    - apply Qle_shift_div_l; [assumption|]. rewrite Qmult_0_l. apply Qmult_le_0_compat; lra.
    - apply Qle_shift_div_r; [assumption|]. rewrite Qmult_comm. apply Qmult_le_l; assumption. }
  split; cbn [fst snd]; apply G; assumption.
Qed.

Lemma resize_twice close s d1 d2 al1 al2 al lz1 lz2 lz t1 t2 t w h :
  (0 < w)%Z -> (0 < h)%Z -> (0 < fst d1)%Z -> (0 < snd d1)%Z -> (0 < fst d2)%Z -> (0 < snd d2)%Z ->
  exact_close close -> dsize s = Some (w, h) ->
  api_resize close s d1 al1 lz1 = Ok t1 -> api_resize close t1 d2 al2 lz2 = Ok t2 ->
  api_resize close s d2 al lz = Ok t ->
  dsize t2 = dsize t /\ forall x y c smp, vis t2 x y c smp <-> vis t x y c smp.
Proof.
  intros Hw Hh H1w H1h H2w H2h Hc Hd E1 E2 E.
  destruct (resize_vis _ _ _ _ _ _ _ _ Hw Hh H1w H1h Hc Hd E1) as (S1 & _ & _ & V1).
  assert (S1' : dsize t1 = Some (fst d1, snd d1)) by now destruct d1.
  destruct (resize_vis _ _ _ _ _ _ _ _ H1w H1h H2w H2h Hc S1' E2) as (S2 & _ & _ & V2).
  destruct (resize_vis _ _ _ _ _ _ _ _ Hw Hh H2w H2h Hc Hd E) as (S & _ & _ & V).
  split; [congruence|]. intros x y c smp. rewrite V2, V, V1.
  pose proof (inject_pos _ Hw). pose proof (inject_pos _ Hh).
  pose proof (inject_pos _ H1w). pose proof (inject_pos _ H1h).
  pose proof (inject_pos _ H2w). pose proof (inject_pos _ H2h).
  split.
  - intros (Hi & _ & Hv). split; [exact Hi|]. eapply vis_proper; [| |exact Hv]; field; repeat split; lra.
  - intros (Hi & Hv). split; [exact Hi|]. split.
    + destruct d1 as [a b]. apply (inside_rescale d2); assumption.
    + eapply vis_proper; [| |exact Hv]; field; repeat split; lra.
Qed.

Lemma resize_back close s d al1 al2 lz1 lz2 t1 t2 w h :
  (0 < w)%Z -> (0 < h)%Z -> (0 < fst d)%Z -> (0 < snd d)%Z ->
  exact_close close -> dsize s = Some (w, h) ->
  api_resize close s d al1 lz1 = Ok t1 -> api_resize close t1 (w, h) al2 lz2 = Ok t2 ->
  dsize t2 = dsize s /\ forall x y c smp, vis t2 x y c smp <-> vis s x y c smp.
Proof.
  intros Hw Hh H1w H1h Hc Hd E1 E2.
  destruct (resize_vis _ _ _ _ _ _ _ _ Hw Hh H1w H1h Hc Hd E1) as (S1 & _ & _ & V1).
  assert (S1' : dsize t1 = Some (fst d, snd d)) by now destruct d.
  destruct (resize_vis close t1 (w, h) al2 lz2 t2 (fst d) (snd d) H1w H1h Hw Hh Hc S1' E2) as (S2 & _ & _ & V2).
  split; [congruence|]. intros x y c smp. rewrite V2, V1. cbn [fst snd].
  pose proof (inject_pos _ Hw). pose proof (inject_pos _ Hh).
  pose proof (inject_pos _ H1w). pose proof (inject_pos _ H1h).
  split.
  - intros (Hi & _ & Hv). eapply vis_proper; [| |exact Hv]; field; repeat split; lra.
  - intros Hv. destruct (vis_inside _ _ _ _ _ Hv) as (d' & Hd' & Hi). rewrite Hd in Hd'. injection Hd' as <-.
    split; [exact Hi|]. split.
    + destruct d as [a b]. now apply (inside_rescale (w, h)).
    + eapply vis_proper; [| |exact Hv]; field; repeat split; lra.
Qed.

(** ** Overviews and downscaling *)

Lemma auto_scale fx fy w h : 0 <= fx -> 0 <= fy -> (0 <= w)%Z -> (0 <= h)%Z ->
  auto_dsize (aff_scale fx fy) (w, h) = (Qceiling (fx * inject_Z w), Qceiling (fy * inject_Z h)).
Proof.
  intros Hx Hy Hw Hh. unfold auto_dsize, Qmax4. cbn [fst snd].
  assert (W : 0 <= fx * inject_Z w).
  { apply Qmult_le_0_compat; [assumption|]. change 0 with (inject_Z 0). now rewrite <- Zle_Qle. }
  assert (H : 0 <= fy * inject_Z h).
  { apply Qmult_le_0_compat; [assumption|]. change 0 with (inject_Z 0). now rewrite <- Zle_Qle. }
  f_equal; apply Qceiling_comp; rewrite ?ax_scale, ?ay_scale, ?Qmult_0_r.
  - rewrite (Q.max_r 0 (fx * inject_Z w)) by assumption. apply Q.max_id.
  - rewrite (Q.max_id 0), (Q.max_id (fy * inject_Z h)). now apply Q.max_r.
Qed.

Lemma overview_scale close s k al lazy t t' w h : (0 <= w)%Z -> (0 <= h)%Z -> exact_close close ->
  dsize s = Some (w, h) -> mkOverview s k = Ok t ->
  api_scale close s (1 / pow2 k) (1 / pow2 k) None al lazy = Ok t' ->
  dsize t = dsize t' /\ num_channels t = num_channels t' /\ names t = names t' /\
  forall x y c smp, vis t x y c smp <-> vis t' x y c smp.
Proof.
  intros Hw Hh Hc Hd Ho Hs. unfold mkOverview in Ho. rewrite Hd in Ho. injection Ho as <-.
  pose proof (pow2_pos k) as P. pose proof (inv_pow2_pos k) as P'.
  pose proof (api_warp_size _ _ _ _ _ _ _ _ _ Hw Hh Hc Hd Hs) as Es.
  destruct (api_warp_meta _ _ _ _ _ _ _ Hs) as [E1 E2].
  cbv beta iota in Es. rewrite auto_scale in Es by lra || assumption.
  assert (Eo : overview_dsize k (w, h) = (Qceiling (1 / pow2 k * inject_Z w), Qceiling (1 / pow2 k * inject_Z h))).
  { unfold overview_dsize, overview_len. cbn [fst snd]. f_equal; apply Qceiling_comp; field; repeat split; lra. }
  split; [cbn [dsize]; congruence|]. split; [cbn; congruence|]. split; [cbn; congruence|].
  intros x y c smp. rewrite (api_warp_vis _ _ _ _ _ _ _ _ _ Hw Hh Hc Hd Hs). cbv beta iota.
  rewrite auto_scale by lra || assumption. cbn [vis]. rewrite Eo. split.
  - intros (Hi & Hv). split; [exact Hi|]. eexists _, _. split; [|split; [|exact Hv]].
    + rewrite ax_scale. field. repeat split; lra.
    + rewrite ay_scale. field. repeat split; lra.
  - intros (Hi & x' & y' & Hx & Hy & Hv). split; [exact Hi|]. rewrite ax_scale in Hx. rewrite ay_scale in Hy.
    eapply vis_proper; [| |exact Hv]; [rewrite Hx|rewrite Hy]; field; repeat split; lra.
Qed.

(** ** Chains of warps *)

Definition mat_eq (A B : affine) : Prop :=
  a11 A == a11 B /\ a12 A == a12 B /\ a21 A == a21 B /\ a22 A == a22 B /\ b1 A == b1 B /\ b2 A == b2 B.

Lemma mat_eq_mul A B C : mat_eq A B -> mat_eq (aff_mul C A) (aff_mul C B).
Proof.
  intros (E1 & E2 & E3 & E4 & E5 & E6). unfold mat_eq, aff_mul. cbn. rewrite E1, E2, E3, E4, E5, E6.
  repeat split; reflexivity.
Qed.

Lemma mat_eq_points A B : mat_eq A B <-> forall x y, ax A x y == ax B x y /\ ay A x y == ay B x y.
Proof.
  split.
  - intros (E1 & E2 & E3 & E4 & E5 & E6) x y. unfold ax, ay. rewrite E1, E2, E3, E4, E5, E6. split; reflexivity.
  - intros H. pose proof (H 0 0) as [A1 A2]. pose proof (H 1 0) as [A3 A4]. pose proof (H 0 1) as [A5 A6].
    unfold ax, ay in *. unfold mat_eq. repeat split; lra.
Qed.

Lemma close_exact eps M : eps == 0 -> close_identity eps M = true <-> mat_eq M aff_id.
Proof.
  intros He. unfold close_identity, entry_close, mat_eq. rewrite !andb_true_iff, !Qle_bool_iff, !He. cbn [aff_id a11 a12 a21 a22 b1 b2].
  assert (G : forall a b, Qabs (a - b) <= 0 + 0 * Qabs b <-> a == b).
  { intros a b. rewrite Qmult_0_l, Qplus_0_r. split.
    - intros H. apply Qabs_Qle_condition in H. lra.
    - intros ->. apply Qabs_Qle_condition. lra. }
  rewrite ?G. tauto.
Qed.

(* the transform of a whole chain: the last warp is applied last *)
Definition chain_map (c : list (affine * size * algo)) : affine :=
  fold_left (fun P w => aff_mul (fst (fst w)) P) c aff_id.

Lemma chain_opts o l c M d al : l_kind l = Data -> (l_ov l = None \/ l_ov l = Some 0%Z) ->
  (forall w, In w (c ++ [(M, d, al)]) -> al_eps (snd w) == 0) ->
  let P := chain_map (c ++ [(M, d, al)]) in
  exists n, optimizes o (warps (Leaf l) (c ++ [(M, d, al)])) n /\
    ((n = Leaf l /\ mat_eq P aff_id /\ d = l_dsize l) \/
     (exists P' al', n = Warp (Leaf l) P' d al' /\ mat_eq P' P /\ drop_backend al' = drop_backend al /\
        ~ (mat_eq P aff_id /\ d = l_dsize l))).
Proof.
  intros Hk Hov. revert M d al. induction c as [|[[M0 d0] al0] c IH] using rev_ind; intros M d al He P.
  - cbn in P. unfold warps. cbn [app fold_left fst snd].
    assert (Hst : opt_warp o (O o 0) (Leaf l) M d al =
      if (opt_size_eqb (Some d) (Some (l_dsize l)) && close_identity (al_eps al) M)%bool then Ok (Leaf l) else Ok (Warp (Leaf l) M d al)).
    { unfold opt_warp. cbn [dsize]. destruct (_ && _)%bool; [reflexivity|].
      unfold is_nans. rewrite Hk. apply other_same; [exact I|exact Hov]. }
    assert (HP : mat_eq M P).
    { apply mat_eq_points. intros x y. unfold P. rewrite ax_mul, ay_mul. unfold ax, ay. cbn. split; ring. }
    assert (Ee : al_eps al == 0) by (apply (He (M, d, al)); now left).
    assert (HI : close_identity (al_eps al) M = true <-> mat_eq P aff_id).
    { rewrite (close_exact _ _ Ee). rewrite !mat_eq_points in *. split; intros H x y.
      - destruct (HP x y) as [<- <-]. apply H.
      - destruct (HP x y) as [-> ->]. apply H. }
    destruct (opt_size_eqb (Some d) (Some (l_dsize l)) && close_identity (al_eps al) M)%bool eqn:E.
    + exists (Leaf l). split; [eapply opts_warp; [apply opts_leaf|exact Hst]|]. left.
      rewrite andb_true_iff in E. destruct E as [E1 E2]. split; [reflexivity|]. split; [now apply HI|].
      cbn in E1. unfold size_eqb in E1. rewrite andb_true_iff, !Z.eqb_eq in E1. destruct d, (l_dsize l); cbn in *. f_equal; tauto.
    + exists (Warp (Leaf l) M d al). split; [eapply opts_warp; [apply opts_leaf|exact Hst]|]. right.
      exists M, al. split; [reflexivity|]. split; [exact HP|]. split; [reflexivity|].
      intros [H1 H2]. apply HI in H1. rewrite H1, H2 in E. cbn in E. unfold size_eqb in E. rewrite !Z.eqb_refl in E. discriminate.
  - destruct (IH M0 d0 al0) as (n & Hn & Hc); [intros w Hw; apply He; rewrite in_app_iff; auto|]. clear IH.
    set (Q0 := chain_map (c ++ [(M0, d0, al0)])) in *.
    assert (EP : P = aff_mul M Q0) by (unfold P, Q0, chain_map; rewrite (fold_left_app _ (c ++ _)); reflexivity).
    assert (Et : warps (Leaf l) ((c ++ [(M0, d0, al0)]) ++ [(M, d, al)]) = Warp (warps (Leaf l) (c ++ [(M0, d0, al0)])) M d al)
      by (unfold warps; rewrite (fold_left_app _ (c ++ _)); reflexivity).
    rewrite Et.
    assert (Ee : al_eps al == 0) by (apply (He (M, d, al)); rewrite in_app_iff; right; now left).
    assert (G : exists M' al', opt_warp o (O o 0) n M d al =
        (if (opt_size_eqb (Some d) (Some (l_dsize l)) && close_identity (al_eps al') M')%bool then Ok (Leaf l) else Ok (Warp (Leaf l) M' d al'))
        /\ mat_eq M' P /\ drop_backend al' = drop_backend al /\ al_eps al' = al_eps al).
    { rewrite EP. destruct Hc as [(-> & HI & _)|(P' & al' & -> & HP & _ & _)].
      - exists M, al. split; [|split; [|auto]].
        + unfold opt_warp. cbn [dsize]. destruct (_ && _)%bool; [reflexivity|].
          unfold is_nans. rewrite Hk. apply other_same; [exact I|exact Hov].
        + rewrite mat_eq_points in *. intros x y. rewrite ax_mul, ay_mul. destruct (HI x y) as [H1 H2].
          unfold ax, ay in *. rewrite H1, H2. cbn. split; ring.
      - exists (aff_mul M P'), (drop_backend al). split; [|split; [now apply mat_eq_mul|auto]].
        unfold opt_warp. cbn [dsize]. destruct (_ && _)%bool; [reflexivity|].
        unfold is_nans. rewrite Hk. apply other_same; [exact I|exact Hov]. }
    destruct G as (M' & al' & Hst & HP & Hb & Hbe).
    assert (HI : close_identity (al_eps al') M' = true <-> mat_eq P aff_id).
    { rewrite Hbe, (close_exact _ _ Ee). rewrite !mat_eq_points in *. split; intros H x y.
      - destruct (HP x y) as [<- <-]. apply H.
      - destruct (HP x y) as [-> ->]. apply H. }
    destruct (opt_size_eqb (Some d) (Some (l_dsize l)) && close_identity (al_eps al') M')%bool eqn:E.
    + exists (Leaf l). split; [eapply opts_warp; [exact Hn|exact Hst]|]. left.
      rewrite andb_true_iff in E. destruct E as [E1 E2]. split; [reflexivity|]. split; [now apply HI|].
      cbn in E1. unfold size_eqb in E1. rewrite andb_true_iff, !Z.eqb_eq in E1. destruct d, (l_dsize l); cbn in *. f_equal; tauto.
    + exists (Warp (Leaf l) M' d al'). split; [eapply opts_warp; [exact Hn|exact Hst]|]. right.
      exists M', al'. split; [reflexivity|]. split; [exact HP|]. split; [exact Hb|].
      intros [H1 H2]. apply HI in H1. rewrite H1, H2 in E. cbn in E. unfold size_eqb in E. rewrite !Z.eqb_refl in E. discriminate.
Qed.

Lemma through_map c x y : fst (through c x y) == ax (chain_map c) x y /\ snd (through c x y) == ay (chain_map c) x y.
Proof.
  unfold through, chain_map.
  induction c as [|w c IH] using rev_ind; [cbn; unfold ax, ay; cbn; split; ring|].
  rewrite !fold_left_app. cbn [fold_left fst snd]. rewrite ax_mul, ay_mul. destruct IH as [IH1 IH2].
  unfold ax, ay in *. rewrite IH1, IH2. split; reflexivity.
Qed.

Lemma stays_map c : stays c <-> mat_eq (chain_map c) aff_id.
Proof.
  rewrite mat_eq_points. unfold stays. split; intros H x y; destruct (through_map c x y) as [E1 E2], (H x y) as [H1 H2].
  - rewrite <- E1, <- E2, ax_id, ay_id. auto.
  - rewrite E1, E2, H1, H2, ax_id, ay_id. split; reflexivity.
Qed.

Lemma chain_warps o l c M d al : l_kind l = Data -> (l_ov l = None \/ l_ov l = Some 0%Z) ->
  (forall w, In w (c ++ [(M, d, al)]) -> al_eps (snd w) == 0) ->
  exists n, optimizes o (warps (Leaf l) (c ++ [(M, d, al)])) n /\
    ((n = Leaf l /\ stays (c ++ [(M, d, al)]) /\ d = l_dsize l) \/
     (exists P al', n = Warp (Leaf l) P d al' /\ drop_backend al' = drop_backend al /\
        (forall x y, ax P x y == fst (through (c ++ [(M, d, al)]) x y) /\
                     ay P x y == snd (through (c ++ [(M, d, al)]) x y)) /\
        ~ (stays (c ++ [(M, d, al)]) /\ d = l_dsize l))).
Proof.
  intros Hk Hov He. destruct (chain_opts o l c M d al Hk Hov He) as (n & Hn & Hc). exists n. split; [exact Hn|].
  pose proof (stays_map (c ++ [(M, d, al)])) as Hst. destruct Hc as [Hc|(P & al' & -> & HP & Hb & Hs)]; [left; tauto|right].
  exists P, al'. split; [reflexivity|]. split; [exact Hb|]. split; [|tauto].
  rewrite mat_eq_points in HP. intros x y. destruct (through_map (c ++ [(M, d, al)]) x y) as [-> ->]. apply HP.
Qed.

Lemma crop_grow s ya yb xa xb ci p : (ya <= yb)%Z -> (xa <= xb)%Z -> (0 <= p)%Z ->
  api_crop s (Some (from_to ya yb, from_to xa xb)) ci false false p false =
  api_crop s (Some (from_to (ya - p) (yb + p), from_to (xa - p) (xb + p))) ci false false 0 false.
Proof.
  intros Hy Hx Hp. unfold api_crop. cbn [negb orb bind]. unfold api_padded_crop.
  destruct (dsize s) as [[w h]|]; [|reflexivity]. f_equal.
  unfold padded_crop, plain_bounds, from_to. cbn [fst snd].
  assert (E : forall D a b, (a <= b)%Z -> embed_axis D a b p = embed_axis D (a - p) (b + p) 0).
  { intros D a b L. unfold embed_axis. destruct (b <? a)%Z eqn:E1; [lia|]. destruct (b + p <? a - p)%Z eqn:E2; [lia|].
    cbv zeta. rewrite !Z.sub_0_r, !Z.add_0_r. reflexivity. }
  rewrite !E by assumption. reflexivity.
Qed.

Lemma select_nth n l n' : select_names n l = Ok n' -> Forall (fun i => 0 <= i)%Z l ->
  forall c b, nth_error l c = Some b -> nth_error n' c = nth_error n (Z.to_nat b).
Proof.
  unfold select_names. revert n'. induction l as [|i l IH]; intros n' H Hl c b Hc; [destruct c; discriminate|].
  cbn in H. apply bind_ok in H as (a & Ha & H). apply bind_ok in H as (r & Hr & H). injection H as <-.
  inversion_clear Hl as [|? ? Hi Hl']. destruct c as [|c]; cbn in *.
  - injection Hc as ->. apply py_get_nonneg in Ha; [|lia]. congruence.
  - exact (IH _ Hr Hl' _ _ Hc).
Qed.

Lemma crop_bands s m w h y0 y1 x0 x1 l : wf s -> num_channels s = Some m -> dsize s = Some (w, h) ->
  (0 <= y0 <= y1)%Z -> (y1 <= h)%Z -> (0 <= x0 <= x1)%Z -> (x1 <= w)%Z -> Forall (fun i => 0 <= i < m)%Z l ->
  exists t, api_crop s (Some (from_to y0 y1, from_to x0 x1)) (Some l) true true 0 false = Ok t /\
    dsize t = Some (x1 - x0, y1 - y0)%Z /\
    num_channels t = Some (Z.of_nat (List.length l)) /\
    (forall n, names s = Some n -> exists n', names t = Some n' /\
       forall c b, nth_error l c = Some b -> nth_error n' c = nth_error n (Z.to_nat b)) /\
    forall c b, nth_error l c = Some b -> forall x y smp,
      vis t x y (Z.of_nat c) smp <->
      inside (x1 - x0, y1 - y0)%Z x y /\ vis s (x + inject_Z x0) (y + inject_Z y0) b smp.
Proof.
  intros Hw Hm Hd Hy Hy1 Hx Hx1 Hl.
  assert (E : exists t, api_crop s (Some (from_to y0 y1, from_to x0 x1)) (Some l) true true 0 false = Ok t).
  { unfold api_crop, from_to. cbn [negb orb bind]. unfold mkCrop. cbn. rewrite Hd.
    rewrite !wrap_clip_id by lia. cbn [bind]. destruct (names s) as [n|] eqn:En; [|cbn; eauto].
    destruct (wf_meta _ Hw) as (m' & Hm' & _ & Hln). rewrite Hm in Hm'. injection Hm' as <-.
    destruct (select_total n l) as (n' & ->); [now rewrite (Hln _ En)|]. cbn. eauto. }
  destruct E as (t & E). exists t. split; [exact E|].
  assert (Hci : ci_ok (Some m) (Some l)) by (intros ? [= <-]; exact Hl).
  destruct (crop_plain _ _ _ _ _ Hw Hm Hci E) as (w' & h' & ys & xs & Hd' & (Ey & Ex) & Hdt & Hnc & Hnm & Hv).
  rewrite Hd in Hd'. injection Hd' as <- <-. unfold from_to in Ey, Ex.
  rewrite wrap_clip_id in Ey by lia. rewrite wrap_clip_id in Ex by lia. injection Ey as <-. injection Ex as <-.
  split; [exact Hdt|]. split; [exact Hnc|]. split.
  - intros n En. rewrite En in Hnm. cbn in Hnm.
    destruct (wf_meta _ Hw) as (m' & Hm' & _ & Hln). rewrite Hm in Hm'. injection Hm' as <-.
    destruct (select_total n l) as (n' & Hs); [now rewrite (Hln _ En)|]. rewrite Hs in Hnm. exists n'. split; [exact Hnm|].
    eapply select_nth; [exact Hs|]. eapply Forall_impl; [|exact Hl]. cbn. lia.
  - intros c b Hc x y smp. rewrite Hv. cbn [selects fst snd]. unfold iv_len. cbn [fst snd].
    split; intros (Hi & H); (split; [exact Hi|]).
    + destruct H as (b' & (_ & Hb) & H). rewrite Nat2Z.id in Hb. congruence.
    + exists b. rewrite Nat2Z.id. auto with zarith.
Qed.

Lemma starts_stops s n a b : starts s a -> stops s n b -> plain_bounds n s = (a, b).
Proof.
  intros [E1|[E1 ->]] [E2|[E2 ->]]; unfold plain_bounds; rewrite E1, E2; reflexivity.
Qed.

(** ** Lazy crops *)

Lemma noop_spec sz ys xs pad ci : lazy_crop_noop sz ys xs pad ci = true ->
  starts ys 0 /\ stops ys (snd sz) (snd sz) /\ starts xs 0 /\ stops xs (fst sz) (fst sz) /\ pad = false.
Proof.
  unfold lazy_crop_noop, starts, stops. destruct ys as [[a|] [b|]], xs as [[a'|] [b'|]]; cbn [fst snd];
    rewrite ?andb_true_iff, ?Z.eqb_eq, ?negb_true_iff; intros H; decompose [and] H; subst; auto 10.
Qed.

Lemma lazy_crop_same s sl clip wrap pad t t' w h : wf s -> dsize s = Some (w, h) -> (0 <= w)%Z -> (0 <= h)%Z ->
  (0 <= pad)%Z ->
  api_crop s (Some sl) None clip wrap pad true = Ok t ->
  api_crop s (Some sl) None clip wrap pad false = Ok t' ->
  dsize t = dsize t' /\ num_channels t = num_channels t' /\ names t = names t' /\
  forall x y c smp, vis t x y c smp <-> vis t' x y c smp.
Proof.
  intros Hw Hd Hw0 Hh0 Hp Hl He.
  assert (Hin : forall x y c smp, vis s x y c smp -> inside (w, h) x y).
  { intros x y c smp Hv. destruct (vis_inside _ _ _ _ _ Hv) as (d' & Hd' & Hi). rewrite Hd in Hd'. now injection Hd' as <-. }
  unfold api_crop in Hl. rewrite Hd in Hl. destruct sl as [ys xs]. cbn [bind] in Hl.
  destruct (lazy_crop_noop (w, h) ys xs (negb (pad =? 0)%Z) None) eqn:En.
  2:{ unfold api_crop in He. cbn [bind] in He. rewrite Hl in He. injection He as <-. repeat split; auto. }
  injection Hl as <-. pose proof En as En'. apply noop_spec in En as (A1 & A2 & A3 & A4 & A5). cbn [fst snd] in A2, A4.
  apply negb_false_iff, Z.eqb_eq in A5. subst pad.
  destruct (wf_meta _ Hw) as (m & Hm & _ & _).
  assert (Shift : forall x y c smp, vis s (x + inject_Z 0) (y + inject_Z 0) c smp <-> vis s x y c smp).
  { intros x y c smp. change (inject_Z 0) with 0. split; apply vis_proper; lra. }
  destruct clip, wrap; unfold api_crop in He; cbn [negb orb bind Z.eqb] in He; try discriminate.
  - destruct (lazy_crop_noop_full w h ys xs _ None Hw0 Hh0 En') as (Ey & Ex & _).
    destruct (crop_plain s (Some (ys, xs)) None t' m Hw Hm I He) as (w' & h' & ys' & xs' & Hd' & (Ey' & Ex') & Hdt & Hnc & Hnm & Hv).
    rewrite Hd in Hd'. injection Hd' as <- <-. rewrite Ey in Ey'. rewrite Ex in Ex'. injection Ey' as <-. injection Ex' as <-.
    unfold iv_len in *. cbn [fst snd] in *. rewrite !Z.sub_0_r in *.
    split; [congruence|]. split; [rewrite Hnc; reflexivity|]. split; [rewrite Hnm; reflexivity|].
    intros x y c smp. rewrite Hv. split.
    + intros H. split; [now apply Hin in H|]. exists c. split; [reflexivity|]. now apply Shift.
    + intros (_ & b & Hb & H). cbn in Hb. subst b. now apply Shift.
  - destruct (padded_view _ _ _ _ _ _ Hw Hd Hw0 Hh0 Hp He) as (_ & _ & Hv & Hs & Hn & Hnm). cbn [fst snd] in *.
    rewrite (starts_stops _ _ _ _ A1 A2) in *. rewrite (starts_stops _ _ _ _ A3 A4) in *.
    unfold iv_len in *. cbn [fst snd] in *. rewrite !Z.sub_0_r in *. rewrite !Z.add_0_r in *.
    split; [congruence|]. split; [congruence|]. split; [congruence|]. intros x y c smp.
    rewrite Hv by lia. split.
    + intros H. split; [now apply Hin in H|]. now apply Shift.
    + intros (_ & H). now apply Shift.
Qed.

(** ** Coordinate crops *)

Lemma coordinate_view close s x0 y0 d t : api_coordinate_crop close s x0 y0 d = Ok t ->
  dsize t = Some d /\ num_channels t = num_channels s /\ names t = names s /\
  forall x y c smp, vis t x y c smp <-> inside d x y /\ vis s (x + x0) (y + y0) c smp.
Proof.
  unfold api_coordinate_crop, api_warp. destruct (dsize s); [|discriminate]. cbn [andb]. intros [= <-].
  split; [reflexivity|]. split; [reflexivity|]. split; [reflexivity|]. intros x y c smp. cbn [vis].
  split.
  - intros (Hi & x' & y' & Ex & Ey & H). split; [exact Hi|]. unfold aff_translate, ax, ay in *. cbn in Ex, Ey.
    eapply vis_proper; [| |exact H]; lra.
  - intros (Hi & H). split; [exact Hi|]. exists (x + x0), (y + y0).
    unfold aff_translate, ax, ay. cbn. repeat split; try lra. exact H.
Qed.

Lemma coordinate_twice close s x0 y0 d x1 y1 d1 t t1 u : 0 <= x1 -> 0 <= y1 ->
  x1 + inject_Z (fst d1) <= inject_Z (fst d) -> y1 + inject_Z (snd d1) <= inject_Z (snd d) ->
  api_coordinate_crop close s x0 y0 d = Ok t -> api_coordinate_crop close t x1 y1 d1 = Ok t1 ->
  api_coordinate_crop close s (x0 + x1) (y0 + y1) d1 = Ok u ->
  dsize t1 = dsize u /\ names t1 = names u /\ num_channels t1 = num_channels u /\
  forall x y c smp, vis t1 x y c smp <-> vis u x y c smp.
Proof.
  intros Hx Hy Hw Hh Ht H1 Hu. destruct d as [w h], d1 as [w1 h1]. cbn [fst snd] in *.
  apply coordinate_view in Ht as (_ & Hn & Hm & Hv), H1 as (D1 & N1 & M1 & V1), Hu as (Du & Nu & Mu & Vu).
  split; [congruence|]. split; [congruence|]. split; [congruence|]. intros x y c smp. rewrite V1, Vu, Hv.
  split.
  - intros (Hi & _ & H). split; [exact Hi|]. eapply vis_proper; [| |exact H]; lra.
  - intros (Hi & H). split; [exact Hi|]. split.
    + apply inside_closed in Hi as ((A1 & A2) & (B1 & B2)). cbn [fst snd] in *. apply inside_closed. repeat split; lra.
    + eapply vis_proper; [| |exact H]; lra.
Qed.

Lemma overview_twice s a b t u v : (0 <= a)%Z -> (0 <= b)%Z ->
  mkOverview s a = Ok t -> mkOverview t b = Ok u -> mkOverview s (a + b) = Ok v ->
  dsize u = dsize v /\ names u = names v /\ num_channels u = num_channels v /\
  (forall x y c smp, vis u x y c smp <-> vis v x y c smp).
Proof.
  intros Ha Hb H1 H2 H3. unfold mkOverview in H1, H3. destruct (dsize s) as [sz|] eqn:Hd; [|discriminate].
  injection H1 as <-. injection H3 as <-. unfold mkOverview in H2. cbn [dsize] in H2. injection H2 as <-.
  destruct (overview_dsize_plus a b sz Ha Hb) as (E & _). cbn [dsize names num_channels]. rewrite E.
  split; [reflexivity|]. split; [reflexivity|]. split; [reflexivity|]. intros x y c smp. cbn [vis].
  pose proof (pow2_plus a b) as P.
  assert (X : forall z, z * pow2 b * pow2 a == z * pow2 (a + b)) by (intros z; rewrite P; ring).
  split.
  - intros (H1 & _ & H2). split; [exact H1|]. eapply vis_proper; [| |exact H2]; apply X.
  - intros (H1 & H2). assert (H3 : vis s (x * pow2 b * pow2 a) (y * pow2 b * pow2 a) c smp).
    { eapply vis_proper; [| |exact H2]; symmetry; apply X. }
    destruct (vis_inside _ _ _ _ _ H3) as ([w h] & Hd' & Hi). rewrite Hd in Hd'. injection Hd' as ->.
    split; [exact H1|]. split; [now apply overview_inside|exact H3].
Qed.

Lemma resize_many close l : forall s d al lazy al' lazy' t u w h,
  (0 < w)%Z -> (0 < h)%Z -> (0 < fst d)%Z -> (0 < snd d)%Z ->
  Forall (fun r => (0 < fst (fst (fst r)))%Z /\ (0 < snd (fst (fst r)))%Z) l ->
  exact_close close -> dsize s = Some (w, h) ->
  resized close s (l ++ [(d, al, lazy)]) t -> api_resize close s d al' lazy' = Ok u ->
  dsize t = dsize u /\ forall x y c smp, vis t x y c smp <-> vis u x y c smp.
Proof.
  induction l as [|[[[w1 h1] al1] lz1] l IH]; intros s d al lazy al' lazy' t u w h Hw Hh D1 D2 Hl Hc Hd Ht Hu.
  - inversion Ht as [|? ? ? ? t1 ? ? R1 R2]; subst. inversion R2; subst.
    destruct (resize_vis _ _ _ _ _ _ _ _ Hw Hh D1 D2 Hc Hd R1) as (A1 & _ & _ & A2).
    destruct (resize_vis _ _ _ _ _ _ _ _ Hw Hh D1 D2 Hc Hd Hu) as (B1 & _ & _ & B2).
    split; [congruence|]. intros x y c smp. now rewrite A2, B2.
  - inversion Ht as [|? ? ? ? t1 ? ? R1 R2]; subst. inversion Hl as [|? ? [P1 P2] Hl']; subst. cbn [fst snd] in P1, P2.
    destruct (resize_vis close s (w1, h1) al1 lz1 t1 w h Hw Hh P1 P2 Hc Hd R1) as (A1 & _ & _ & A2).
    destruct (resize_total close t1 w1 h1 d al' lazy' A1 P1 P2) as (u1 & U1).
    destruct (IH _ _ _ _ _ _ _ _ _ _ P1 P2 D1 D2 Hl' Hc A1 R2 U1) as (E1 & E2).
    destruct (resize_twice close s (w1, h1) d al1 al' al' lz1 lazy' lazy' t1 u1 u w h Hw Hh P1 P2 D1 D2 Hc Hd R1 U1 Hu) as (F1 & F2).
    split; [congruence|]. intros x y c smp. now rewrite E2, F2.
Qed.
