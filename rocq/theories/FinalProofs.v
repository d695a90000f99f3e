(* Finalized arrays of graphs of exact operations. *)
From Verif Require Import Py PyProofs GeomModel GeomProofs GraphModel GraphSpec GraphBase GraphTake GraphOpt GraphMain GraphSound GraphSize GraphTotal FinalModel FinalSpec.
From Coq Require Import Lqa ZifyBool.
Local Open Scope Z_scope.

Lemma floor_centre i x : (x == centre i)%Q -> Qfloor x = i.
Proof.
  intros ->. unfold centre. assert (H := Qfloor_le (inject_Z i + (1#2))). assert (G := Qlt_floor (inject_Z i + (1#2))).
  set (f := Qfloor (inject_Z i + (1 # 2))) in *. clearbody f.
  assert (inject_Z f < inject_Z (i + 1))%Q by (rewrite inject_Z_plus; change (inject_Z 1) with 1%Q; lra).
  assert (inject_Z i < inject_Z (f + 1))%Q by lra.
  rewrite <- Zlt_Qlt in *. lia.
Qed.

Lemma centre_add i j : (centre i + inject_Z j == centre (i + j))%Q.
Proof. unfold centre. rewrite inject_Z_plus. ring. Qed.

Lemma centre_inside d r c : 0 <= r < snd d -> 0 <= c < fst d -> inside d (centre c) (centre r).
Proof.
  intros Hr Hc. unfold inside, centre.
  assert (forall i n, 0 <= i < n -> (0 <= inject_Z i + (1#2) <= inject_Z n)%Q) as E.
  { intros i n [H1 H2]. assert (inject_Z 0 <= inject_Z i)%Q by (rewrite <- Zle_Qle; lia).
    assert (inject_Z (i + 1) <= inject_Z n)%Q by (rewrite <- Zle_Qle; lia).
    rewrite inject_Z_plus in *. change (inject_Z 0) with 0%Q in *. change (inject_Z 1) with 1%Q in *. lra. }
  auto.
Qed.

Lemma inside_centre d r c : inside d (centre c) (centre r) -> 0 <= r < snd d /\ 0 <= c < fst d.
Proof.
  assert (forall i n, (0 <= inject_Z i + (1#2) <= inject_Z n)%Q -> 0 <= i < n) as E.
  { intros i n [H1 H2]. split.
    - assert (inject_Z (-1) < inject_Z i)%Q by (change (inject_Z (-1)) with (-1)%Q; lra). rewrite <- Zlt_Qlt in *. lia.
    - rewrite Zlt_Qlt. lra. }
  unfold inside, centre. intros [H1 H2]. auto.
Qed.

(* a coordinate strictly inside of a pixel *)
Definition cell (i : Z) (x : Q) : Prop := (inject_Z i < x)%Q /\ (x < inject_Z (i + 1))%Q.

Lemma cell_centre i : cell i (centre i).
Proof. unfold cell, centre. rewrite inject_Z_plus. change (inject_Z 1) with 1%Q. split; lra. Qed.

Lemma floor_cell i x x' : cell i x -> (x' == x)%Q -> Qfloor x' = i.
Proof.
  intros [H1 H2] E. assert (H := Qfloor_le x'). assert (G := Qlt_floor x').
  set (f := Qfloor x') in *. clearbody f.
  assert (inject_Z f < inject_Z (i + 1))%Q by lra.
  assert (inject_Z i < inject_Z (f + 1))%Q by lra.
  rewrite <- Zlt_Qlt in *. lia.
Qed.

Lemma cell_add i j x : cell i x -> cell (i + j) (x + inject_Z j).
Proof. unfold cell. rewrite !inject_Z_plus. lra. Qed.

Lemma inside_cell d r c x y : cell c x -> cell r y -> inside d x y -> 0 <= r < snd d /\ 0 <= c < fst d.
Proof.
  assert (forall i n x, cell i x -> (0 <= x <= inject_Z n)%Q -> 0 <= i < n) as E.
  { intros i n z [C1 C2] [H1 H2].
    assert (inject_Z 0 < inject_Z (i + 1))%Q by (change (inject_Z 0) with 0%Q; lra).
    assert (inject_Z i < inject_Z n)%Q by lra. rewrite <- Zlt_Qlt in *. lia. }
  intros Cx Cy [H1 H2]. eauto.
Qed.

(* what the finalized array of [t] holds, according to the meaning of [t] *)
Definition shows {V} (W : world V) (t : node) (a : array V) : Prop :=
  forall r c k x y s, cell c x -> cell r y -> 0 <= r < a_h a -> 0 <= c < a_w a ->
    (match a_c a with Some n => 0 <= k < n | None => False end) ->
    vis t x y k s -> a_pix a r c k = value W s.

Definition finalizes {V} (W : world V) (t : node) (a : array V) : Prop :=
  finalize W t = Ok a /\ dsize t = Some (a_w a, a_h a) /\
  (exists n, num_channels t = Some n /\ a_c a = Some n /\ 0 <= n) /\ shows W t a.

Lemma value_apply_dq {V} (W : world V) q s :
  value W (apply_dq q s) = match q with Some i => w_dq W i (value W s) | None => value W s end.
Proof. destruct q, s; reflexivity. Qed.

Lemma axis_slice_in n i : 0 <= fst i <= snd i -> snd i <= n -> axis_slice n i = (fst i, iv_len i).
Proof.
  intros H1 H2. unfold axis_slice, slice_bound, iv_len. destruct i as [a b]. cbn [fst snd] in *.
  destruct (a <? 0) eqn:Ea; [lia|]. destruct (b <? 0) eqn:Eb; [lia|].
  rewrite !Z.min_l by lia. f_equal. lia.
Qed.

Lemma mapR_np_index n l : Forall (fun i => 0 <= i < n) l -> mapR (np_index n) l = Ok l.
Proof.
  induction 1 as [|i l Hi F IH]; cbn; [reflexivity|]. unfold np_index at 1.
  destruct ((- n <=? i) && (i <? n))%bool eqn:E; [|lia]. destruct (i <? 0) eqn:E2; [lia|]. cbn. now rewrite IH.
Qed.

Lemma finalizes_leaf {V} (W : world V) l : leaf_ok l -> all_3d W (Leaf l) -> exists a, finalizes W (Leaf l) a.
Proof.
  intros ((n & Hn & Hn0 & _) & _) H3. cbn in H3. unfold finalizes. cbn [finalize dsize num_channels].
  unfold finalize_leaf. rewrite Hn. destruct (l_dsize l) as [w h] eqn:Ed. destruct (l_kind l) eqn:Ek.
  - rewrite H3. eexists. split; [reflexivity|]. cbn. split; [reflexivity|]. split; [eauto|].
    intros r c k x y s Cx Cy. cbn [a_h a_w a_c a_pix]. intros Hr Hc Hk. cbn [vis]. rewrite Ed, Ek, Hn.
    intros (_ & _ & x' & y' & Hx & Hy & ->). cbn. now rewrite (floor_cell _ _ _ Cx Hx), (floor_cell _ _ _ Cy Hy).
  - eexists. split; [reflexivity|]. cbn. split; [reflexivity|]. split; [eauto|].
    intros r c k x y s _ _. cbn [a_h a_w a_c a_pix]. intros Hr Hc Hk. cbn [vis]. rewrite Ed, Ek, Hn.
    intros (_ & _ & ->). reflexivity.
Qed.

Lemma finalizes_dequant {V} (W : world V) s q d a : d = dsize s -> finalizes W s a ->
  exists a', finalizes W (Dequant s q d) a'.
Proof.
  intros -> (Hf & Hd & (n & Hn & Hc & Hn0) & Hs).
  assert (E3 : atleast3 a = a) by (unfold atleast3; now rewrite Hc).
  exists (dq_array W q a). split; [cbn; rewrite Hf; cbn; now rewrite E3|].
  assert (Hdim : a_w (dq_array W q a) = a_w a /\ a_h (dq_array W q a) = a_h a /\ a_c (dq_array W q a) = a_c a)
    by (destruct q; cbn; auto).
  destruct Hdim as (-> & -> & Hc'). split; [cbn; now rewrite Hd|]. split; [exists n; rewrite Hc'; auto|].
  intros r c k x y s1 Cx Cy. destruct q as [i|]; cbn [dq_array a_h a_w a_c a_pix] in *; intros Hr Hcc Hk (_ & s' & Hv & ->);
    rewrite value_apply_dq; [f_equal|]; eapply Hs; eassumption.
Qed.

Lemma finalizes_crop {V} (W : world V) s ys xs ci d nm nc a :
  wf (Crop s ys xs ci d nm nc) -> tight (Crop s ys xs ci d nm nc) -> finalizes W s a ->
  exists a', finalizes W (Crop s ys xs ci d nm nc) a'.
Proof.
  intros Hw (Ht & Hci & -> & w & h & Hd & B1 & B2 & B3 & B4) (Hf & Hd' & (n & Hn & Hc & Hn0) & Hs).
  rewrite Hd in Hd'. injection Hd' as -> ->.
  pose proof (wf_crop_ci _ _ _ _ _ _ _ Hw) as Hin. pose proof (crop_nc _ _ _ _ _ _ _ Hw) as Hnc.
  assert (Hidx : exists a', index_array a ys xs ci = Ok a' /\ a_h a' = iv_len ys /\ a_w a' = iv_len xs /\
     (exists m, num_channels (Crop s ys xs ci (iv_len xs, iv_len ys) nm nc) = Some m /\ a_c a' = Some m /\ 0 <= m /\
        forall r c k, 0 <= k < m -> exists b, selects ci k b /\ 0 <= b < n /\
          (forall b', selects ci k b' -> b' = b) /\ a_pix a' r c k = a_pix a (r + fst ys) (c + fst xs) b)).
  { unfold index_array. rewrite !axis_slice_in by lia. destruct ci as [l|].
    - rewrite Hc. assert (Hl : Forall (fun i => 0 <= i < n) l) by (apply Hin; exact Hn).
      rewrite (mapR_np_index _ _ Hl). cbn [bind]. eexists. split; [reflexivity|]. cbn [a_h a_w a_c a_pix].
      split; [reflexivity|]. split; [reflexivity|]. exists (Z.of_nat (List.length l)).
      split; [exact Hnc|]. split; [reflexivity|]. split; [lia|]. intros r c k Hk.
      destruct (nth_error l (Z.to_nat k)) as [b|] eqn:E.
      + exists b. rewrite Forall_forall in Hl. split; [cbn; auto with zarith|]. split; [apply Hl; eapply nth_error_In; exact E|].
        split; [intros b' [_ E']; congruence|]. f_equal. now apply nth_error_nth.
      + apply nth_error_None in E. lia.
    - eexists. split; [reflexivity|]. cbn [a_h a_w a_c a_pix]. split; [reflexivity|]. split; [reflexivity|].
      exists n. split; [rewrite Hnc; exact Hn|]. split; [exact Hc|]. split; [exact Hn0|].
      intros r c k Hk. exists k. cbn. auto. }
  destruct Hidx as (a' & Ha & Hh' & Hw' & m & Hm & Hcm & Hm0 & Hpix).
  exists a'. split; [|split; [|split]].
  - cbn [finalize]. rewrite Hf. cbn [bind]. rewrite Ha. cbn [rmap bind]. unfold atleast3. now rewrite Hcm.
  - cbn [dsize]. now rewrite Hw', Hh'.
  - eauto.
  - intros r c k x y s1 Cx Cy Hr Hcc Hk (_ & b' & Hb' & Hv'). rewrite Hcm in Hk. rewrite Hh' in Hr. rewrite Hw' in Hcc. unfold iv_len in *.
    destruct (Hpix r c k Hk) as (b & Hb & Hbn & Hu & ->).
    rewrite (Hu b' Hb') in Hv'. eapply Hs; [apply cell_add; exact Cx|apply cell_add; exact Cy|lia|lia|rewrite Hc; exact Hbn|exact Hv'].
Qed.

Lemma cat_all_shows {V} (W : world V) w h : forall ps p (a : array V) l,
  finalizes W p a -> dsize p = Some (w, h) ->
  Forall2 (finalizes W) ps l -> Forall (fun q => dsize q = Some (w, h)) ps ->
  exists x, cat_all a l = Ok x /\ a_w x = w /\ a_h x = h /\
    (exists n, sum_opt (map num_channels (p :: ps)) = Some n /\ a_c x = Some n /\ 0 <= n) /\
    forall r c k x0 y0 s, cell c x0 -> cell r y0 -> 0 <= r < h -> 0 <= c < w -> (match a_c x with Some n => 0 <= k < n | None => False end) ->
      owner (fun q k' => vis q x0 y0 k' s) (p :: ps) k -> a_pix x r c k = value W s.
Proof.
  induction ps as [|q ps IH]; intros p a l Hp Hd F Fd; inversion F; subst.
  - destruct Hp as (Hf & Hd' & (n & Hn & Hc & Hn0) & Hs). rewrite Hd in Hd'. injection Hd' as -> ->.
    exists a. split; [reflexivity|]. split; [reflexivity|]. split; [reflexivity|]. split.
    { exists n. cbn. rewrite Hn. split; [f_equal; lia|auto]. }
    intros r c k x0 y0 s Cx Cy Hr Hcc Hk. cbn [owner]. rewrite Hn. rewrite Hc in Hk.
    destruct (k <? n) eqn:E; [|lia]. apply Hs; auto. now rewrite Hc.
  - inversion Fd; subst. match goal with H : finalizes W q ?b |- _ => rename H into Hq; rename b into b0 end.
    edestruct (IH q b0) as (x & Hx & Hxw & Hxh & (m & Hm & Hcm & Hm0) & Hxs); [exact Hq|eassumption|eassumption|eassumption|].
    destruct Hp as (Hf & Hd' & (n & Hn & Hc & Hn0) & Hs). rewrite Hd in Hd'. injection Hd' as Ew Eh.
    cbn [cat_all]. rewrite Hx. cbn [bind]. unfold cat2. rewrite Hc, Hcm.
    destruct ((a_h a =? a_h x) && (a_w a =? a_w x))%bool eqn:E; [|lia].
    eexists. split; [reflexivity|]. cbn [a_w a_h a_c a_pix]. split; [auto|]. split; [auto|]. split.
    { exists (n + m). split; [|split; [reflexivity|lia]].
      change (match num_channels p, sum_opt (map num_channels (q :: ps)) with Some a, Some b => Some (a + b) | _, _ => None end = Some (n + m)).
      now rewrite Hn, Hm. }
    intros r c k x0 y0 s Cx Cy Hr Hcc Hk. cbn [owner] in Hxs |- *. rewrite Hn. destruct (k <? n) eqn:Ek.
    + apply Hs; [exact Cx|exact Cy|lia|lia|]. rewrite Hc. lia.
    + apply Hxs; [exact Cx|exact Cy|lia|lia|]. rewrite Hcm. lia.
Qed.

Lemma finalizes_c3 {V} (W : world V) t a : finalizes W t a -> atleast3 a = a.
Proof. intros (_ & _ & (n & _ & Hc & _) & _). unfold atleast3. now rewrite Hc. Qed.

Lemma finalizes_concat {V} (W : world V) ps d l : tight (Concat ps d) -> Forall2 (finalizes W) ps l ->
  exists a, finalizes W (Concat ps d) a.
Proof.
  intros Ht F. destruct (tight_dsize _ Ht) as (w & h & Hd & Hw & Hh). cbn in Hd. subst d.
  apply tight_concat in Ht as (Hne & _ & Hds).
  assert (Hm : mapR (fun x => x) (map (finalize W) ps) = Ok l).
  { clear -F. induction F as [|p a ps l (Hf & _) F IH]; cbn; [reflexivity|]. rewrite Hf. cbn. now rewrite IH. }
  destruct F as [|p a ps l Hp F]; [congruence|]. inversion Hds; subst.
  edestruct (@cat_all_shows V W w h ps p a l) as (x & Hx & <- & <- & Hn & Hxs); try eassumption.
  exists x. split; [|split; [reflexivity|split; [exact Hn|]]].
  - change (bind (mapR (fun x => x) (map (finalize W) (p :: ps))) stack_bands = Ok x). rewrite Hm. cbn [bind].
    assert (Hl : map atleast3 l = l).
    { clear -F. induction F as [|q b ps l Hq F IH]; cbn; [reflexivity|]. rewrite (finalizes_c3 _ _ _ Hq). now f_equal. }
    unfold stack_bands. destruct l as [|b l]; [exact Hx|]. rewrite Hl, (finalizes_c3 _ _ _ Hp). exact Hx.
  - intros r c k x0 y0 s Cx Cy Hr Hc Hk (_ & Hs). eauto.
Qed.

Lemma finalize_exact {V} (W : world V) t : wf t -> tight t -> exact t -> all_3d W t ->
  exists a, finalizes W t a.
Proof.
  induction t as [l|ps d IH|s ys xs ci d nm nc IH|s M d al IH|s q d IH|s k d IH] using node_ind';
    intros Hw Ht He H3; try contradiction.
  - now apply finalizes_leaf.
  - assert (F : exists l, Forall2 (finalizes W) ps l).
    { apply wf_concat in Hw as (Hw & _). apply tight_concat in Ht as (_ & Ht & _). apply (exact_concat ps d) in He.
      apply (leafs_concat _ ps d) in H3. induction ps as [|p ps IHps]; [exists []; constructor|].
      inversion IH; inversion Hw; inversion Ht; inversion He; inversion H3; subst.
      destruct IHps as (l & Hl); [assumption..|]. match goal with H : wf p -> _ |- _ => destruct H as (a & Ha); [assumption..|] end.
      exists (a :: l). now constructor. }
    destruct F as (l & F). eapply finalizes_concat; eassumption.
  - destruct IH as (a & Ha); [apply Hw|apply Ht|exact He|exact H3|]. eapply finalizes_crop; eassumption.
  - destruct IH as (a & Ha); [exact Hw|apply Ht|exact He|exact H3|]. eapply finalizes_dequant; [apply Ht|eassumption].
Qed.

(* every pixel of a tree of exact operations is visible *)
Lemma exact_vis t : wf t -> tight t -> exact t -> forall w h n r c k,
  dsize t = Some (w, h) -> num_channels t = Some n -> 0 <= r < h -> 0 <= c < w -> 0 <= k < n ->
  exists s, vis t (centre c) (centre r) k s.
Proof.
  induction t as [l|ps d IH|s ys xs ci d nm nc IH|s M d al IH|s q d IH|s i d IH] using node_ind';
    intros Hw Ht He w h n r c k Hd Hn Hr Hc Hk; try contradiction.
  - cbn in *. injection Hd as Hd. rewrite Hn, Hd. destruct (l_kind l).
    + exists (Samp (l_id l) k (centre c) (centre r) []). split; [apply centre_inside; auto|].
      split; [eauto|]. exists (centre c), (centre r). auto with qarith.
    + exists (NaN []). split; [apply centre_inside; auto|]. eauto.
  - cbn [dsize] in Hd. subst d. apply wf_concat in Hw as (Hw & Hds & _). apply tight_concat in Ht as (_ & Ht & _).
    apply (exact_concat ps (Some (w, h))) in He. cbn [num_channels] in Hn. cbn [vis].
    assert (G : exists s, owner (fun p c' => vis p (centre c) (centre r) c' s) ps k).
    { revert n k Hn Hk. induction ps as [|p ps IHps]; intros n k Hn Hk; [injection Hn as <-; lia|].
      inversion IH; inversion Hw; inversion Ht; inversion He; inversion Hds; subst.
      cbn in Hn. destruct (num_channels p) as [m|] eqn:Em; [|discriminate].
      fold (sum_opt (map num_channels ps)) in Hn.
      destruct (sum_opt (map num_channels ps)) as [m'|] eqn:Es; [|discriminate]. injection Hn as <-.
      cbn [owner]. rewrite Em. destruct (k <? m) eqn:Ek.
      - match goal with H : wf p -> _ |- _ => apply (H ltac:(assumption) ltac:(assumption) ltac:(assumption) w h m r c k) end; auto; lia.
      - eapply IHps; try assumption; [reflexivity|lia]. }
    destruct G as (s & G). exists s. split; [now apply centre_inside|exact G].
  - pose proof (wf_crop_ci _ _ _ _ _ _ _ Hw) as Hin. pose proof (crop_nc _ _ _ _ _ _ _ Hw) as Hnc.
    destruct (wf_nc s) as (m & Hm); [apply Hw|].
    destruct Ht as (Ht & Hci & -> & w0 & h0 & Hds & B1 & B2 & B3 & B4). cbn [dsize] in Hd. injection Hd as <- <-.
    unfold iv_len in *.
    assert (G : exists b, selects ci k b /\ 0 <= b < m).
    { rewrite Hn in Hnc. destruct ci as [l|].
      - injection Hnc as ->. assert (Hl : Forall (fun i => 0 <= i < m) l) by (apply Hin; exact Hm).
        rewrite Forall_forall in Hl.
        destruct (nth_error l (Z.to_nat k)) as [b|] eqn:E; [|apply nth_error_None in E; lia].
        exists b. split; [cbn; auto with zarith|]. apply Hl. eapply nth_error_In, E.
      - exists k. split; [reflexivity|]. rewrite Hm in Hnc. injection Hnc as ->. lia. }
    destruct G as (b & Hb & Hbm).
    destruct (IH (proj1 Hw) Ht He w0 h0 m (r + fst ys) (c + fst xs) b) as (s0 & Hv); try assumption; try lia.
    exists s0. cbn [vis]. split; [apply centre_inside; cbn; lia|]. exists b. split; [exact Hb|].
    eapply vis_proper; [| |exact Hv]; symmetry; apply centre_add.
  - destruct Ht as (Ht & ->). cbn [dsize] in Hd. assert (Hds : dsize s = Some (w, h)) by (destruct (dsize s); exact Hd).
    destruct (IH Hw Ht He w h n r c k) as (s0 & Hv); try assumption.
    exists (apply_dq q s0). cbn [vis]. rewrite Hds. split; [now apply centre_inside|eauto].
Qed.

(* same metadata, same visible samples: same array *)
Lemma finalizes_same {V} (W : world V) t t' a a' : finalizes W t a -> finalizes W t' a' ->
  wf t -> tight t -> exact t ->
  dsize t' = dsize t -> num_channels t' = num_channels t ->
  (forall x y c s, vis t x y c s -> vis t' x y c s) -> same_array a a'.
Proof.
  intros (_ & Hd & (n & Hn & Hc & _) & Hs) (_ & Hd' & (n' & Hn' & Hc' & _) & Hs') Hwf Ht He Ed En Hv.
  rewrite Hd, Hd' in Ed. injection Ed as Ew Eh. assert (n' = n) by congruence. subst n'.
  split; [auto|]. split; [auto|]. split; [congruence|]. rewrite Hc. intros r c k Hr Hcc Hk.
  destruct (exact_vis t Hwf Ht He _ _ _ r c k Hd Hn) as (s & Hvs); try assumption.
  rewrite (Hs r c k _ _ s (cell_centre c) (cell_centre r)) by (try rewrite Hc; assumption). symmetry.
  eapply Hs'; [apply cell_centre|apply cell_centre|lia|lia|now rewrite Hc'|]. apply Hv, Hvs.
Qed.

(** ** The same pixels after optimize() *)

Lemma optimize_same_pixels {V} (W : world V) o fuel t t' b : built t -> all_3d W t ->
  optimize o fuel t = Ok (t', b) ->
  exists a a', finalize W t = Ok a /\ finalize W t' = Ok a' /\ same_array a a'.
Proof.
  intros Hb H3 H. destruct (built_ok _ Hb) as (Hw & Ht & He).
  pose proof (exact_ov_free _ He) as Hr.
  destruct (optimize_good o fuel ROvFree t t' b Hw Hr H) as ((Hw' & Hr' & Hnm & Hnc & Hv) & _).
  destruct (optimize_kept o fuel t t' b Hw Hr Ht H) as (Hd & Ht' & Hkp). pose proof (keeps_exact _ _ Hkp) as He'. destruct Hkp as [_ Hl'].
  destruct (finalize_exact W t Hw Ht He H3) as (a & Ha).
  destruct (finalize_exact W t' Hw' Ht' (He' He) (Hl' _ H3)) as (a' & Ha').
  exists a, a'. split; [apply Ha|]. split; [apply Ha'|]. eapply finalizes_same; eassumption.
Qed.

Lemma shape_is_metadata {V} (W : world V) t : built t -> all_3d W t ->
  exists a n, finalize W t = Ok a /\ dsize t = Some (a_w a, a_h a) /\
    num_channels t = Some n /\ a_c a = Some n /\
    match names t with Some nm => Z.of_nat (List.length nm) = n | None => True end.
Proof.
  intros Hb H3. destruct (built_ok _ Hb) as (Hw & Ht & He).
  destruct (finalize_exact W t Hw Ht He H3) as (a & Hf & Hd & (n & Hn & Hc & _) & _).
  exists a, n. split; [exact Hf|]. split; [exact Hd|]. split; [exact Hn|]. split; [exact Hc|].
  pose proof (wf_meta _ Hw) as Hm. unfold meta_ok in Hm. destruct Hm as (m & Hm & _ & Hnm). 
  assert (m = n) by congruence. subst. destruct (names t); auto.
Qed.

Lemma optimize_same_array {V} (W : world V) o t t' : built t -> all_3d W t -> optimizes o t t' ->
  exists a a', finalize W t = Ok a /\ finalize W t' = Ok a' /\ same_array a a'.
Proof. intros Hb H3 (f & b & H). eapply optimize_same_pixels; eassumption. Qed.

(** ** Two-dimensional data *)

Lemma at3_idem {V} (a : array V) : atleast3 (atleast3 a) = atleast3 a.
Proof. unfold atleast3. destruct (a_c a) eqn:E; [now rewrite E|reflexivity]. Qed.

Lemma cat2_3d {V} (a b x : array V) : cat2 a b = Ok x -> atleast3 x = x.
Proof.
  unfold cat2. destruct (a_c a), (a_c b); try discriminate. destruct (_ && _)%bool; [|discriminate].
  now intros [= <-].
Qed.

Lemma unflat_finalize {V} (W : world V) t : flat_one W t ->
  forall a, finalize W t = Ok a -> finalize (unflat W) t = Ok (atleast3 a).
Proof.
  induction t as [l|ps d IH|s ys xs ci d nm nc IH|s M d al IH|s q d IH|s k d IH] using node_ind';
    intros Hf a H.
  - cbn in H |- *. unfold finalize_leaf in *. cbn in Hf. destruct (l_nc l) as [n|]; [|discriminate].
    destruct (l_dsize l) as [w h]. destruct (l_kind l).
    + injection H as <-. unfold unflat, atleast3. cbn. destruct (w_flat W (l_id l)) eqn:E; cbn; [|reflexivity].
      specialize (Hf eq_refl). injection Hf as ->. reflexivity.
    + injection H as <-. reflexivity.
  - apply (leafs_concat _ ps d) in Hf. cbn in H |- *. apply bind_ok in H as (l & Hl & H).
    assert (E : mapR (fun x => x) (map (finalize (unflat W)) ps) = Ok (map atleast3 l)).
    { clear H. revert l Hl. induction ps as [|p ps IHp]; intros l Hl; cbn in Hl |- *; [injection Hl as <-; reflexivity|].
      apply bind_ok in Hl as (x & Hx & Hl). apply bind_ok in Hl as (xs & Hxs & Hl). injection Hl as <-.
      inversion Hf; subst. inversion IH; subst. rewrite (H3 H1 x Hx). cbn. rewrite (IHp H4 H2 xs Hxs). reflexivity. }
    rewrite E. cbn [bind]. unfold stack_bands in *. destruct l as [|x [|y r]]; cbn [map]; [discriminate| |].
    + injection H as <-. reflexivity.
    + rewrite at3_idem. change (atleast3 (atleast3 y) :: map atleast3 (map atleast3 r)) with (map atleast3 (map (@atleast3 V) (y :: r))).
      rewrite map_map. rewrite (map_ext _ _ at3_idem). rewrite H. f_equal. symmetry.
      cbn [map cat_all] in H. apply bind_ok in H as (z & _ & H). eapply cat2_3d; exact H.
  - cbn in H |- *. apply bind_ok in H as (b & Hb & H). rewrite (IH Hf b Hb). cbn [bind].
    unfold index_array in *. unfold atleast3 in *. destruct (a_c b) eqn:Eb; cbn [a_h a_w a_c a_pix].
    + rewrite Eb. destruct (axis_slice (a_h b) ys), (axis_slice (a_w b) xs). destruct ci.
      * destruct (mapR _ _); cbn in H |- *; [injection H as <-; reflexivity|discriminate].
      * cbn in H |- *. injection H as <-. reflexivity.
    + destruct (axis_slice (a_h b) ys), (axis_slice (a_w b) xs). destruct ci; [discriminate|].
      cbn in H |- *. injection H as <-. reflexivity.
  - cbn in H |- *. apply bind_ok in H as (b & Hb & H). rewrite (IH Hf b Hb). cbn [bind].
    destruct (al_nearest al); [|discriminate]. revert H. unfold nearest_array. destruct (negb (axis_aligned M)); [discriminate|].
    replace (a_w (atleast3 b)) with (a_w b) by (unfold atleast3; destruct (a_c b); reflexivity).
    replace (a_h (atleast3 b)) with (a_h b) by (unfold atleast3; destruct (a_c b); reflexivity).
    replace (a_pix (atleast3 b)) with (a_pix b) by (unfold atleast3; destruct (a_c b); reflexivity).
    destruct (_ && _)%bool.
    + destruct (_ || _)%bool; [discriminate|]. intros H. injection H as <-. f_equal.
      rewrite at3_idem. unfold atleast3. destruct (a_c b) eqn:E; cbn; [now rewrite E|reflexivity].
    + intros H. apply bind_ok in H as (p & Hp & H). cbn [unflat w_fill] in *. rewrite Hp. cbn [bind]. injection H as <-. f_equal.
      rewrite at3_idem. unfold atleast3. destruct (a_c b) eqn:E; cbn; [now rewrite E|reflexivity].
  - cbn in H |- *. destruct (finalize W s) as [b|] eqn:Hb; [|discriminate]. rewrite (IH Hf b eq_refl). cbn in H |- *.
    injection H as <-. f_equal. rewrite at3_idem.
    destruct q; unfold dq_array, atleast3; cbn; destruct (a_c b) eqn:E; cbn; rewrite ?E; reflexivity.
  - discriminate.
Qed.

Lemma flat_optimized {V} (W : world V) o t t' a a' : built t -> flat_one W t -> optimizes o t t' ->
  finalize W t = Ok a -> finalize W t' = Ok a' -> same_array (atleast3 a) (atleast3 a').
Proof.
  intros Hb Hf (fuel & b & H) Ha Ha'.
  assert (Hf' : flat_one W t').
  { destruct (built_ok _ Hb) as (Hw & Ht & He). pose proof (exact_ov_free _ He) as Hr.
    destruct (optimize_kept o fuel t t' b Hw Hr Ht H) as (_ & _ & Hkp). destruct Hkp as [_ Hl']. exact (Hl' _ Hf). }
  destruct (optimize_same_pixels (unflat W) o fuel t t' b Hb) as (x & x' & Hx & Hx' & S); [|exact H|].
  - clear. unfold all_3d. induction t as [l|ps d IH|s ys xs ci d nm nc IH|s M d al IH|s q d IH|s k d IH] using node_ind'; cbn; auto.
    + now destruct (l_kind l).
    + apply (leafs_concat _ ps d). exact IH.
  - rewrite (unflat_finalize W t Hf a Ha) in Hx. rewrite (unflat_finalize W t' Hf' a' Ha') in Hx'.
    injection Hx as <-. injection Hx' as <-. exact S.
Qed.

(** ** Whole enlargements and translations *)

Lemma whole_fusable u v : u <> 0 -> v <> 0 -> fusable_sized (whole_warp u v).
Proof.
  intros Hu Hv. split; [intros M al d s ys xs ci cd c T [H _] E; congruence|].
  intros sz M d al M1 d1 al1 (Hn & p & q & i & j & Hp & Hq & A1 & A2 & A3 & A4 & B1 & B2 & I & J & D)
    (_ & p' & q' & i' & j' & Hp' & Hq' & A1' & A2' & A3' & A4' & B1' & B2' & I' & J' & D').
  split; [exact Hn|]. exists (p * p'), (q * q'), (p * i' + i), (q * j' + j). split; [nia|]. split; [nia|].
  unfold aff_mul. cbn. rewrite A1, A2, A3, A4, B1, B2, A1', A2', A3', A4', B1', B2', !inject_Z_plus, !inject_Z_mult.
  repeat (split; [ring|]).
  assert (Z1 : u * (p * i' + i) = p * (u * i') + u * i) by ring. assert (Z2 : v * (q * j' + j) = q * (v * j') + v * j) by ring.
  rewrite Z1, Z2. split; [nia|]. split; [nia|]. intros E1 E2. rewrite E1 in Z1. rewrite E2 in Z2.
  assert (u * i = 0 /\ p * (u * i') = 0) as [F1 F2] by nia. assert (v * j = 0 /\ q * (v * j') = 0) as [F3 F4] by nia.
  assert (i = 0 /\ i' = 0) as [-> ->] by nia. assert (j = 0 /\ j' = 0) as [-> ->] by nia.
  destruct (D eq_refl eq_refl) as (w1 & h1 & E & ->). injection E as ->.
  destruct (D' eq_refl eq_refl) as (w & h & -> & E'). injection E' as -> ->. exists w, h. split; [reflexivity|]. f_equal; ring.
Qed.

(* the pixel of the source in which a coordinate lies *)
Lemma whole_cell p i c x x' : 0 < p -> cell c x -> (x == inject_Z p * x' + inject_Z i)%Q -> cell ((c - i) / p) x'.
Proof.
  intros Hp [C1 C2] E. set (k := (c - i) / p).
  assert (L : p * k <= c - i) by (apply Z.mul_div_le; lia).
  assert (U : c - i < p * (k + 1)) by (unfold k; rewrite Z.add_1_r; apply Z.mul_succ_div_gt; lia). clearbody k.
  assert (P : (0 < inject_Z p)%Q) by (change 0%Q with (inject_Z 0); rewrite <- Zlt_Qlt; lia).
  assert (L' : (inject_Z (p * k + i) <= inject_Z c)%Q) by (rewrite <- Zle_Qle; lia).
  assert (U' : (inject_Z (c + 1) <= inject_Z (p * (k + 1) + i))%Q) by (rewrite <- Zle_Qle; lia).
  rewrite inject_Z_plus, inject_Z_mult in L'. rewrite (inject_Z_plus (p * (k + 1))), inject_Z_mult in U'. unfold cell.
  split; apply (Qmult_lt_l _ _ _ P); lra.
Qed.

Lemma finalizes_whole {V} (W : world V) u v s M d al a a' : whole_warp u v (dsize s) M d al -> (0 <= fst d /\ 0 <= snd d) ->
  finalizes W s a -> finalize W (Warp s M d al) = Ok a' -> finalizes W (Warp s M d al) a'.
Proof.
  intros (Hn & p & q & i & j & Hp0 & Hq0 & A1 & A2 & A3 & A4 & B1 & B2 & _ & _ & D) Hd0 (Hf & Hd & (n & Hnc & Hc & Hn0) & Hs) H.
  split; [exact H|]. cbn [finalize] in H. rewrite Hf in H. cbn [bind] in H. rewrite Hn in H.
  unfold nearest_array in H. difH H E; [discriminate|]. clear E.
  assert (Src : forall r c k x y s0, cell c x -> cell r y -> 0 <= k < n -> vis (Warp s M d al) x y k s0 ->
    0 <= (r - j) / q < a_h a /\ 0 <= (c - i) / p < a_w a /\ a_pix a ((r - j) / q) ((c - i) / p) k = value W s0).
  { intros r c k x y s0 Cx Cy Hk (_ & x' & y' & Hx & Hy & Hv). unfold ax, ay in Hx, Hy.
    rewrite A1, A2, B1 in Hx. rewrite A3, A4, B2 in Hy.
    assert (Cx' : cell ((c - i) / p) x') by (apply (whole_cell p i c x); [exact Hp0|exact Cx|lra]).
    assert (Cy' : cell ((r - j) / q) y') by (apply (whole_cell q j r y); [exact Hq0|exact Cy|lra]).
    assert (Hin := Hv). apply vis_inside in Hin as (sz & Hsz & Hin). rewrite Hd in Hsz. injection Hsz as <-.
    apply (inside_cell _ _ _ _ _ Cx' Cy') in Hin as [Hr' Hc']. cbn [fst snd] in Hr', Hc'.
    split; [exact Hr'|]. split; [exact Hc'|]. eapply Hs; try eassumption. now rewrite Hc. }
  difH H E.
  - apply andb_prop in E as [E1 E2]. apply Qeq_bool_iff in E1, E2. rewrite B1 in E1. rewrite B2 in E2.
    assert (i = 0 /\ j = 0) as [-> ->] by (unfold Qeq, inject_Z in E1, E2; cbn in E1, E2; lia).
    destruct (D eq_refl eq_refl) as (w & h & Ds & ->). rewrite Hd in Ds. injection Ds as <- <-.
    difH H E; [discriminate|]. cbn [fst snd] in *. injection H as <-. rewrite Hc. cbn [atleast3 a_c a_w a_h a_pix].
    split; [reflexivity|]. split; [eauto|].
    intros r c k x y s0 Cx Cy Hr Hcc Hk Hv. cbn [atleast3 a_c a_w a_h a_pix] in *.
    destruct (Src r c k x y s0 Cx Cy Hk Hv) as (_ & _ & <-). unfold resize_src.
    rewrite !Z.sub_0_r. rewrite !Z.div_mul_cancel_r by nia. reflexivity.
  - apply bind_ok in H as (g & Hp & H). injection H as <-. rewrite Hc. cbn [atleast3 a_c a_w a_h a_pix].
    split; [cbn; now destruct d|]. split; [cbn; eauto|].
    intros r c k x y s0 Cx Cy Hr Hcc Hk Hv. cbn [atleast3 a_c a_w a_h a_pix] in *.
    destruct (Src r c k x y s0 Cx Cy Hk Hv) as (Hr' & Hc' & <-).
    assert (P1 : (0 < a11 M)%Q) by (rewrite A1; change 0%Q with (inject_Z 0); rewrite <- Zlt_Qlt; lia).
    assert (P2 : (0 < a22 M)%Q) by (rewrite A4; change 0%Q with (inject_Z 0); rewrite <- Zlt_Qlt; lia).
    destruct (nearest_warp_spec _ _ _ _ _ _ _ _ _ _ _ P1 P2 Hp r c Hr Hcc) as [G _].
    rewrite (G ((c - i) / p) ((r - j) / q)); [reflexivity|assumption|assumption| |];
      rewrite ?A1, ?A4, ?B1, ?B2; rewrite <- !inject_Z_mult, <- !inject_Z_plus, <- Zle_Qle, <- Zlt_Qlt.
    + pose proof (Z.mul_div_le (c - i) p Hp0). pose proof (Z.mul_succ_div_gt (c - i) p Hp0). lia.
    + pose proof (Z.mul_div_le (r - j) q Hq0). pose proof (Z.mul_succ_div_gt (r - j) q Hq0). lia.
Qed.

Lemma finalize_whole {V} (W : world V) u v t : wf t -> tight t -> warps_sized (whole_warp u v) t -> all_3d W t ->
  forall a, finalize W t = Ok a -> finalizes W t a.
Proof.
  assert (Det : forall t a, (exists b, finalizes W t b) -> finalize W t = Ok a -> finalizes W t a).
  { intros t0 a (b & Hb) H. assert (E := proj1 Hb). rewrite H in E. injection E as ->. exact Hb. }
  induction t as [l|ps d IH|s ys xs ci d nm nc IH|s M d al IH|s q d IH|s k d IH] using node_ind';
    intros Hw Ht He H3 a H; try contradiction.
  - apply Det; [now apply finalizes_leaf|exact H].
  - apply Det; [|exact H]. cbn [finalize] in H. apply bind_ok in H as (l & Hl & _).
    apply (finalizes_concat W ps d l Ht).
    apply wf_concat in Hw as (Hw & _). apply tight_concat in Ht as (_ & Ht & _). apply (sized_concat _ ps d) in He.
    apply (leafs_concat _ ps d) in H3.
    revert l Hl. induction ps as [|p ps IHps]; intros l Hl; [injection Hl as <-; constructor|].
    inversion IH; inversion Hw; inversion Ht; inversion He; inversion H3; subst.
    cbn in Hl. destruct (finalize W p) as [b|] eqn:Ep; [|discriminate]. cbn in Hl.
    apply bind_ok in Hl as (l' & Hl' & Hl). injection Hl as <-. constructor; auto.
  - apply Det; [|exact H]. cbn [finalize] in H. apply bind_ok in H as (b & Hb & _).
    eapply finalizes_crop; [exact Hw|exact Ht|]. apply IH; [apply Hw|apply Ht|exact He|exact H3|exact Hb].
  - pose proof H as H0. cbn [finalize] in H. apply bind_ok in H as (b & Hb & _).
    eapply finalizes_whole; [apply He|apply Ht| |exact H0]. apply IH; [apply Hw|apply Ht|apply He|exact H3|exact Hb].
  - apply Det; [|exact H]. cbn [finalize] in H. destruct (finalize W s) as [b|] eqn:Eb; [|discriminate].
    eapply finalizes_dequant; [apply Ht|]. apply IH; [exact Hw|apply Ht|exact He|exact H3|reflexivity].
Qed.

Lemma vis_band t : wf t -> forall x y k s n, vis t x y k s -> num_channels t = Some n -> 0 <= k < n.
Proof.
  induction t as [l|ps d IH|s ys xs ci d nm nc IH|s M d al IH|s q d IH|s i d IH] using node_ind';
    intros Hw x y k s0 n Hv Hn.
  - destruct Hv as (_ & (m & Hm & Hk) & _). cbn in Hn. assert (m = n) by congruence. lia.
  - destruct Hv as (_ & Ho). apply wf_concat in Hw as (Hw & _). cbn [num_channels] in Hn.
    revert k n Ho Hn. induction ps as [|p ps IHps]; intros k n Ho Hn; [contradiction|].
    inversion IH; inversion Hw; subst. cbn in Hn, Ho. fold (sum_opt (map num_channels ps)) in Hn.
    destruct (num_channels p) as [m|] eqn:Em; [|discriminate].
    destruct (sum_opt (map num_channels ps)) as [m'|] eqn:Es; [|discriminate]. injection Hn as <-.
    assert (Hm0 : 0 <= m /\ 0 <= m').
    { split; [destruct (wf_meta p) as (z & Hz & Hz0 & _); [assumption|]; assert (z = m) by congruence; lia|].
      clear -Es H6. revert m' Es. induction ps as [|q ps IHq]; intros m' Es; [injection Es as <-; lia|].
      inversion H6; subst. cbn in Es. fold (sum_opt (map num_channels ps)) in Es.
      destruct (wf_meta q) as (z & Hz & Hz0 & _); [assumption|]. rewrite Hz in Es.
      destruct (sum_opt (map num_channels ps)); [|discriminate]. injection Es as <-.
      specialize (IHq H2 _ eq_refl). lia. }
    destruct (k <? m) eqn:Ek.
    + match goal with H : wf p -> _ |- _ => specialize (H ltac:(assumption) _ _ _ _ _ Ho eq_refl) end. lia.
    + specialize (IHps ltac:(assumption) ltac:(assumption) _ _ Ho eq_refl). lia.
  - pose proof (crop_nc _ _ _ _ _ _ _ Hw) as Hnc. rewrite Hn in Hnc. destruct Hv as (_ & b & Hb & Hv).
    destruct ci as [l|].
    + injection Hnc as ->. destruct Hb as [Hb0 Hb].
      assert (Z.to_nat k < List.length l)%nat by (apply nth_error_Some; congruence). lia.
    + cbn in Hb. subst b. eapply IH; [apply Hw|exact Hv|symmetry; exact Hnc].
  - destruct Hv as (_ & x' & y' & _ & _ & Hv). eapply IH; [apply Hw|exact Hv|exact Hn].
  - destruct Hv as (_ & s' & Hv & _). eapply IH; [apply Hw|exact Hv|exact Hn].
  - destruct Hv as (_ & Hv). eapply IH; [apply Hw|exact Hv|exact Hn].
Qed.

Lemma optimize_whole_pixels {V} (W : world V) u v o fuel t t' b a a' : u <> 0 -> v <> 0 ->
  made t -> ov_free t -> warps_sized (whole_warp u v) t -> all_3d W t ->
  optimize o fuel t = Ok (t', b) -> finalize W t = Ok a -> finalize W t' = Ok a' ->
  a_h a' = a_h a /\ a_w a' = a_w a /\ a_c a' = a_c a /\
  forall r c k s, vis t (centre c) (centre r) k s -> a_pix a r c k = value W s /\ a_pix a' r c k = value W s.
Proof.
  intros Hu Hv0 Hm Hr Hs H3 Ho Ha Ha'. destruct (made_ok _ Hm) as (Hw & Ht).
  destruct (optimize_good o fuel ROvFree t t' b Hw Hr Ho) as ((Hw' & Hr' & Hnm & Hnc & Hv) & _).
  destruct (optimize_kept o fuel t t' b Hw Hr Ht Ho) as (Hd & Ht' & Hkp).
  destruct (finalize_whole W u v t Hw Ht Hs H3 a Ha) as (_ & Fd & (n & Fn & Fc & _) & Fs).
  destruct (finalize_whole W u v t' Hw' Ht' (proj1 Hkp _ (whole_fusable u v Hu Hv0) Hs) (proj2 Hkp _ H3) a' Ha') as (_ & Fd' & (n' & Fn' & Fc' & _) & Fs').
  rewrite Fd, Fd' in Hd. injection Hd as Ew Eh. assert (n' = n) by congruence. subst n'.
  split; [exact Eh|]. split; [exact Ew|]. split; [congruence|]. intros r c k s Hvs.
  assert (Hin := Hvs). apply vis_inside in Hin as (sz & Hsz & Hin). rewrite Fd in Hsz. injection Hsz as <-.
  apply inside_centre in Hin as [Hr1 Hc1]. cbn [fst snd] in *.
  assert (Hk : 0 <= k < n) by (exact (vis_band t Hw _ _ _ _ _ Hvs Fn)).
  split; [eapply Fs|eapply Fs']; try apply cell_centre; try (apply Hv); try exact Hvs; try lia; try (rewrite Fc; exact Hk); try (rewrite Fc'; exact Hk).
Qed.

(** ** Metadata *)

Lemma optimize_metadata o t t' : made t -> ov_free t -> optimizes o t t' ->
  dsize t' = dsize t /\ num_channels t' = num_channels t /\ names t' = names t.
Proof.
  intros Hm Hr (f & b & H). destruct (made_ok _ Hm) as (Hw & Ht).
  destruct (optimize_good o f ROvFree t t' b Hw Hr H) as ((_ & _ & Hnm & Hnc & _) & _).
  destruct (optimize_kept o f t t' b Hw Hr Ht H) as (Hd & _). auto.
Qed.

Lemma optimize_channels o t t' : made t -> nans_free t -> optimizes o t t' ->
  num_channels t' = num_channels t /\ names t' = names t.
Proof.
  intros Hm Hr (f & b & H). destruct (made_ok _ Hm) as (Hw & _).
  destruct (optimize_good o f RNansFree t t' b Hw Hr H) as ((_ & _ & Hnm & Hnc & _) & _). auto.
Qed.

Lemma optimize_samples o t t' : made t -> nans_free t \/ ov_free t -> optimizes o t t' ->
  forall x y c s, vis t x y c s -> vis t' x y c s.
Proof.
  intros Hm Hr (f & b & H). destruct (made_ok _ Hm) as (Hw & _). destruct Hr as [Hr|Hr].
  - destruct (optimize_good o f RNansFree t t' b Hw Hr H) as ((_ & _ & _ & _ & Hv) & _). exact Hv.
  - destruct (optimize_good o f ROvFree t t' b Hw Hr H) as ((_ & _ & _ & _ & Hv) & _). exact Hv.
Qed.
