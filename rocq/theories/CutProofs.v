(* Arrays of images with windows of whole enlargements. *)
From Verif Require Import Py PyProofs GeomModel GeomProofs GraphModel GraphSpec GraphBase GraphTake GraphOpt GraphMain GraphSound GraphSize GraphTotal FinalModel FinalSpec FinalProofs.
From Coq Require Import Lqa ZifyBool.
Local Open Scope Z_scope.

Lemma cut_whole sz M d al : cut_warp sz M d al -> whole_warp (-1) (-1) sz M d al.
Proof.
  intros (Hn & w & h & p & q & x0 & y0 & -> & Hp & Hq & Hx & Hy & A1 & A2 & A3 & A4 & B1 & B2 & _ & _ & _ & _ & D).
  split; [exact Hn|]. exists p, q, (- x0), (- y0). repeat (split; [assumption || lia|]).
  intros E1 E2. exists w, h. split; [reflexivity|]. apply D; lia.
Qed.

Lemma sized_mono (P Q : option size -> affine -> size -> algo -> Prop) : (forall sz M d al, P sz M d al -> Q sz M d al) ->
  forall t, warps_sized P t -> warps_sized Q t.
Proof.
  intros H t. induction t as [l|ps d IH|s ys xs ci d nm nc IH|s M d al IH|s q d IH|s k d IH] using node_ind'; intros Ht; try contradiction.
  - exact I.
  - apply (sized_concat Q ps d). apply (sized_concat P ps d) in Ht.
    induction Ht; inversion IH; constructor; auto.
  - apply IH, Ht.
  - destruct Ht. split; [apply H; assumption|apply IH; assumption].
  - apply IH, Ht.
Qed.

Lemma cut_fusable : fusable_sized cut_warp.
Proof.
  split; [intros M al d s ys xs ci cd c T [H _] E; congruence|].
  intros sz M d al M1 d1 al1 (Hn & w1 & h1 & p & q & i & j & E & Hp & Hq & Hi & Hj & A1 & A2 & A3 & A4 & B1 & B2 & D1 & D2 & F1 & F2 & D)
    (_ & w & h & p' & q' & i' & j' & -> & Hp' & Hq' & Hi' & Hj' & A1' & A2' & A3' & A4' & B1' & B2' & D1' & D2' & F1' & F2' & D').
  injection E as ->. cbn [fst snd] in *.
  split; [exact Hn|]. exists w, h, (p * p'), (q * q'), (p * i' + i), (q * j' + j).
  split; [reflexivity|]. do 4 (split; [nia|]).
  unfold aff_mul. cbn. rewrite A1, A2, A3, A4, B1, B2, A1', A2', A3', A4', B1', B2', !inject_Z_opp, !inject_Z_plus, !inject_Z_mult.
  repeat (split; [ring|]). split; [exact D1|]. split; [exact D2|]. split; [nia|]. split; [nia|].
  intros E1 E2. assert (i = 0 /\ i' = 0) as [-> ->] by nia. assert (j = 0 /\ j' = 0) as [-> ->] by nia.
  rewrite (D eq_refl eq_refl). specialize (D' eq_refl eq_refl). injection D' as -> ->. f_equal; ring.
Qed.

(* every point strictly inside of the canvas shows something *)
Lemma cut_vis t : wf t -> tight t -> warps_sized cut_warp t -> forall w h n x y k,
  dsize t = Some (w, h) -> num_channels t = Some n ->
  (0 < x)%Q -> (x < inject_Z w)%Q -> (0 < y)%Q -> (y < inject_Z h)%Q -> 0 <= k < n ->
  exists s, vis t x y k s.
Proof.
  assert (In : forall w h x y, (0 < x)%Q -> (x < inject_Z w)%Q -> (0 < y)%Q -> (y < inject_Z h)%Q -> inside (w, h) x y).
  { intros. unfold inside. cbn [fst snd]. repeat split; lra. }
  induction t as [l|ps d IH|s ys xs ci d nm nc IH|s M d al IH|s q d IH|s i d IH] using node_ind';
    intros Hw Ht He w h n x y k Hd Hn X0 X1 Y0 Y1 Hk; try contradiction.
  - cbn in *. injection Hd as Hd. rewrite Hn, Hd. destruct (l_kind l).
    + exists (Samp (l_id l) k x y []). split; [now apply In|].
      split; [eauto|]. exists x, y. auto with qarith.
    + exists (NaN []). split; [now apply In|]. eauto.
  - cbn [dsize] in Hd. subst d. apply wf_concat in Hw as (Hw & Hds & _). apply tight_concat in Ht as (_ & Ht & _).
    apply (sized_concat _ ps (Some (w, h))) in He. cbn [num_channels] in Hn. cbn [vis].
    assert (G : exists s, owner (fun p c' => vis p x y c' s) ps k).
    { revert n k Hn Hk. induction ps as [|p ps IHps]; intros n k Hn Hk; [injection Hn as <-; lia|].
      inversion IH; inversion Hw; inversion Ht; inversion He; inversion Hds; subst.
      cbn in Hn. destruct (num_channels p) as [m|] eqn:Em; [|discriminate].
      fold (sum_opt (map num_channels ps)) in Hn.
      destruct (sum_opt (map num_channels ps)) as [m'|] eqn:Es; [|discriminate]. injection Hn as <-.
      cbn [owner]. rewrite Em. destruct (k <? m) eqn:Ek.
      - match goal with H : wf p -> _ |- _ => apply (H ltac:(assumption) ltac:(assumption) ltac:(assumption) w h m x y k) end; auto; lia.
      - eapply IHps; try assumption; [reflexivity|lia]. }
    destruct G as (s & G). exists s. split; [now apply In|exact G].
  - pose proof (wf_crop_ci _ _ _ _ _ _ _ Hw) as Hin. pose proof (crop_nc _ _ _ _ _ _ _ Hw) as Hnc.
    destruct (wf_nc s) as (m & Hm); [apply Hw|].
    destruct Ht as (Ht & Hci & -> & w0 & h0 & Hds & B1 & B2 & B3 & B4). cbn [dsize] in Hd. injection Hd as <- <-.
    unfold iv_len in *.
    assert (G : exists b, selects ci k b /\ 0 <= b < m).
    { rewrite Hn in Hnc. destruct ci as [l|].
      - injection Hnc as ->. assert (Hl : Forall (fun i => 0 <= i < m) l) by (apply Hin; exact Hm).
        rewrite Forall_forall in Hl.
        destruct (nth_error l (Z.to_nat k)) as [b|] eqn:E; [|apply nth_error_None in E; lia].
        exists b. split; [cbn; auto with zarith|]. apply Hl. eapply nth_error_In, E.
      - exists k. split; [reflexivity|]. rewrite Hm in Hnc. injection Hnc as ->. lia. }
    destruct G as (b & Hb & Hbm).
    assert (Sh : forall z i0 i1 D, 0 <= i0 -> i1 <= D -> (0 < z)%Q -> (z < inject_Z (i1 - i0))%Q ->
      (0 < z + inject_Z i0)%Q /\ (z + inject_Z i0 < inject_Z D)%Q).
    { intros z i0 i1 D H1 H2 H3 H4. rewrite Zle_Qle in H1. change (inject_Z 0) with 0%Q in H1. rewrite Zle_Qle in H2.
      unfold Z.sub in H4. rewrite inject_Z_plus, inject_Z_opp in H4. split; lra. }
    destruct (Sh x (fst xs) (snd xs) w0) as [Sx1 Sx2]; try assumption; try lia.
    destruct (Sh y (fst ys) (snd ys) h0) as [Sy1 Sy2]; try assumption; try lia.
    destruct (IH (proj1 Hw) Ht He w0 h0 m _ _ b Hds Hm Sx1 Sx2 Sy1 Sy2 Hbm) as (s0 & Hv).
    exists s0. cbn [vis]. split; [now apply In|]. exists b. split; [exact Hb|exact Hv].
  - cbn [dsize] in Hd. injection Hd as ->. destruct He as [(Hnr & w0 & h0 & p & q & i & j & Hds & Hp & Hq & Hi & Hj & A1 & A2 & A3 & A4 & B1 & B2 & D1 & D2 & F1 & F2 & _) He].
    cbn [fst snd] in *.
    assert (Bk : forall z i p w w0, 0 < p -> 0 <= i -> i + w <= p * w0 -> (0 < z)%Q -> (z < inject_Z w)%Q ->
      (z == inject_Z p * ((z + inject_Z i) / inject_Z p) + inject_Z (- i))%Q /\
      (0 < (z + inject_Z i) / inject_Z p)%Q /\ ((z + inject_Z i) / inject_Z p < inject_Z w0)%Q).
    { clear. intros z i p w w0 Hp Hi Hw Z0 Z1.
      assert (P : (0 < inject_Z p)%Q) by (change 0%Q with (inject_Z 0); rewrite <- Zlt_Qlt; lia).
      rewrite Zle_Qle in Hi. change (inject_Z 0) with 0%Q in Hi. rewrite Zle_Qle, inject_Z_plus, inject_Z_mult in Hw.
      split; [rewrite inject_Z_opp; field; lra|]. split.
      - apply Qlt_shift_div_l; [exact P|]. lra.
      - apply Qlt_shift_div_r; [exact P|]. lra. }
    destruct (Bk x i p w w0 Hp Hi F1 X0 X1) as (Ex & Bx1 & Bx2). destruct (Bk y j q h h0 Hq Hj F2 Y0 Y1) as (Ey & By1 & By2).
    destruct (IH (proj1 Hw) (proj1 Ht) He w0 h0 n _ _ k Hds Hn Bx1 Bx2 By1 By2 Hk) as (s0 & Hv).
    exists s0. cbn [vis]. split; [now apply In|]. eexists _, _. split; [|split; [|exact Hv]].
    + unfold ax. rewrite A1, A2, B1. rewrite Ex at 1. ring.
    + unfold ay. rewrite A3, A4, B2. rewrite Ey at 1. ring.
  - destruct Ht as (Ht & ->). cbn [dsize] in Hd. assert (Hds : dsize s = Some (w, h)) by (destruct (dsize s); exact Hd).
    destruct (IH Hw Ht He w h n x y k) as (s0 & Hv); try assumption.
    exists (apply_dq q s0). cbn [vis]. rewrite Hds. split; [now apply In|eauto].
Qed.

(* and the image finalizes *)
Lemma cut_finalize {V} (W : world V) t : wf t -> tight t -> warps_sized cut_warp t -> all_3d W t ->
  exists a, finalizes W t a.
Proof.
  induction t as [l|ps d IH|s ys xs ci d nm nc IH|s M d al IH|s q d IH|s k d IH] using node_ind';
    intros Hw Ht He H3; try contradiction.
  - now apply finalizes_leaf.
  - assert (F : exists l, Forall2 (finalizes W) ps l).
    { apply wf_concat in Hw as (Hw & _). apply tight_concat in Ht as (_ & Ht & _). apply (sized_concat _ ps d) in He.
      apply (leafs_concat _ ps d) in H3. induction ps as [|p ps IHps]; [exists []; constructor|].
      inversion IH; inversion Hw; inversion Ht; inversion He; inversion H3; subst.
      destruct IHps as (l & Hl); [assumption..|]. match goal with H : wf p -> _ |- _ => destruct H as (a & Ha); [assumption..|] end.
      exists (a :: l). now constructor. }
    destruct F as (l & F). eapply finalizes_concat; eassumption.
  - destruct IH as (a & Ha); [apply Hw|apply Ht|exact He|exact H3|]. eapply finalizes_crop; eassumption.
  - destruct He as [Hc He]. destruct IH as (a & Ha); [apply Hw|apply Ht|exact He|exact H3|].
    assert (E : exists a', finalize W (Warp s M d al) = Ok a').
    { cbn [finalize]. rewrite (proj1 Ha). cbn [bind].
      destruct Hc as (-> & w & h & p & q & i & j & Hds & Hp & Hq & Hi & Hj & A1 & A2 & A3 & A4 & B1 & B2 & D1 & D2 & F1 & F2 & D).
      assert (P1 : (0 < a11 M)%Q) by (rewrite A1; change 0%Q with (inject_Z 0); rewrite <- Zlt_Qlt; lia).
      assert (P2 : (0 < a22 M)%Q) by (rewrite A4; change 0%Q with (inject_Z 0); rewrite <- Zlt_Qlt; lia).
      assert (Al : axis_aligned M = true).
      { unfold axis_aligned. rewrite !andb_true_iff, !negb_true_iff, !Qeq_bool_iff.
        repeat split; try assumption; apply not_true_iff_false; rewrite Qle_bool_iff; lra. }
      unfold nearest_array. rewrite Al. cbn [negb]. destruct (Qeq_bool (b1 M) 0 && Qeq_bool (b2 M) 0)%bool.
      - replace ((fst d <=? 0) || (snd d <=? 0))%bool with false by lia. eauto.
      - destruct Ha as (_ & Hda & _). rewrite Hds in Hda. injection Hda as <- <-.
        match goal with |- context [nearest_warp ?f ?sx ?sy ?tx ?ty ?iw ?ih ?ow ?oh ?src] =>
          destruct (proj2 (nearest_warp_defined f sx sy tx ty iw ih ow oh src P1 P2)) as (out & ->) end; [|cbn [bind]; eauto].
        intros row col x y _ _ _ _ _ _.
        split; intros n Hn; rewrite ?A1, ?A4, ?B1, ?B2; rewrite <- !inject_Z_mult, <- !inject_Z_plus, <- Zle_Qle, <- Zlt_Qlt; nia. }
    destruct E as (a' & Ha'). exists a'. eapply (finalizes_whole W (-1) (-1)); [apply cut_whole; exact Hc|apply Ht|exact Ha|exact Ha'].
  - destruct IH as (a & Ha); [exact Hw|apply Ht|exact He|exact H3|]. eapply finalizes_dequant; [apply Ht|eassumption].
Qed.

Lemma optimize_cut {V} (W : world V) o fuel t t' b : made t -> ov_free t -> warps_sized cut_warp t -> all_3d W t ->
  optimize o fuel t = Ok (t', b) ->
  exists a a', finalize W t = Ok a /\ finalize W t' = Ok a' /\ same_array a a'.
Proof.
  intros Hm Hr He H3 H. destruct (made_ok _ Hm) as (Hw & Ht).
  destruct (optimize_good o fuel ROvFree t t' b Hw Hr H) as ((Hw' & Hr' & Hnm & Hnc & Hv) & _).
  destruct (optimize_kept o fuel t t' b Hw Hr Ht H) as (Hd & Ht' & Hkp).
  destruct (cut_finalize W t Hw Ht He H3) as (a & Ha).
  destruct (cut_finalize W t' Hw' Ht' (proj1 Hkp _ cut_fusable He) (proj2 Hkp _ H3)) as (a' & Ha').
  exists a, a'. split; [apply Ha|]. split; [apply Ha'|].
  destruct Ha as (_ & Fd & (n & Fn & Fc & _) & Fs). destruct Ha' as (_ & Fd' & (n' & Fn' & Fc' & _) & Fs').
  rewrite Fd, Fd' in Hd. injection Hd as Ew Eh. assert (n' = n) by congruence. subst n'.
  split; [auto|]. split; [auto|]. split; [congruence|]. rewrite Fc. intros r c k Hr0 Hcc Hk.
  assert (Ce : forall z D, 0 <= z < D -> (0 < centre z)%Q /\ (centre z < inject_Z D)%Q).
  { intros z D [Z0 Z1]. unfold centre. rewrite Zle_Qle in Z0. change (inject_Z 0) with 0%Q in Z0.
    assert (Z2 : z + 1 <= D) by lia. rewrite Zle_Qle, inject_Z_plus in Z2. change (inject_Z 1) with 1%Q in Z2. split; lra. }
  destruct (Ce c _ Hcc) as [X0 X1]. destruct (Ce r _ Hr0) as [Y0 Y1].
  destruct (cut_vis t Hw Ht He _ _ _ _ _ k Fd Fn X0 X1 Y0 Y1 Hk) as (s & Hvs).
  rewrite (Fs r c k _ _ s (cell_centre c) (cell_centre r)) by (try rewrite Fc; assumption). symmetry.
  eapply Fs'; [apply cell_centre|apply cell_centre|lia|lia|now rewrite Fc'|]. apply Hv, Hvs.
Qed.
