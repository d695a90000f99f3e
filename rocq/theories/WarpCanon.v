(* Cropping, warping and dequantizing canonical trees; optimize() is total. *)
From Verif Require Import Py PyProofs GeomModel GeomProofs GraphModel GraphSpec GraphBase GraphTake GraphOpt GraphMain GraphSound GraphSize GraphTotal WarpTotal.
From Coq Require Import ZifyBool.
Local Open Scope Z_scope.

(** ** Cropping a pipeline *)

Lemma fuse_total s2 ys1 xs1 ci1 d1 nm1 nc1 ys xs ci d nm nc :
  wnice (Crop (Crop s2 ys1 xs1 ci1 d1 nm1 nc1) ys xs ci d nm nc) ->
  exists ys' xs' ci' nm' nc', fuse_crops s2 ys1 xs1 ci1 ys xs ci = Ok (Crop s2 ys' xs' ci' (iv_len xs', iv_len ys') nm' nc') /\
    wnice (Crop s2 ys' xs' ci' (iv_len xs', iv_len ys') nm' nc') /\
    (iv_len xs', iv_len ys') = d.
Proof.
  intros Hn. pose proof (wnice_crop_sub _ _ _ _ _ _ _ Hn) as Hn1. pose proof (wnice_crop_sub _ _ _ _ _ _ _ Hn1) as Hn2.
  pose proof Hn as (Hw & Ht & Hr & _). pose proof (wf_crop_ci _ _ _ _ _ _ _ Hw) as Hci.
  assert (Hws : wf (Crop s2 ys1 xs1 ci1 d1 nm1 nc1)) by apply Hw.
  destruct (wf_nc _ (proj1 Hn2)) as (m & Hm). pose proof (wf_crop_ci _ _ _ _ _ _ _ Hws) as Hci1.
  assert (Hci2 : ci_ok (sel_nc (num_channels s2) ci1) ci) by (rewrite <- (crop_nc _ _ _ _ _ _ _ Hws); exact Hci).
  assert (Hf : exists nci, fuse_idxs ci1 ci = Ok nci).
  { unfold fuse_idxs. destruct ci as [oi|], ci1 as [ii|]; eauto.
    assert (R : Forall (fun i => 0 <= i < Z.of_nat (List.length ii)) oi) by (apply Hci2; reflexivity).
    assert (G : exists r, mapR (py_get ii) oi = Ok r).
    { clear -R. induction R as [|i oi Hi F (r & IH)]; cbn; [eauto|].
      destruct (nth_error_in_range ii i Hi) as (a & Ha).
      unfold py_get at 1. destruct (i <? 0) eqn:Ei; [lia|]. cbv zeta. rewrite Ei, Ha. cbn. rewrite IH. cbn. eauto. }
    destruct G as (r & ->). cbn. eauto. }
  destruct Hf as (nci & Hf). destruct (fuse_idxs_ok s2 ci1 ci nci m Hm Hci1 Hci2 Hf) as (Hnci & _).
  destruct (names s2) as [nl|] eqn:Enl; [|now destruct Hn2 as (_ & _ & _ & _ & E)].
  assert (Hc : exists c, fuse_crops s2 ys1 xs1 ci1 ys xs ci = Ok c).
  { destruct Ht as ((Hts & Hne1 & -> & w1 & h1 & Hd1 & C1 & C2 & C3 & C4) & Hne & -> & w & h & Hd & B1 & B2 & B3 & B4).
    cbn [dsize] in Hd. injection Hd as <- <-.
    destruct (mkCrop_total s2 (Some (fuse_axis ys1 ys, fuse_axis xs1 xs)) nci w1 h1 nl m) as (c & Hc); auto.
    - apply Hn2.
    - intros li ->. apply Hnci. exact Hm.
    - intros sy sx [= <- <-]. rewrite !fuse_axis_in by (unfold iv_len in *; lia). eauto.
    - exists c. unfold fuse_crops. rewrite Hf. exact Hc. }
  destruct Hc as (c & Hc).
  pose proof (fuse_crops_kept _ _ _ _ _ _ _ _ _ _ _ _ _ _ Ht Hc) as Hk.
  pose proof (fuse_crops_pregood ROvFree _ _ _ _ _ _ _ _ _ _ _ _ _ _ Hw Hr Hc) as (P1 & P2 & P3 & _).
  pose proof (wnice_kept _ _ Hn P1 P2 P3 Hk) as Hnc.
  pose proof Hc as Hc'. unfold fuse_crops in Hc'. rewrite Hf in Hc'. cbn [bind] in Hc'.
  apply mkCrop_shape in Hc' as (w & h & ys' & xs' & nm' & nc' & _ & -> & _).
  exists ys', xs', nci, nm', nc'. split; [exact Hc|]. split; [exact Hnc|]. destruct Hk as (Hd & _). cbn in Hd. congruence.
Qed.

Lemma crop_leaf_pipe f l ys xs ci d nm nc : wnice (Crop (Leaf l) ys xs ci d nm nc) ->
  exists n, opt_crop f (Leaf l) ys xs ci d nm nc = Ok n /\ pipe n /\ dq_free n.
Proof.
  intros Hnice. pose proof (wnice_crop_sub _ _ _ _ _ _ _ Hnice) as (Hws & Hts & _ & _ & Hns).
  destruct Hnice as (Hw & Ht & _). pose proof (wf_crop_ci _ _ _ _ _ _ _ Hw) as Hci.
  destruct Ht as (_ & Hne & -> & w & h & Hd & B1 & B2 & B3 & B4).
  unfold opt_crop. cbn [bind]. destruct (is_nans l) eqn:El; [|eexists; split; [reflexivity|cbn; auto]].
  cbn [names] in Hns. destruct (l_names l) as [nl|] eqn:Enl; [|congruence].
  assert (E : exists nm', (match ci with None => Ok (l_names l) | Some i => match l_names l with None => Err AssertionError | Some n => rmap Some (select_names n i) end end) = Ok nm').
  { destruct ci as [i|]; [|eauto]. rewrite Enl. destruct (select_total nl i) as (n' & ->).
    - destruct (wf_meta _ Hws) as (m & Hm & _ & Hl). rewrite (Hl nl Enl). apply Hci. exact Hm.
    - cbn. eauto. }
  destruct E as (nm' & E).
  destruct (embed_axis_total (snd (l_dsize l)) (fst ys) (snd ys) 0 ltac:(lia)) as (dy & ey & Ey).
  destruct (embed_axis_total (fst (l_dsize l)) (fst xs) (snd xs) 0 ltac:(lia)) as (dx & ex & Ex).
  eexists. split; [unfold nans_crop; rewrite E; cbn [bind]; rewrite Ey; cbn [bind]; rewrite Ex; cbn [bind]; reflexivity|].
  cbn. auto.
Qed.

Lemma crop_pipe o s : pipe s -> forall ys xs ci d nm nc, wnice (Crop s ys xs ci d nm nc) ->
  exists n, opts o (Crop s ys xs ci d nm nc) n /\ pipe n /\ (dq_free s -> dq_free n).
Proof.
  induction s as [l|ps d0 IH|x ys1 xs1 ci1 d1 nm1 nc1 IH|x M d0 al IH|x q d0 IH|x k d0 IH] using node_ind';
    intros Hp ys xs ci d nm nc Hn; try contradiction.
  - destruct (crop_leaf_pipe (O o 0) l ys xs ci d nm nc Hn) as (n & H1 & H2 & H3).
    exists n. split; [|auto]. eapply opts_crop; [apply opts_leaf|exact H1].
  - pose proof (wnice_crop_sub _ _ _ _ _ _ _ Hn) as Hn1. pose proof (wnice_crop_sub _ _ _ _ _ _ _ Hn1) as Hn2.
    pose proof (pipe_opts o _ Hp (proj1 (proj2 (proj2 Hn1)))) as Hself.
    destruct (fuse_total _ _ _ _ _ _ _ _ _ _ _ _ _ Hn) as (ys' & xs' & ci' & nm' & nc' & Hf & Hnf & Ed).
    destruct Hp as [Hp Hx].
    destruct x as [l| | |y M2 d2 al2| |]; try contradiction.
    + exists (Crop (Leaf l) ys' xs' ci' (iv_len xs', iv_len ys') nm' nc'). split; [|cbn; auto].
      eapply (opts_crop _ _ _ _ _ _ _ _ _ _ 0); [exact Hself|]. unfold opt_crop. rewrite Hf. cbn [bind]. now rewrite Hx.
    + destruct (IH Hp _ _ _ _ _ _ Hnf) as (n & G1 & G2 & G3).
      exists n. split; [|split; [exact G2|exact G3]].
      apply (opts_crop_inv o _ (Warp y M2 d2 al2)) in G1 as (f & G1);
        [|apply pipe_opts; [exact Hp|apply Hn2]].
      eapply (opts_crop _ _ _ _ _ _ _ _ _ _ f); [exact Hself|].
      unfold opt_crop in *. rewrite Hf. cbn [bind] in *. exact G1.
  - pose proof (wnice_crop_sub _ _ _ _ _ _ _ Hn) as Hn1.
    pose proof (pipe_opts o _ Hp (proj1 (proj2 (proj2 Hn1)))) as Hself.
    destruct (wnice_warp_sub _ _ _ _ Hn1) as (Hnx & Hlx & HM & He).
    destruct (al_nearest al) eqn:Enear.
    { eexists. split; [eapply (opts_crop _ _ _ _ _ _ _ _ _ _ 0); [exact Hself|]; unfold opt_crop; cbn [bind]; rewrite Enear; reflexivity|].
      cbn [pipe dq_free] in *. auto. }
    destruct (warp_after_crop_total _ _ _ _ _ _ _ _ _ _ Hn) as [[Hwc H0]|(a & b & nm' & nc' & T & Hwc & Hnc)].
    { eexists. split; [eapply (opts_crop _ _ _ _ _ _ _ _ _ _ 0); [exact Hself|]; unfold opt_crop; cbn [bind]; rewrite Enear, Hwc; reflexivity|].
      cbn [pipe dq_free] in *. auto. }
    destruct (IH (proj1 Hp) _ _ _ _ _ _ Hnc) as (n1 & G1 & G2 & G3).
    assert (Hl1 : ov_less n1) by (eapply opts_ov_less; [apply Hnc|exact Hlx|exact G1]).
    destruct (warp_pipe o (O o 0) n1 T d (drop_backend al) G2 Hl1) as (n2 & W1 & W2 & W3).
    assert (Ho : opts o (Warp (Crop x a b ci (iv_len b, iv_len a) nm' nc') T d (drop_backend al)) n2)
      by (eapply opts_warp; eassumption).
    apply opts_O in Ho as (f & Ho). exists n2. split; [|split; [exact W2|cbn [dq_free]; auto]].
    eapply (opts_crop _ _ _ _ _ _ _ _ _ _ f); [exact Hself|]. unfold opt_crop. cbn [bind].
    rewrite Enear, Hwc. cbn [bind]. rewrite Ho. cbn [bind]. now apply pipe_crop_tail.
  - pose proof (wnice_crop_sub _ _ _ _ _ _ _ Hn) as Hn1.
    pose proof (pipe_opts o _ Hp (proj1 (proj2 (proj2 Hn1)))) as Hself.
    assert (Hnx : wnice x).
    { destruct Hn1 as (W & (T & _) & R & I & N). split; [exact W|]. split; [exact T|]. auto. }
    assert (Hi : wnice (Crop x ys xs ci d nm nc)).
    { pose proof Hn1 as (_ & (_ & Ed) & _). eapply (wnice_crop (Dequant x q d0)); [exact Hn|exact Hnx| |reflexivity|reflexivity].
      cbn. rewrite Ed. now destruct (dsize x). }
    destruct (IH (proj1 Hp) _ _ _ _ _ _ Hi) as (n1 & G1 & G2 & G3).
    destruct Hp as (Hp & Hfx & _). destruct (wnice_opts o _ _ Hi G1) as (Hn1' & Hd1 & _).
    destruct (dequant_pipe o n1 q G2 (G3 Hfx) Hn1') as (f & n2 & D1 & D2).
    assert (Ho : opts o (Dequant (Crop x ys xs ci d nm nc) q (Some d)) n2).
    { eapply opts_dequant; [exact G1|]. rewrite Hd1 in D1. exact D1. }
    apply opts_O in Ho as (g & Ho). exists n2. split; [|split; [exact D2|intros []]].
    eapply (opts_crop _ _ _ _ _ _ _ _ _ _ g); [exact Hself|]. unfold opt_crop. cbn [bind].
    rewrite Ho. cbn [bind]. now apply pipe_crop_tail.
Qed.

(** ** Canonical trees *)

(* [k] bounds the nesting of concatenations *)
Fixpoint canonw (k : nat) (t : node) : Prop :=
  pipe t \/
  match k, t with
  | S k', Concat ps _ => forall_parts (canonw k') ps
  | _, _ => False
  end.

Lemma canonw_pipe k t : pipe t -> canonw k t.
Proof. destruct k; cbn; auto. Qed.

Lemma canonw_concat k ps d : canonw (S k) (Concat ps d) <-> Forall (canonw k) ps.
Proof.
  change (canonw (S k) (Concat ps d)) with (False \/ forall_parts (canonw k) ps). rewrite forall_parts_Forall. tauto.
Qed.

Lemma canonw_cases k t : canonw k t -> pipe t \/ exists k' ps d, k = S k' /\ t = Concat ps d /\ Forall (canonw k') ps.
Proof.
  destruct k; cbn [canonw]; [tauto|]. intros [H|H]; [auto|]. destruct t; try contradiction.
  right. exists k, parts, dsize. rewrite forall_parts_Forall in H. auto.
Qed.

Lemma canonw_S k t : canonw k t -> canonw (S k) t.
Proof.
  revert t. induction k as [|k IH]; intros t H; apply canonw_cases in H as [H|(k' & ps & d & Ek & -> & H)];
    try (now apply canonw_pipe).
  injection Ek as <-. apply canonw_concat. rewrite Forall_forall in *. auto.
Qed.

Lemma canonw_le k m t : (k <= m)%nat -> canonw k t -> canonw m t.
Proof. intros L H. induction L; [exact H|]. now apply canonw_S. Qed.

Lemma canonw_opts o k t : wf t -> tight t -> ov_free t -> canonw k t -> opts o t t.
Proof.
  revert t. induction k as [|k IH]; intros t Hw Ht Hr H; apply canonw_cases in H as [H|(k' & ps & d & Ek & -> & H)];
    try (now apply pipe_opts).
  injection Ek as <-. pose proof Hw as Hw'. apply wf_concat in Hw' as (Hwp & Hdp & _).
  apply tight_concat in Ht as (Hne & Htp & _). eapply (opts_concat o ps ps); auto.
  - apply (reg_concat ROvFree ps d) in Hr. clear -IH H Hwp Htp Hr. induction H; [constructor|]. inversion Hwp; inversion Htp; inversion Hr; subst. constructor; auto.
  - apply mkConcat_spec. exists d. apply wf_concat in Hw. tauto.
Qed.

Lemma crop_pipe' o s ys xs ci d nm nc : pipe s -> wnice (Crop s ys xs ci d nm nc) ->
  exists n, opts o (Crop s ys xs ci d nm nc) n /\ pipe n /\ (dq_free s -> dq_free n).
Proof. intros Hp. now apply crop_pipe. Qed.

Lemma take_canonw o k : forall s idxs m, canonw k s -> wnice s -> num_channels s = Some m ->
  in_range m idxs -> idxs <> [] ->
  exists t' n, take_idx s idxs = Ok t' /\ opts o t' n /\ canonw k n /\ (dq_free s -> dq_free n).
Proof.
  induction k as [|k IH]; intros s idxs m Hk Hwnice Hm Hr Hi;
    apply canonw_cases in Hk as [Hk|(k' & ps & d & Ek & -> & Hk)]; try discriminate.
  1,2: assert (Hti : take_idx s idxs = mkCrop s None (Some idxs)) by (destruct s; try contradiction; reflexivity);
    pose proof Hwnice as (Hw & Ht & He & Hiv & Hn); destruct (tight_dsize _ Ht) as (w & h & Hd & _);
    destruct (names s) as [nl|] eqn:Enl; [|congruence];
    destruct (mkCrop_total s None (Some idxs) w h nl m Hw Ht Hd Hm) as (c & Hc);
      [intros l [= <-]; exact Hr|intros; discriminate|exact Enl|];
    pose proof Hc as Hc'; rewrite <- Hti in Hc';
    destruct (wnice_take _ _ _ _ Hwnice Hm Hr Hi Hc') as (Hnc & _);
    apply mkCrop_shape in Hc as (w' & h' & ys & xs & nm & nc & _ & -> & _);
    destruct (crop_pipe' o s ys xs (Some idxs) _ nm nc Hk Hnc) as (n & Hon & Han & Hdq);
    exists (Crop s ys xs (Some idxs) (iv_len xs, iv_len ys) nm nc), n;
    split; [exact Hc'|]; split; [exact Hon|]; split; [now apply canonw_pipe|exact Hdq].
  injection Ek as <-.
  pose proof Hwnice as (Hw & Ht & He & Hiv & Hn). pose proof (wnice_concat _ _ Hwnice) as Hps.
  assert (Hmeta : Forall meta_ok ps) by (eapply Forall_impl; [|exact Hps]; intros p Hp; apply wf_meta, Hp).
  cbn [names] in Hn. destruct (concat_opt (map names ps)) as [nl|] eqn:Enl; [|congruence].
  cbn [num_channels] in Hm. apply sum_opt_known in Hm as (sizes & Ek & ->).
  destruct (mapR_total (fun i => unravel sizes i 0) idxs) as (wh & Hwh).
  { intros i Hin. unfold in_range in Hr. rewrite Forall_forall in Hr.
    destruct (unravel_total ps sizes Ek Hmeta i 0%nat (Hr i Hin)) as (p & j & E). eauto. }
  assert (Hvalid : forall p j, In (p, j) wh -> exists q n, nth_error ps p = Some q /\
            num_channels q = Some n /\ 0 <= j < n).
  { intros p j Hin. apply mapR_Forall2 in Hwh. clear -Hwh Ek Hin. induction Hwh as [|i pj idxs wh Hi F IH]; [contradiction|].
    destruct Hin as [->|Hin]; [|auto].
    destruct (unravel_spec (fun _ _ => True) _ _ _ _ _ _ Ek Hi) as (q & n & _ & Hn & Hq & Hj & _).
    rewrite Nat.sub_0_r in Hn. eauto. }
  set (sub := sub_component (map (fun p => (p, take_idx p)) ps)).
  destruct (tight_dsize _ Ht) as (w & h & Hd & _). cbn [dsize] in Hd. subst d.
  assert (Hds : forall q, In q ps -> dsize q = Some (w, h)).
  { apply Forall_forall. apply wf_concat in Hw. tauto. }
  (* every segment is served *)
  assert (Hseg : forall seg, In seg (segments wh) -> exists comp n, sub seg = Ok comp /\ opts o comp n /\
            canonw k n /\ (dq_free (Concat ps (Some (w, h))) -> dq_free n) /\ wnice comp /\ dsize comp = Some (w, h)).
  { intros [p is] Hin. pose proof (segments_nonempty wh) as Hne. rewrite Forall_forall in Hne.
    pose proof (Hne _ Hin) as Hisne. cbn in Hisne.
    assert (Hall : forall j, In j is -> In (p, j) wh).
    { intros j Hj. rewrite <- (segments_flat wh). apply in_flat_map. exists (p, is). split; [exact Hin|]. cbn. now apply in_map. }
    assert (Hq : exists q n, nth_error ps p = Some q /\ num_channels q = Some n /\ in_range n is).
    { destruct is as [|j0 is]; [congruence|].
      destruct (Hvalid p j0 (Hall j0 (or_introl eq_refl))) as (q & n & Hq & Hqn & _).
      exists q, n. split; [exact Hq|]. split; [exact Hqn|]. apply Forall_forall. intros j Hj.
      destruct (Hvalid p j (Hall j Hj)) as (q' & n' & Hq' & Hn' & Hjj). assert (q' = q) by congruence. subst. congruence. }
    destruct Hq as (q & n & Hq & Hqn & Hrange). pose proof (nth_error_In _ _ Hq) as Hqin.
    rewrite Forall_forall in Hk, Hps.
    assert (Hfree : dq_free (Concat ps (Some (w, h))) -> dq_free q).
    { rewrite dq_free_concat, Forall_forall. auto. }
    unfold sub, sub_component, nth_result. cbn [fst snd]. rewrite nth_error_map, Hq. cbn [option_map bind].
    rewrite Hqn. destruct (list_Z_eqb is (zseq (Z.to_nat n))).
    - exists q, q. destruct (Hps q Hqin) as (Hwq & Htq & Hrq & _). pose proof (canonw_opts o k q Hwq Htq Hrq (Hk q Hqin)).
      auto 10.
    - destruct (IH q is n (Hk q Hqin) (Hps q Hqin) Hqn Hrange Hisne) as (t' & n' & H1 & H2 & H3 & H4).
      destruct (wnice_take _ _ _ _ (Hps q Hqin) Hqn Hrange Hisne H1) as (H5 & H6).
      exists t', n'. rewrite H6. auto 10. }
  assert (Hlists : exists comps ns, mapR sub (segments wh) = Ok comps /\ Forall2 (opts o) comps ns /\
            Forall (canonw k) ns /\ (dq_free (Concat ps (Some (w, h))) -> Forall dq_free ns) /\
            Forall wnice comps /\ Forall (fun c => dsize c = Some (w, h)) comps /\
            Forall (fun c => dsize c = Some (w, h)) ns).
  { clear -Hseg. induction (segments wh) as [|seg segs IHs].
    - exists [], []. cbn. auto 10.
    - destruct (Hseg seg (or_introl eq_refl)) as (comp & n & H1 & H2 & H3 & H4 & H5 & H6).
      destruct IHs as (comps & ns & G1 & G2 & G3 & G4 & G5 & G6 & G7); [intros; apply Hseg; now right|].
      exists (comp :: comps), (n :: ns). cbn. rewrite H1. cbn. rewrite G1. cbn.
      destruct (wnice_opts o _ _ H5 H2) as (_ & Hdn & _).
      split; [reflexivity|]. split; [constructor; auto|]. split; [constructor; auto|].
      split; [intros; constructor; auto|]. split; [constructor; auto|]. split; constructor; auto. congruence. }
  destruct Hlists as (comps & ns & G1 & G2 & G3 & G4 & G5 & G6 & G7).
  assert (Hcne : comps <> []).
  { intros ->. apply mapR_length in G1. apply mapR_length in Hwh. pose proof (segments_flat wh) as Hf.
    destruct (segments wh); [|discriminate]. cbn in Hf. subst wh. destruct idxs; [congruence|discriminate]. }
  destruct (mkConcat_total _ _ G6) as (t' & Ht'). destruct (mkConcat_total _ _ G7) as (n & Hn').
  exists t', n. split; [|split; [|split]].
  - change (match concat_opt (map names ps), known_all (map num_channels ps) with
          | None, _ => Err AssertionError
          | _, None => Err TypeError
          | Some _, Some sizes =>
              wh <- mapR (fun i => unravel sizes i 0) idxs ;;
              comps <- mapR sub (segments wh) ;;
              match mkConcat comps with Some c => Ok c | None => Err ValueError end
          end = Ok t').
    rewrite Enl, Ek, Hwh. cbn [bind]. rewrite G1. cbn [bind]. now rewrite Ht'.
  - pose proof (mkConcat_wnice _ _ Hcne G5 Ht') as (Hwt & _).
    apply mkConcat_spec in Ht' as (d' & -> & _). eapply opts_concat; eassumption.
  - apply mkConcat_spec in Hn' as (d' & -> & _). now apply canonw_concat.
  - intros Hf. apply mkConcat_spec in Hn' as (d' & -> & _). apply dq_free_concat. auto.
Qed.

Lemma crop_canonw o k : forall s ys xs ci d nm nc, canonw k s -> wnice (Crop s ys xs ci d nm nc) ->
  exists n, opts o (Crop s ys xs ci d nm nc) n /\ canonw k n /\ (dq_free s -> dq_free n).
Proof.
  induction k as [|k IH]; intros s ys xs ci d nm nc Hk Hwnice;
    pose proof Hk as Hk0; apply canonw_cases in Hk as [Hk|(k' & ps & d0 & Ek & -> & Hk)]; try discriminate.
  1,2: destruct (crop_pipe' o s ys xs ci d nm nc Hk Hwnice) as (n & H1 & H2 & H3);
    exists n; split; [exact H1|]; split; [now apply canonw_pipe|exact H3].
  injection Ek as <-. pose proof (wnice_crop_sub _ _ _ _ _ _ _ Hwnice) as Hs.
  pose proof Hwnice as (Hw & Ht & He & Hiv & Hn). pose proof (wf_crop_ci _ _ _ _ _ _ _ Hw) as Hci.
  destruct (wf_nc _ (proj1 Hs)) as (m & Hm).
  destruct Ht as (_ & Hne & -> & w & h & Hd & B1 & B2 & B3 & B4).
  (* the selected bands *)
  assert (Htk : exists taken f, (match ci with
               | None => Ok (Concat ps d0)
               | Some l => t' <- take_idx (Concat ps d0) l ;; O o f t'
               end) = Ok taken /\ canonw (S k) taken /\ (dq_free (Concat ps d0) -> dq_free taken) /\
               wnice taken /\ dsize taken = Some (w, h)).
  { destruct ci as [l|].
    - destruct (take_canonw o (S k) (Concat ps d0) l m Hk0 Hs Hm (Hci m Hm)) as (t' & n & T1 & T2 & T3 & T4); [congruence|].
      destruct (wnice_take _ _ _ _ Hs Hm (Hci m Hm) ltac:(congruence) T1) as (N1 & N2).
      destruct (wnice_opts o _ _ N1 T2) as (N3 & N4 & _).
      apply opts_O in T2 as (f & T2). exists n, f. rewrite T1. cbn [bind]. rewrite N4, N2. auto 10.
    - exists (Concat ps d0), 0%nat. auto 10. }
  destruct Htk as (taken & f & Htk & Hkt & Hdt & Hnt & Hdst).
  destruct (wf_nc _ (proj1 Hnt)) as (mt & Hmt).
  assert (Hsl : forall s, (Some (some_slice ys, some_slice xs)) = Some s -> True) by auto.
  (* cropping a named image of that size *)
  assert (Hcrop : forall q, wnice q -> dsize q = Some (w, h) -> exists c,
     mkCrop q (Some (some_slice ys, some_slice xs)) None = Ok c /\ wnice c /\
     c = Crop q ys xs None (iv_len xs, iv_len ys) None None).
  { intros q Hq Hdq. pose proof Hq as (Q1 & Q2 & Q3 & Q5 & Q4). destruct (names q) as [nq|] eqn:Eq; [|congruence].
    destruct (wf_nc _ Q1) as (mq & Hmq).
    destruct (recrop_id h w ys xs B1 B2 B3 B4) as [Ey Ex].
    destruct (mkCrop_total q (Some (some_slice ys, some_slice xs)) None w h nq mq) as (c & Hc); auto.
    - intros; discriminate.
    - intros sy sx [= <- <-]. eauto.
    - exists c. split; [exact Hc|].
      destruct (mkCrop_spec q _ None c mq Q1 Hmq I Hc) as (_ & _ & _ & _ & _ & _ & _ & _ & Hwc & _).
      destruct (recrop_kept q ys xs c w h) as (R1 & R2 & (nm' & nc' & ->)); auto.
      destruct Hwc as (? & ? & ? & ? & -> & ->).
      split; [|reflexivity]. split; [|split; [exact R2|split; [exact Q3|split; [exact Q5|cbn; congruence]]]].
      cbn. auto 10. }
  destruct (Hcrop taken Hnt Hdst) as (c & Hc & Hnc & ->).
  assert (Hgo : (exists n, opts o (match taken with Concat ps' _ =>
             match mkConcat (map (fun q => Crop q ys xs None (iv_len xs, iv_len ys) None None) ps') with
             | Some p => p | None => Crop taken ys xs None (iv_len xs, iv_len ys) None None end
             | _ => Crop taken ys xs None (iv_len xs, iv_len ys) None None end) n /\ canonw (S k) n /\ (dq_free taken -> dq_free n))).
  { pose proof Hkt as Hkt'. apply canonw_cases in Hkt' as [Ha|(k' & ps' & d' & Ek & -> & Hps')].
    - destruct taken; try contradiction;
      (edestruct (crop_pipe' o) as (n & H1 & H2 & H3); [exact Ha|exact Hnc|];
       exists n; split; [exact H1|]; split; [now apply canonw_pipe|exact H3]).
    - injection Ek as <-. pose proof (wnice_concat _ _ Hnt) as Hnp.
      pose proof Hnt as (Hwt & Htt & _ & _). apply tight_concat in Htt as (Hpne & _ & Hdp).
      cbn [dsize] in Hdst. subst d'.
      assert (Hlists : exists ns, Forall2 (opts o) (map (fun q => Crop q ys xs None (iv_len xs, iv_len ys) None None) ps') ns /\
                Forall (canonw k) ns /\ (Forall dq_free ps' -> Forall dq_free ns) /\
                Forall wnice (map (fun q => Crop q ys xs None (iv_len xs, iv_len ys) None None) ps') /\
                Forall (fun c => dsize c = Some (iv_len xs, iv_len ys)) ns).
      { clear Hpne Hkt Hnt Hnc Hwt Htk Hdt Hmt Hc. induction ps' as [|q ps' IHp]; [exists []; cbn; auto 10|].
        inversion Hps'; inversion Hnp; inversion Hdp; subst.
        destruct IHp as (ns & I1 & I2 & I3 & I4 & I5); [assumption..|].
        destruct (Hcrop q) as (c & _ & Hcn & ->); [assumption..|].
        destruct (IH q ys xs None (iv_len xs, iv_len ys) None None) as (n & J1 & J2 & J3); [assumption..|].
        destruct (wnice_opts o _ _ Hcn J1) as (_ & Hdn & _).
        exists (n :: ns). cbn. split; [constructor; auto|]. split; [constructor; auto|].
        split; [intros G; inversion G; subst; constructor; auto|]. split; constructor; auto. }
      destruct Hlists as (ns & L1 & L2 & L3 & L4 & L5).
      assert (Hdm : Forall (fun c => dsize c = Some (iv_len xs, iv_len ys)) (map (fun q => Crop q ys xs None (iv_len xs, iv_len ys) None None) ps')).
      { apply Forall_map. apply Forall_forall. reflexivity. }
      destruct (mkConcat_total _ _ Hdm) as (p & Hp). rewrite Hp.
      destruct (mkConcat_total _ _ L5) as (n & Hn').
      assert (Hmne : map (fun q => Crop q ys xs None (iv_len xs, iv_len ys) None None) ps' <> []) by (destruct ps'; [congruence|discriminate]).
      exists n. split; [|split].
      + pose proof (mkConcat_wnice _ _ Hmne L4 Hp) as (Hwp & _).
        apply mkConcat_spec in Hp as (d' & -> & _). eapply opts_concat; eassumption.
      + apply mkConcat_spec in Hn' as (d' & -> & _). now apply canonw_concat.
      + rewrite dq_free_concat. intros G. apply mkConcat_spec in Hn' as (d' & -> & _). apply dq_free_concat. auto. }
  destruct Hgo as (n & Hon & Hkn & Hdn). exists n. split; [|split; [exact Hkn|auto]].
  apply opts_O in Hon as (g & Hg).
  pose proof (canonw_opts o (S k) (Concat ps d0) (proj1 Hs) (proj1 (proj2 Hs)) (proj1 (proj2 (proj2 Hs))) Hk0) as Hself.
  eapply (opts_crop _ _ (Concat ps d0) _ _ _ _ _ _ _ (Nat.max f g)); [exact Hself|].
  unfold opt_crop. cbn [bind crop_tail].
  assert (Htk' : (match ci with
               | None => Ok (Concat ps d0)
               | Some l => t' <- take_idx (Concat ps d0) l ;; O o (Nat.max f g) t'
               end) = Ok taken).
  { destruct ci as [l|]; [|exact Htk]. apply bind_ok in Htk as (t' & E1 & E2). rewrite E1. cbn [bind].
    apply (le_O o f (Nat.max f g) ltac:(lia) _ _ E2). }
  rewrite Htk'. cbn [bind]. rewrite Hc. cbn [bind].
  assert (Hpu : push_under (Crop taken ys xs None (iv_len xs, iv_len ys) None None) =
     Ok (match taken with Concat ps' _ => mkConcat (map (fun q => Crop q ys xs None (iv_len xs, iv_len ys) None None) ps') | _ => None end)).
  { cbn [push_under]. destruct taken as [|ps' d'| | | |]; try reflexivity.
    assert (E : mapR (fun p => mkCrop p (Some (some_slice ys, some_slice xs)) None) ps' =
                Ok (map (fun q => Crop q ys xs None (iv_len xs, iv_len ys) None None) ps')).
    { pose proof (wnice_concat _ _ Hnt) as Hnp. destruct Hnt as (_ & Htt & _). apply tight_concat in Htt as (_ & _ & Hdp).
      cbn [dsize] in Hdst. subst d'. clear -Hnp Hdp Hcrop. induction ps' as [|q ps' IHp]; [reflexivity|].
      inversion Hnp; inversion Hdp; subst. destruct (Hcrop q) as (c & Hc & _ & ->); [assumption..|].
      cbn [mapR map]. rewrite Hc. cbn [bind]. rewrite IHp by assumption. reflexivity. }
    now rewrite E. }
  rewrite Hpu. cbn [bind].
  replace (match (match taken with Concat ps' _ => mkConcat (map (fun q => Crop q ys xs None (iv_len xs, iv_len ys) None None) ps') | _ => None end) with
    | Some p => p | None => Crop taken ys xs None (iv_len xs, iv_len ys) None None end) with
    (match taken with Concat ps' _ =>
             match mkConcat (map (fun q => Crop q ys xs None (iv_len xs, iv_len ys) None None) ps') with
             | Some p => p | None => Crop taken ys xs None (iv_len xs, iv_len ys) None None end
             | _ => Crop taken ys xs None (iv_len xs, iv_len ys) None None end) by (destruct taken; reflexivity).
  apply (le_O o g (Nat.max f g) ltac:(lia) _ _ Hg).
Qed.

(** ** Warping and dequantizing canonical trees *)

Lemma push_canonw o k g ps dd : ps <> [] ->
  (forall p, In p ps -> wnice (g p) /\ dsize (g p) = dd /\
     exists n, opts o (g p) n /\ canonw k n /\ (dq_free p -> dq_free (g p) -> dq_free n)) ->
  exists c n, mkConcat (map g ps) = Some c /\ opts o c n /\ canonw (S k) n /\
    (Forall dq_free ps -> Forall dq_free (map g ps) -> dq_free n).
Proof.
  intros Hne H.
  assert (Hl : exists ns, Forall2 (opts o) (map g ps) ns /\ Forall (canonw k) ns /\ Forall wnice (map g ps) /\
             Forall (fun p => dsize p = dd) (map g ps) /\ Forall (fun p => dsize p = dd) ns /\
             (Forall dq_free ps -> Forall dq_free (map g ps) -> Forall dq_free ns)).
  { clear Hne. induction ps as [|p ps IHp]; [exists []; cbn; auto 10|].
    destruct IHp as (ns & I1 & I2 & I3 & I4 & I5 & I6); [intros; apply H; now right|].
    destruct (H p (or_introl eq_refl)) as (Hn & Hd & n & J1 & J2 & J3).
    destruct (wnice_opts o _ _ Hn J1) as (_ & Hdn & _).
    exists (n :: ns). cbn [map]. split; [constructor; auto|]. split; [constructor; auto|]. split; [constructor; auto|].
    split; [constructor; auto|]. split; [constructor; auto; congruence|].
    intros G G'. inversion G; inversion G'; subst. constructor; auto. }
  destruct Hl as (ns & L1 & L2 & L3 & L4 & L5 & L6).
  destruct (mkConcat_total _ _ L4) as (c & Hc). destruct (mkConcat_total _ _ L5) as (n & Hn').
  assert (Hmne : map g ps <> []) by (destruct ps; [congruence|discriminate]).
  exists c, n. split; [exact Hc|]. split; [|split].
  - pose proof (mkConcat_wnice _ _ Hmne L3 Hc) as (Hwp & _).
    apply mkConcat_spec in Hc as (d' & -> & _). eapply opts_concat; eassumption.
  - apply mkConcat_spec in Hn' as (d' & -> & _). now apply canonw_concat.
  - intros G G'. apply mkConcat_spec in Hn' as (d' & -> & _). apply dq_free_concat. auto.
Qed.

Lemma dequant_canonw o k : forall s q, canonw k s -> dq_free s -> wnice s ->
  exists f n, opt_dequant (O o f) s q (dsize s) = Ok n /\ canonw k n.
Proof.
  induction k as [|k IH]; intros s q Hk Hf Hn; apply canonw_cases in Hk as [Hk|(k' & ps & d0 & Ek & -> & Hk)]; try discriminate.
  1,2: destruct (dequant_pipe o s q Hk Hf Hn) as (f & n & H1 & H2); exists f, n; split; [exact H1|now apply canonw_pipe].
  injection Ek as <-. pose proof (wnice_concat _ _ Hn) as Hps. apply dq_free_concat in Hf.
  pose proof Hn as (_ & Ht & _). apply tight_concat in Ht as (Hne & _ & Hds). rewrite Forall_forall in *.
  destruct (push_canonw o k (fun p => mkDequant p q) ps d0 Hne) as (c & n & P1 & P2 & P3 & _).
  { intros p Hp. split; [apply wnice_dequant; auto|]. split; [cbn; rewrite (Hds p Hp); now destruct d0|].
    destruct (IH p q (Hk p Hp) (Hf p Hp) (Hps p Hp)) as (f & n & J1 & J2).
    exists n. split; [|split; [exact J2|intros _ []]]. unfold mkDequant.
    destruct (Hps p Hp) as (W & T & R & _). eapply opts_dequant; [eapply canonw_opts; eauto|exact J1]. }
  apply opts_O in P2 as (g & Hg). exists g, n. split; [|exact P3].
  unfold opt_dequant, push_tail. cbn [subdata bind push_under]. rewrite P1. cbn [bind]. exact Hg.
Qed.

Lemma warp_canonw o k : forall s M d al, canonw k s -> wnice (Warp s M d al) ->
  exists f n, opt_warp o (O o f) s M d al = Ok n /\ canonw k n /\ (dq_free s -> dq_free n).
Proof.
  induction k as [|k IH]; intros s M d al Hk Hn; pose proof Hk as Hk0; apply canonw_cases in Hk as [Hk|(k' & ps & d0 & Ek & -> & Hk)]; try discriminate.
  1,2: destruct (wnice_warp_sub _ _ _ _ Hn) as (_ & Hl & _);
    destruct (warp_pipe o (O o 0) s M d al Hk Hl) as (n & H1 & H2 & H3); exists 0%nat, n;
    split; [exact H1|]; split; [now apply canonw_pipe|exact H3].
  injection Ek as <-. destruct (wnice_warp_sub _ _ _ _ Hn) as (Hs & Hl & HM & He).
  unfold opt_warp. destruct (opt_size_eqb (Some d) (dsize (Concat ps d0)) && close_identity (al_eps al) M)%bool.
  { exists 0%nat, (Concat ps d0). auto. }
  pose proof (wnice_concat _ _ Hs) as Hps.
  pose proof Hn as (_ & (Ht & Hd0) & _). apply tight_concat in Ht as (Hne & _ & _).
  apply (reg_concat ROvLess ps d0) in Hl. rewrite Forall_forall in *.
  destruct (push_canonw o k (fun p => Warp p M d al) ps (Some d) Hne) as (c & n & P1 & P2 & P3 & P4).
  { intros p Hp. assert (Hnp : wnice (Warp p M d al)) by (apply wnice_warp; auto; apply (Hl p Hp)).
    split; [exact Hnp|]. split; [reflexivity|].
    destruct (IH p M d al (Hk p Hp) Hnp) as (f & n & J1 & J2 & J3).
    exists n. split; [|split; [exact J2|auto]].
    destruct (Hps p Hp) as (W & T & R & _). eapply opts_warp; [eapply canonw_opts; eauto|exact J1]. }
  apply opts_O in P2 as (g & Hg). exists g, n. split; [|split; [exact P3|]].
  - unfold push_tail. cbn [subdata bind push_under]. rewrite P1. cbn [bind]. exact Hg.
  - rewrite dq_free_concat. intros G. apply P4; [exact G|]. apply Forall_map. exact G.
Qed.

(** ** optimize() returns a canonical tree *)

Theorem optimize_total_warps o t : wnice t -> dq_once t ->
  exists n k, opts o t n /\ canonw k n /\ (dq_free t -> dq_free n).
Proof.
  induction t as [l|ps d IH|s ys xs ci d nm nc IH|s M d al IH|s q d IH|s k d IH] using node_ind'; intros Hnice Hdq.
  - exists (Leaf l), 0%nat. split; [apply opts_leaf|]. cbn. auto.
  - pose proof (wnice_concat _ _ Hnice) as Hps. cbn [dq_once] in Hdq. rewrite forall_parts_Forall in Hdq.
    pose proof Hnice as (Hw & Ht & _ & _). apply tight_concat in Ht as (Hne & _ & Hds).
    assert (Hl : exists ns k, Forall2 (opts o) ps ns /\ Forall (canonw k) ns /\
               (Forall dq_free ps -> Forall dq_free ns) /\ Forall (fun p => dsize p = d) ns).
    { clear Hnice Hw Hne. induction ps as [|p ps IHp]; [exists [], 0%nat; auto|].
      inversion IH; inversion Hps; inversion Hdq; inversion Hds; subst.
      destruct IHp as (ns & k & I1 & I2 & I3 & I4); [assumption..|].
      match goal with H : wnice p -> _ |- _ => destruct H as (n & k' & J1 & J2 & J3); [assumption..|] end.
      match goal with H : wnice p |- _ => destruct (wnice_opts o _ _ H J1) as (_ & Hdn & _) end.
      exists (n :: ns), (Nat.max k k'). split; [constructor; auto|]. split; [|split].
      - constructor; [apply (canonw_le k'); [lia|exact J2]|].
        eapply Forall_impl; [|exact I2]. intros a. apply canonw_le. lia.
      - intros G. inversion G; subst. constructor; auto.
      - constructor; auto. }
    destruct Hl as (ns & k & L1 & L2 & L3 & L4). destruct (mkConcat_total _ _ L4) as (n & Hn').
    exists n, (S k). split; [eapply opts_concat; eassumption|].
    apply mkConcat_spec in Hn' as (d' & -> & _). split; [now apply canonw_concat|].
    rewrite !dq_free_concat. exact L3.
  - pose proof (wnice_crop_sub _ _ _ _ _ _ _ Hnice) as Hs. destruct (IH Hs Hdq) as (s1 & k & H1 & H2 & H3).
    destruct (wnice_opts o _ _ Hs H1) as (N1 & N2 & N3 & N4).
    pose proof (wnice_crop _ _ _ _ _ _ _ _ Hnice N1 N2 N3 N4) as Hn1.
    destruct (crop_canonw o k s1 ys xs ci d nm nc H2 Hn1) as (n & G1 & G2 & G3).
    exists n, k. split; [|split; [exact G2|auto]].
    apply (opts_crop_inv o _ s1) in G1 as (f & G1); [|eapply canonw_opts; eauto; apply N1].
    eapply opts_crop; eassumption.
  - destruct (wnice_warp_sub _ _ _ _ Hnice) as (Hs & Hl & HM & He). destruct (IH Hs Hdq) as (s1 & k & H1 & H2 & H3).
    destruct (wnice_opts o _ _ Hs H1) as (N1 & N2 & N3 & N4).
    assert (Hn1 : wnice (Warp s1 M d al)).
    { apply wnice_warp; auto; [|apply Hnice]. eapply opts_ov_less; [apply Hs|exact Hl|exact H1]. }
    destruct (warp_canonw o k s1 M d al H2 Hn1) as (f & n & G1 & G2 & G3).
    exists n, k. split; [eapply opts_warp; eassumption|]. split; [exact G2|]. cbn [dq_free]. auto.
  - assert (Hs : wnice s).
    { destruct Hnice as (Hw & [Ht _] & Hr & Hi & Hn). split; [exact Hw|]. split; [exact Ht|]. auto. }
    destruct (IH Hs (dq_free_once _ Hdq)) as (s1 & k & H1 & H2 & H3).
    destruct (wnice_opts o _ _ Hs H1) as (N1 & N2 & N3 & N4).
    destruct (dequant_canonw o k s1 q H2 (H3 Hdq) N1) as (f & n & G1 & G2).
    exists n, k. split; [|split; [exact G2|intros []]].
    eapply opts_dequant; [exact H1|]. destruct Hnice as (_ & [_ ->] & _). rewrite <- N2. exact G1.
  - destruct Hnice as (_ & _ & [] & _).
Qed.

Lemma made_wnice t : made t -> ov_free t -> warps_all invertible t -> names t <> None -> wnice t.
Proof. intros Hm Hr Hi Hn. destruct (made_ok t Hm) as [Hw Ht]. split; [exact Hw|]. auto. Qed.

Lemma optimize_returns_warps o t : made t -> ov_free t -> warps_all invertible t -> names t <> None -> dq_once t ->
  exists t', optimizes o t t'.
Proof. intros Hm Hr Hi Hn Hq. destruct (optimize_total_warps o t (made_wnice t Hm Hr Hi Hn) Hq) as (n & k & H & _). eauto. Qed.

Lemma optimize_idem_warps o t t' : made t -> ov_free t -> warps_all invertible t -> names t <> None -> dq_once t ->
  optimizes o t t' -> optimizes o t' t'.
Proof.
  intros Hm Hr Hi Hn Hq H. pose proof (made_wnice t Hm Hr Hi Hn) as Hw.
  destruct (optimize_total_warps o t Hw Hq) as (n & k & G & Hc & _).
  rewrite <- (optimizes_det _ _ _ _ G H).
  destruct (wnice_opts o t n Hw G) as ((W & T & R & _) & _). eapply canonw_opts; eassumption.
Qed.
