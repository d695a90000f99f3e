(* Rounds of optimize() keep channel metadata and provenance: the induction of
   GraphSound.v for the relational rounds of MemoStep.v. *)
From Verif Require Import Py PyProofs GeomModel GeomProofs GraphModel GraphSpec GraphBase GraphTake GraphOpt GraphMain GraphSound MemoStep.
From Coq Require Import Qabs ZifyBool.
Local Open Scope Q_scope.

Definition rgood (t n : node) : Prop := forall r, wf t -> reg r t -> good r t n.

Lemma rgood_use : forall r t t', wf t -> reg r t -> rgood t t' -> good r t t'.
Proof. intros r t t' Hw Hr H. exact (H r Hw Hr). Qed.

Lemma r_split_pregood o s M d al n :
  wf (Warp s M d al) -> nans_free s -> r_split o rgood s M d al (Some n) ->
  pregood RNansFree (Warp s M d al) n.
Proof.
  intros [Hw He] Hr H. unfold r_split in H. destruct H as (no & _ & H).
  destruct no as [no|]; [|discriminate]. destruct (no =? 0)%Z; [discriminate|].
  destruct H as (lv & _ & H). destruct lv as [poss|]; [|discriminate].
  cbv zeta in H. set (k := Z.min no poss) in *. clearbody k.
  destruct (k =? 0)%Z; [discriminate|].
  destruct H as (R & ov & HR & Ho & H).
  destruct (split_residual_spec M k) as (R' & HR' & Hs). rewrite HR in HR'. injection HR' as <-.
  pose proof (pow2_pos k) as P.
  pose proof (mkOverview_meta _ _ _ Ho) as (sz & _ & Eo).
  assert (Hwo : wf ov) by (rewrite Eo; exact Hw).
  assert (Hro : nans_free ov) by (rewrite Eo; exact Hr).
  assert (Hno : names ov = names s) by (rewrite Eo; reflexivity).
  assert (Hco : num_channels ov = num_channels s) by (rewrite Eo; reflexivity).
  assert (HV : forall u v c smp, vis s u v c smp -> vis ov (u / pow2 k) (v / pow2 k) c smp).
  { intros u v c smp Hv. eapply mkOverview_vis; [exact Ho|]. eapply vis_proper; [| |exact Hv]; field; lra. }
  destruct (is_identity R) eqn:Eid.
  - assert (HV' : forall x y c smp, vis (Warp s M d al) x y c smp -> inside d x y /\ vis ov x y c smp).
    { intros x y c smp (Hi & u & v & Hu & Hv & Hsv). split; [exact Hi|].
      destruct (Hs u v) as [Sx Sy]. destruct (is_identity_spec _ Eid (u / pow2 k) (v / pow2 k)) as [I1 I2].
      eapply vis_proper; [| |apply HV; exact Hsv].
      - rewrite Hu, <- Sx. symmetry. exact I1.
      - rewrite Hv, <- Sy. symmetry. exact I2. }
    destruct (opt_size_eqb (dsize ov) (Some d)).
    + injection H as ->. split; [exact Hwo|]. split; [exact Hro|]. split; [exact Hno|]. split; [exact Hco|].
      intros x y c smp Hv. now apply HV'.
    + destruct H as (c & n' & Hc & En & H).
      injection H as ->. destruct (padded_crop_vis _ _ _ Hwo Hro Hc) as (G1 & G2 & G3 & G4 & G5).
      eapply pregood_trans; [|apply good_pregood; apply (rgood_use RNansFree c n' G1 G2 En)].
      split; [exact G1|]. split; [exact G2|]. split; [now rewrite G3|]. split; [now rewrite G4|].
      intros x y k' smp Hv. destruct (HV' _ _ _ _ Hv). auto.
  - injection H as ->. split; [split; [exact Hwo|exact He]|]. split; [exact Hro|].
    split; [exact Hno|]. split; [exact Hco|].
    intros x y c smp (Hi & u & v & Hu & Hv & Hsv). cbn [vis]. split; [exact Hi|].
    exists (u / pow2 k), (v / pow2 k). destruct (Hs u v) as [Sx Sy].
    split; [now rewrite Hu, Sx|]. split; [now rewrite Hv, Sy|]. auto.
Qed.

(** ** Tails *)

Lemma r_push_nf P n m : nf n -> r_push P n m -> m = n.
Proof.
  unfold r_push. intros Hn (sd & E & H).
  destruct n as [l|ps d|s ys xs ci d nm nc|s M d al|s q d|s k d]; cbn [nf subdata] in *;
    try discriminate; injection E as <-; try exact H;
    destruct s; try exact H; cbn [hd] in Hn; try tauto.
  destruct Hn; discriminate.
Qed.

Lemma r_crop_tail_nf P n m : nf n -> r_crop_tail P n m -> m = n.
Proof.
  intros Hn H. destruct n as [l|ps d|s ys xs ci d nm nc|s M d al|s q d|s k d];
    try (apply (r_push_nf P); [exact Hn|exact H]).
  destruct s; try (apply (r_push_nf P); [exact Hn|exact H]). cbn [nf hd] in Hn. tauto.
Qed.

Lemma r_split_ov_less o P s M d al n : ov_less s -> r_split o P s M d al (Some n) -> False.
Proof.
  intros H (no & Hno & E). destruct (ov_less_num _ _ H Hno) as [-> | ->]; discriminate.
Qed.

(** ** The four optimizers *)

Lemma r_warp_good o r s1 M d al n : rsub r = r -> r <> ROvFree ->
  wf (Warp s1 M d al) -> reg r s1 -> nf s1 -> nanP s1 ->
  r_warp o rgood s1 M d al n -> good r (Warp s1 M d al) n.
Proof.
  intros Hr0 Hr1 Hw Hr Hnf Hnan H. unfold r_warp in H.
  (* fusion of two warps *)
  assert (Hf : exists s M' al', (match s1 with Warp s2 M1 _ _ => (s2, aff_mul M M1, drop_backend al) | _ => (s1, M, al) end)
      = (s, M', al') /\ pregood r (Warp s1 M d al) (Warp s M' d al') /\ nf s /\ hd s <> HWarp /\ nanP s).
  { destruct s1 as [l|ps d0|s ys xs ci d0 nm nc|s M1 d0 al0|s q d0|s k d0];
      try (eexists _, _, _; split; [reflexivity|]; split; [apply pregood_refl; [exact Hw|apply reg_warp; rewrite Hr0; exact Hr]|];
           split; [exact Hnf|]; split; [discriminate|exact Hnan]).
    exists s, (aff_mul M M1), (drop_backend al). split; [reflexivity|].
    destruct Hnf as (N1 & N2 & N3). destruct Hnan as (_ & Hcn). destruct Hw as [[Hw _] He].
    apply reg_warp in Hr. split; [|split; [exact N1|split; [exact N3|]]].
    - split; [split; [exact Hw|exact He]|]. split; [now apply reg_warp|].
      split; [reflexivity|]. split; [reflexivity|].
      intros x y c smp. cbn [vis]. intros (Hi & u & v & Hu & Hv & _ & u' & v' & Hu' & Hv' & Hs).
      split; [exact Hi|]. exists u', v'. rewrite ax_mul, ay_mul, <- Hu', <- Hv'. auto.
    - split; [exact Hcn|]. destruct s; auto. cbn in N3. congruence. }
  destruct Hf as (s & M' & al' & Ef & Hpre & Hnf' & Hnw & Hnan'). rewrite Ef in H. clear Ef.
  eapply pregood_good; [exact Hpre|]. clear Hr Hw Hnf Hnan.
  destruct Hpre as (Hw & Hr & _). apply reg_warp in Hr. rewrite Hr0 in Hr. pose proof Hw as [Hws He].
  cbv zeta in H.
  destruct (opt_size_eqb (Some d) (dsize s) && close_identity (al_eps al') M')%bool eqn:Eneg.
  - (* negligible warp *)
    subst n. apply andb_prop in Eneg as [Ed Ec]. apply opt_size_eqb_eq in Ed.
    split; [|split; [exact Hnf'|exact Hnan']].
    split; [exact Hws|]. split; [exact Hr|]. split; [reflexivity|]. split; [reflexivity|].
    intros x y c smp (Hi & u & v & Hu & Hv & Hs).
    assert (HM : forall a b, entry_close (al_eps al') a b = true -> a == b).
    { intros a b Hab. unfold entry_close in Hab. apply Qle_bool_iff in Hab.
      rewrite He in Hab. setoid_replace (0 + 0 * Qabs b) with 0 in Hab by ring.
      apply Qabs_Qle_condition in Hab. lra. }
    unfold close_identity in Ec. rewrite !andb_true_iff in Ec.
    destruct Ec as [[[[[E1 E2] E3] E4] E5] E6]. apply HM in E1, E2, E3, E4, E5, E6.
    unfold ax in Hu. unfold ay in Hv. rewrite E1, E2, E5 in Hu. rewrite E3, E4, E6 in Hv.
    eapply vis_proper; [| |exact Hs]; [rewrite Hu|rewrite Hv]; ring.
  - assert (Hother : hd s <> HConcat ->
      (exists sp, r_split o rgood s M' d al' sp /\
       match sp with Some n0 => exists n', r_sub rgood n0 n' /\ rgood n' n | None => absorb o s M' d al' = Ok n end) ->
      good r (Warp s M' d al') n).
    { intros Hnc H'. destruct H' as (sp & Hsp & H'). destruct r; [| |].
      - destruct sp as [n0|].
        + pose proof (r_split_pregood _ _ _ _ _ _ Hw Hr Hsp) as Hp.
          destruct H' as (n' & Hsub & H').
          eapply pregood_good; [exact Hp|]. destruct Hp as (Hw0 & Hr' & _).
          assert (Hp2 : pregood RNansFree n0 n').
          { destruct n0 as [l|ps d0|s0 ys xs ci d0 nm nc|s0 M1 d0 al0|s0 q d0|s0 k d0];
              cbn in Hsub; try contradiction; destruct Hsub as (s0' & Hs0 & E); subst n'.
            - apply pregood_crop; [exact Hw0|]. apply good_pregood. eapply rgood_use; [apply Hw0|exact Hr'|exact Hs0].
            - apply pregood_warp; [exact Hw0|]. apply good_pregood. eapply rgood_use; [apply Hw0|exact Hr'|exact Hs0].
            - apply pregood_deq. apply good_pregood. eapply rgood_use; [apply Hw0|exact Hr'|exact Hs0].
            - apply pregood_ov. apply good_pregood. eapply rgood_use; [apply Hw0|exact Hr'|exact Hs0]. }
          eapply pregood_good; [exact Hp2|]. destruct Hp2 as (Hw2 & Hr2 & _). eapply rgood_use; eassumption.
        + eapply absorb_good; eassumption.
      - congruence.
      - destruct sp as [n0|]; [exfalso; eapply r_split_ov_less; eassumption|].
        unfold absorb in H'. rewrite (lookahead_ov_less _ _ Hr) in H'.
        destruct (negb (absorbs o M')); injection H' as <-;
        (split; [apply pregood_refl; [exact Hw|exact Hr]|]; split; [cbn; auto|];
         split; [exact I|]; apply Hnan'). }
    destruct s as [l|ps d0|s ys xs ci d0 nm nc|s M1 d0 al0|s q d0|s k d0];
      try (apply Hother; [discriminate|exact H]).
    + destruct (is_nans l) eqn:En; [|apply Hother; [discriminate|exact H]].
      subst n. split; [apply nans_warp_pregood; assumption|]. split; [exact I|].
      split; exact I.
    + destruct H as (sd & Esd & H); cbn [subdata] in Esd; injection Esd as <-. cbn [push_under] in H.
      destruct (mkConcat_total (map (fun p => Warp p M' d al') ps) (Some d)) as (c & Hc).
      { apply Forall_map. apply Forall_forall. reflexivity. }
      rewrite Hc in H. destruct H as (pp & Epp & H). injection Epp as <-.
      assert (Hp : pregood r (Warp (Concat ps d0) M' d al') c).
      { apply push_warp_pregood; [exact Hw| |exact Hc]. apply reg_warp. rewrite Hr0. exact Hr. }
      eapply pregood_good; [exact Hp|]. destruct Hp as (Hw2 & Hr2 & _). eapply rgood_use; eassumption.
Qed.

Lemma r_dequant_good r s1 q d n :
  wf s1 -> reg r s1 -> nf s1 -> r_dequant rgood s1 q d n ->
  good r (Dequant s1 q d) n.
Proof.
  intros Hw Hr Hnf H. unfold r_dequant in H.
  destruct s1 as [l|ps d0|s ys xs ci d0 nm nc|s M1 d0 al0|s q0 d0|s k d0].
  - destruct H as (sd & Esd & H); cbn [subdata] in Esd; injection Esd as <-. subst n. split; [apply pregood_deq; now apply pregood_refl|].
    split; [cbn; repeat split; discriminate|]. split; exact I.
  - destruct H as (sd & Esd & H); cbn [subdata] in Esd; injection Esd as <-. cbn [push_under] in H.
    destruct (mkConcat_total (map (fun p => mkDequant p q) ps) d0) as (c & Hc).
    { apply Forall_map. apply wf_concat in Hw as (_ & Hd & _).
      eapply Forall_impl; [|exact Hd]. intros p <-. unfold mkDequant. cbn. now destruct (dsize p). }
    rewrite Hc in H. destruct H as (pp & Epp & H). injection Epp as <-.
    assert (Hp : pregood r (Dequant (Concat ps d0) q d) c) by (apply push_dequant_pregood; assumption).
    eapply pregood_good; [exact Hp|]. destruct Hp as (Hw2 & Hr2 & _). eapply rgood_use; eassumption.
  - destruct H as (sd & Esd & H); cbn [subdata] in Esd; injection Esd as <-. subst n. split; [apply pregood_deq; now apply pregood_refl|].
    split; [cbn [nf hd] in *; intuition discriminate|]. split; exact I.
  - destruct H as (n' & Hn' & H).
    assert (Hp : pregood r (Dequant (Warp s M1 d0 al0) q d) (Warp (mkDequant s q) M1 d0 al0))
      by (apply dequant_before_warp_pregood; assumption).
    assert (Hg : good r (Dequant (Warp s M1 d0 al0) q d) n').
    { eapply pregood_good; [exact Hp|]. destruct Hp as (Hw2 & Hr2 & _). eapply rgood_use; eassumption. }
    apply r_push_nf in H; [|apply Hg]. subst n'. exact Hg.
  - contradiction.
  - destruct H as (sd & Esd & H); cbn [subdata] in Esd; injection Esd as <-. subst n. split; [apply pregood_deq; now apply pregood_refl|].
    split; [cbn [nf hd] in *; intuition discriminate|]. split; exact I.
Qed.

Lemma r_crop_concat_good r ps cd ys xs ci d nm nc n :
  wf (Crop (Concat ps cd) ys xs ci d nm nc) -> reg r (Concat ps cd) ->
  r_crop_tail rgood (Crop (Concat ps cd) ys xs ci d nm nc) n ->
  good r (Crop (Concat ps cd) ys xs ci d nm nc) n.
Proof.
  intros Hw Hr H. assert (Hwc : wf (Concat ps cd)) by apply Hw.
  destruct (wf_nc _ Hwc) as (m & Hm).
  pose proof (wf_crop_ci _ _ _ _ _ _ _ Hw) as Hci.
  cbn [r_crop_tail] in H. destruct H as (taken & H). destruct H as (c0 & p & Ht & Hc & Hpu & H).
  assert (Htk : wf taken /\ reg r taken /\ names taken = sel (names (Concat ps cd)) ci /\
     num_channels taken = sel_nc (num_channels (Concat ps cd)) ci /\
     forall x y c b s, selects ci c b -> vis (Concat ps cd) x y b s -> vis taken x y c s).
  { destruct ci as [l|].
    - destruct Ht as (t' & Ht' & Ho).
      destruct (proj1 Ht' _ Hwc Hm (Hci _ Hm)) as (T1 & T2 & T3 & T4 & _ & T6).
      destruct (rgood_use r t' taken T1 (T2 r Hr) Ho) as ((G1 & G2 & G3 & G4 & G5) & _).
      split; [exact G1|]. split; [exact G2|]. split; [now rewrite G3|]. split; [now rewrite G4|].
      intros x y c b s Hs Hv. eauto.
    - subst taken. split; [exact Hwc|]. split; [exact Hr|]. split; [reflexivity|]. split; [reflexivity|].
      cbn. intros x y c b s ->. auto. }
  clear Ht. destruct Htk as (T1 & T2 & T3 & T4 & T5). rename c0 into c.
  destruct (wf_nc _ T1) as (m' & Hm').
  assert (Hp : pregood r (Crop (Concat ps cd) ys xs ci d nm nc) c).
  { eapply crop_pregood_meta; [exact T1|exact T2|exact Hm'| |exact Hc| | |].
    - exact I.
    - rewrite (crop_names _ _ _ _ _ _ _ Hw). now rewrite T3.
    - rewrite (crop_nc _ _ _ _ _ _ _ Hw). now rewrite T4.
    - intros x y k smp. cbn [vis]. intros (Hi & b & Hb & Hv). apply (T5 _ _ _ _ _ Hb) in Hv.
      destruct Hw as (_ & Hy0 & Hx0 & -> & _). unfold inside, iv_len in Hi. cbn [fst snd] in Hi.
      rewrite !injZ_minus in Hi.
      eapply vis_proper; [| |eapply (recrop_vis taken ys xs None c _ _ k k smp T1 I Hc Hx0 Hy0 Hv)];
        try ring; try lra; reflexivity. }
  eapply pregood_good; [exact Hp|]. destruct Hp as (Hwc' & Hrc & _).
  destruct (mkCrop_spec taken _ None c m' T1 Hm' I Hc) as (w & h & a & b & nm' & nc' & _ & Ec & _ & _).
  assert (nm' = None /\ nc' = None) as [-> ->] by (subst c; apply Hwc').
  destruct p as [p|]; [|eapply rgood_use; eassumption].
  assert (Hp : pregood r c p).
  { subst c. cbn [push_under] in Hpu. destruct taken; try discriminate.
    match type of Hpu with rmap _ ?x = _ => destruct x as [qs|] eqn:Eqs end; [|discriminate]. cbn in Hpu. injection Hpu as Hpu.
    eapply push_crop_pregood; eassumption. }
  eapply pregood_good; [exact Hp|]. destruct Hp as (Hw2 & Hr2 & _). eapply rgood_use; eassumption.
Qed.

Lemma r_crop_good r s1 ys xs ci d nm nc n :
  wf (Crop s1 ys xs ci d nm nc) -> reg r s1 -> nf s1 -> nanP s1 ->
  r_crop rgood s1 ys xs ci d nm nc n ->
  good r (Crop s1 ys xs ci d nm nc) n.
Proof.
  intros Hw Hr Hnf Hnan H. unfold r_crop in H. destruct H as (c1 & Hc1 & H).
  assert (Hrt : reg r (Crop s1 ys xs ci d nm nc)) by now apply reg_crop.
  (* fusion of two crops *)
  assert (Hf : exists s ys' xs' ci' d' nm' nc', c1 = Crop s ys' xs' ci' d' nm' nc' /\
     pregood r (Crop s1 ys xs ci d nm nc) c1 /\ nf s /\ hd s <> HCrop /\
     (c1 = Crop s1 ys xs ci d nm nc /\ s = s1 \/
      hd s <> HConcat /\ hd s <> HDeq /\ forall l, s = Leaf l -> is_nans l = false)).
  { destruct s1 as [l|ps d0|s ys1 xs1 ci1 d0 nm0 nc0|s M1 d0 al0|s q0 d0|s k d0];
      try (subst c1; eexists _, _, _, _, _, _, _; split; [reflexivity|];
           split; [now apply pregood_refl|]; split; [exact Hnf|]; split; [discriminate|]; left; auto).
    pose proof (fuse_crops_pregood _ _ _ _ _ _ _ _ _ _ _ _ _ _ _ Hw Hrt Hc1) as Hp.
    unfold fuse_crops in Hc1. apply bind_ok in Hc1 as (nci & _ & Hc1). unfold mkCrop in Hc1.
    destruct (dsize s) as [[w h]|]; [|discriminate].
    apply bind_ok in Hc1 as ([ys' xs'] & _ & Hc1). apply bind_ok in Hc1 as ([nm' nc'] & _ & Hc1).
    injection Hc1 as <-. cbn [nf] in Hnf. destruct Hnf as (N1 & N2 & N3 & N4).
    eexists _, _, _, _, _, _, _. split; [reflexivity|]. split; [exact Hp|]. split; [exact N1|].
    split; [exact N3|]. right. split; [exact N2|]. split; [exact N4|].
    intros l ->. exact (proj1 Hnan). }
  destruct Hf as (s & ys' & xs' & ci' & d' & nm' & nc' & -> & Hp & Hnf' & Hncr & Hor).
  destruct s as [l|ps d0|s ys1 xs1 ci1 d0 nm0 nc0|s M1 d0 al0|s q0 d0|s k d0].
  - destruct (is_nans l) eqn:En.
    + destruct Hor as [[E E']|(_ & _ & Hl)]; [|rewrite (Hl _ eq_refl) in En; discriminate].
      injection E as <- -> -> -> -> -> ->.
      destruct (nans_crop_pregood r l ys xs ci d nm nc n Hw Hr En H) as (Hp' & l' & ->).
      split; [exact Hp'|]. split; [exact I|]. split; exact I.
    + subst n. split; [exact Hp|]. split; [cbn; repeat split; discriminate|].
      split; [exact En|exact I].
  - destruct Hor as [[E E']|(Hx & _)]; [|cbn in Hx; congruence].
    subst s1. injection E as -> -> -> -> -> ->. eapply r_crop_concat_good; eassumption.
  - cbn in Hncr. congruence.
  - assert (Hself : good r (Crop s1 ys xs ci d nm nc) (Crop (Warp s M1 d0 al0) ys' xs' ci' d' nm' nc')).
    { split; [exact Hp|]. split; [|split; exact I]. cbn [nf hd] in *. intuition discriminate. }
    destruct (al_nearest al0); [subst n; exact Hself|].
    destruct H as (w & Hwac & H). destruct w as [[c T]|]; [|subst n; exact Hself].
    destruct H as (n' & Hn' & H). pose proof Hp as (Hw1 & Hr1 & _).
    assert (Hp2 : pregood r (Crop (Warp s M1 d0 al0) ys' xs' ci' d' nm' nc') (Warp c T d' (drop_backend al0)))
      by (eapply warp_after_crop_pregood; eassumption).
    assert (Hg : good r (Crop s1 ys xs ci d nm nc) n').
    { eapply pregood_good; [exact Hp|]. eapply pregood_good; [exact Hp2|].
      destruct Hp2 as (Hw2 & Hr2 & _). eapply rgood_use; eassumption. }
    apply r_crop_tail_nf in H; [|apply Hg]. subst n'. exact Hg.
  - destruct Hor as [[E E']|(_ & Hx & _)]; [|cbn in Hx; congruence].
    subst s1. injection E as -> -> -> -> -> ->.
    destruct H as (n' & Hn' & H).
    assert (Hp2 : pregood r (Crop (Dequant s q0 d0) ys xs ci d nm nc) (Dequant (Crop s ys xs ci d nm nc) q0 (Some d)))
      by (apply dequant_after_crop_pregood; assumption).
    assert (Hg : good r (Crop (Dequant s q0 d0) ys xs ci d nm nc) n').
    { eapply pregood_good; [exact Hp2|]. destruct Hp2 as (Hw2 & Hr2 & _). eapply rgood_use; eassumption. }
    apply r_crop_tail_nf in H; [|apply Hg]. subst n'. exact Hg.
  - destruct H as (sd & Esd & H); cbn [subdata] in Esd; injection Esd as <-. subst n. split; [exact Hp|]. split; [|split; exact I].
    cbn [nf hd] in *. intuition discriminate.
Qed.

Lemma r_overview_good s1 k d n :
  wf s1 -> nans_free s1 -> nf s1 -> r_overview rgood s1 k d n ->
  good RNansFree (Overview s1 k d) n.
Proof.
  intros Hw Hr Hnf H. unfold r_overview in H. destruct H as (o1 & Ho1 & H).
  assert (Hf : exists s k1 d1, o1 = Overview s k1 d1 /\ pregood RNansFree (Overview s1 k d) o1 /\ nf s /\
             hd s <> HOv).
  { destruct s1 as [l|ps d0|s ys1 xs1 ci1 d0 nm0 nc0|s M1 d0 al0|s q0 d0|s k0 d0];
      try (subst o1; eexists _, _, _; split; [reflexivity|];
           split; [now apply pregood_refl|]; split; [exact Hnf|discriminate]).
    pose proof (fuse_overviews_pregood s k0 d0 k d o1 Hw Hr Ho1) as Hp.
    apply mkOverview_meta in Ho1 as (sz & _ & ->). cbn [nf] in Hnf. destruct Hnf as [N1 N2].
    eexists _, _, _. split; [reflexivity|]. split; [exact Hp|]. split; [exact N1|]. rewrite N2. discriminate. }
  destruct Hf as (s & k1 & d1 & -> & Hp & Hnf' & Hno). eapply pregood_good; [exact Hp|].
  clear Hw Hr Hnf Ho1. destruct Hp as (Hw & Hr & _). cbn [reg nans_free] in Hr.
  assert (Hstep : forall n0 n', pregood RNansFree (Overview s k1 d1) n0 -> rgood n0 n' ->
      r_push rgood n' n -> good RNansFree (Overview s k1 d1) n).
  { intros n0 n' Hp Hn' H'.
    assert (Hg : good RNansFree (Overview s k1 d1) n').
    { eapply pregood_good; [exact Hp|]. destruct Hp as (Hw2 & Hr2 & _). eapply rgood_use; eassumption. }
    apply r_push_nf in H'; [|apply Hg]. subst n'. exact Hg. }
  destruct (Z.eqb_spec k1 0) as [E0|E0].
  - apply r_push_nf in H; [|exact Hnf']. subst n.
    split; [now apply overview0_pregood|]. split; [exact Hnf'|]. now apply nans_free_nanP.
  - destruct s as [l|ps d0|s ys1 xs1 ci1 d0 nm0 nc0|s M1 d0 al0|s q0 d0|s k0 d0].
    + destruct H as (sd & Esd & H); cbn [subdata] in Esd; injection Esd as <-. subst n. split; [now apply pregood_refl|]. split; [cbn; auto|]. split; exact I.
    + destruct H as (sd & Esd & H); cbn [subdata] in Esd; injection Esd as <-. cbn [push_under] in H.
      destruct H as (p & Hpu & H).
      match type of Hpu with rmap _ ?x = _ => destruct x as [qs|] eqn:Eqs end; [|discriminate].
      cbn in Hpu. injection Hpu as Hpu.
      destruct p as [p|].
      * assert (Hp : pregood RNansFree (Overview (Concat ps d0) k1 d1) p)
          by (eapply push_overview_pregood; eassumption).
        eapply pregood_good; [exact Hp|]. destruct Hp as (Hw2 & Hr2 & _). eapply rgood_use; eassumption.
      * exfalso. cbn [wf] in Hw. fold (wf (Concat ps d0)) in Hw. 
        apply wf_concat in Hw as (_ & Hd & _). apply mapR_Forall2 in Eqs.
        assert (Hall : Forall (fun q => dsize q = option_map (overview_dsize k1) d0) qs).
        { clear -Eqs Hd. induction Eqs as [|p q ps qs Hpq F IH]; constructor.
          - apply mkOverview_meta in Hpq as (sz & Hs & ->). inversion Hd; subst. cbn. now rewrite Hs.
          - inversion Hd; subst. auto. }
        destruct (mkConcat_total _ _ Hall) as (c & Hc). congruence.
    + destruct H as (n0 & n' & Hn0 & Hn' & H).
      eapply Hstep; [|exact Hn'|exact H]. eapply crop_after_overview_pregood; [exact Hw|exact Hr|exact Hn0].
    + destruct H as (n0 & n' & Hn0 & Hn' & H).
      eapply Hstep; [|exact Hn'|exact H]. eapply warp_after_overview_pregood; [apply Hw|exact Hr|exact Hn0].
    + destruct H as (n' & Hn' & H).
      eapply Hstep; [|exact Hn'|exact H]. apply overview_dequant_pregood; [exact Hw|exact Hr].
    + cbn in Hno. congruence.
Qed.

(** ** All calls *)

Theorem round_rgood o t n : round o rgood t n -> rgood t n.
Proof.
  intros H r Hw Hr.
  destruct t as [l|ps d|s ys xs ci d nm nc|s M d al|s q d|s k d]; cbn [round] in H.
  - subst n. split; [now apply pregood_refl|]. split; [exact I|split; exact I].
  - destruct H as (qs & HF & H).
    assert (Hself : good r (Concat ps d) (Concat ps d)).
    { split; [now apply pregood_refl|]. split; [exact I|split; exact I]. }
    destruct H as [[_ ->] | H]; [exact Hself|].
    destruct (mkConcat qs) as [c|] eqn:En; subst n; [|exact Hself].
    apply wf_concat in Hw as (Hw & _ & _). apply reg_concat in Hr.
    assert (Hall : Forall2 (fun p q => pregood r p q) ps qs).
    { clear -HF Hw Hr. induction HF as [|p q ps qs Hpq F IHF]; cbn; constructor.
      - inversion Hw; inversion Hr; subst. apply good_pregood. now apply Hpq.
      - inversion Hw; inversion Hr; subst. auto. }
    split.
    + apply (concat_pregood r (Concat ps d) ps qs c); auto.
      * eapply mkConcat_wf; [|exact En]. clear -Hall. induction Hall as [|p q ps qs (H1 & _) F IH]; constructor; auto.
      * clear -Hall. induction Hall as [|p q ps qs (_ & H1 & _) F IH]; constructor; auto.
      * eapply Forall2_imp; [|exact Hall]. cbn. intros p q (_ & _ & G3 & G4 & _). auto.
      * intros x y b s. cbn [vis]. intros (_ & Ho). eapply owner_Forall2; [|exact Ho].
        eapply Forall2_imp; [|exact Hall]. cbn. intros p q (_ & _ & _ & G4 & G5). auto.
    + apply mkConcat_spec in En as (d' & -> & _). split; [exact I|split; exact I].
  - destruct H as (s1 & Hs1 & H). apply reg_crop in Hr.
    destruct (rgood_use r s s1 ltac:(apply Hw) Hr Hs1) as (Hp & Hnf & Hnan).
    pose proof (pregood_crop r s s1 ys xs ci d nm nc Hw Hp) as Hpc.
    eapply pregood_good; [exact Hpc|]. destruct Hpc as (Hw1 & Hr1 & _). apply reg_crop in Hr1.
    eapply r_crop_good; eassumption.
  - destruct H as (s1 & Hs1 & H). apply good_rsub. apply reg_warp in Hr.
    assert (Hrr : rsub (rsub r) = rsub r) by now destruct r.
    assert (Hrn : rsub r <> ROvFree) by now destruct r.
    destruct (rgood_use (rsub r) s s1 ltac:(apply Hw) Hr Hs1) as (Hp & Hnf & Hnan).
    assert (Hpc : pregood (rsub r) (Warp s M d al) (Warp s1 M d al)).
    { apply pregood_warp; [exact Hw|]. now rewrite Hrr. }
    eapply pregood_good; [exact Hpc|]. destruct Hpc as (Hw1 & Hr1 & _). apply reg_warp in Hr1. rewrite Hrr in Hr1.
    eapply r_warp_good; eassumption.
  - destruct H as (s1 & Hs1 & H). apply reg_deq in Hr.
    destruct (rgood_use r s s1 Hw Hr Hs1) as (Hp & Hnf & Hnan).
    pose proof (pregood_deq r s s1 q d Hp) as Hpc.
    eapply pregood_good; [exact Hpc|]. destruct Hpc as (Hw1 & Hr1 & _). apply reg_deq in Hr1.
    eapply r_dequant_good; eassumption.
  - destruct H as (s1 & Hs1 & H). destruct r; [|contradiction|contradiction].
    destruct (rgood_use RNansFree s s1 Hw Hr Hs1) as (Hp & Hnf & Hnan).
    pose proof (pregood_ov s s1 k d Hp) as Hpc.
    eapply pregood_good; [exact Hpc|]. destruct Hpc as (Hw1 & Hr1 & _).
    eapply r_overview_good; eassumption.
Qed.
