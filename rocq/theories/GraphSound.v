(* optimize() keeps channel metadata and provenance: the induction. *)
From Verif Require Import Py PyProofs GeomModel GeomProofs GraphModel GraphSpec GraphBase GraphTake GraphOpt GraphMain.
From Coq Require Import Qabs ZifyBool.
Local Open Scope Q_scope.

(** ** Rules for missing values *)

Lemma nans_warp_pregood r l M d al : rsub r = r ->
  wf (Warp (Leaf l) M d al) -> reg r (Leaf l) -> is_nans l = true ->
  pregood r (Warp (Leaf l) M d al) (nans_warp l d).
Proof.
  intros Hr0 [[(n & Hn & H0 & Hl) Hnn] He] Hr Hk. unfold is_nans in Hk.
  destruct (l_kind l) eqn:Ek; [discriminate|]. specialize (Hnn eq_refl).
  destruct (l_names l) as [nm|] eqn:En; [|congruence].
  assert (Hnc : Some (Z.of_nat (List.length nm)) = l_nc l) by congruence.
  unfold nans_warp. rewrite En. split; [|split; [|split; [|split]]].
  - cbn. unfold leaf_ok, nans_leaf. cbn. split; [|congruence]. eexists. split; [reflexivity|]. lia.
  - destruct r; cbn in *; auto; congruence.
  - cbn. congruence.
  - cbn. congruence.
  - intros x y c smp. cbn [vis]. intros (Hi & u & v & _ & _ & (_ & Hb & Hs)).
    unfold nans_leaf. cbn. rewrite Ek in *. rewrite Hnc. auto.
Qed.

Lemma nans_crop_pregood r l ys xs ci d nm nc n :
  wf (Crop (Leaf l) ys xs ci d nm nc) -> reg r (Leaf l) -> is_nans l = true ->
  nans_crop l ys xs ci = Ok n ->
  pregood r (Crop (Leaf l) ys xs ci d nm nc) n /\ exists l', n = Leaf l'.
Proof.
  intros Hw Hr Hk H. pose proof (crop_names _ _ _ _ _ _ _ Hw) as Hcn.
  pose proof (crop_nc _ _ _ _ _ _ _ Hw) as Hcc. pose proof (wf_crop_ci _ _ _ _ _ _ _ Hw) as Hci.
  destruct Hw as (Hl & Hy0 & Hx0 & -> & _).
  cbn [wf] in Hl. destruct Hl as [(m & Hn & H0 & Hl) Hnn]. unfold is_nans in Hk.
  destruct (l_kind l) eqn:Ek; [discriminate|]. specialize (Hnn eq_refl).
  destruct (l_names l) as [nm0|] eqn:En; [|congruence].
  unfold nans_crop in H. apply bind_ok in H as (nm' & Hnm' & H).
  apply bind_ok in H as ([dy ey] & Hy & H). apply bind_ok in H as ([dx ex] & Hx & H). injection H as <-.
  assert (Hsel : exists n', nm' = Some n' /\ sel (names (Leaf l)) ci = Some n' /\
            sel_nc (num_channels (Leaf l)) ci = Some (Z.of_nat (List.length n')) /\
            forall c b, selects ci c b -> (0 <= b < m)%Z -> (0 <= c < Z.of_nat (List.length n'))%Z).
  { cbn [names num_channels]. rewrite En. destruct ci as [i|]; cbn.
    - rewrite En in Hnm'. destruct (select_names nm0 i) as [n'|] eqn:Es; [|discriminate].
      injection Hnm' as <-. exists n'. split; [reflexivity|]. split; [reflexivity|].
      assert (Len : List.length n' = List.length i) by (eapply mapR_length; exact Es).
      rewrite Len. split; [reflexivity|]. intros c b [Hc Hnth] _.
      assert (Z.to_nat c < List.length i)%nat by (apply nth_error_Some; congruence). lia.
    - rewrite En in Hnm'. injection Hnm' as <-. exists nm0. split; [reflexivity|]. split; [reflexivity|].
      rewrite Hl. split; [exact Hn|]. intros c b -> Hb. exact Hb. }
  destruct Hsel as (n' & -> & Hs1 & Hs2 & Hs3). split; [|eauto].
  split; [|split; [|split; [|split]]].
  - cbn. unfold leaf_ok, nans_leaf. cbn. split; [|discriminate]. eexists. split; [reflexivity|]. lia.
  - destruct r; cbn in *; auto; congruence.
  - rewrite Hcn, Hs1. reflexivity.
  - rewrite Hcc, Hs2. reflexivity.
  - intros x y c smp. cbn [vis]. rewrite Ek. intros (Hi & b & Hb & (Hi' & (m' & Hm' & Hb') & Hs)).
    assert (m' = m) by congruence. rewrite H in Hb'.
    unfold nans_leaf. cbn [vis l_dsize l_nc l_kind l_id option_map fst snd]. rewrite Ek. split; [|split; [|exact Hs]].
    + unfold embed_axis in Hx, Hy. difH Hx Ex; [discriminate|]. difH Hy Ey; [discriminate|].
      injection Hx as <- <-. injection Hy as <- <-.
      destruct (l_dsize l) as [w h] eqn:Edl. unfold inside, iv_len in *. cbn [fst snd] in *.
      destruct Hi as [[Xa Xb] [Ya Yb]]. destruct Hi' as [[Xc Xd] [Yc Yd]].
      rewrite injZ_minus in Xb, Yb.
      assert (HxW : (fst xs <= w)%Z) by (apply (proj2 (injZ_le _ _)); lra).
      assert (HyH : (fst ys <= h)%Z) by (apply (proj2 (injZ_le _ _)); lra).
      replace (Z.min w (Z.max 0 (fst xs - 0))) with (fst xs) by lia.
      replace (Z.min h (Z.max 0 (fst ys - 0))) with (fst ys) by lia.
      split; split; try assumption; rewrite ?injZ_minus.
      * destruct (Z.min_spec w (Z.max 0 (snd xs + 0))) as [[? ->]|[? ->]]; [lra|].
        replace (Z.max 0 (snd xs + 0)) with (snd xs) by lia. lra.
      * destruct (Z.min_spec h (Z.max 0 (snd ys + 0))) as [[? ->]|[? ->]]; [lra|].
        replace (Z.max 0 (snd ys + 0)) with (snd ys) by lia. lra.
    + eexists. split; [reflexivity|]. eapply Hs3; eassumption.
Qed.

(** ** Tails *)

Lemma push_tail_nf opt n m : nf n -> push_tail opt n = Ok m -> m = n.
Proof.
  unfold push_tail. destruct n as [l|ps d|s ys xs ci d nm nc|s M d al|s q d|s k d]; cbn [nf subdata bind];
    try discriminate; intros Hn H; try (injection H as <-; reflexivity);
    destruct s; try (injection H as <-; reflexivity); cbn [hd] in Hn; try tauto.
  destruct Hn; discriminate.
Qed.

Lemma crop_tail_nf opt n m : nf n -> crop_tail opt n = Ok m -> m = n.
Proof.
  intros Hn H. destruct n as [l|ps d|s ys xs ci d nm nc|s M d al|s q d|s k d];
    try (apply (push_tail_nf opt); [exact Hn|exact H]).
  destruct s; try (apply (push_tail_nf opt); [exact Hn|exact H]). cbn [nf hd] in Hn. tauto.
Qed.

(** ** The four optimizers *)

Lemma opt_warp_good o opt r s1 M d al n : opt_good opt -> rsub r = r -> r <> ROvFree ->
  wf (Warp s1 M d al) -> reg r s1 -> nf s1 -> nanP s1 ->
  opt_warp o opt s1 M d al = Ok n -> good r (Warp s1 M d al) n.
Proof.
  intros Hopt Hr0 Hr1 Hw Hr Hnf Hnan H. unfold opt_warp in H.
  (* fusion of two warps *)
  assert (Hf : exists s M' al', (match s1 with Warp s2 M1 _ _ => (s2, aff_mul M M1, drop_backend al) | _ => (s1, M, al) end)
      = (s, M', al') /\ pregood r (Warp s1 M d al) (Warp s M' d al') /\ nf s /\ hd s <> HWarp /\ nanP s).
  { destruct s1 as [l|ps d0|s ys xs ci d0 nm nc|s M1 d0 al0|s q d0|s k d0];
      try (eexists _, _, _; split; [reflexivity|]; split; [apply pregood_refl; [exact Hw|apply reg_warp; rewrite Hr0; exact Hr]|];
           split; [exact Hnf|]; split; [discriminate|exact Hnan]).
    exists s, (aff_mul M M1), (drop_backend al). split; [reflexivity|].
    destruct Hnf as (N1 & N2 & N3). destruct Hnan as (_ & Hcn). destruct Hw as [[Hw _] He].
    apply reg_warp in Hr. split; [|split; [exact N1|split; [exact N3|]]].
    - split; [split; [exact Hw|exact He]|]. split; [now apply reg_warp|].
      split; [reflexivity|]. split; [reflexivity|].
      intros x y c smp. cbn [vis]. intros (Hi & u & v & Hu & Hv & _ & u' & v' & Hu' & Hv' & Hs).
      split; [exact Hi|]. exists u', v'. rewrite ax_mul, ay_mul, <- Hu', <- Hv'. auto.
    - split; [exact Hcn|]. destruct s; auto. cbn in N3. congruence. }
  destruct Hf as (s & M' & al' & Ef & Hpre & Hnf' & Hnw & Hnan'). rewrite Ef in H. clear Ef.
  eapply pregood_good; [exact Hpre|]. clear Hr Hw Hnf Hnan.
  destruct Hpre as (Hw & Hr & _). apply reg_warp in Hr. rewrite Hr0 in Hr. pose proof Hw as [Hws He].
  cbv zeta in H.
  destruct (opt_size_eqb (Some d) (dsize s) && close_identity (al_eps al') M')%bool eqn:Eneg.
  - (* negligible warp *)
    injection H as <-. apply andb_prop in Eneg as [Ed Ec]. apply opt_size_eqb_eq in Ed.
    split; [|split; [exact Hnf'|exact Hnan']].
    split; [exact Hws|]. split; [exact Hr|]. split; [reflexivity|]. split; [reflexivity|].
    intros x y c smp (Hi & u & v & Hu & Hv & Hs).
    assert (HM : forall a b, entry_close (al_eps al') a b = true -> a == b).
    { intros a b Hab. unfold entry_close in Hab. apply Qle_bool_iff in Hab.
      rewrite He in Hab. setoid_replace (0 + 0 * Qabs b) with 0 in Hab by ring.
      apply Qabs_Qle_condition in Hab. lra. }
    unfold close_identity in Ec. rewrite !andb_true_iff in Ec.
    destruct Ec as [[[[[E1 E2] E3] E4] E5] E6]. apply HM in E1, E2, E3, E4, E5, E6.
    unfold ax in Hu. unfold ay in Hv. rewrite E1, E2, E5 in Hu. rewrite E3, E4, E6 in Hv.
    eapply vis_proper; [| |exact Hs]; [rewrite Hu|rewrite Hv]; ring.
  - assert (Hother : hd s <> HConcat ->
      (sp <- split_warp o opt s M' d al';;
       match sp with Some n => n' <- opt_sub opt n;; opt n' | None => absorb o s M' d al' end) = Ok n ->
      good r (Warp s M' d al') n).
    { intros Hnc H'. apply bind_ok in H' as (sp & Hsp & H'). destruct r; [| |].
      - destruct sp as [n0|].
        + pose proof (split_warp_pregood _ _ _ _ _ _ _ Hopt Hw Hr Hsp) as Hp.
          apply bind_ok in H' as (n' & Hsub & H').
          eapply pregood_good; [exact Hp|]. destruct Hp as (Hw0 & Hr' & _).
          assert (Hp2 : pregood RNansFree n0 n').
          { destruct n0 as [l|ps d0|s0 ys xs ci d0 nm nc|s0 M1 d0 al0|s0 q d0|s0 k d0];
              cbn in Hsub; try discriminate; apply bind_ok in Hsub as (s0' & Hs0 & E); injection E as <-.
            - apply pregood_crop; [exact Hw0|]. apply good_pregood. eapply Hopt; [apply Hw0|exact Hr'|exact Hs0].
            - apply pregood_warp; [exact Hw0|]. apply good_pregood. eapply Hopt; [apply Hw0|exact Hr'|exact Hs0].
            - apply pregood_deq. apply good_pregood. eapply Hopt; [apply Hw0|exact Hr'|exact Hs0].
            - apply pregood_ov. apply good_pregood. eapply Hopt; [apply Hw0|exact Hr'|exact Hs0]. }
          eapply pregood_good; [exact Hp2|]. destruct Hp2 as (Hw2 & Hr2 & _). eapply Hopt; eassumption.
        + eapply absorb_good; eassumption.
      - congruence.
      - destruct sp as [n0|]; [exfalso; eapply split_warp_ov_less; eassumption|].
        unfold absorb in H'. rewrite (lookahead_ov_less _ _ Hr) in H'.
        destruct (negb (absorbs o M')); injection H' as <-;
        (split; [apply pregood_refl; [exact Hw|exact Hr]|]; split; [cbn; auto|];
         split; [exact I|]; apply Hnan'). }
    destruct s as [l|ps d0|s ys xs ci d0 nm nc|s M1 d0 al0|s q d0|s k d0];
      try (apply Hother; [discriminate|exact H]).
    + destruct (is_nans l) eqn:En; [|apply Hother; [discriminate|exact H]].
      injection H as <-. split; [apply nans_warp_pregood; assumption|]. split; [exact I|].
      split; exact I.
    + unfold push_tail in H. cbn [subdata bind] in H. cbn [push_under] in H.
      destruct (mkConcat_total (map (fun p => Warp p M' d al') ps) (Some d)) as (c & Hc).
      { apply Forall_map. apply Forall_forall. reflexivity. }
      rewrite Hc in H. cbn [bind] in H.
      assert (Hp : pregood r (Warp (Concat ps d0) M' d al') c).
      { apply push_warp_pregood; [exact Hw| |exact Hc]. apply reg_warp. rewrite Hr0. exact Hr. }
      eapply pregood_good; [exact Hp|]. destruct Hp as (Hw2 & Hr2 & _). eapply Hopt; eassumption.
Qed.

Lemma opt_dequant_good opt r s1 q d n : opt_good opt ->
  wf s1 -> reg r s1 -> nf s1 -> opt_dequant opt s1 q d = Ok n ->
  good r (Dequant s1 q d) n.
Proof.
  intros Hopt Hw Hr Hnf H. unfold opt_dequant in H.
  destruct s1 as [l|ps d0|s ys xs ci d0 nm nc|s M1 d0 al0|s q0 d0|s k d0].
  - injection H as <-. split; [apply pregood_deq; now apply pregood_refl|].
    split; [cbn; repeat split; discriminate|]. split; exact I.
  - unfold push_tail in H. cbn [subdata bind push_under] in H.
    destruct (mkConcat_total (map (fun p => mkDequant p q) ps) d0) as (c & Hc).
    { apply Forall_map. apply wf_concat in Hw as (_ & Hd & _).
      eapply Forall_impl; [|exact Hd]. intros p <-. unfold mkDequant. cbn. now destruct (dsize p). }
    rewrite Hc in H. cbn [bind] in H.
    assert (Hp : pregood r (Dequant (Concat ps d0) q d) c) by (apply push_dequant_pregood; assumption).
    eapply pregood_good; [exact Hp|]. destruct Hp as (Hw2 & Hr2 & _). eapply Hopt; eassumption.
  - injection H as <-. split; [apply pregood_deq; now apply pregood_refl|].
    split; [cbn [nf hd] in *; intuition discriminate|]. split; exact I.
  - apply bind_ok in H as (n' & Hn' & H).
    assert (Hp : pregood r (Dequant (Warp s M1 d0 al0) q d) (Warp (mkDequant s q) M1 d0 al0))
      by (apply dequant_before_warp_pregood; assumption).
    assert (Hg : good r (Dequant (Warp s M1 d0 al0) q d) n').
    { eapply pregood_good; [exact Hp|]. destruct Hp as (Hw2 & Hr2 & _). eapply Hopt; eassumption. }
    apply push_tail_nf in H; [|apply Hg]. subst n'. exact Hg.
  - discriminate.
  - injection H as <-. split; [apply pregood_deq; now apply pregood_refl|].
    split; [cbn [nf hd] in *; intuition discriminate|]. split; exact I.
Qed.

Lemma crop_concat_good opt r ps cd ys xs ci d nm nc n : opt_good opt ->
  wf (Crop (Concat ps cd) ys xs ci d nm nc) -> reg r (Concat ps cd) ->
  crop_tail opt (Crop (Concat ps cd) ys xs ci d nm nc) = Ok n ->
  good r (Crop (Concat ps cd) ys xs ci d nm nc) n.
Proof.
  intros Hopt Hw Hr H. assert (Hwc : wf (Concat ps cd)) by apply Hw.
  destruct (wf_nc _ Hwc) as (m & Hm).
  pose proof (wf_crop_ci _ _ _ _ _ _ _ Hw) as Hci.
  cbn [crop_tail] in H. apply bind_ok in H as (taken & Ht & H).
  assert (Htk : wf taken /\ reg r taken /\ names taken = sel (names (Concat ps cd)) ci /\
     num_channels taken = sel_nc (num_channels (Concat ps cd)) ci /\
     forall x y c b s, selects ci c b -> vis (Concat ps cd) x y b s -> vis taken x y c s).
  { destruct ci as [l|].
    - apply bind_ok in Ht as (t' & Ht' & Ho).
      destruct (take_idx_takes _ _ _ _ Hwc Hm (Hci _ Hm) Ht') as (T1 & T2 & T3 & T4 & _ & T6).
      destruct (Hopt r t' taken T1 (T2 r Hr) Ho) as ((G1 & G2 & G3 & G4 & G5) & _).
      split; [exact G1|]. split; [exact G2|]. split; [now rewrite G3|]. split; [now rewrite G4|].
      intros x y c b s Hs Hv. eauto.
    - injection Ht as <-. split; [exact Hwc|]. split; [exact Hr|]. split; [reflexivity|]. split; [reflexivity|].
      cbn. intros x y c b s ->. auto. }
  clear Ht. destruct Htk as (T1 & T2 & T3 & T4 & T5).
  apply bind_ok in H as (c & Hc & H).
  destruct (wf_nc _ T1) as (m' & Hm').
  assert (Hp : pregood r (Crop (Concat ps cd) ys xs ci d nm nc) c).
  { eapply crop_pregood_meta; [exact T1|exact T2|exact Hm'| |exact Hc| | |].
    - exact I.
    - rewrite (crop_names _ _ _ _ _ _ _ Hw). now rewrite T3.
    - rewrite (crop_nc _ _ _ _ _ _ _ Hw). now rewrite T4.
    - intros x y k smp. cbn [vis]. intros (Hi & b & Hb & Hv). apply (T5 _ _ _ _ _ Hb) in Hv.
      destruct Hw as (_ & Hy0 & Hx0 & -> & _). unfold inside, iv_len in Hi. cbn [fst snd] in Hi.
      rewrite !injZ_minus in Hi.
      eapply vis_proper; [| |eapply (recrop_vis taken ys xs None c _ _ k k smp T1 I Hc Hx0 Hy0 Hv)];
        try ring; try lra; reflexivity. }
  eapply pregood_good; [exact Hp|]. destruct Hp as (Hwc' & Hrc & _).
  apply bind_ok in H as (p & Hpu & H).
  destruct (mkCrop_spec taken _ None c m' T1 Hm' I Hc) as (w & h & a & b & nm' & nc' & _ & Ec & _ & _).
  assert (nm' = None /\ nc' = None) as [-> ->] by (subst c; apply Hwc').
  destruct p as [p|]; [|eapply Hopt; eassumption].
  assert (Hp : pregood r c p).
  { subst c. cbn [push_under] in Hpu. destruct taken; try discriminate.
    match type of Hpu with rmap _ ?x = _ => destruct x as [qs|] eqn:Eqs end; [|discriminate]. cbn in Hpu. injection Hpu as Hpu.
    eapply push_crop_pregood; eassumption. }
  eapply pregood_good; [exact Hp|]. destruct Hp as (Hw2 & Hr2 & _). eapply Hopt; eassumption.
Qed.

Lemma opt_crop_good opt r s1 ys xs ci d nm nc n : opt_good opt ->
  wf (Crop s1 ys xs ci d nm nc) -> reg r s1 -> nf s1 -> nanP s1 ->
  opt_crop opt s1 ys xs ci d nm nc = Ok n ->
  good r (Crop s1 ys xs ci d nm nc) n.
Proof.
  intros Hopt Hw Hr Hnf Hnan H. unfold opt_crop in H. apply bind_ok in H as (c1 & Hc1 & H).
  assert (Hrt : reg r (Crop s1 ys xs ci d nm nc)) by now apply reg_crop.
  (* fusion of two crops *)
  assert (Hf : exists s ys' xs' ci' d' nm' nc', c1 = Crop s ys' xs' ci' d' nm' nc' /\
     pregood r (Crop s1 ys xs ci d nm nc) c1 /\ nf s /\ hd s <> HCrop /\
     (c1 = Crop s1 ys xs ci d nm nc /\ s = s1 \/
      hd s <> HConcat /\ hd s <> HDeq /\ forall l, s = Leaf l -> is_nans l = false)).
  { destruct s1 as [l|ps d0|s ys1 xs1 ci1 d0 nm0 nc0|s M1 d0 al0|s q0 d0|s k d0];
      try (injection Hc1 as <-; eexists _, _, _, _, _, _, _; split; [reflexivity|];
           split; [now apply pregood_refl|]; split; [exact Hnf|]; split; [discriminate|]; left; auto).
    pose proof (fuse_crops_pregood _ _ _ _ _ _ _ _ _ _ _ _ _ _ _ Hw Hrt Hc1) as Hp.
    unfold fuse_crops in Hc1. apply bind_ok in Hc1 as (nci & _ & Hc1). unfold mkCrop in Hc1.
    destruct (dsize s) as [[w h]|]; [|discriminate].
    apply bind_ok in Hc1 as ([ys' xs'] & _ & Hc1). apply bind_ok in Hc1 as ([nm' nc'] & _ & Hc1).
    injection Hc1 as <-. cbn [nf] in Hnf. destruct Hnf as (N1 & N2 & N3 & N4).
    eexists _, _, _, _, _, _, _. split; [reflexivity|]. split; [exact Hp|]. split; [exact N1|].
    split; [exact N3|]. right. split; [exact N2|]. split; [exact N4|].
    intros l ->. exact (proj1 Hnan). }
  destruct Hf as (s & ys' & xs' & ci' & d' & nm' & nc' & -> & Hp & Hnf' & Hncr & Hor).
  destruct s as [l|ps d0|s ys1 xs1 ci1 d0 nm0 nc0|s M1 d0 al0|s q0 d0|s k d0].
  - destruct (is_nans l) eqn:En.
    + destruct Hor as [[E E']|(_ & _ & Hl)]; [|rewrite (Hl _ eq_refl) in En; discriminate].
      injection E as <- -> -> -> -> -> ->.
      destruct (nans_crop_pregood r l ys xs ci d nm nc n Hw Hr En H) as (Hp' & l' & ->).
      split; [exact Hp'|]. split; [exact I|]. split; exact I.
    + injection H as <-. split; [exact Hp|]. split; [cbn; repeat split; discriminate|].
      split; [exact En|exact I].
  - destruct Hor as [[E E']|(Hx & _)]; [|cbn in Hx; congruence].
    subst s1. injection E as -> -> -> -> -> ->. eapply crop_concat_good; eassumption.
  - cbn in Hncr. congruence.
  - assert (Hself : good r (Crop s1 ys xs ci d nm nc) (Crop (Warp s M1 d0 al0) ys' xs' ci' d' nm' nc')).
    { split; [exact Hp|]. split; [|split; exact I]. cbn [nf hd] in *. intuition discriminate. }
    destruct (al_nearest al0); [injection H as <-; exact Hself|].
    apply bind_ok in H as (w & Hwac & H). destruct w as [[c T]|]; [|injection H as <-; exact Hself].
    apply bind_ok in H as (n' & Hn' & H). pose proof Hp as (Hw1 & Hr1 & _).
    assert (Hp2 : pregood r (Crop (Warp s M1 d0 al0) ys' xs' ci' d' nm' nc') (Warp c T d' (drop_backend al0)))
      by (eapply warp_after_crop_pregood; eassumption).
    assert (Hg : good r (Crop s1 ys xs ci d nm nc) n').
    { eapply pregood_good; [exact Hp|]. eapply pregood_good; [exact Hp2|].
      destruct Hp2 as (Hw2 & Hr2 & _). eapply Hopt; eassumption. }
    apply crop_tail_nf in H; [|apply Hg]. subst n'. exact Hg.
  - destruct Hor as [[E E']|(_ & Hx & _)]; [|cbn in Hx; congruence].
    subst s1. injection E as -> -> -> -> -> ->.
    apply bind_ok in H as (n' & Hn' & H).
    assert (Hp2 : pregood r (Crop (Dequant s q0 d0) ys xs ci d nm nc) (Dequant (Crop s ys xs ci d nm nc) q0 (Some d)))
      by (apply dequant_after_crop_pregood; assumption).
    assert (Hg : good r (Crop (Dequant s q0 d0) ys xs ci d nm nc) n').
    { eapply pregood_good; [exact Hp2|]. destruct Hp2 as (Hw2 & Hr2 & _). eapply Hopt; eassumption. }
    apply crop_tail_nf in H; [|apply Hg]. subst n'. exact Hg.
  - injection H as <-. split; [exact Hp|]. split; [|split; exact I].
    cbn [nf hd] in *. intuition discriminate.
Qed.

Lemma opt_overview_good opt s1 k d n : opt_good opt ->
  wf s1 -> nans_free s1 -> nf s1 -> opt_overview opt s1 k d = Ok n ->
  good RNansFree (Overview s1 k d) n.
Proof.
  intros Hopt Hw Hr Hnf H. unfold opt_overview in H. apply bind_ok in H as (o1 & Ho1 & H).
  assert (Hf : exists s k1 d1, o1 = Overview s k1 d1 /\ pregood RNansFree (Overview s1 k d) o1 /\ nf s /\
             hd s <> HOv).
  { destruct s1 as [l|ps d0|s ys1 xs1 ci1 d0 nm0 nc0|s M1 d0 al0|s q0 d0|s k0 d0];
      try (injection Ho1 as <-; eexists _, _, _; split; [reflexivity|];
           split; [now apply pregood_refl|]; split; [exact Hnf|discriminate]).
    pose proof (fuse_overviews_pregood s k0 d0 k d o1 Hw Hr Ho1) as Hp.
    apply mkOverview_meta in Ho1 as (sz & _ & ->). cbn [nf] in Hnf. destruct Hnf as [N1 N2].
    eexists _, _, _. split; [reflexivity|]. split; [exact Hp|]. split; [exact N1|]. rewrite N2. discriminate. }
  destruct Hf as (s & k1 & d1 & -> & Hp & Hnf' & Hno). eapply pregood_good; [exact Hp|].
  clear Hw Hr Hnf Ho1. destruct Hp as (Hw & Hr & _). cbn [reg nans_free] in Hr.
  assert (Hstep : forall n0 n', pregood RNansFree (Overview s k1 d1) n0 -> opt n0 = Ok n' ->
      push_tail opt n' = Ok n -> good RNansFree (Overview s k1 d1) n).
  { intros n0 n' Hp Hn' H'.
    assert (Hg : good RNansFree (Overview s k1 d1) n').
    { eapply pregood_good; [exact Hp|]. destruct Hp as (Hw2 & Hr2 & _). eapply Hopt; eassumption. }
    apply push_tail_nf in H'; [|apply Hg]. subst n'. exact Hg. }
  destruct (Z.eqb_spec k1 0) as [E0|E0].
  - apply push_tail_nf in H; [|exact Hnf']. subst n.
    split; [now apply overview0_pregood|]. split; [exact Hnf'|]. now apply nans_free_nanP.
  - destruct s as [l|ps d0|s ys1 xs1 ci1 d0 nm0 nc0|s M1 d0 al0|s q0 d0|s k0 d0].
    + injection H as <-. split; [now apply pregood_refl|]. split; [cbn; auto|]. split; exact I.
    + unfold push_tail in H. cbn [subdata bind push_under] in H.
      apply bind_ok in H as (p & Hpu & H).
      match type of Hpu with rmap _ ?x = _ => destruct x as [qs|] eqn:Eqs end; [|discriminate].
      cbn in Hpu. injection Hpu as Hpu.
      destruct p as [p|].
      * assert (Hp : pregood RNansFree (Overview (Concat ps d0) k1 d1) p)
          by (eapply push_overview_pregood; eassumption).
        eapply pregood_good; [exact Hp|]. destruct Hp as (Hw2 & Hr2 & _). eapply Hopt; eassumption.
      * exfalso. cbn [wf] in Hw. fold (wf (Concat ps d0)) in Hw. 
        apply wf_concat in Hw as (_ & Hd & _). apply mapR_Forall2 in Eqs.
        assert (Hall : Forall (fun q => dsize q = option_map (overview_dsize k1) d0) qs).
        { clear -Eqs Hd. induction Eqs as [|p q ps qs Hpq F IH]; constructor.
          - apply mkOverview_meta in Hpq as (sz & Hs & ->). inversion Hd; subst. cbn. now rewrite Hs.
          - inversion Hd; subst. auto. }
        destruct (mkConcat_total _ _ Hall) as (c & Hc). congruence.
    + apply bind_ok in H as (n0 & Hn0 & H). apply bind_ok in H as (n' & Hn' & H).
      eapply Hstep; [|exact Hn'|exact H]. eapply crop_after_overview_pregood; [exact Hw|exact Hr|exact Hn0].
    + apply bind_ok in H as (n0 & Hn0 & H). apply bind_ok in H as (n' & Hn' & H).
      eapply Hstep; [|exact Hn'|exact H]. eapply warp_after_overview_pregood; [apply Hw|exact Hr|exact Hn0].
    + apply bind_ok in H as (n' & Hn' & H).
      eapply Hstep; [|exact Hn'|exact H]. apply overview_dequant_pregood; [exact Hw|exact Hr].
    + cbn in Hno. congruence.
Qed.

(** ** All calls *)

Theorem optimize_good o : forall fuel r t t' b, wf t -> reg r t ->
  optimize o fuel t = Ok (t', b) -> good r t t'.
Proof.
  induction fuel as [|f IH]; intros r t t' b Hw Hr H; [discriminate|].
  assert (Hopt : opt_good (fun t => rmap fst (optimize o f t))).
  { intros r0 t0 t0' Hw0 Hr0 H0. destruct (optimize o f t0) as [[t1 b1]|] eqn:E; [|discriminate].
    injection H0 as <-. eapply IH; eassumption. }
  set (opt := fun t => rmap fst (optimize o f t)) in *.
  destruct t as [l|ps d|s ys xs ci d nm nc|s M d al|s q d|s k d]; cbn [optimize] in H; fold opt in H.
  - injection H as <- <-. split; [now apply pregood_refl|]. split; [exact I|split; exact I].
  - apply bind_ok in H as (res & Hres & H).
    assert (Hself : good r (Concat ps d) (Concat ps d)).
    { split; [now apply pregood_refl|]. split; [exact I|split; exact I]. }
    destruct (forallb snd res); [injection H as <- <-; exact Hself|].
    destruct (mkConcat (map fst res)) as [n|] eqn:En; injection H as <- <-; [|exact Hself].
    apply wf_concat in Hw as (Hw & _ & _). apply reg_concat in Hr. apply mapR_Forall2 in Hres.
    assert (Hall : Forall2 (fun p q => pregood r p q) ps (map fst res)).
    { clear -IH Hres Hw Hr. induction Hres as [|p [q bq] ps res Hpq F IHF]; cbn; constructor.
      - inversion Hw; inversion Hr; subst. apply good_pregood. eapply IH; eassumption.
      - inversion Hw; inversion Hr; subst. auto. }
    split.
    + apply (concat_pregood r (Concat ps d) ps (map fst res) n); auto.
      * eapply mkConcat_wf; [|exact En]. clear -Hall. induction Hall as [|p q ps qs (H1 & _) F IH]; constructor; auto.
      * clear -Hall. induction Hall as [|p q ps qs (_ & H1 & _) F IH]; constructor; auto.
      * eapply Forall2_imp; [|exact Hall]. cbn. intros p q (_ & _ & G3 & G4 & _). auto.
      * intros x y c s. cbn [vis]. intros (_ & Ho). eapply owner_Forall2; [|exact Ho].
        eapply Forall2_imp; [|exact Hall]. cbn. intros p q (_ & _ & _ & G4 & G5). auto.
    + apply mkConcat_spec in En as (d' & -> & _). split; [exact I|split; exact I].
  - apply bind_ok in H as (s1 & Hs1 & H). apply bind_ok in H as (n & Hn & H). injection H as <- <-.
    apply reg_crop in Hr. destruct (Hopt r s s1 ltac:(apply Hw) Hr Hs1) as (Hp & Hnf & Hnan).
    pose proof (pregood_crop r s s1 ys xs ci d nm nc Hw Hp) as Hpc.
    eapply pregood_good; [exact Hpc|]. destruct Hpc as (Hw1 & Hr1 & _). apply reg_crop in Hr1.
    eapply opt_crop_good; eassumption.
  - apply bind_ok in H as (s1 & Hs1 & H). apply bind_ok in H as (n & Hn & H). injection H as <- <-.
    apply good_rsub. apply reg_warp in Hr.
    assert (Hrr : rsub (rsub r) = rsub r) by now destruct r.
    assert (Hrn : rsub r <> ROvFree) by now destruct r.
    destruct (Hopt (rsub r) s s1 ltac:(apply Hw) Hr Hs1) as (Hp & Hnf & Hnan).
    assert (Hpc : pregood (rsub r) (Warp s M d al) (Warp s1 M d al)).
    { apply pregood_warp; [exact Hw|]. now rewrite Hrr. }
    eapply pregood_good; [exact Hpc|]. destruct Hpc as (Hw1 & Hr1 & _). apply reg_warp in Hr1. rewrite Hrr in Hr1.
    eapply opt_warp_good; eassumption.
  - apply bind_ok in H as (s1 & Hs1 & H). apply bind_ok in H as (n & Hn & H). injection H as <- <-.
    apply reg_deq in Hr. destruct (Hopt r s s1 Hw Hr Hs1) as (Hp & Hnf & Hnan).
    pose proof (pregood_deq r s s1 q d Hp) as Hpc.
    eapply pregood_good; [exact Hpc|]. destruct Hpc as (Hw1 & Hr1 & _). apply reg_deq in Hr1.
    eapply opt_dequant_good; eassumption.
  - apply bind_ok in H as (s1 & Hs1 & H). apply bind_ok in H as (n & Hn & H). injection H as <- <-.
    destruct r; [|contradiction|contradiction].
    destruct (Hopt RNansFree s s1 Hw Hr Hs1) as (Hp & Hnf & Hnan).
    pose proof (pregood_ov s s1 k d Hp) as Hpc.
    eapply pregood_good; [exact Hpc|]. destruct Hpc as (Hw1 & Hr1 & _).
    eapply opt_overview_good; eassumption.
Qed.
