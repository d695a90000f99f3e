(* Rounds of optimize() keep the reported size, the tight-crop discipline, the
   kinds of warps and the leaves: the induction of GraphSize.v for the relational
   rounds of MemoStep.v. *)
From Verif Require Import Py PyProofs GeomModel GeomProofs GraphModel GraphSpec GraphBase GraphTake GraphOpt GraphMain GraphSound GraphSize MemoStep MemoGood.
From Coq Require Import Qabs ZifyBool.
Local Open Scope Q_scope.

(** ** Rounds are monotone *)

Lemma F2_mono {A B} (P Q : A -> B -> Prop) l m : (forall a b, P a b -> Q a b) -> Forall2 P l m -> Forall2 Q l m.
Proof. intros H F. induction F; constructor; auto. Qed.

Section Mono.
Variables (o : oracle) (P Q : node -> node -> Prop).
Hypothesis PQ : forall a b, P a b -> Q a b.

Lemma r_push_mono t n : r_push P t n -> r_push Q t n.
Proof.
  intros (sd & E & H). exists sd. split; [exact E|]. destruct sd as [[]|]; auto.
  destruct H as (p & E' & H). exists p. split; [exact E'|]. destruct p; auto.
Qed.

Lemma r_split_mono s M d al r : r_split o P s M d al r -> r_split o Q s M d al r.
Proof.
  intros (no & E & H). exists no. split; [exact E|]. destruct no as [n|]; [|exact H].
  destruct (n =? 0)%Z; [exact H|]. destruct H as (lv & E' & H). exists lv. split; [exact E'|].
  destruct lv as [poss|]; [|exact H]. cbv zeta in *. destruct (_ =? 0)%Z; [exact H|].
  destruct H as (R & ov & HR & Ho & H). exists R, ov. split; [exact HR|]. split; [exact Ho|].
  destruct (is_identity R); [|exact H]. destruct (opt_size_eqb _ _); [exact H|].
  destruct H as (c & n' & Hc & Hn & E3). eauto 6.
Qed.

Lemma r_sub_mono t n : r_sub P t n -> r_sub Q t n.
Proof. destruct t; cbn; auto; intros (s' & H & ->); eauto. Qed.

Lemma r_warp_mono s1 M d al n : r_warp o P s1 M d al n -> r_warp o Q s1 M d al n.
Proof.
  unfold r_warp. destruct (match s1 with Warp s2 M1 _ _ => _ | _ => _ end) as [[s M'] al'].
  destruct (_ && _)%bool; [auto|].
  assert (Ho : (exists sp, r_split o P s M' d al' sp /\
     match sp with Some n0 => exists n', r_sub P n0 n' /\ P n' n | None => absorb o s M' d al' = Ok n end) ->
     exists sp, r_split o Q s M' d al' sp /\
     match sp with Some n0 => exists n', r_sub Q n0 n' /\ Q n' n | None => absorb o s M' d al' = Ok n end).
  { intros (sp & H1 & H2). exists sp. split; [now apply r_split_mono|]. destruct sp; [|exact H2].
    destruct H2 as (n' & H2 & H3). exists n'. split; [now apply r_sub_mono|auto]. }
  destruct s; auto.
  - destruct (is_nans _); auto.
  - apply r_push_mono.
Qed.

Lemma r_dequant_mono s1 q d n : r_dequant P s1 q d n -> r_dequant Q s1 q d n.
Proof.
  destruct s1; cbn [r_dequant]; auto; try apply r_push_mono.
  intros (n' & H & H'). exists n'. split; [auto|now apply r_push_mono].
Qed.

Lemma r_crop_tail_mono t n : r_crop_tail P t n -> r_crop_tail Q t n.
Proof.
  destruct t as [l|ps d|s ys xs ci d nm nc|s M d al|s q d|s k d]; try apply r_push_mono.
  destruct s; try apply r_push_mono. cbn [r_crop_tail]. intros (taken & c & p & H1 & H2 & H3 & H4).
  exists taken, c, p. split; [|auto]. destruct ci; [|exact H1]. destruct H1 as (t' & A & B). eauto.
Qed.

Lemma r_crop_mono s1 ys xs ci d nm nc n : r_crop P s1 ys xs ci d nm nc n -> r_crop Q s1 ys xs ci d nm nc n.
Proof.
  intros (c1 & E & H). exists c1. split; [exact E|].
  destruct c1 as [l|ps d0|s ys0 xs0 ci0 d0 nm0 nc0|s M d0 al|s q d0|s k d0]; try now apply r_crop_tail_mono.
  destruct s; try (now apply r_crop_tail_mono); auto.
  - destruct (al_nearest _); [exact H|]. destruct H as (r & Hr & H). exists r. split; [exact Hr|].
    destruct r as [[c T]|]; [|exact H]. destruct H as (n' & H1 & H2). exists n'. split; [auto|now apply r_crop_tail_mono].
  - destruct H as (n' & H1 & H2). exists n'. split; [auto|now apply r_crop_tail_mono].
Qed.

Lemma r_overview_mono s1 k d n : r_overview P s1 k d n -> r_overview Q s1 k d n.
Proof.
  intros (o1 & E & H). exists o1. split; [exact E|]. destruct o1 as [| | | | |s k1 d1]; auto.
  destruct (k1 =? 0)%Z; [now apply r_push_mono|].
  destruct s; try (now apply r_push_mono).
  - destruct H as (n0 & n' & H1 & H2 & H3). exists n0, n'. split; [exact H1|]. split; [auto|now apply r_push_mono].
  - destruct H as (n0 & n' & H1 & H2 & H3). exists n0, n'. split; [exact H1|]. split; [auto|now apply r_push_mono].
  - destruct H as (n' & H2 & H3). exists n'. split; [auto|now apply r_push_mono].
Qed.

Lemma round_mono t n : round o P t n -> round o Q t n.
Proof.
  destruct t; cbn [round]; auto.
  - intros (qs & F & H). exists qs. split; [exact (F2_mono _ _ _ _ PQ F)|exact H].
  - intros (s1 & H & H'). exists s1. split; [auto|now apply r_crop_mono].
  - intros (s1 & H & H'). exists s1. split; [auto|now apply r_warp_mono].
  - intros (s1 & H & H'). exists s1. split; [auto|now apply r_dequant_mono].
  - intros (s1 & H & H'). exists s1. split; [auto|now apply r_overview_mono].
Qed.
End Mono.

(** ** Sizes *)

Definition rkept (t n : node) : Prop := wf t -> ov_free t -> tight t -> kept t n.
Definition rk (t n : node) : Prop := rgood t n /\ rkept t n.

Lemma r_warp_kept o s1 M d al n :
  wf (Warp s1 M d al) -> ov_less s1 -> tight (Warp s1 M d al) ->
  r_warp o rk s1 M d al n -> kept (Warp s1 M d al) n.
Proof.
  intros Hw Hr Ht H. unfold r_warp in H.
  assert (Hf : exists s M' al', (match s1 with Warp s2 M1 _ _ => (s2, aff_mul M M1, drop_backend al) | _ => (s1, M, al) end)
      = (s, M', al') /\ wf (Warp s M' d al') /\ ov_less s /\ tight (Warp s M' d al') /\
      (forall P, leafs_all P s1 -> leafs_all P s) /\
      (forall P, fusable_sized P -> warps_sized P (Warp s1 M d al) -> warps_sized P (Warp s M' d al'))).
  { destruct s1 as [l|ps d0|s ys xs ci d0 nm nc|s M1 d0 al0|s q d0|s k d0];
      try (eexists _, _, _; split; [reflexivity|]; split; [exact Hw|]; split; [exact Hr|]; split; [exact Ht|auto]).
    eexists _, _, _. split; [reflexivity|]. cbn in *. split; [tauto|]. split; [tauto|]. split; [tauto|]. split; [tauto|].
    intros P [_ HP] (H1 & H2 & H3). eauto. }
  destruct Hf as (s & M' & al' & Ef & Hw' & Hr' & Ht' & Hl' & Hx'). rewrite Ef in H. clear Ef.
  assert (Hg : kept (Warp s M' d al') n -> kept (Warp s1 M d al) n).
  { intros (G1 & G2 & G3 & G4). split; [exact G1|]. split; [exact G2|]. split.
    - intros P HP Hp. apply G3; auto.
    - intros P Hp. apply G4. apply Hl'. exact Hp. }
  apply Hg. clear Hx' Hl' Hg Hw Hr Ht. cbv zeta in H.
  destruct (opt_size_eqb (Some d) (dsize s) && close_identity (al_eps al') M')%bool eqn:Eneg.
  - subst n. apply andb_prop in Eneg as [Ed _]. apply opt_size_eqb_eq in Ed.
    split; [now rewrite <- Ed|]. split; [apply Ht'|]. split; [intros P HP Hp; apply Hp|auto].
  - assert (Hother : (exists sp, r_split o rk s M' d al' sp /\
       match sp with Some n0 => exists n', r_sub rk n0 n' /\ rk n' n | None => absorb o s M' d al' = Ok n end) ->
       kept (Warp s M' d al') n).
    { intros (sp & Hsp & H').
      destruct sp as [n0|]; [exfalso; eapply r_split_ov_less; eassumption|].
      unfold absorb in H'. rewrite (lookahead_ov_less _ _ Hr') in H'.
      destruct (negb (absorbs o M')); injection H' as <-; apply kept_refl; exact Ht'. }
    destruct s as [l|ps d0|s ys xs ci d0 nm nc|s M1 d0 al0|s q d0|s k d0]; try (apply Hother; exact H).
    + destruct (is_nans l) eqn:En; [|apply Hother; exact H].
      subst n. split; [reflexivity|]. split; [cbn; apply Ht'|]. split; [intros P _ _; exact I|]. intros P Hp. cbn in *.
      unfold is_nans in En. destruct (l_kind l); [discriminate|exact I].
    + destruct H as (sd & Esd & H); cbn [subdata] in Esd; injection Esd as <-. cbn [push_under] in H.
      assert (Hds : Forall (fun p => dsize p = Some d) (map (fun p => Warp p M' d al') ps)).
      { apply Forall_map. apply Forall_forall. reflexivity. }
      destruct (mkConcat_total _ _ Hds) as (c & Hc). rewrite Hc in H. destruct H as (pp & Epp & H). injection Epp as <-.
      destruct Ht' as (Htc & Hd0). apply tight_concat in Htc as (Hne & Htp & Hd1).
      assert (Hne' : map (fun p => Warp p M' d al') ps <> []) by (destruct ps; [congruence|discriminate]).
      assert (Hp : pregood ROvLess (Warp (Concat ps d0) M' d al') c).
      { apply push_warp_pregood; [exact Hw'| |exact Hc]. exact Hr'. }
      destruct Hp as (Hwc & Hrc & _).
      assert (Htc' : tight c).
      { eapply mkConcat_tight; [exact Hne'| |exact Hc]. apply Forall_map.
        eapply Forall_impl; [|exact Htp]. cbn. auto. }
      destruct (proj2 H Hwc (ov_less_free _ Hrc) Htc') as (K1 & K2 & K3 & K4).
      split; [|split; [exact K2|split]].
      2: { intros P HP [Hp1 Hp2]. apply K3; [exact HP|]. eapply mkConcat_sized; [|exact Hc]. apply Forall_map.
           apply (sized_concat P ps d0) in Hp2. rewrite Forall_forall in *. intros p Hp. split; [|now apply Hp2].
           now rewrite (Hd1 p Hp). }
      2: { intros P Hp. apply K4. eapply mkConcat_leafs; [|exact Hc]. apply Forall_map. now apply (leafs_concat P ps d0). }
      rewrite K1, (mkConcat_dsize _ _ _ Hne' Hds Hc). reflexivity.
Qed.

Lemma r_dequant_kept s1 q d n :
  wf s1 -> ov_free s1 -> nf s1 -> tight (Dequant s1 q d) -> r_dequant rk s1 q d n ->
  kept (Dequant s1 q d) n.
Proof.
  intros Hw Hr Hnf Ht H. unfold r_dequant in H.
  destruct s1 as [l|ps d0|s ys xs ci d0 nm nc|s M1 d0 al0|s q0 d0|s k d0].
  - destruct H as (sd & Esd & H); cbn [subdata] in Esd; injection Esd as <-. subst n. now apply kept_refl.
  - destruct H as (sd & Esd & H); cbn [subdata] in Esd; injection Esd as <-. cbn [push_under] in H.
    destruct Ht as (Htc & ->). pose proof Htc as Htc'. apply tight_concat in Htc' as (Hne & Htp & Hds).
    assert (Hds' : Forall (fun p => dsize p = d0) (map (fun p => mkDequant p q) ps)).
    { apply Forall_map. eapply Forall_impl; [|exact Hds]. intros p <-. unfold mkDequant. cbn. now destruct (dsize p). }
    assert (Hne' : map (fun p => mkDequant p q) ps <> []) by (destruct ps; [congruence|discriminate]).
    destruct (mkConcat_total _ _ Hds') as (c & Hc). rewrite Hc in H. destruct H as (pp & Epp & H). injection Epp as <-.
    assert (Hp : pregood ROvFree (Dequant (Concat ps d0) q (dsize (Concat ps d0))) c)
      by (apply push_dequant_pregood; assumption).
    destruct Hp as (Hwc & Hrc & _).
    assert (Htn : tight c).
    { eapply mkConcat_tight; [exact Hne'| |exact Hc]. apply Forall_map.
      eapply Forall_impl; [|exact Htp]. cbn. auto. }
    destruct (proj2 H Hwc Hrc Htn) as (K1 & K2 & K3).
    split; [|split; [exact K2|]].
    + rewrite K1, (mkConcat_dsize _ _ _ Hne' Hds' Hc). cbn. now destruct d0.
    + eapply keeps_trans; [|exact K3]. eapply (keeps_mkConcat ps _ d0); [|exact Hc].
      apply Forall2_same_map. intros p. exact (keeps_refl p).
  - destruct H as (sd & Esd & H); cbn [subdata] in Esd; injection Esd as <-. subst n. now apply kept_refl.
  - destruct H as (n' & Hn' & H). destruct Ht as ((Ht & Hd) & ->).
    assert (Hp : pregood ROvFree (Dequant (Warp s M1 d0 al0) q (dsize (Warp s M1 d0 al0))) (Warp (mkDequant s q) M1 d0 al0))
      by (apply dequant_before_warp_pregood; assumption).
    destruct Hp as (Hwc & Hrc & _).
    assert (Htn : tight (Warp (mkDequant s q) M1 d0 al0)) by (cbn; auto).
    destruct (proj1 Hn' ROvFree Hwc Hrc) as (_ & Hnf' & _).
    apply r_push_nf in H; [|exact Hnf']. subst n'.
    destruct (proj2 Hn' Hwc Hrc Htn) as (K1 & K2 & K3).
    split; [exact K1|]. split; [exact K2|]. split; [|exact (proj2 K3)].
    intros P HP (Hp1 & Hp2). apply (proj1 K3 P HP). split; [now rewrite dsize_mkDequant|exact Hp2].
  - contradiction.
  - contradiction.
Qed.

Lemma closed_take_tight t t' : closed_take t t' -> tight t -> tight t'.
Proof.
  intros H Ht. apply H; [| | |exact Ht].
  - intros ps d Hp. apply tight_concat in Hp. tauto.
  - intros ps n Hne F Hm. eapply mkConcat_tight; eassumption.
  - intros t0 idxs n Hne Ht0 Hc. eapply mkCrop_tight; [exact Ht0| |exact Hc]. congruence.
Qed.

Lemma closed_take_keeps t t' : closed_take t t' -> keeps t t'.
Proof.
  intros H. split.
  - intros P _. apply H.
    + intros ps d. apply sized_concat.
    + intros ps n _. apply mkConcat_sized.
    + intros t0 idxs n _ Ht Hn. apply mkCrop_shape in Hn as (ys & xs & d & nm & nc & ->). exact Ht.
  - intros P. apply H.
    + intros ps d. apply leafs_concat.
    + intros ps n _. apply mkConcat_leafs.
    + intros t0 idxs n _ Ht Hn. apply mkCrop_shape in Hn as (ys & xs & d & nm & nc & ->). exact Ht.
Qed.

Lemma r_crop_concat_kept ps cd ys xs ci d nm nc n :
  wf (Crop (Concat ps cd) ys xs ci d nm nc) -> ov_free (Concat ps cd) ->
  tight (Crop (Concat ps cd) ys xs ci d nm nc) ->
  r_crop_tail rk (Crop (Concat ps cd) ys xs ci d nm nc) n ->
  kept (Crop (Concat ps cd) ys xs ci d nm nc) n.
Proof.
  intros Hw Hr Ht H. assert (Hwc : wf (Concat ps cd)) by apply Hw.
  destruct (wf_nc _ Hwc) as (m & Hm). pose proof (wf_crop_ci _ _ _ _ _ _ _ Hw) as Hci.
  destruct Ht as (Ht & Hne & -> & w & h & Hd & B1 & B2 & B3 & B4).
  cbn [r_crop_tail] in H. destruct H as (taken & c & p & Htk & Hc & Hpu & H).
  assert (G : wf taken /\ ov_free taken /\ dsize taken = dsize (Concat ps cd) /\ tight taken /\
              keeps (Concat ps cd) taken).
  { destruct ci as [l|].
    - destruct Htk as (t' & [Ht' Hcl] & Ho). assert (Hl : l <> []) by congruence.
      destruct (Ht' _ Hwc Hm (Hci _ Hm)) as (T1 & T2 & _ & _ & T5 & _).
      pose proof (closed_take_tight _ _ (Hcl Hl) Ht) as Htt.
      destruct (proj2 Ho T1 (T2 ROvFree Hr) Htt) as (K1 & K2 & K3).
      destruct (proj1 Ho ROvFree T1 (T2 ROvFree Hr)) as ((G1 & G2 & _) & _).
      split; [exact G1|]. split; [exact G2|]. split; [rewrite K1; auto|]. split; [exact K2|].
      eapply keeps_trans; [|exact K3]. apply closed_take_keeps. auto.
    - subst taken. pose proof (keeps_refl (Concat ps cd)). auto. }
  clear Htk. destruct G as (G1 & G2 & G3 & G4 & G5).
  destruct (wf_nc _ G1) as (m' & Hm').
  destruct (recrop_kept taken ys xs c w h) as (R1 & R2 & (nm' & nc' & Ec)); auto; [congruence|].
  destruct (mkCrop_spec taken _ None c m' G1 Hm' I Hc) as (_ & _ & _ & _ & _ & _ & _ & _ & Hwcr & _).
  assert (Hrc : ov_free c) by (subst c; exact G2).
  assert (Hec : keeps (Concat ps cd) c) by (subst c; exact G5).
  assert (Hself : rk c n -> kept (Crop (Concat ps cd) ys xs ci (iv_len xs, iv_len ys) nm nc) n).
  { intros Ho. destruct (proj2 Ho Hwcr Hrc R2) as (K1 & K2 & K3).
    split; [rewrite K1, R1; reflexivity|]. split; [exact K2|]. eapply keeps_trans; [exact Hec|exact K3]. }
  destruct p as [p|]; [|auto].
  assert (nm' = None /\ nc' = None) as [-> ->] by (subst c; apply Hwcr).
  subst c. cbn [push_under] in Hpu. destruct taken as [| ps' cd'| | | |]; try discriminate.
  match type of Hpu with rmap _ ?x = _ => destruct x as [qs|] eqn:Eqs end; [|discriminate].
  cbn in Hpu. injection Hpu as Hpu.
  assert (Hp : pregood ROvFree (Crop (Concat ps' cd') ys xs None (iv_len xs, iv_len ys) None None) p)
    by (eapply push_crop_pregood; eassumption).
  destruct Hp as (Hwp & Hrp & _).
  pose proof G4 as Gt. apply tight_concat in Gt as (Hne' & Htp & Hds).
  assert (Hcd : cd' = Some (w, h)) by (cbn [dsize] in G3, Hd; congruence).
  apply mapR_Forall2 in Eqs.
  assert (Hq : qs <> [] /\ Forall (fun q => dsize q = Some (iv_len xs, iv_len ys)) qs /\ Forall tight qs /\
               Forall2 keeps ps' qs).
  { split; [intros ->; inversion Eqs; subst; congruence|].
    clear -Eqs Htp Hds Hcd B1 B2 B3 B4. induction Eqs as [|p0 q ps0 qs Hpq F IH].
    - auto.
    - inversion Htp; inversion Hds; subst.
      destruct (recrop_kept p0 ys xs q w h) as (R1 & R2 & (a & b & E)); auto.
      destruct IH as (I1 & I2 & I3); auto. split; [|split]; constructor; auto.
      subst q. exact (keeps_refl p0). }
  destruct Hq as (Q1 & Q2 & Q3 & Q4).
  destruct (proj2 H Hwp Hrp (mkConcat_tight _ _ Q1 Q3 Hpu)) as (K1 & K2 & K3).
  split; [rewrite K1, (mkConcat_dsize _ _ _ Q1 Q2 Hpu); reflexivity|]. split; [exact K2|].
  eapply keeps_trans; [exact G5|]. eapply keeps_trans; [|exact K3]. eapply keeps_mkConcat; eassumption.
Qed.

Lemma r_crop_kept s1 ys xs ci d nm nc n :
  wf (Crop s1 ys xs ci d nm nc) -> ov_free s1 -> nf s1 -> nanP s1 ->
  tight (Crop s1 ys xs ci d nm nc) ->
  r_crop rk s1 ys xs ci d nm nc n -> kept (Crop s1 ys xs ci d nm nc) n.
Proof.
  intros Hw Hr Hnf Hnan Ht H. unfold r_crop in H. destruct H as (c1 & Hc1 & H).
  assert (Hrt : ov_free (Crop s1 ys xs ci d nm nc)) by exact Hr.
  assert (Hf : exists s ys' xs' ci' d' nm' nc', c1 = Crop s ys' xs' ci' d' nm' nc' /\
     wf c1 /\ ov_free c1 /\ kept (Crop s1 ys xs ci d nm nc) c1 /\ hd s <> HCrop /\
     (c1 = Crop s1 ys xs ci d nm nc /\ s = s1 \/
      hd s <> HConcat /\ hd s <> HDeq /\ forall l, s = Leaf l -> is_nans l = false)).
  { destruct s1 as [l|ps d0|s ys1 xs1 ci1 d0 nm0 nc0|s M1 d0 al0|s q0 d0|s k d0];
      try (subst c1; eexists _, _, _, _, _, _, _; split; [reflexivity|];
           split; [exact Hw|]; split; [exact Hrt|]; split; [now apply kept_refl|]; split; [discriminate|]; left; auto).
    pose proof (fuse_crops_pregood ROvFree _ _ _ _ _ _ _ _ _ _ _ _ _ _ Hw Hrt Hc1) as (Hw1 & Hr1 & _).
    pose proof (fuse_crops_kept _ _ _ _ _ _ _ _ _ _ _ _ _ _ Ht Hc1) as Hkp.
    unfold fuse_crops in Hc1. apply bind_ok in Hc1 as (nci & _ & Hc1).
    apply mkCrop_shape in Hc1 as (ys' & xs' & d' & nm' & nc' & ->).
    cbn [nf] in Hnf. destruct Hnf as (N1 & N2 & N3 & N4).
    eexists _, _, _, _, _, _, _. split; [reflexivity|]. split; [exact Hw1|]. split; [exact Hr1|].
    split; [exact Hkp|]. split; [exact N3|]. right. split; [exact N2|]. split; [exact N4|].
    intros l ->. exact (proj1 Hnan). }
  destruct Hf as (s & ys' & xs' & ci' & d' & nm' & nc' & -> & Hw1 & Hr1 & Hkp & Hncr & Hor).
  destruct s as [l|ps d0|s ys1 xs1 ci1 d0 nm0 nc0|s M1 d0 al0|s q0 d0|s k d0].
  - destruct (is_nans l) eqn:En.
    + destruct Hor as [[E E']|(_ & _ & Hl)]; [|rewrite (Hl _ eq_refl) in En; discriminate].
      injection E as <- -> -> -> -> -> ->.
      destruct Ht as (Htl & Hci & -> & w & h & Hd & B1 & B2 & B3 & B4).
      unfold nans_crop in H. apply bind_ok in H as (nm' & _ & H).
      apply bind_ok in H as ([dy ey] & Hy & H). apply bind_ok in H as ([dx ex] & Hx & H). injection H as <-.
      unfold embed_axis in Hx, Hy. difH Hx Ex; [discriminate|]. difH Hy Ey; [discriminate|].
      injection Hx as <- <-. injection Hy as <- <-. cbn [dsize] in Hd.
      injection Hd as Hd. rewrite Hd. cbn [fst snd].
      split; [|split; [|split; [intros P _ _; exact I|]]]; cbn; unfold iv_len; cbn [fst snd].
      3: { unfold is_nans in En. intros P. destruct (l_kind l); [discriminate|auto]. }
      * do 2 f_equal; lia.
      * lia.
    + subst n. exact Hkp.
  - destruct Hor as [[E E']|(Hx & _)]; [|cbn in Hx; congruence].
    subst s1. injection E as -> -> -> -> -> ->. eapply r_crop_concat_kept; eassumption.
  - cbn in Hncr. congruence.
  - destruct (al_nearest al0) eqn:Enear; [subst n; exact Hkp|].
    destruct H as (w & Hwac & H). destruct w as [[c T]|]; [|subst n; exact Hkp].
    destruct H as (n' & Hn' & H).
    assert (Hp2 : pregood ROvFree (Crop (Warp s M1 d0 al0) ys' xs' ci' d' nm' nc') (Warp c T d' (drop_backend al0)))
      by (eapply warp_after_crop_pregood; eassumption).
    destruct Hp2 as (Hw2 & Hr2 & _).
    pose proof (warp_after_crop_kept _ _ _ _ _ _ _ _ _ _ _ _ (proj1 (proj2 Hkp)) Enear Hwac) as Hk2.
    destruct (proj1 Hn' ROvFree Hw2 Hr2) as (_ & Hnf' & _).
    apply r_crop_tail_nf in H; [|exact Hnf']. subst n'.
    eapply kept_trans; [exact Hkp|]. eapply kept_trans; [exact Hk2|].
    apply (proj2 Hn' Hw2 Hr2). exact (proj1 (proj2 Hk2)).
  - destruct Hor as [[E E']|(_ & Hx & _)]; [|cbn in Hx; congruence].
    subst s1. injection E as -> -> -> -> -> ->.
    destruct H as (n' & Hn' & H).
    assert (Hp2 : pregood ROvFree (Crop (Dequant s q0 d0) ys xs ci d nm nc) (Dequant (Crop s ys xs ci d nm nc) q0 (Some d)))
      by (apply dequant_after_crop_pregood; assumption).
    destruct Hp2 as (Hw2 & Hr2 & _).
    destruct (proj1 Hn' ROvFree Hw2 Hr2) as (_ & Hnf' & _).
    apply r_crop_tail_nf in H; [|exact Hnf']. subst n'.
    assert (Hk2 : kept (Crop (Dequant s q0 d0) ys xs ci d nm nc) (Dequant (Crop s ys xs ci d nm nc) q0 (Some d))).
    { destruct Ht as ((Ht & Hd0) & Hci & Hd & w & h & Hds & B). split; [reflexivity|]. split; [|exact (keeps_refl s)].
      cbn [tight dsize]. split; [|reflexivity]. split; [exact Ht|]. split; [exact Hci|]. split; [exact Hd|].
      exists w, h. split; [|exact B]. rewrite Hd0 in Hds. cbn in Hds. now destruct (dsize s). }
    eapply kept_trans; [exact Hk2|]. apply (proj2 Hn' Hw2 Hr2). exact (proj1 (proj2 Hk2)).
  - contradiction.
Qed.

Theorem round_rk o t n : round o rk t n -> rk t n.
Proof.
  intros H. split.
  { apply (round_rgood o). eapply round_mono; [|exact H]. intros a b []. assumption. }
  intros Hw Hr Ht.
  destruct t as [l|ps d|s ys xs ci d nm nc|s M d al|s q d|s k d]; cbn [round] in H.
  - subst n. now apply kept_refl.
  - destruct H as (qs & HF & H). destruct H as [[_ ->] | H]; [now apply kept_refl|].
    destruct (mkConcat qs) as [c|] eqn:En; subst n; [|now apply kept_refl].
    apply wf_concat in Hw as (Hw & _ & _). apply (reg_concat ROvFree) in Hr. apply tight_concat in Ht as (Hne & Ht & Hd).
    assert (Hall : Forall2 kept ps qs).
    { clear -HF Hw Hr Ht. induction HF as [|p q ps qs Hpq F IHF]; cbn; constructor.
      - inversion Hw; inversion Hr; inversion Ht; subst. now apply (proj2 Hpq).
      - inversion Hw; inversion Hr; inversion Ht; subst. auto. }
    assert (Hq : qs <> [] /\ Forall (fun q => dsize q = d) qs /\ Forall tight qs /\ Forall2 keeps ps qs).
    { split; [intros E; rewrite E in Hall; inversion Hall; subst; congruence|].
      clear -Hall Hd. revert Hd. induction Hall as [|p q ps qs (K1 & K2 & K3) F IHF]; intros Hd.
      - auto.
      - inversion Hd; subst. destruct IHF as (I1 & I2 & I3); [assumption|].
        split; [constructor; auto|]. split; constructor; auto. }
    destruct Hq as (Q1 & Q2 & Q3 & Q4).
    split; [exact (mkConcat_dsize _ _ _ Q1 Q2 En)|]. split; [eapply mkConcat_tight; eassumption|].
    eapply keeps_mkConcat; eassumption.
  - destruct H as (s1 & Hs1 & H).
    destruct (proj1 Hs1 ROvFree ltac:(apply Hw) Hr) as (Hp & Hnf & Hnan).
    pose proof (pregood_crop ROvFree s s1 ys xs ci d nm nc Hw Hp) as (Hw1 & Hr1 & _).
    pose proof (proj2 Hs1 ltac:(apply Hw) Hr ltac:(apply Ht)) as Hks.
    pose proof (kept_crop s s1 ys xs ci d nm nc Ht Hks) as Hkc.
    eapply kept_trans; [exact Hkc|]. eapply r_crop_kept; try eassumption. apply Hkc.
  - destruct H as (s1 & Hs1 & H).
    cbn [ov_free] in Hr. destruct Hw as [Hws He]. destruct Ht as [Hts Hd].
    destruct (proj1 Hs1 ROvLess Hws Hr) as ((Hw1 & Hr1 & _) & Hnf & Hnan).
    destruct (proj2 Hs1 Hws (ov_less_free _ Hr) Hts) as (K1 & K2 & K3).
    assert (G : kept (Warp s1 M d al) n).
    { eapply r_warp_kept; try eassumption; cbn; auto. }
    destruct G as (G1 & G2 & G3). split; [exact G1|]. split; [exact G2|]. split.
    + intros P HP [Hp1 Hp2]. apply (proj1 G3 P HP). split; [now rewrite K1|]. exact (proj1 K3 P HP Hp2).
    + intros P Hp. apply (proj2 G3). exact (proj2 K3 P Hp).
  - destruct H as (s1 & Hs1 & H). destruct Ht as [Hts ->].
    destruct (proj1 Hs1 ROvFree Hw Hr) as ((Hw1 & Hr1 & _) & Hnf & Hnan).
    destruct (proj2 Hs1 Hw Hr Hts) as (K1 & K2 & K3).
    assert (G : kept (Dequant s1 q (dsize s)) n).
    { eapply r_dequant_kept; try eassumption. cbn. auto. }
    destruct G as (G1 & G2 & G3). split; [|split; [exact G2|exact (keeps_trans s s1 n K3 G3)]].
    rewrite G1. cbn. rewrite <- K1. reflexivity.
  - contradiction.
Qed.
