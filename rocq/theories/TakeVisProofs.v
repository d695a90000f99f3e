(* The samples a channel selection shows. *)
From Verif Require Import Py PyProofs GeomModel GeomProofs GraphModel GraphSpec GraphBase GraphTake GraphSize GraphTotal FinalModel FinalSpec FinalProofs TakeModel TakeSpec TakeProofs NamedProofs.
From Coq Require Import ZifyBool.
Local Open Scope Z_scope.

(** ** Concatenations whose components show lists of entries *)

Lemma owner_blocks {A} (x y : Q) (s : sample) (S : A -> Prop) segs comps :
  Forall2 (fun (seg : list A) comp => num_channels comp = Some (Z.of_nat (List.length seg)) /\
     forall c, vis comp x y c s <-> exists w, 0 <= c /\ nth_error seg (Z.to_nat c) = Some w /\ S w) segs comps ->
  forall c, owner (fun p c' => vis p x y c' s) comps c <->
            exists w, 0 <= c /\ nth_error (List.concat segs) (Z.to_nat c) = Some w /\ S w.
Proof.
  induction 1 as [|seg comp segs comps (Hn & Hv) F IH]; intros c; cbn [owner List.concat].
  - split; [contradiction|]. intros (w & _ & H & _). destruct (Z.to_nat c); discriminate.
  - rewrite Hn. destruct (c <? Z.of_nat (List.length seg)) eqn:E.
    + rewrite Hv. split; intros (w & H0 & H1 & H2); exists w; split; auto; split; auto.
      * rewrite nth_error_app1; [exact H1|]. apply nth_error_Some. congruence.
      * rewrite nth_error_app1 in H1 by lia. exact H1.
    + rewrite IH. split; intros (w & H0 & H1 & H2); exists w; (split; [lia|]); split; auto.
      * rewrite nth_error_app2 by lia. rewrite <- H1. f_equal. lia.
      * rewrite nth_error_app2 in H1 by lia. rewrite <- H1. f_equal. lia.
Qed.

(* [t'] shows nothing but the bands [idxs] of [t] *)
Definition only (t : node) (idxs : list Z) (t' : node) : Prop :=
  forall x y c s, vis t' x y c s -> exists b, selects (Some idxs) c b /\ vis t x y b s.

Lemma only_all q n : wf q -> num_channels q = Some n -> only q (zseq (Z.to_nat n)) q.
Proof.
  intros Hw Hn x y c s Hv. pose proof (vis_band _ Hw _ _ _ _ _ Hv Hn) as Hb. exists c. split; [|exact Hv].
  split; [lia|]. unfold zseq. rewrite nth_error_map.
  rewrite (nth_error_nth' _ 0%nat) by (rewrite seq_length; lia). rewrite seq_nth by lia. cbn. f_equal. lia.
Qed.

Lemma only_crop t idxs n m : wf t -> num_channels t = Some m -> in_range m idxs ->
  mkCrop t None (Some idxs) = Ok n -> only t idxs n.
Proof.
  intros Hw Hm Hr H.
  assert (Hci : ci_ok (num_channels t) (Some idxs)) by (cbn; intros m' Hm'; congruence).
  destruct (mkCrop_spec _ _ _ _ _ Hw Hm Hci H) as (w & h & ys & xs & nm & nc & Hd & -> & Hwn & -> & ->).
  intros x y c s (_ & b & Hb & Hv). exists b. split; [exact Hb|]. cbn [fst] in Hv.
  eapply vis_proper; [| |exact Hv]; change (inject_Z 0) with 0%Q; ring.
Qed.

Lemma seg_block x y s q idxs comp : wf q -> takes q idxs comp -> only q idxs comp ->
  num_channels comp = Some (Z.of_nat (List.length idxs)) /\
  forall c, vis comp x y c s <-> exists j, 0 <= c /\ nth_error idxs (Z.to_nat c) = Some j /\ vis q x y j s.
Proof.
  intros Hw (_ & _ & _ & Hn & _ & Hv) Ho. split; [exact Hn|]. intros c. split.
  - intros H. destruct (Ho _ _ _ _ H) as (b & [H0 H1] & H2). exists b. auto.
  - intros (j & H0 & H1 & H2). eapply Hv; [|exact H2]. split; auto.
Qed.

Lemma vis_concat_parts ps d x y c s q j : Forall (fun p => dsize p = d) ps -> In q ps -> vis q x y j s ->
  owner (fun p c' => vis p x y c' s) ps c -> vis (Concat ps d) x y c s.
Proof.
  intros Hd Hq Hv Ho. cbn [vis]. split; [|exact Ho]. apply vis_inside in Hv as (d' & Hd' & Hi).
  rewrite Forall_forall in Hd. rewrite <- (Hd _ Hq), Hd'. exact Hi.
Qed.

(* the requests of one segment are valid for their part *)
Lemma located_valid ps sizes idxs wh : known_all (map num_channels ps) = Some sizes ->
  Forall2 (fun i pj => unravel sizes i 0 = Ok pj) idxs wh ->
  forall p j, In (p, j) wh -> exists q n, nth_error ps p = Some q /\ num_channels q = Some n /\ 0 <= j < n.
Proof.
  intros Ek Hwh p j Hin. induction Hwh as [|i pj idxs wh Hi F IH]; [contradiction|].
  destruct Hin as [->|Hin]; [|auto].
  destruct (unravel_spec (fun _ _ => True) _ _ _ _ _ _ Ek Hi) as (q & n & _ & Hn & Hq & Hj & _).
  rewrite Nat.sub_0_r in Hn. eauto.
Qed.

Lemma sub_component_inv ps p is comp : sub_component (map (fun q => (q, take_idx q)) ps) (p, is) = Ok comp ->
  exists q n, nth_error ps p = Some q /\ num_channels q = Some n /\
    (is = zseq (Z.to_nat n) /\ comp = q \/ take_idx q is = Ok comp).
Proof.
  unfold sub_component, nth_result. cbn [fst snd]. rewrite nth_error_map.
  destruct (nth_error ps p) as [q|]; [|discriminate]. cbn [option_map bind].
  destruct (num_channels q) as [n|] eqn:En; [|discriminate]. intros H. exists q, n. split; [reflexivity|]. split; [exact En|].
  destruct (list_Z_eqb is (zseq (Z.to_nat n))) eqn:E.
  - injection H as <-. apply list_Z_eqb_eq in E. left. split; [exact E|reflexivity].
  - right. exact H.
Qed.

Lemma Forall2_swap {A B} (R : A -> B -> Prop) l l' : Forall2 R l l' -> Forall2 (fun b a => R a b) l' l.
Proof. induction 1; constructor; auto. Qed.

Lemma take_idx_only t : forall idxs t' m, wf t -> num_channels t = Some m -> in_range m idxs ->
  take_idx t idxs = Ok t' -> only t idxs t'.
Proof.
  induction t as [l|ps d IH|s ys xs ci d nm nc IH|s M d al IH|s q d IH|s k d IH] using node_ind';
    intros idxs t' m Hw Hm Hr H; try (eapply only_crop; eassumption).
  change (match concat_opt (map names ps), known_all (map num_channels ps) with
          | None, _ => Err AssertionError
          | _, None => Err TypeError
          | Some _, Some sizes =>
              wh <- mapR (fun i => unravel sizes i 0) idxs ;;
              comps <- mapR (sub_component (map (fun p => (p, take_idx p)) ps)) (segments wh) ;;
              match mkConcat comps with Some c => Ok c | None => Err ValueError end
          end = Ok t') in H.
  destruct (concat_opt (map names ps)) as [nl|] eqn:Enl; [|discriminate].
  destruct (known_all (map num_channels ps)) as [sizes|] eqn:Ek; [|discriminate].
  apply bind_ok in H as (wh & Hwh & H). apply bind_ok in H as (comps & Hcomps & H).
  destruct (mkConcat comps) as [c|] eqn:Ec; [|discriminate]. injection H as <-.
  apply wf_concat in Hw as (Hwps & Hds & _).
  apply mapR_Forall2 in Hwh. apply mapR_Forall2 in Hcomps.
  pose proof (located_valid _ _ _ _ Ek Hwh) as Hvalid.
  apply mkConcat_spec in Ec as (d' & -> & _ & _). intros x y c s [_ Ho].
  set (S := fun pj : nat * Z => exists q, nth_error ps (fst pj) = Some q /\ vis q x y (snd pj) s).
  assert (Hb : Forall2 (fun (seg : list (nat * Z)) comp => num_channels comp = Some (Z.of_nat (List.length seg)) /\
     forall c, vis comp x y c s <-> exists w, 0 <= c /\ nth_error seg (Z.to_nat c) = Some w /\ S w)
     (map (fun sg => map (pair (fst sg)) (snd sg)) (segments wh)) comps).
  { assert (Hall : forall seg, In seg (segments wh) -> forall j, In j (snd seg) -> In (fst seg, j) wh).
    { intros seg Hseg j Hj. rewrite <- (segments_flat wh). apply in_flat_map.
      exists seg. split; [exact Hseg|]. now apply in_map. }
    clear -Hcomps Hall Hvalid Hwps IH. induction Hcomps as [|[p is] comp segs comps Hc F IHF]; [constructor|].
    cbn [map fst snd]. constructor; [|apply IHF; intros; apply Hall; auto; now right].
    destruct (sub_component_inv _ _ _ _ Hc) as (q & n & Hq & Hn & Hcase). pose proof (nth_error_In _ _ Hq) as Hin.
    assert (Hr : in_range n is).
    { apply Forall_forall. intros j Hj. destruct (Hvalid p j (Hall (p, is) (or_introl eq_refl) j Hj)) as (q' & n' & Hq' & Hn' & Hjj).
      assert (q' = q) by congruence. subst. assert (n' = n) by congruence. now subst. }
    rewrite Forall_forall in Hwps, IH. pose proof (Hwps _ Hin) as Hwq.
    assert (G : takes q is comp /\ only q is comp).
    { destruct Hcase as [[-> ->] | Ht].
      - split; [now apply takes_all|now apply only_all].
      - split; [eapply take_idx_takes; eauto|eapply IH; eauto]. }
    destruct (seg_block x y s q is comp Hwq (proj1 G) (proj2 G)) as [H1 H2].
    rewrite map_length. split; [exact H1|]. intros c. rewrite H2. unfold S. split.
    - intros (j & Hc0 & Hj & Hv). exists (p, j). split; [exact Hc0|]. rewrite nth_error_map, Hj. split; [reflexivity|].
      exists q. auto.
    - intros ([p' j] & Hc0 & Hj & q' & Hq' & Hv). rewrite nth_error_map in Hj.
      destruct (nth_error is (Z.to_nat c)) as [j'|]; [|discriminate]. cbn in Hj. injection Hj as <- <-.
      cbn [fst snd] in *. assert (q' = q) by congruence. subst q'. exists j'. auto. }
  destruct (proj1 (owner_blocks x y s S _ _ Hb c) Ho) as ([p j] & Hc0 & Hnth & q & Hq & Hv). cbn [fst snd] in Hq, Hv.
  rewrite <- flat_map_concat_map in Hnth. fold (flat (segments wh)) in Hnth. rewrite segments_flat in Hnth.
  destruct (Forall2_nth_l _ wh idxs (Z.to_nat c) (p, j) (Forall2_swap _ _ _ Hwh) Hnth) as (i & Hi & Hu).
  exists i. split; [split; auto|].
  destruct (unravel_spec (fun p c' => vis p x y c' s) _ _ _ _ _ _ Ek Hu) as (q' & n & _ & Hn & _ & _ & _ & Hback & _).
  rewrite Nat.sub_0_r in Hn. assert (q' = q) by congruence. subst q'.
  eapply vis_concat_parts; [exact Hds|eapply nth_error_In; exact Hq|exact Hv|]. apply Hback, Hv.
Qed.

(** ** Trees that were made *)

Lemma mkCrop_shape s sl ci t : mkCrop s sl ci = Ok t -> exists ys xs d nm nc, t = Crop s ys xs ci d nm nc.
Proof.
  unfold mkCrop. intros H. destruct (dsize s) as [[w h]|]; [|discriminate].
  apply bind_ok in H as ([ys xs] & _ & H). apply bind_ok in H as ([nm nc] & _ & H). injection H as <-. eauto 10.
Qed.

Lemma take_idx_concat ps d idxs t' : take_idx (Concat ps d) idxs = Ok t' ->
  exists sizes wh comps, known_all (map num_channels ps) = Some sizes /\
    Forall2 (fun i pj => unravel sizes i 0 = Ok pj) idxs wh /\
    Forall2 (fun seg comp => sub_component (map (fun p => (p, take_idx p)) ps) seg = Ok comp) (segments wh) comps /\
    mkConcat comps = Some t'.
Proof.
  intros H.
  change (match concat_opt (map names ps), known_all (map num_channels ps) with
          | None, _ => Err AssertionError
          | _, None => Err TypeError
          | Some _, Some sizes =>
              wh <- mapR (fun i => unravel sizes i 0) idxs ;;
              comps <- mapR (sub_component (map (fun p => (p, take_idx p)) ps)) (segments wh) ;;
              match mkConcat comps with Some c => Ok c | None => Err ValueError end
          end = Ok t') in H.
  destruct (concat_opt (map names ps)) as [nl|] eqn:Enl; [|discriminate].
  destruct (known_all (map num_channels ps)) as [sizes|] eqn:Ek; [|discriminate].
  apply bind_ok in H as (wh & Hwh & H). apply bind_ok in H as (comps & Hcomps & H).
  destruct (mkConcat comps) as [c|] eqn:Ec; [|discriminate]. injection H as <-.
  apply mapR_Forall2 in Hwh. apply mapR_Forall2 in Hcomps. exists sizes, wh, comps. auto.
Qed.

Lemma take_idx_shape t idxs t' : is_concat t = false -> take_idx t idxs = Ok t' -> mkCrop t None (Some idxs) = Ok t'.
Proof. destruct t; cbn [is_concat]; try discriminate; intros _ H; exact H. Qed.

Lemma made_part ps q is comp n : Forall made ps -> In q ps -> num_channels q = Some n -> in_range n is -> is <> [] ->
  (is = zseq (Z.to_nat n) /\ comp = q \/ take_idx q is = Ok comp) -> made comp.
Proof.
  intros Hm Hq Hn Hr Hne Hc. rewrite Forall_forall in Hm. specialize (Hm _ Hq).
  destruct Hc as [[_ ->] | Ht]; [exact Hm|]. eapply made_take; [exact Hm|exact Hne| |exact Ht].
  intros n' Hn'. assert (n' = n) by congruence. now subst.
Qed.

Lemma seg_valid ps sizes idxs wh : known_all (map num_channels ps) = Some sizes ->
  Forall2 (fun i pj => unravel sizes i 0 = Ok pj) idxs wh ->
  forall p is q n, In (p, is) (segments wh) -> nth_error ps p = Some q -> num_channels q = Some n -> in_range n is /\ is <> [].
Proof.
  intros Ek Hwh p is q n Hin Hq Hn. split.
  - apply Forall_forall. intros j Hj.
    destruct (located_valid _ _ _ _ Ek Hwh p j) as (q' & n' & Hq' & Hn' & Hjj).
    { rewrite <- (segments_flat wh). apply in_flat_map. exists (p, is). split; [exact Hin|]. now apply in_map. }
    assert (q' = q) by congruence. subst. assert (n' = n) by congruence. now subst.
  - pose proof (segments_nonempty wh) as Hne. rewrite Forall_forall in Hne. exact (Hne _ Hin).
Qed.

Lemma made_parts t : made t -> forall ps d, t = Concat ps d -> Forall made ps.
Proof.
  induction 1 as [l Hl Hs|ps0 t Hps Hne Hc|s sl t Hm IH Hc|s sl l t Hm IH Hne Hr Hc|s q Hm IH|s l t Hm IH Hne Hr Ht|s M d0 al Hm IH Ha Hd|s k t Hm IH Ho];
    intros ps d E; try discriminate.
  - apply mkConcat_spec in Hc as (d' & -> & _). injection E as <- _. exact Hps.
  - apply mkCrop_shape in Hc as (? & ? & ? & ? & ? & ->). discriminate.
  - apply mkCrop_shape in Hc as (? & ? & ? & ? & ? & ->). discriminate.
  - destruct (is_concat s) eqn:Es.
    + destruct s as [|ps0 d0| | | |]; try discriminate. specialize (IH _ _ eq_refl).
      destruct (take_idx_concat _ _ _ _ Ht) as (sizes & wh & comps & Ek & Hwh & Hcomps & Hcat).
      apply mkConcat_spec in Hcat as (d' & -> & _). injection E as <- _.
      pose proof (seg_valid _ _ _ _ Ek Hwh) as Hseg. clear -Hseg Hcomps IH.
      induction Hcomps as [|[p is] comp segs comps Hc F IHF]; constructor.
      * destruct (sub_component_inv _ _ _ _ Hc) as (q & n & Hq & Hn & Hcase).
        destruct (Hseg p is q n (or_introl eq_refl) Hq Hn) as [Hr Hne].
        eapply made_part; eauto. eapply nth_error_In; exact Hq.
      * apply IHF. intros p0 is0 q0 n0 Hin. apply Hseg. now right.
    + apply (take_idx_shape _ _ _ Es) in Ht. apply mkCrop_shape in Ht as (? & ? & ? & ? & ? & ->). discriminate.
  - unfold mkOverview in Ho. destruct (dsize s); [|discriminate]. injection Ho as <-. discriminate.
Qed.

(* a property of the leaves and the operations that band selections keep *)
Definition inherited (P : node -> Prop) : Prop :=
  (forall s ys xs l d nm nc, P s -> P (Crop s ys xs l d nm nc)) /\
  (forall ps d, P (Concat ps d) <-> Forall P ps).

Lemma inherited_nans : inherited nans_free.
Proof. split; [auto|]. intros ps d. cbn [nans_free]. apply forall_parts_Forall. Qed.

Lemma inherited_ov : inherited ov_free.
Proof. split; [auto|]. intros ps d. cbn [ov_free]. apply forall_parts_Forall. Qed.

Lemma take_idx_inherits P : inherited P -> forall t idxs t', P t -> take_idx t idxs = Ok t' -> P t'.
Proof.
  intros [Hcrop Hcat] t.
  induction t as [l|ps d IH|s ys xs ci d nm nc IH|s M d al IH|s q d IH|s k d IH] using node_ind'; intros idxs t' Hp H;
    try (apply take_idx_shape in H; [|reflexivity]; apply mkCrop_shape in H as (? & ? & ? & ? & ? & ->); now apply Hcrop).
  destruct (take_idx_concat _ _ _ _ H) as (sizes & wh & comps & _ & _ & Hcomps & Hc).
  apply mkConcat_spec in Hc as (d' & -> & _). apply Hcat. apply Hcat in Hp. clear -Hcomps Hp IH.
  induction Hcomps as [|[p is] comp segs comps Hc F IHF]; constructor; [|exact IHF].
  destruct (sub_component_inv _ _ _ _ Hc) as (q & n & Hq & _ & Hcase). apply nth_error_In in Hq.
  rewrite Forall_forall in Hp, IH. destruct Hcase as [[_ ->] | Ht]; [auto|]. eapply IH; eauto.
Qed.

(** ** Channel names *)

(* what a request shows: a located band, or NaN *)
Definition el_vis (ps : list node) (d : option size) (x y : Q) (s : sample) (el : option (nat * Z) * string) : Prop :=
  match fst el with
  | Some (p, j) => exists q, nth_error ps p = Some q /\ vis q x y j s
  | None => s = NaN [] /\ match d with Some d => inside d x y | None => False end
  end.

Lemma take_concat_vis ps d same p req nl t' :
  Forall made ps -> Forall (fun q => dsize q = d) ps ->
  (forall d0, d = Some d0 -> 0 <= fst d0 /\ 0 <= snd d0) ->
  concat_opt (map names ps) = Some nl -> req <> [] -> spec_eqb same nl req = false ->
  take_concat ps d same p req = Ok t' ->
  made t' /\ dsize t' = d /\
  (forall P, inherited P -> Forall P ps -> incl req nl \/ (forall l, l_kind l = Nans -> P (Leaf l)) -> P t') /\
  forall x y i s, vis t' x y i s <-> exists c, 0 <= i /\ nth_error req (Z.to_nat i) = Some c /\
    match position c (oset_of nl) with
    | Some b => owner (fun q b' => vis q x y b' s) ps b
    | None => s = NaN [] /\ match d with Some d => inside d x y | None => False end
    end.
Proof.
  intros Hmade Hds Hd0 Hnl Hreq Hsame H. unfold take_concat in H. rewrite Hnl, Hsame in H.
  apply bind_ok in H as (_ & _ & H). destruct (known_all (map num_channels ps)) as [sizes|] eqn:Ek; [|discriminate].
  apply bind_ok in H as (wh & Hwh & H). apply bind_ok in H as (comps & Hcomps & H).
  destruct (mkConcat comps) as [c0|] eqn:Ec; [|discriminate]. injection H as <-.
  pose proof (mapR_length _ _ _ Hwh) as Hlw. apply mapR_Forall2 in Hwh. apply mapR_Forall2 in Hcomps.
  assert (Hvalid : forall q j c, In (Some (q, j), c) wh -> exists t n, nth_error ps q = Some t /\
            num_channels t = Some n /\ 0 <= j < n).
  { intros q j c Hin. clear -Hwh Ek Hin. induction Hwh as [|oc el idx wh Hi F0 IH]; [contradiction|].
    destruct Hin as [->|Hin]; [|auto]. unfold locate in Hi. destruct (fst oc) as [i|]; [|discriminate].
    apply bind_ok in Hi as ([p' j'] & Hu & Hi). injection Hi as -> -> _.
    destruct (unravel_spec (fun _ _ => True) _ _ _ _ _ _ Ek Hu) as (t & n & _ & Hn & Hq & Hj & _).
    rewrite Nat.sub_0_r in Hn. eauto. }
  assert (Hall : forall r, In r (runs wh) -> forall el, In el (unrun r) -> In el wh).
  { intros r Hr el Hel. rewrite <- (runs_flat wh). apply in_flat_map. exists r. auto. }
  pose proof (runs_nonempty wh) as Hrne.
  assert (Hmiss : forall P : node -> Prop, incl req nl \/ (forall l, l_kind l = Nans -> P (Leaf l)) ->
            (forall l, l_kind l = Nans -> P (Leaf l)) \/ (forall c, ~ In (None, c) wh)).
  { intros P [Hi|HP]; [right|left; exact HP]. intros c Hin. clear -Hwh Hin Hi.
    unfold code_indexes in Hwh. revert wh Hwh Hin. induction req as [|c1 req IH]; cbn [map]; intros wh Hwh Hin; inversion Hwh as [|? ? ? ? H1 H2]; subst.
    - contradiction.
    - destruct Hin as [->|Hin].
      + unfold locate in H1. cbn [fst snd] in H1. destruct (position c1 (oset_of nl)) as [b|] eqn:E.
        * apply bind_ok in H1 as (? & _ & H1). discriminate.
        * apply position_none in E. apply E. apply oset_of_In. apply Hi. now left.
      + eapply IH; eauto. intros z Hz. apply Hi. now right. }
  assert (Hrun : forall r comp, In r (runs wh) -> run_component (map (fun q => (q, take_idx q)) ps) d r = Ok comp ->
            made comp /\ dsize comp = d /\
            (forall P, inherited P -> Forall P ps -> incl req nl \/ (forall l, l_kind l = Nans -> P (Leaf l)) -> P comp) /\
            num_channels comp = Some (Z.of_nat (List.length (unrun r))) /\
            forall x y s c, vis comp x y c s <-> exists w, 0 <= c /\ nth_error (unrun r) (Z.to_nat c) = Some w /\ el_vis ps d x y s w).
  { intros [key vs] comp Hin Hc. rewrite Forall_forall in Hrne. pose proof (Hrne _ Hin) as Hvne. cbn [snd] in Hvne.
    specialize (Hall _ Hin). unfold run_component in Hc. cbn [fst snd] in Hc. destruct key as [q|].
    - destruct (sub_component_inv _ _ _ _ Hc) as (t & n & Hq & Hn & Hcase). pose proof (nth_error_In _ _ Hq) as Hqin.
      assert (Hr : in_range n (map fst vs)).
      { apply Forall_forall. intros j Hj. apply in_map_iff in Hj as (v & <- & Hv).
        destruct (Hvalid q (fst v) (snd v)) as (t1 & n1 & Hq1 & Hn1 & Hj1).
        { apply Hall. unfold unrun. cbn [fst snd]. apply (in_map (fun v => (option_map (fun p0 => (p0, fst v)) (Some q), snd v))) in Hv. exact Hv. }
        assert (t1 = t) by congruence. subst. assert (n1 = n) by congruence. now subst. }
      assert (Hjne : map fst vs <> []) by (destruct vs; [congruence|discriminate]).
      assert (Hwt : wf t) by (rewrite Forall_forall in Hmade; apply made_ok; auto).
      assert (G : takes t (map fst vs) comp /\ only t (map fst vs) comp).
      { destruct Hcase as [[E ->] | Ht].
        - rewrite E. split; [now apply takes_all|now apply only_all].
        - split; [eapply take_idx_takes; eauto|eapply take_idx_only; eauto]. }
      destruct G as [G1 G2].
      split; [eapply made_part; eauto|]. split.
      { destruct G1 as (_ & _ & _ & _ & T & _). rewrite T by exact Hjne. rewrite Forall_forall in Hds. now apply Hds. }
      split.
      { intros P HP HPs _. rewrite Forall_forall in HPs. destruct Hcase as [[_ ->] | Ht]; [auto|].
        eapply take_idx_inherits; eauto. }
      unfold unrun. cbn [fst snd]. rewrite map_length. split.
      { destruct G1 as (_ & _ & _ & T & _). now rewrite map_length in T. }
      intros x y s c. destruct (seg_block x y s t (map fst vs) comp Hwt G1 G2) as [_ B]. rewrite B. split.
      + intros (j & H0 & Hj & Hv). rewrite nth_error_map in Hj. destruct (nth_error vs (Z.to_nat c)) as [v|] eqn:Ev; [|discriminate].
        cbn in Hj. injection Hj as <-. eexists. split; [exact H0|]. rewrite nth_error_map, Ev. split; [reflexivity|].
        unfold el_vis. cbn. exists t. auto.
      + intros (w & H0 & Hw & He). rewrite nth_error_map in Hw. destruct (nth_error vs (Z.to_nat c)) as [v|] eqn:Ev; [|discriminate].
        cbn in Hw. injection Hw as <-. unfold el_vis in He. cbn in He. destruct He as (t1 & Hq1 & Hv).
        assert (t1 = t) by congruence. subst t1. exists (fst v). split; [exact H0|]. rewrite nth_error_map, Ev. auto.
    - destruct d as [d|]; [|discriminate]. injection Hc as <-. unfold unrun. cbn [fst snd].
      split; [constructor; cbn|]. 
      { split; [|discriminate]. eexists. split; [reflexivity|]. split; [lia|]. cbn [l_names]. now rewrite map_length. }
      { now apply Hd0. }
      split; [reflexivity|]. split.
      { intros P HP _ Hor. destruct (Hmiss P Hor) as [HL|HN]; [now apply HL|]. exfalso.
        destruct vs as [|v vs]; [congruence|]. apply (HN (snd v)). apply Hall. left. reflexivity. }
      rewrite map_length. split; [reflexivity|]. intros x y s c. cbn [vis l_dsize l_nc l_kind]. split.
      + intros (Hi & (n & Hn & Hc) & ->). injection Hn as <-.
        destruct (nth_error vs (Z.to_nat c)) as [v|] eqn:Ev; [|apply nth_error_None in Ev; lia].
        eexists. split; [lia|]. rewrite nth_error_map, Ev. split; [reflexivity|]. unfold el_vis. cbn. auto.
      + intros (w & H0 & Hw & He). rewrite nth_error_map in Hw. destruct (nth_error vs (Z.to_nat c)) as [v|] eqn:Ev; [|discriminate].
        cbn in Hw. injection Hw as <-. unfold el_vis in He. cbn in He. destruct He as [-> Hi]. split; [exact Hi|]. split; [|reflexivity].
        eexists. split; [reflexivity|]. split; [exact H0|].
        assert (Hl : (Z.to_nat c < List.length vs)%nat) by (apply nth_error_Some; congruence). lia. }
  assert (Hcs : Forall2 (fun r comp => made comp /\ dsize comp = d /\
            (forall P, inherited P -> Forall P ps -> incl req nl \/ (forall l, l_kind l = Nans -> P (Leaf l)) -> P comp) /\
            num_channels comp = Some (Z.of_nat (List.length (unrun r))) /\
            forall x y s c, vis comp x y c s <-> exists w, 0 <= c /\ nth_error (unrun r) (Z.to_nat c) = Some w /\ el_vis ps d x y s w)
            (runs wh) comps).
  { eapply Forall2_In_imp; [|exact Hcomps]. cbn. intros r comp Hr Hc. exact (Hrun r comp Hr Hc). }
  clear Hrun Hcomps.
  assert (Hcne : comps <> []).
  { intros ->. inversion Hcs as [E|]. symmetry in E. pose proof (runs_flat wh) as Hf. rewrite E in Hf. cbn in Hf. subst wh.
    destruct req; [congruence|discriminate]. }
  pose proof Ec as Ec'. apply mkConcat_spec in Ec' as (d' & -> & Hd' & _).
  assert (Hdd : d' = d).
  { assert (Hdc : Forall (fun c => dsize c = d) comps).
    { clear -Hcs. induction Hcs as [|r c rs cs Hr F IH]; constructor; [destruct Hr as (G1 & G2 & _); assumption|exact IH]. }
    destruct comps as [|c comps]; [congruence|]. inversion Hdc; inversion Hd'; congruence. }
  subst d'.
  split; [|split; [reflexivity|split]].
  - eapply made_concat; [|exact Hcne|exact Ec]. clear -Hcs. induction Hcs as [|r c rs cs Hr F IH]; constructor; [destruct Hr as (G1 & G2 & _); assumption|exact IH].
  - intros P HP HPs Hor. apply HP. clear -Hcs HP HPs Hor. induction Hcs as [|r c rs cs Hr F IH]; constructor; [|exact IH].
    destruct Hr as (_ & _ & G & _). now apply G.
  - intros x y i s.
    assert (Hb : Forall2 (fun (seg : list (option (nat * Z) * string)) comp => num_channels comp = Some (Z.of_nat (List.length seg)) /\
       forall c, vis comp x y c s <-> exists w, 0 <= c /\ nth_error seg (Z.to_nat c) = Some w /\ el_vis ps d x y s w)
       (map unrun (runs wh)) comps).
    { clear -Hcs. induction Hcs as [|r c rs cs Hr F IH]; cbn [map]; constructor; [|exact IH].
      destruct Hr as (_ & _ & _ & H1 & H2). auto. }
    assert (Hvo : vis (Concat comps d) x y i s <-> owner (fun p c' => vis p x y c' s) comps i).
    { split; [intros [_ Ho]; exact Ho|]. intros Ho. now apply (mkConcat_vis comps _ x y i s Ec). }
    rewrite Hvo, (owner_blocks x y s _ _ _ Hb i), <- flat_map_concat_map, runs_flat.
    assert (Hel : forall c el, locate sizes (position c (oset_of nl), c) = Ok el ->
       (el_vis ps d x y s el <->
        match position c (oset_of nl) with
        | Some b => owner (fun q b' => vis q x y b' s) ps b
        | None => s = NaN [] /\ match d with Some d => inside d x y | None => False end
        end)).
    { intros c el Hl. unfold locate in Hl. cbn [fst snd] in Hl. destruct (position c (oset_of nl)) as [b|].
      - apply bind_ok in Hl as ([q j] & Hu & Hl). injection Hl as <-. unfold el_vis. cbn [fst].
        destruct (unravel_spec (fun p c' => vis p x y c' s) _ _ _ _ _ _ Ek Hu) as (t & n & _ & Hn & _ & _ & Hfw & Hbk & _).
        rewrite Nat.sub_0_r in Hn. split.
        + intros (t1 & Ht1 & Hv). assert (t1 = t) by congruence. subst. auto.
        + intros Ho. exists t. auto.
      - injection Hl as <-. reflexivity. }
    unfold code_indexes in Hwh. split.
    + intros (w & H0 & Hw & He). destruct (Forall2_nth_l _ _ _ _ _ (Forall2_swap _ _ _ Hwh) Hw) as (oc & Hoc & Hl).
      rewrite nth_error_map in Hoc. destruct (nth_error req (Z.to_nat i)) as [c|] eqn:Er; [|discriminate]. cbn in Hoc. injection Hoc as <-.
      exists c. split; [exact H0|]. split; [reflexivity|]. now apply (Hel c w Hl).
    + intros (c & H0 & Hc & He).
      destruct (Forall2_nth_l _ _ _ (Z.to_nat i) (position c (oset_of nl), c) Hwh) as (w & Hw & Hl).
      { now rewrite nth_error_map, Hc. }
      exists w. split; [exact H0|]. split; [exact Hw|]. now apply (Hel c w Hl).
Qed.

(* what the request [c] shows at (x, y) *)
Definition code_vis (t : node) (nl : list string) (x y : Q) (s : sample) (c : string) : Prop :=
  (exists b, nth_error nl b = Some c /\ vis t x y (Z.of_nat b) s) \/
  (~ In c nl /\ s = NaN [] /\ exists d, dsize t = Some d /\ inside d x y).

Lemma code_vis_position t nl x y s c : NoDup nl ->
  match position c (oset_of nl) with
  | Some b => vis t x y b s
  | None => s = NaN [] /\ match dsize t with Some d => inside d x y | None => False end
  end <-> code_vis t nl x y s c.
Proof.
  intros Hnd. rewrite (oset_of_id _ Hnd). unfold code_vis. destruct (position c nl) as [b|] eqn:E.
  - pose proof (position_spec _ _ _ E) as [Hb Hn]. split.
    + intros Hv. left. exists (Z.to_nat b). split; [exact Hn|]. now rewrite Z2Nat.id by lia.
    + intros [(b' & Hb' & Hv) | (Hni & _)].
      * rewrite (position_nth _ _ _ Hnd Hb') in E. injection E as <-. exact Hv.
      * exfalso. apply Hni. eapply nth_error_In; exact Hn.
  - apply position_none in E. split.
    + intros [-> Hi]. right. split; [exact E|]. split; [reflexivity|]. destruct (dsize t); [eauto|contradiction].
    + intros [(b' & Hb' & _) | (_ & -> & d & -> & Hi)]; [|auto]. exfalso. apply E. eapply nth_error_In; exact Hb'.
Qed.

Lemma take_named_vis t lazy same p req nl t' :
  made t -> names t = Some nl -> NoDup nl -> req <> [] -> take_named t lazy same p req = Ok t' ->
  made t' /\ dsize t' = dsize t /\
  (forall P, inherited P -> P t -> incl req nl \/ (forall l, l_kind l = Nans -> P (Leaf l)) -> P t') /\
  forall x y i s, vis t' x y i s <->
    exists c, 0 <= i /\ nth_error req (Z.to_nat i) = Some c /\ code_vis t nl x y s c.
Proof.
  intros Hm Hnl Hnd Hreq H. destruct (made_ok _ Hm) as [Hw Ht].
  assert (Hsame : forall x y i s, vis t x y i s <-> exists c, 0 <= i /\ nth_error nl (Z.to_nat i) = Some c /\ code_vis t nl x y s c).
  { intros x y i s. split.
    - intros Hv. destruct (wf_meta _ Hw) as (m & Hmn & _ & Hlen). specialize (Hlen _ Hnl).
      pose proof (vis_band _ Hw _ _ _ _ _ Hv Hmn) as Hb.
      destruct (nth_error nl (Z.to_nat i)) as [c|] eqn:Ec; [|apply nth_error_None in Ec; lia].
      exists c. split; [lia|]. split; [reflexivity|]. left. exists (Z.to_nat i). split; [exact Ec|]. now rewrite Z2Nat.id by lia.
    - intros (c & H0 & Hc & [(b & Hb & Hv) | (Hni & _)]).
      + assert (b = Z.to_nat i).
        { eapply NoDup_nth_error; [exact Hnd| |congruence]. apply nth_error_Some. congruence. }
        subst b. now rewrite Z2Nat.id in Hv by lia.
      + exfalso. apply Hni. eapply nth_error_In; exact Hc. }
  assert (Hspec : spec_eqb same nl req = true -> req = nl).
  { intros E. apply andb_prop in E as [_ E]. apply strs_eqb_eq in E. auto. }
  destruct (is_concat t) eqn:Ec.
  - destruct t as [|ps d| | | |]; try discriminate. cbn [take_named] in H. cbn [names] in Hnl.
    destruct (spec_eqb same nl req) eqn:Es.
    + unfold take_concat in H. rewrite Hnl, Es in H. injection H as <-. rewrite (Hspec eq_refl).
      split; [exact Hm|]. split; [reflexivity|]. split; [auto|exact Hsame].
    + pose proof Hw as Hw'. apply wf_concat in Hw' as (_ & Hds & _).
      destruct (take_concat_vis ps d same p req nl t') as (H1 & H2 & H3 & H4); auto.
      { eapply made_parts; eauto. }
      { intros d0 ->. destruct (tight_dsize _ Ht) as (w & h & Hd & H0). cbn in Hd. injection Hd as ->. exact H0. }
      split; [exact H1|]. split; [exact H2|]. split.
      { intros P HP HPt. apply H3; [exact HP|]. now apply HP in HPt. }
      intros x y i s. rewrite H4. split; intros (c & H0 & Hc & He); exists c; (split; [exact H0|]); (split; [exact Hc|]).
      * apply (code_vis_position _ _ x y s c Hnd). destruct (position c (oset_of nl)) as [b|]; [|exact He].
        pose proof He as He'. apply owner_In in He' as (q & j & Hq & Hv). eapply vis_concat_parts; eauto.
      * apply (code_vis_position _ _ x y s c Hnd) in He. destruct (position c (oset_of nl)) as [b|]; [|exact He]. apply He.
  - assert (H' : (if (lazy && spec_eqb same nl req)%bool then Ok t
          else match all_some (map fst (code_indexes nl req)) with
               | Some idxs => mkCrop t None (Some idxs)
               | None => take_concat [t] (dsize t) same p req
               end) = Ok t').
    { destruct t; try discriminate; cbn [take_named] in H; rewrite Hnl in H; exact H. }
    clear H. rename H' into H. destruct (lazy && spec_eqb same nl req)%bool eqn:El.
    + injection H as <-. apply andb_prop in El as [_ El]. rewrite (Hspec El).
      split; [exact Hm|]. split; [reflexivity|]. split; [auto|exact Hsame].
    + destruct (all_some (map fst (code_indexes nl req))) as [idxs|] eqn:Ea.
      * assert (Hin : incl req nl).
        { destruct (in_dec Bool.bool_dec true [forallb (fun oc : option Z * string => match fst oc with None => false | Some _ => true end) (code_indexes nl req)]) as [Hin|Hin].
          - destruct Hin as [Hin|[]]. now apply all_some_forall.
          - exfalso. assert (Hni : ~ incl req nl) by (intros Hx; apply Hin; left; now apply all_some_forall).
            rewrite (all_some_miss _ _ Hni) in Ea. discriminate. }
        destruct (all_some_idx nl req Hin) as (idxs' & E1 & E2). assert (idxs' = idxs) by congruence. subst idxs'.
        destruct (wf_meta _ Hw) as (m & Hmn & Hm0 & Hlen). specialize (Hlen _ Hnl).
        assert (Hr : in_range m idxs).
        { clear -E2 Hlen. induction E2 as [|c i req idxs Hc E2 IH]; constructor; [|auto].
          apply position_spec in Hc as [Hc _]. pose proof (oset_len nl). lia. }
        assert (Hine : idxs <> []) by (intros ->; inversion E2; subst; congruence).
        pose proof (takes_crop _ _ _ _ Hw Hmn Hr H) as T. pose proof (only_crop _ _ _ _ Hw Hmn Hr H) as O.
        split; [|split; [|split]].
        { eapply made_bands; [exact Hm|exact Hine| |exact H]. intros n Hn. assert (n = m) by congruence. now subst. }
        { destruct T as (_ & _ & _ & _ & T & _). auto. }
        { intros P [HP _] HPt _. apply mkCrop_shape in H as (? & ? & ? & ? & ? & ->). auto. }
        intros x y i s. destruct (seg_block x y s t idxs t' Hw T O) as [_ B]. rewrite B. split.
        -- intros (j & H0 & Hj & Hv). destruct (Forall2_nth_l _ _ _ _ _ (Forall2_swap _ _ _ E2) Hj) as (c & Hc & Hp). cbn in Hp.
           exists c. split; [exact H0|]. split; [exact Hc|]. apply (code_vis_position _ _ x y s c Hnd). now rewrite Hp.
        -- intros (c & H0 & Hc & He). destruct (Forall2_nth_l _ _ _ _ _ E2 Hc) as (j & Hj & Hp). cbn in Hp.
           apply (code_vis_position _ _ x y s c Hnd) in He. rewrite Hp in He. exists j. auto.
      * destruct (take_concat_vis [t] (dsize t) same p req nl t') as (H1 & H2 & H3 & H4); auto.
        { intros d0 Hd0. destruct (tight_dsize _ Ht) as (w & h & Hd & H0). rewrite Hd0 in Hd. injection Hd as ->. exact H0. }
        { cbn. now rewrite Hnl, app_nil_r. }
        { apply Bool.not_true_iff_false. intros E. pose proof (Hspec E) as Er. subst req.
          destruct (all_some_idx nl nl (incl_refl nl)) as (idxs & E1 & _). congruence. }
        split; [exact H1|]. split; [exact H2|]. split; [intros P HP HPt; apply H3; auto|].
        intros x y i s. rewrite H4. split; intros (c & H0 & Hc & He); exists c; (split; [exact H0|]); (split; [exact Hc|]).
        -- apply (code_vis_position _ _ x y s c Hnd). destruct (position c (oset_of nl)) as [b|]; [|exact He].
           cbn [owner] in He. destruct (num_channels t) as [n|]; [|contradiction]. destruct (b <? n); [exact He|contradiction].
        -- apply (code_vis_position _ _ x y s c Hnd) in He. destruct (position c (oset_of nl)) as [b|]; [|exact He].
           cbn [owner]. destruct (wf_meta _ Hw) as (m & Hmn & _ & _). rewrite Hmn.
           pose proof (vis_band _ Hw _ _ _ _ _ He Hmn) as Hb. replace (b <? m) with true by lia. exact He.
Qed.
