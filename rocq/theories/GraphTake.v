(* take_channels with band indexes. *)
From Verif Require Import Py PyProofs GeomModel GeomProofs GraphModel GraphSpec GraphBase.
Local Open Scope Q_scope.

(** ** Flat index -> (part, inner index) *)

Lemma unravel_spec (V : node -> Z -> Prop) ps sizes i pos p j :
  known_all (map num_channels ps) = Some sizes ->
  unravel sizes i pos = Ok (p, j) ->
  exists q n, (pos <= p)%nat /\ nth_error ps (p - pos) = Some q /\ num_channels q = Some n /\
    (0 <= j < n)%Z /\ (owner V ps i -> V q j) /\ (V q j -> owner V ps i) /\
    (Forall meta_ok ps -> (0 <= i)%Z /\
     forall l, concat_opt (map names ps) = Some l -> exists lq, names q = Some lq /\
       nth_error l (Z.to_nat i) = nth_error lq (Z.to_nat j)).
Proof.
  revert sizes i pos. induction ps as [|q ps IH]; cbn; intros sizes i pos Hk Hu.
  - injection Hk as <-. discriminate.
  - destruct (num_channels q) as [n|] eqn:En; [|discriminate].
    destruct (known_all (map num_channels ps)) as [sz|] eqn:Ek; [|discriminate].
    injection Hk as <-. cbn in Hu. destruct (i <? n)%Z eqn:Ei.
    + destruct (i <? 0)%Z eqn:E0; [discriminate|]. injection Hu as <- <-.
      exists q, n. rewrite Nat.sub_diag. cbn. repeat split; auto; try lia.
      inversion H as [|? ? Hq _]; subst. intros l.
      destruct (names q) as [lq|] eqn:Enq; [|discriminate].
      destruct (concat_opt _) as [lr|]; [|discriminate]. intros [= <-].
      exists lq. split; [reflexivity|]. apply nth_error_app1.
      destruct Hq as (m & Hm & _ & Hl). specialize (Hl _ Enq). assert (m = n) by congruence. subst. lia.
    + destruct (IH _ _ _ eq_refl Hu) as (q' & n' & Hle & Hnth & Hn' & Hj & Ho & Ho' & Hm).
      exists q', n'. replace (p - pos)%nat with (S (p - S pos))%nat by lia.
      cbn. repeat split; auto; try lia.
      * inversion H as [|? ? Hq Hps]; subst. destruct Hq as (m & Hq & Hq0 & _).
        destruct (Hm Hps) as [Hi _]. assert (m = n) by congruence. subst. lia.
      * inversion H as [|? ? Hq Hps]; subst. destruct (Hm Hps) as [Hi Hl].
        intros l. destruct (names q) as [lq|] eqn:Enq; [|discriminate].
        destruct (concat_opt (map names ps)) as [lr|]; [|discriminate]. intros [= <-].
        destruct (Hl _ eq_refl) as (lq' & Hq' & Hn). exists lq'. split; [exact Hq'|].
        destruct Hq as (m & Hq & Hq0 & Hlq). specialize (Hlq _ Enq). assert (m = n) by congruence. subst.
        rewrite nth_error_app2 by lia. rewrite <- Hn. f_equal. lia.
Qed.

(** ** Segments *)

Definition flat (segs : list (nat * list Z)) : list (nat * Z) :=
  flat_map (fun s => map (pair (fst s)) (snd s)) segs.

Lemma segments_flat l : flat (segments l) = l.
Proof.
  induction l as [|[p i] l IH]; [reflexivity|]. cbn [segments].
  destruct (segments l) as [|[p' is] rest] eqn:E.
  - cbn in IH. cbn. now rewrite <- IH.
  - destruct (Nat.eqb p p') eqn:Ep.
    + apply Nat.eqb_eq in Ep. subst p'. cbn in *. now rewrite IH.
    + cbn in *. now rewrite IH.
Qed.

Lemma segments_nonempty l : Forall (fun s => snd s <> []) (segments l).
Proof.
  induction l as [|[p i] l IH]; cbn; [constructor|].
  destruct (segments l) as [|[p' is] rest] eqn:E.
  - repeat constructor. discriminate.
  - destruct (Nat.eqb p p').
    + inversion IH; subst. constructor; [discriminate|assumption].
    + constructor; [discriminate|exact IH].
Qed.

Lemma list_Z_eqb_eq a b : list_Z_eqb a b = true -> a = b.
Proof.
  revert b; induction a as [|x a IH]; intros [|y b]; cbn; try discriminate; auto.
  intros H. apply andb_prop in H as [H1 H2]. apply Z.eqb_eq in H1. f_equal; auto.
Qed.

Lemma zseq_nth n c b : nth_error (zseq n) c = Some b -> b = Z.of_nat c.
Proof.
  unfold zseq. rewrite nth_error_map. destruct (nth_error (seq 0 n) c) as [k|] eqn:E; [|discriminate].
  intros [= <-]. f_equal.
  assert (c < n)%nat by (rewrite <- (seq_length n 0); apply nth_error_Some; congruence).
  rewrite nth_error_nth' with (d:=0%nat) in E by (rewrite seq_length; exact H).
  rewrite seq_nth in E by exact H. cbn in E. now injection E.
Qed.

(** ** The specification of a band selection *)

(* [t'] consists of the bands [idxs] of [t] *)
Definition takes (t : node) (idxs : list Z) (t' : node) : Prop :=
  wf t' /\ (forall r, reg r t -> reg r t') /\
  names t' = sel (names t) (Some idxs) /\
  num_channels t' = Some (Z.of_nat (List.length idxs)) /\
  (idxs <> [] -> dsize t' = dsize t) /\
  (forall x y c b s, selects (Some idxs) c b -> vis t x y b s -> vis t' x y c s).

Lemma sel_zseq l : sel (Some l) (Some (zseq (List.length l))) = Some l.
Proof.
  cbn. assert (H : select_names l (zseq (List.length l)) = Ok l).
  { unfold select_names. apply select_spec.
    - apply Forall_forall. intros i Hi. apply zseq_In in Hi. lia.
    - unfold zseq.
      assert (G : forall l0 k, (forall j, nth_error l0 j = nth_error l (k + j)) ->
        Forall2 (fun i s => nth_error l (Z.to_nat i) = Some s) (map Z.of_nat (seq k (List.length l0))) l0).
      { induction l0 as [|a l0 IH]; intros k Hk; cbn; constructor.
        - rewrite Nat2Z.id. specialize (Hk 0%nat). cbn in Hk. rewrite Nat.add_0_r in Hk. congruence.
        - apply IH. intros j. specialize (Hk (S j)). cbn in Hk. rewrite Hk. f_equal. lia. }
      apply (G l 0%nat). intros j. reflexivity. }
  now rewrite H.
Qed.

Lemma takes_all q n : wf q -> num_channels q = Some n -> takes q (zseq (Z.to_nat n)) q.
Proof.
  intros Hw Hn. destruct (wf_meta _ Hw) as (m & Hm & H0 & Hl). assert (m = n) by congruence. subst m.
  split; [exact Hw|]. split; [auto|]. split; [|split; [|split; [auto|]]].
  - destruct (names q) as [l|]; [|reflexivity]. rewrite <- (Hl _ eq_refl), Nat2Z.id.
    now rewrite sel_zseq.
  - rewrite zseq_length, Z2Nat.id by lia. exact Hn.
  - intros x y c b s [Hc Hb] Hv. apply zseq_nth in Hb. subst b. now rewrite Z2Nat.id in Hv by lia.
Qed.

Lemma takes_crop t idxs n m : wf t -> num_channels t = Some m -> in_range m idxs ->
  mkCrop t None (Some idxs) = Ok n -> takes t idxs n.
Proof.
  intros Hw Hm Hr H.
  assert (Hci : ci_ok (num_channels t) (Some idxs)) by (cbn; intros m' Hm'; congruence).
  destruct (mkCrop_spec _ _ _ _ _ Hw Hm Hci H) as (w & h & ys & xs & nm & nc & Hd & -> & Hwn & -> & ->).
  split; [exact Hwn|]. split; [|split; [|split; [|split]]].
  - intros r Hrg. now apply reg_crop.
  - now rewrite (crop_names _ _ _ _ _ _ _ Hwn).
  - now rewrite (crop_nc _ _ _ _ _ _ _ Hwn).
  - intros _. cbn. rewrite Hd. unfold iv_len. cbn. now rewrite !Z.sub_0_r.
  - intros x y c b s Hs Hv. destruct (vis_inside _ _ _ _ _ Hv) as ([w' h'] & Hd' & Hi).
    assert (w' = w /\ h' = h) as [-> ->] by (split; congruence).
    destruct Hi as [Hx Hy]. cbn [fst snd] in *.
    eapply vis_proper; [| |apply (mkCrop_vis t (0, h)%Z (0, w)%Z (Some idxs) nm nc x y b c s Hv Hs);
      cbn [fst snd]; change (inject_Z 0) with 0; lra]; cbn [fst]; change (inject_Z 0) with 0; ring.
Qed.

(** ** Assembling the segments *)

Section Assemble.
Variable ps : list node.

(* component [comp] serves the segment (p, is) *)
Definition serves (seg : nat * list Z) (comp : node) : Prop :=
  exists q n, nth_error ps (fst seg) = Some q /\ num_channels q = Some n /\
              in_range n (snd seg) /\ takes q (snd seg) comp.

Lemma serves_nc segs comps : Forall2 serves segs comps ->
  sum_opt (map num_channels comps) = Some (Z.of_nat (List.length (flat segs))).
Proof.
  induction 1 as [|seg comp segs comps (q & n & _ & _ & _ & Ht) F IH]; [reflexivity|].
  cbn. destruct Ht as (_ & _ & _ & Hn & _). rewrite Hn, IH, app_length, map_length.
  fold (flat segs). f_equal. lia.
Qed.

Lemma serves_owner x y s segs comps : Forall2 serves segs comps ->
  forall c p j q, (0 <= c)%Z -> nth_error (flat segs) (Z.to_nat c) = Some (p, j) ->
  nth_error ps p = Some q -> vis q x y j s ->
  owner (fun p c' => vis p x y c' s) comps c.
Proof.
  induction 1 as [|seg comp segs comps (q0 & n & Hq & Hn & Hr & Ht) F IH]; cbn; intros c p j q Hc Hnth Hp Hv.
  - destruct (Z.to_nat c); discriminate.
  - destruct Ht as (_ & _ & _ & Hnc & _ & Hvis). rewrite Hnc.
    destruct (c <? Z.of_nat (List.length (snd seg)))%Z eqn:E.
    + rewrite nth_error_app1 in Hnth by (rewrite map_length; lia).
      rewrite nth_error_map in Hnth.
      destruct (nth_error (snd seg) (Z.to_nat c)) as [j'|] eqn:Ej; [|discriminate].
      cbn in Hnth. injection Hnth as <- <-. assert (q0 = q) by congruence. subst q0.
      eapply Hvis; [|exact Hv]. split; assumption.
    + rewrite nth_error_app2 in Hnth by (rewrite map_length; lia).
      rewrite map_length in Hnth. eapply IH; [lia| |exact Hp|exact Hv].
      rewrite <- Hnth. fold (flat segs). f_equal. lia.
Qed.

Lemma serves_names segs comps : Forall2 serves segs comps ->
  (forall q, In q ps -> names q <> None) -> Forall meta_ok ps ->
  exists l, concat_opt (map names comps) = Some l /\
    Forall2 (fun pj s => exists q lq, nth_error ps (fst pj) = Some q /\ names q = Some lq /\
               nth_error lq (Z.to_nat (snd pj)) = Some s) (flat segs) l.
Proof.
  induction 1 as [|seg comp segs comps (q & n & Hq & Hn & Hr & Ht) F IH]; intros Hnm Hmeta.
  - exists []. split; [reflexivity|constructor].
  - destruct (IH Hnm Hmeta) as (l & Hl & F2). destruct Ht as (_ & _ & Hns & _).
    pose proof (nth_error_In _ _ Hq) as Hin.
    destruct (names q) as [lq|] eqn:Eq; [|exfalso; now apply (Hnm q)].
    rewrite Forall_forall in Hmeta. destruct (Hmeta q Hin) as (m & Hm & _ & Hlen).
    specialize (Hlen _ Eq). assert (Hmn : m = n) by congruence. rewrite Hmn in Hlen.
    destruct (select_total lq (snd seg)) as (n' & Hn'); [now rewrite Hlen|].
    cbn in Hns. rewrite Hn' in Hns. cbn. rewrite Hns, Hl. eexists. split; [reflexivity|].
    apply Forall2_app; [|exact F2].
    unfold select_names in Hn'. apply select_spec in Hn';
      [|eapply Forall_impl; [|exact Hr]; cbn; intros; lia].
    clear -Hn' Hq Eq. induction Hn'; cbn; constructor; auto. exists q, lq. auto.
Qed.

Lemma serves_dsize d segs comps : Forall2 serves segs comps ->
  Forall (fun p => dsize p = d) ps -> Forall (fun s => snd s <> []) segs ->
  Forall (fun p => dsize p = d) comps.
Proof.
  intros F Hd Hne. revert Hne. induction F as [|seg comp segs comps (q & n & Hq & _ & _ & Ht) F IH]; intros Hne; constructor.
  - inversion Hne; subst. destruct Ht as (_ & _ & _ & _ & Hds & _). rewrite Hds by assumption.
    rewrite Forall_forall in Hd. apply Hd. eapply nth_error_In; exact Hq.
  - apply IH. now inversion Hne.
Qed.

End Assemble.

Lemma Forall2_nth_l {A B} (R : A -> B -> Prop) l l' n a :
  Forall2 R l l' -> nth_error l n = Some a -> exists b, nth_error l' n = Some b /\ R a b.
Proof.
  intros F. revert n. induction F; intros [|n]; cbn; try discriminate.
  - intros [= ->]. eauto.
  - apply IHF.
Qed.

Lemma Forall2_In_imp {A B} (R S : A -> B -> Prop) l l' :
  (forall a b, In a l -> R a b -> S a b) -> Forall2 R l l' -> Forall2 S l l'.
Proof.
  intros H F. induction F; constructor.
  - apply H; [now left|assumption].
  - apply IHF. intros; apply H; [now right|assumption].
Qed.

Lemma concat_opt_known l r : concat_opt l = Some r -> forall o, In o l -> o <> None.
Proof.
  revert r; induction l as [|[a|] l IH]; cbn; intros r H o Ho; [contradiction| |discriminate].
  destruct (concat_opt l); [|discriminate]. destruct Ho as [<-|Ho]; [discriminate|].
  eapply IH; eauto.
Qed.

Lemma known_all_nth l k i v : known_all l = Some k -> nth_error l i = Some v -> v <> None.
Proof.
  revert k i; induction l as [|[a|] l IH]; cbn; intros k i H; [|destruct (known_all l); [|discriminate]|discriminate].
  - destruct i; discriminate.
  - destruct i; cbn; [congruence|]. eauto.
Qed.

Lemma take_idx_takes t : forall idxs t' m, wf t -> num_channels t = Some m -> in_range m idxs ->
  take_idx t idxs = Ok t' -> takes t idxs t'.
Proof.
  induction t as [l|ps d IH|s ys xs ci d nm nc IH|s M d al IH|s q d IH|s k d IH] using node_ind';
    intros idxs t' m Hw Hm Hr H; try (eapply takes_crop; eassumption).
  change (match concat_opt (map names ps), known_all (map num_channels ps) with
          | None, _ => Err AssertionError
          | _, None => Err TypeError
          | Some _, Some sizes =>
              wh <- mapR (fun i => unravel sizes i 0) idxs ;;
              comps <- mapR (sub_component (map (fun p => (p, take_idx p)) ps)) (segments wh) ;;
              match mkConcat comps with Some c => Ok c | None => Err ValueError end
          end = Ok t') in H.
  destruct (concat_opt (map names ps)) as [nl|] eqn:Enl; [|discriminate].
  destruct (known_all (map num_channels ps)) as [sizes|] eqn:Ek; [|discriminate].
  apply bind_ok in H as (wh & Hwh & H). apply bind_ok in H as (comps & Hcomps & H).
  destruct (mkConcat comps) as [c|] eqn:Ec; [|discriminate]. injection H as <-.
  apply wf_concat in Hw as (Hwps & Hds & Hnil).
  assert (Hmeta : Forall meta_ok ps) by (eapply Forall_impl; [|exact Hwps]; intros; now apply wf_meta).
  pose proof (mapR_length _ _ _ Hwh) as Hlen.
  apply mapR_Forall2 in Hwh. apply mapR_Forall2 in Hcomps.
  (* every request is valid for its part *)
  assert (Hvalid : forall p j, In (p, j) wh -> exists q n, nth_error ps p = Some q /\
            num_channels q = Some n /\ (0 <= j < n)%Z).
  { intros p j Hin. clear -Hwh Ek Hin. induction Hwh as [|i pj idxs wh Hi F IH]; [contradiction|].
    destruct Hin as [->|Hin]; [|auto].
    destruct (unravel_spec (fun _ _ => True) _ _ _ _ _ _ Ek Hi) as (q & n & _ & Hn & Hq & Hj & _).
    rewrite Nat.sub_0_r in Hn. eauto. }
  assert (Hserve : Forall2 (serves ps) (segments wh) comps).
  { assert (Hall : forall seg, In seg (segments wh) -> forall j, In j (snd seg) -> In (fst seg, j) wh).
    { intros seg Hseg j Hj. rewrite <- (segments_flat wh). apply in_flat_map.
      exists seg. split; [exact Hseg|]. now apply in_map. }
    pose proof (segments_nonempty wh) as Hne.
    eapply Forall2_In_imp; [|exact Hcomps]. cbn. intros [p is] comp Hin Hsub.
    rewrite Forall_forall in Hne. pose proof (Hne _ Hin) as Hn. cbn [fst snd] in *.
    unfold sub_component, nth_result in Hsub. cbn [fst snd] in Hsub.
    rewrite nth_error_map in Hsub. destruct (nth_error ps p) as [q|] eqn:Eq; [|discriminate].
    cbn in Hsub. destruct (num_channels q) as [n|] eqn:Enq; [|discriminate].
    pose proof (nth_error_In _ _ Eq) as Hqin.
    assert (Hrange : in_range n is).
    { apply Forall_forall. intros j Hj. destruct (Hvalid p j (Hall _ Hin _ Hj)) as (q' & n' & Hq' & Hn' & Hjj).
      assert (q' = q) by congruence. subst. congruence. }
    exists q, n. cbn [fst snd]. split; [exact Eq|]. split; [exact Enq|]. split; [exact Hrange|].
    rewrite Forall_forall in Hwps.
    destruct (list_Z_eqb is (zseq (Z.to_nat n))) eqn:E.
    - injection Hsub as <-. apply list_Z_eqb_eq in E. subst is. apply takes_all; auto.
    - rewrite Forall_forall in IH. eapply IH; eauto. }
  pose proof (segments_flat wh) as Hflat.
  assert (Hwc : Forall wf comps).
  { clear -Hserve. induction Hserve as [|seg comp segs comps (q & n & _ & _ & _ & Ht) F IH]; constructor; auto.
    apply Ht. }
  pose proof (mkConcat_wf _ _ Hwc Ec) as Hwn.
  pose proof Ec as Ec'. apply mkConcat_spec in Ec' as (d' & -> & Hd' & Hnil').
  split; [exact Hwn|]. split; [|split; [|split; [|split]]].
  - intros r Hrg. apply reg_concat in Hrg. apply reg_concat. rewrite Forall_forall in Hrg.
    clear -Hserve Hrg. induction Hserve as [|seg comp segs comps (q & n & Hq & _ & _ & Ht) F IH]; constructor; auto.
    apply Ht, Hrg. eapply nth_error_In; exact Hq.
  - cbn [names]. rewrite Enl.
    destruct (serves_names _ _ _ Hserve) as (l & Hl & F2); [|exact Hmeta|].
    { intros q Hq. eapply concat_opt_known; [exact Enl|]. now apply in_map. }
    rewrite Hl. cbn. rewrite Hflat in F2.
    assert (Hsel : select_names nl idxs = Ok l).
    { unfold select_names. apply select_spec; [eapply Forall_impl; [|exact Hr]; cbn; intros; lia|].
      clear -Hwh F2 Ek Hmeta Enl. revert l F2. induction Hwh as [|i [p j] idxs wh Hi F IH]; intros l F2.
      - inversion F2. constructor.
      - inversion F2 as [|? s ? l' (q & lq & Hq & Hlq & Hs) F2']; subst. cbn [fst snd] in *. constructor; [|auto].
        destruct (unravel_spec (fun _ _ => True) _ _ _ _ _ _ Ek Hi) as (q' & n & _ & Hn & Hq' & Hj & _ & _ & Hm).
        rewrite Nat.sub_0_r in Hn. assert (q' = q) by congruence. subst q'.
        destruct (Hm Hmeta) as [_ Hl]. destruct (Hl _ Enl) as (lq' & Hlq' & He).
        assert (lq' = lq) by congruence. subst. congruence. }
    now rewrite Hsel.
  - cbn [num_channels]. rewrite (serves_nc _ _ _ Hserve), Hflat, Hlen. reflexivity.
  - intros Hne. cbn [dsize].
    pose proof (serves_dsize _ _ _ _ Hserve Hds (segments_nonempty wh)) as Hdc.
    destruct comps as [|c0 comps].
    + exfalso. inversion Hserve as [E0|]. rewrite <- E0 in Hflat. cbn in Hflat. subst wh.
      destruct idxs; [congruence|discriminate].
    + inversion Hd'; inversion Hdc; subst. congruence.
  - intros x y c b s [Hc Hb] Hv. eapply mkConcat_vis; [exact Ec|].
    destruct (Forall2_nth_l _ _ _ _ _ Hwh Hb) as ([p j] & Hpj & Hu).
    cbn [vis] in Hv. destruct Hv as [_ Ho].
    destruct (unravel_spec (fun p c' => vis p x y c' s) _ _ _ _ _ _ Ek Hu) as (q & n & _ & Hn & _ & _ & Hown & _).
    rewrite Nat.sub_0_r in Hn. eapply serves_owner; [exact Hserve|exact Hc| |exact Hn|apply Hown, Ho].
    rewrite Hflat. exact Hpj.
Qed.
