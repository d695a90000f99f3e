(* Basic lemmas about delayed graphs: induction, metadata, canvases,
   constructors. *)
From Verif Require Import Py PyProofs GeomModel GeomProofs GraphModel GraphSpec.
From Coq Require Import Qabs.
Local Open Scope Q_scope.

(** ** Induction over nested parts *)

Lemma node_ind' (P : node -> Prop) :
  (forall l, P (Leaf l)) ->
  (forall ps d, Forall P ps -> P (Concat ps d)) ->
  (forall s ys xs ci d nm nc, P s -> P (Crop s ys xs ci d nm nc)) ->
  (forall s M d al, P s -> P (Warp s M d al)) ->
  (forall s q d, P s -> P (Dequant s q d)) ->
  (forall s k d, P s -> P (Overview s k d)) ->
  forall t, P t.
Proof.
  intros HL HC HCr HW HD HO.
  fix IH 1. intros [l|ps d|s ys xs ci d nm nc|s M d al|s q d|s k d].
  - apply HL.
  - apply HC. induction ps as [|p ps IHps]; constructor; [apply IH|exact IHps].
  - apply HCr, IH.
  - apply HW, IH.
  - apply HD, IH.
  - apply HO, IH.
Qed.

Lemma forall_parts_Forall P ps : forall_parts P ps <-> Forall P ps.
Proof.
  induction ps as [|p ps IH]; cbn; split; intros H; auto.
  - destruct H as [H1 H2]. constructor; [exact H1|]. now apply IH.
  - inversion H; subst. split; [assumption|]. now apply IH.
Qed.

(** ** Regimes *)

Inductive regime := RNansFree | ROvFree | ROvLess.

Definition reg (r : regime) (t : node) : Prop :=
  match r with RNansFree => nans_free t | ROvFree => ov_free t | ROvLess => ov_less t end.

Lemma ov_less_free t : ov_less t -> ov_free t.
Proof.
  induction t using node_ind'; cbn; auto.
  rewrite !forall_parts_Forall. intros Hp. rewrite Forall_forall in *. auto.
Qed.

Lemma exact_ov_free t : exact t -> ov_free t.
Proof.
  induction t using node_ind'; cbn; auto; [|contradiction].
  rewrite !forall_parts_Forall. intros Hp. rewrite Forall_forall in *. auto.
Qed.

Lemma reg_crop r s ys xs ci d nm nc : reg r (Crop s ys xs ci d nm nc) <-> reg r s.
Proof. destruct r; cbn; tauto. Qed.
Lemma reg_deq r s q d : reg r (Dequant s q d) <-> reg r s.
Proof. destruct r; cbn; tauto. Qed.
Lemma reg_concat r ps d : reg r (Concat ps d) <-> Forall (reg r) ps.
Proof. destruct r; cbn; rewrite forall_parts_Forall; reflexivity. Qed.

(* regime of the child of a warp *)
Definition rsub (r : regime) : regime := match r with ROvFree => ROvLess | r => r end.

Lemma reg_warp r s M d al : reg r (Warp s M d al) <-> reg (rsub r) s.
Proof. destruct r; cbn; tauto. Qed.

Lemma reg_rsub r t : reg (rsub r) t -> reg r t.
Proof. destruct r; cbn; auto. apply ov_less_free. Qed.

(** ** Metadata *)

Lemma sum_opt_known l n : sum_opt l = Some n -> exists k, known_all l = Some k /\ n = fold_right Z.add 0%Z k.
Proof.
  revert n; induction l as [|[a|] l IH]; cbn; intros n H.
  - injection H as <-. exists []. auto.
  - destruct (sum_opt l) as [b|]; [|discriminate]. injection H as <-.
    destruct (IH _ eq_refl) as (k & -> & ->). eexists; split; [reflexivity|]. reflexivity.
  - discriminate.
Qed.

Definition meta_ok (t : node) : Prop :=
  exists n, num_channels t = Some n /\ (0 <= n)%Z /\
            forall l, names t = Some l -> Z.of_nat (List.length l) = n.

Lemma wf_meta t : wf t -> meta_ok t.
Proof.
  induction t using node_ind'; cbn [wf].
  - intros [(n & Hn & H0 & Hl) _]. exists n. cbn. repeat split; auto.
    intros nm Hnm. rewrite Hnm in Hl. exact Hl.
  - rewrite !forall_parts_Forall. intros (Hw & _ & _).
    unfold meta_ok. cbn [num_channels names]. induction ps as [|p ps IH]; cbn.
    + exists 0%Z. repeat split; auto; [lia|]. intros l [= <-]. reflexivity.
    + inversion H; inversion Hw; subst.
      destruct (H2 ltac:(assumption)) as (n & Hn & H0 & Hl).
      destruct IH as (m & Hm & Hm0 & Hml); [assumption..|].
      rewrite Hn, Hm. exists (n + m)%Z. repeat split; [lia|].
      intros l. destruct (names p) as [lp|]; [|discriminate].
      destruct (concat_opt _) as [lr|]; [|discriminate]. intros [= <-].
      rewrite app_length. rewrite <- (Hl _ eq_refl), <- (Hml _ eq_refl). lia.
  - intros (Hw & _ & _ & _ & Hci). destruct (IHt Hw) as (n & Hn & H0 & Hl).
    destruct ci as [l|].
    + destruct Hci as (-> & Hr & Hnm). eexists. split; [reflexivity|]. split; [lia|].
      intros l' Hl'. cbn in Hl'. destruct (names t) as [n0|] eqn:En.
      * destruct Hnm as (n' & Hs & ->). injection Hl' as <-.
        unfold select_names in Hs. apply mapR_length in Hs. now rewrite Hs.
      * subst nm. discriminate.
    + destruct Hci as [-> ->]. exists n. cbn. auto.
  - intros [Hw _]. destruct (IHt Hw) as (n & Hn & H0 & Hl). exists n. cbn. auto.
  - intros Hw. destruct (IHt Hw) as (n & Hn & H0 & Hl). exists n. cbn. auto.
  - intros Hw. destruct (IHt Hw) as (n & Hn & H0 & Hl). exists n. cbn. auto.
Qed.

(** ** Band selection *)

Lemma py_get_nonneg {A} (l : list A) i a :
  (0 <= i)%Z -> py_get l i = Ok a <-> nth_error l (Z.to_nat i) = Some a.
Proof.
  intros Hi. unfold py_get. assert (E: (i <? 0)%Z = false) by lia. rewrite E, E.
  destruct (nth_error l (Z.to_nat i)); split; congruence.
Qed.

Lemma nth_error_in_range {A} (l : list A) i :
  (0 <= i < Z.of_nat (List.length l))%Z -> exists a, nth_error l (Z.to_nat i) = Some a.
Proof.
  intros H. destruct (nth_error l (Z.to_nat i)) eqn:E; eauto.
  apply nth_error_None in E. lia.
Qed.

Definition in_range (n : Z) (l : list Z) : Prop := Forall (fun i => 0 <= i < n)%Z l.

Lemma select_total n l : in_range (Z.of_nat (List.length n)) l ->
  exists n', select_names n l = Ok n'.
Proof.
  unfold select_names. induction 1 as [|i l Hi _ (n' & IH)]; cbn; [eauto|].
  destruct (nth_error_in_range n i Hi) as (a & Ha). apply py_get_nonneg in Ha; [|lia].
  rewrite Ha, IH. cbn. eauto.
Qed.

Lemma select_spec {A} (n : list A) l n' : Forall (fun i => 0 <= i)%Z l ->
  mapR (py_get n) l = Ok n' <->
  Forall2 (fun i s => nth_error n (Z.to_nat i) = Some s) l n'.
Proof.
  intros H. rewrite mapR_Forall2. split; intros F.
  - revert H. induction F; intros H'; constructor; inversion H'; subst.
    + apply py_get_nonneg; assumption.
    + auto.
  - revert H. induction F; intros H'; constructor; inversion H'; subst.
    + apply py_get_nonneg; assumption.
    + auto.
Qed.

Definition sel (nm : option (list string)) (ci : option (list Z)) : option (list string) :=
  match ci with
  | None => nm
  | Some l => match nm with
              | Some n => match select_names n l with Ok n' => Some n' | Err _ => None end
              | None => None
              end
  end.

Definition sel_nc (n : option Z) (ci : option (list Z)) : option Z :=
  match ci with None => n | Some l => Some (Z.of_nat (List.length l)) end.

Lemma crop_names s ys xs ci d nm nc : wf (Crop s ys xs ci d nm nc) ->
  names (Crop s ys xs ci d nm nc) = sel (names s) ci.
Proof.
  cbn. intros (_ & _ & _ & _ & H). destruct ci as [l|].
  - destruct H as (_ & _ & H). destruct (names s) as [n|]; cbn.
    + destruct H as (n' & -> & ->). reflexivity.
    + now subst.
  - now destruct H as [-> _].
Qed.

Lemma crop_nc s ys xs ci d nm nc : wf (Crop s ys xs ci d nm nc) ->
  num_channels (Crop s ys xs ci d nm nc) = sel_nc (num_channels s) ci.
Proof.
  cbn. intros (_ & _ & _ & _ & H). destruct ci as [l|].
  - destruct H as (-> & _). reflexivity.
  - now destruct H as [_ ->].
Qed.

Definition ci_ok (n : option Z) (ci : option (list Z)) : Prop :=
  match ci with None => True | Some l => forall m, n = Some m -> in_range m l end.

Lemma wf_crop_ci s ys xs ci d nm nc : wf (Crop s ys xs ci d nm nc) -> ci_ok (num_channels s) ci.
Proof. cbn. intros (_ & _ & _ & _ & H). destruct ci; cbn; tauto. Qed.

Lemma fuse_idxs_ok n ci1 ci nci m : num_channels n = Some m ->
  ci_ok (num_channels n) ci1 -> ci_ok (sel_nc (num_channels n) ci1) ci ->
  fuse_idxs ci1 ci = Ok nci ->
  ci_ok (num_channels n) nci /\ sel_nc (sel_nc (num_channels n) ci1) ci = sel_nc (num_channels n) nci /\
  (forall nm, (forall l, nm = Some l -> Z.of_nat (List.length l) = m) ->
     sel (sel nm ci1) ci = sel nm nci) /\
  (forall c b1 b, selects ci c b1 -> selects ci1 b1 b -> selects nci c b).
Proof.
  intros Hm H1 H2 H. destruct ci as [o|], ci1 as [i|]; cbn in *.
  - destruct (mapR (py_get i) o) as [x|] eqn:E; [|discriminate]. injection H as <-.
    specialize (H1 _ Hm). specialize (H2 _ eq_refl).
    assert (Hpos : Forall (fun i => (0 <= i)%Z) o) by (eapply Forall_impl; [|exact H2]; cbn; intros; lia).
    pose proof E as E'. apply select_spec in E'; [|exact Hpos].
    assert (Hx : in_range m x).
    { clear -E' H1. unfold in_range in *. induction E'; constructor; auto.
      apply nth_error_In in H. rewrite Forall_forall in H1. auto. }
    split; [|split; [|split]].
    + intros m' Hm'. congruence.
    + cbn. apply mapR_length in E. now rewrite E.
    + cbn [sel]. intros nm Hl. destruct nm as [l|]; [|reflexivity].
      specialize (Hl _ eq_refl).
      destruct (select_total l i) as (n' & Hn'); [now rewrite Hl|].
      rewrite Hn'. destruct (select_total l x) as (x' & Hx'); [now rewrite Hl|].
      rewrite Hx'. destruct (select_total n' o) as (y & Hy).
      { unfold select_names in Hn'. apply mapR_length in Hn'. now rewrite Hn'. }
      rewrite Hy. f_equal. unfold select_names in *.
      assert (Hi0 : Forall (fun i => (0 <= i)%Z) i) by (eapply Forall_impl; [|exact H1]; cbn; intros; lia).
      assert (Hx0 : Forall (fun i => (0 <= i)%Z) x) by (eapply Forall_impl; [|exact Hx]; cbn; intros; lia).
      apply select_spec in Hn'; [|exact Hi0]. apply select_spec in Hx'; [|exact Hx0].
      apply select_spec in Hy; [|exact Hpos].
      clear -Hn' Hx' Hy E'. revert y x' Hy Hx'. induction E' as [|k b o x Hk E' IH]; intros y x' Hy Hx'.
      * inversion Hy; inversion Hx'; reflexivity.
      * inversion Hy as [|? s ? ys' Hs Hys]; subst. inversion Hx' as [|? s' ? xs' Hs' Hxs]; subst.
        f_equal; [|now apply IH].
        assert (nth_error n' (Z.to_nat k) = Some s').
        { clear -Hn' Hk Hs'. revert Hk. generalize (Z.to_nat k) as j. induction Hn'; intros [|j]; cbn; try discriminate.
          - intros [= <-]. congruence.
          - apply IHHn'. }
        congruence.
    + intros c b1 b [Hc Hb1] [Hb1' Hb]. split; [exact Hc|].
      clear -E' Hb1 Hb. revert Hb1. generalize (Z.to_nat c) as j.
      induction E'; intros [|j]; cbn; try discriminate.
      * intros [= ->]. congruence.
      * apply IHE'.
  - injection H as <-. split; [exact H2|split; [reflexivity|split; [reflexivity|]]].
    intros c b1 b Hb1 ->. exact Hb1.
  - injection H as <-. split; [exact H1|split; [reflexivity|split; [reflexivity|]]].
    intros c b1 b -> Hb. exact Hb.
  - injection H as <-. split; [exact I|split; [reflexivity|split; [reflexivity|]]].
    intros c b1 b -> ->. reflexivity.
Qed.

(** ** Canvases *)

Lemma inside_proper d x y x' y' : x == x' -> y == y' -> inside d x y -> inside d x' y'.
Proof. unfold inside. intros Hx Hy. rewrite Hx, Hy. auto. Qed.

Lemma owner_mono (V W : node -> Z -> Prop) ps c :
  (forall p c, In p ps -> V p c -> W p c) -> owner V ps c -> owner W ps c.
Proof.
  revert c. induction ps as [|p ps IH]; cbn; intros c H; [auto|].
  destruct (num_channels p); [|auto]. destruct (c <? z)%Z; [apply H; auto|].
  apply IH. intros; apply H; auto.
Qed.

Lemma vis_proper t : forall x y x' y' c s, x == x' -> y == y' -> vis t x y c s -> vis t x' y' c s.
Proof.
  induction t using node_ind'; cbn [vis]; intros x y x' y' c s0 Hx Hy.
  - intros (Hi & Hb & Hs). split; [eapply inside_proper; eassumption|]. split; [exact Hb|].
    destruct (l_kind l); [|exact Hs]. destruct Hs as (u & v & Hu & Hv & ->).
    exists u, v. repeat split; auto; [now rewrite Hu|now rewrite Hv].
  - intros (Hd & Ho). split.
    + destruct d; [|exact Hd]. eapply inside_proper; eassumption.
    + eapply owner_mono; [|exact Ho]. cbn. intros p c' Hp. rewrite Forall_forall in H.
      apply H; assumption.
  - intros (Hi & b & Hb & Hv). split; [eapply inside_proper; eassumption|].
    exists b. split; [exact Hb|]. eapply IHt; [| |exact Hv]; [now rewrite Hx|now rewrite Hy].
  - intros (Hi & u & v & Hu & Hv & H). split; [eapply inside_proper; eassumption|].
    exists u, v. repeat split; auto; [now rewrite <- Hx|now rewrite <- Hy].
  - intros (Hi & s' & Hv & ->). split.
    + destruct d; [|exact Hi]. eapply inside_proper; eassumption.
    + exists s'. split; [|reflexivity]. eapply IHt; eassumption.
  - intros (Hi & Hv). split; [eapply inside_proper; eassumption|].
    eapply IHt; [| |exact Hv]; [now rewrite Hx|now rewrite Hy].
Qed.

Lemma vis_inside t : forall x y c s, vis t x y c s -> exists d, dsize t = Some d /\ inside d x y.
Proof.
  induction t using node_ind'; cbn [vis dsize]; intros x y c s0 Hv.
  - destruct Hv as (Hi & _). eauto.
  - destruct Hv as (Hd & _). destruct d as [d|]; [|contradiction]. eauto.
  - destruct Hv as (Hi & _). eauto.
  - destruct Hv as (Hi & _). eauto.
  - destruct Hv as (Hi & s' & Hv & _). destruct d as [d|]; [eauto|]. eapply IHt. exact Hv.
  - destruct Hv as (Hi & _). eauto.
Qed.

Lemma owner_In (V : node -> Z -> Prop) ps c : owner V ps c -> exists p c', In p ps /\ V p c'.
Proof.
  revert c. induction ps as [|p ps IH]; cbn; intros c; [contradiction|].
  destruct (num_channels p); [|contradiction]. destruct (c <? z)%Z.
  - eauto.
  - intros H. apply IH in H as (q & c' & Hq & Hv). eauto.
Qed.

(* transport along a map of the parts that keeps the number of channels *)
Lemma owner_Forall2 (V W : node -> Z -> Prop) ps qs c :
  Forall2 (fun p q => num_channels q = num_channels p /\ forall c, V p c -> W q c) ps qs ->
  owner V ps c -> owner W qs c.
Proof.
  intros F. revert c. induction F as [|p q ps qs [Hn HV] F IH]; cbn; intros c; [auto|].
  rewrite Hn. destruct (num_channels p); [|auto]. destruct (c <? z)%Z; auto.
Qed.

(** ** Constructors *)

Lemma opt_size_eqb_eq a b : opt_size_eqb a b = true <-> a = b.
Proof.
  destruct a as [[w h]|], b as [[w' h']|]; cbn; split; intros H; try discriminate; auto.
  - unfold size_eqb in H. cbn in H. apply andb_prop in H as [H1 H2].
    apply Z.eqb_eq in H1, H2. now subst.
  - injection H as <- <-. unfold size_eqb. cbn. now rewrite !Z.eqb_refl.
Qed.

Lemma mkConcat_spec ps n : mkConcat ps = Some n <->
  exists d, n = Concat ps d /\ Forall (fun p => dsize p = d) ps /\ (ps = [] -> d = None).
Proof.
  unfold mkConcat. destruct ps as [|p ps]; cbn [map].
  - split; [intros [= <-]; exists None; auto|]. intros (d & -> & _ & H). now rewrite H.
  - destruct (forallb (opt_size_eqb (dsize p)) (map dsize ps)) eqn:E.
    + split.
      * intros [= <-]. exists (dsize p). split; [reflexivity|]. split; [|discriminate].
        constructor; [reflexivity|]. rewrite forallb_forall in E. apply Forall_forall.
        intros q Hq. symmetry. apply opt_size_eqb_eq, E, in_map, Hq.
      * intros (d & -> & F & _). inversion F; subst. reflexivity.
    + split; [discriminate|]. intros (d & -> & F & _). inversion F; subst. exfalso.
      rewrite <- not_true_iff_false in E. apply E, forallb_forall. intros o Ho.
      apply in_map_iff in Ho as (q & <- & Hq). apply opt_size_eqb_eq.
      rewrite Forall_forall in H2. symmetry. auto.
Qed.

Lemma mkConcat_total ps d : Forall (fun p => dsize p = d) ps -> exists n, mkConcat ps = Some n.
Proof.
  intros F. destruct ps as [|p ps].
  - exists (Concat [] None). reflexivity.
  - exists (Concat (p :: ps) d). apply mkConcat_spec. exists d. split; [reflexivity|].
    split; [exact F|discriminate].
Qed.

Lemma mkConcat_vis ps n x y c s : mkConcat ps = Some n ->
  owner (fun p c' => vis p x y c' s) ps c -> vis n x y c s.
Proof.
  intros H Ho. apply mkConcat_spec in H as (d & -> & F & _). cbn. split; [|exact Ho].
  apply owner_In in Ho as (p & c' & Hp & Hv). apply vis_inside in Hv as (d' & Hd & Hi).
  rewrite Forall_forall in F. rewrite <- (F p Hp), Hd. exact Hi.
Qed.

Lemma wf_concat ps d : wf (Concat ps d) <->
  Forall wf ps /\ Forall (fun p => dsize p = d) ps /\ (ps = [] -> d = None).
Proof. cbn [wf]. now rewrite !forall_parts_Forall. Qed.

Lemma mkConcat_wf ps n : Forall wf ps -> mkConcat ps = Some n -> wf n.
Proof.
  intros F H. apply mkConcat_spec in H as (d & -> & H). apply wf_concat. tauto.
Qed.

Lemma wrap_clip_fst D s i : wrap_clip D s = Ok i -> (0 <= fst i)%Z.
Proof.
  unfold wrap_clip. destruct s as [[a|] [b|]]; cbn; dif E; intros [= <-]; cbn; lia.
Qed.

Lemma mkCrop_spec s sl ci n m : wf s -> num_channels s = Some m -> ci_ok (num_channels s) ci ->
  mkCrop s sl ci = Ok n ->
  exists w h ys xs nm nc, dsize s = Some (w, h) /\
    n = Crop s ys xs ci (iv_len xs, iv_len ys) nm nc /\ wf n /\
    match sl with
    | Some (sy, sx) => wrap_clip h sy = Ok ys /\ wrap_clip w sx = Ok xs
    | None => ys = (0, h)%Z /\ xs = (0, w)%Z
    end.
Proof.
  intros Hw Hm Hci H. unfold mkCrop in H. destruct (dsize s) as [[w h]|] eqn:Ed; [|discriminate].
  apply bind_ok in H as ([ys xs] & Hsl & H). apply bind_ok in H as ([nm nc] & Hnm & H).
  injection H as <-. exists w, h, ys, xs, nm, nc. split; [reflexivity|]. split; [reflexivity|].
  assert (Hs : match sl with
    | Some (sy, sx) => wrap_clip h sy = Ok ys /\ wrap_clip w sx = Ok xs
    | None => ys = (0, h)%Z /\ xs = (0, w)%Z end).
  { destruct sl as [[sy sx]|].
    - apply bind_ok in Hsl as (y & Hy & Hsl). apply bind_ok in Hsl as (x & Hx & Hsl).
      injection Hsl as <- <-. auto.
    - injection Hsl as <- <-. auto. }
  split; [|exact Hs].
  assert (Hf : (0 <= fst ys)%Z /\ (0 <= fst xs)%Z).
  { destruct sl as [[sy sx]|].
    - destruct Hs as [Hy Hx]. split; eapply wrap_clip_fst; eassumption.
    - destruct Hs as [-> ->]. cbn. lia. }
  cbn [wf]. repeat split; try tauto. destruct ci as [l|].
  - cbn in Hci. destruct (names s) as [n|] eqn:En.
    + apply bind_ok in Hnm as (n' & Hn' & Hnm). injection Hnm as <- <-.
      split; [|split; [exact Hci|eauto]]. unfold select_names in Hn'. apply mapR_length in Hn'.
      now rewrite Hn'.
    + injection Hnm as <- <-. auto.
  - injection Hnm as <- <-. auto.
Qed.

Lemma mkCrop_vis s ys xs ci nm nc u v b c smp :
  vis s u v b smp -> selects ci c b ->
  inject_Z (fst xs) <= u -> u <= inject_Z (snd xs) ->
  inject_Z (fst ys) <= v -> v <= inject_Z (snd ys) ->
  vis (Crop s ys xs ci (iv_len xs, iv_len ys) nm nc)
      (u - inject_Z (fst xs)) (v - inject_Z (fst ys)) c smp.
Proof.
  intros Hv Hb H1 H2 H3 H4. cbn [vis]. split.
  - unfold inside, iv_len. cbn [fst snd]. rewrite !injZ_minus. lra.
  - exists b. split; [exact Hb|]. eapply vis_proper; [| |exact Hv]; ring.
Qed.

Lemma overview_covers k n x : x * pow2 k <= inject_Z n -> x <= inject_Z (overview_len k n).
Proof.
  intros H. unfold overview_len. eapply Qle_trans; [|apply ceil_ge].
  apply le_div_iff; [apply pow2_pos|exact H].
Qed.

Lemma overview_inside k w h x y : inside (w, h) (x * pow2 k) (y * pow2 k) ->
  inside (overview_dsize k (w, h)) x y.
Proof.
  unfold inside, overview_dsize. cbn [fst snd]. intros [[Hx Hx'] [Hy Hy']].
  pose proof (pow2_pos k).
  repeat split; try (apply overview_covers; assumption).
  - setoid_replace 0 with (0 * pow2 k) in Hx by ring. now apply Qmult_lt_0_le_reg_r in Hx.
  - setoid_replace 0 with (0 * pow2 k) in Hy by ring. now apply Qmult_lt_0_le_reg_r in Hy.
Qed.

(* a coordinate of the child shows up in the overview *)
Lemma mkOverview_vis s k n x y c smp : mkOverview s k = Ok n ->
  vis s (x * pow2 k) (y * pow2 k) c smp -> vis n x y c smp.
Proof.
  unfold mkOverview. intros H Hv. destruct (vis_inside _ _ _ _ _ Hv) as ([w h] & Hd & Hi).
  rewrite Hd in H. injection H as <-. cbn. split; [|exact Hv]. now apply overview_inside.
Qed.
