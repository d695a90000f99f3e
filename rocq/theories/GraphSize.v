(* optimize() keeps sizes (trees without overviews), keeps trees of exact
   operations exact, and keeps crops within their canvas. *)
From Verif Require Import Py PyProofs GeomModel GeomProofs GraphModel GraphSpec GraphBase GraphTake GraphOpt GraphMain GraphSound.
From Coq Require Import Qabs ZifyBool.
Local Open Scope Q_scope.

(** ** Tight trees *)

Lemma tight_concat ps d : tight (Concat ps d) <->
  ps <> [] /\ Forall tight ps /\ Forall (fun p => dsize p = d) ps.
Proof. cbn [tight]. now rewrite !forall_parts_Forall. Qed.

Lemma exact_concat ps d : exact (Concat ps d) <-> Forall exact ps.
Proof. cbn [exact]. now rewrite forall_parts_Forall. Qed.

Lemma warps_concat P ps d : warps_all P (Concat ps d) <-> Forall (warps_all P) ps.
Proof. cbn [warps_all]. now rewrite forall_parts_Forall. Qed.

Lemma sized_concat P ps d : warps_sized P (Concat ps d) <-> Forall (warps_sized P) ps.
Proof. cbn [warps_sized]. now rewrite forall_parts_Forall. Qed.

Lemma all_sized P t : warps_all P t <-> warps_sized (fun _ M _ al => P M al) t.
Proof.
  induction t as [l|ps d IH|s ys xs ci d nm nc IH|s M d al IH|s q d IH|s k d IH] using node_ind'; cbn; try tauto.
  rewrite !forall_parts_Forall. rewrite !Forall_forall in *. split; intros H p Hp; apply (IH p Hp); auto.
Qed.

Lemma exact_warps t : exact t <-> warps_all (fun _ _ => False) t.
Proof.
  induction t as [l|ps d IH|s ys xs ci d nm nc IH|s M d al IH|s q d IH|s k d IH] using node_ind'; cbn; try tauto.
  rewrite !forall_parts_Forall. rewrite !Forall_forall in *. split; intros H p Hp; apply (IH p Hp); auto.
Qed.

Lemma leafs_concat P ps d : leafs_all P (Concat ps d) <-> Forall (leafs_all P) ps.
Proof. cbn [leafs_all]. now rewrite forall_parts_Forall. Qed.

Lemma overview_len_nonneg k n : (0 <= n)%Z -> (0 <= overview_len k n)%Z.
Proof.
  intros H. apply ceil_nonneg. apply le_div_iff; [apply pow2_pos|].
  rewrite Qmult_0_l. apply (proj1 (injZ_le 0 n)). exact H.
Qed.

Lemma tight_dsize t : tight t -> exists w h, dsize t = Some (w, h) /\ (0 <= w)%Z /\ (0 <= h)%Z.
Proof.
  induction t as [l|ps d IH|s ys xs ci d nm nc IH|s M d al IH|s q d IH|s k d IH] using node_ind'.
  - cbn. destruct (l_dsize l) as [w h]. cbn. intros [? ?]. exists w, h. auto.
  - rewrite tight_concat. intros (Hne & Ht & Hd). destruct ps as [|p ps]; [congruence|].
    inversion IH as [|? ? IHp _]; inversion Ht as [|? ? Hp _]; inversion Hd as [|? ? Hdp _]; subst.
    destruct (IHp Hp) as (w & h & H). exists w, h. exact H.
  - cbn [tight]. intros (_ & _ & -> & w & h & _ & H). cbn. unfold iv_len.
    exists (snd xs - fst xs)%Z, (snd ys - fst ys)%Z. split; [reflexivity|]. lia.
  - cbn. intros (_ & H). destruct d as [w h]. exists w, h. cbn in H. tauto.
  - cbn [tight]. intros (Ht & ->). destruct (IH Ht) as (w & h & H & H'). exists w, h. cbn. rewrite H. tauto.
  - cbn [tight]. intros (Ht & [w h] & Hs & ->). destruct (IH Ht) as (w' & h' & H & H').
    assert (w' = w /\ h' = h) as [-> ->] by (split; congruence).
    exists (overview_len k w), (overview_len k h). split; [reflexivity|].
    split; apply overview_len_nonneg; tauto.
Qed.

Lemma mkCrop_shape s sl ci n : mkCrop s sl ci = Ok n ->
  exists w h ys xs nm nc, dsize s = Some (w, h) /\
    n = Crop s ys xs ci (iv_len xs, iv_len ys) nm nc /\
    match sl with
    | Some (sy, sx) => wrap_clip h sy = Ok ys /\ wrap_clip w sx = Ok xs
    | None => ys = (0, h)%Z /\ xs = (0, w)%Z
    end.
Proof.
  unfold mkCrop. destruct (dsize s) as [[w h]|]; [|discriminate]. intros H.
  apply bind_ok in H as ([ys xs] & Hsl & H). apply bind_ok in H as ([nm nc] & _ & H). injection H as <-.
  exists w, h, ys, xs, nm, nc. split; [reflexivity|]. split; [reflexivity|].
  destruct sl as [[sy sx]|].
  - apply bind_ok in Hsl as (y & Hy & Hsl). apply bind_ok in Hsl as (x & Hx & Hsl). injection Hsl as <- <-. auto.
  - injection Hsl as <- <-. auto.
Qed.

Lemma mkCrop_tight s sl ci n : tight s -> ci <> Some [] -> mkCrop s sl ci = Ok n -> tight n.
Proof.
  intros Ht Hci H. apply mkCrop_shape in H as (w & h & ys & xs & nm & nc & Hd & -> & Hsl).
  destruct (tight_dsize _ Ht) as (w' & h' & Hd' & Hw & Hh).
  assert (w' = w /\ h' = h) as [-> ->] by (split; congruence).
  cbn [tight]. split; [exact Ht|]. split; [exact Hci|]. split; [reflexivity|].
  exists w, h. split; [exact Hd|]. destruct sl as [[sy sx]|].
  - destruct Hsl as [Hy Hx]. apply wrap_clip_bounds in Hy; [|exact Hh]. apply wrap_clip_bounds in Hx; [|exact Hw]. lia.
  - destruct Hsl as [-> ->]. cbn. lia.
Qed.

Lemma mkCrop_exact s sl ci n : exact s -> mkCrop s sl ci = Ok n -> exact n.
Proof. intros He H. apply mkCrop_shape in H as (w & h & ys & xs & nm & nc & Hd & -> & Hsl). exact He. Qed.

Lemma mkConcat_tight ps n : ps <> [] -> Forall tight ps -> mkConcat ps = Some n -> tight n.
Proof.
  intros Hne Ht H. apply mkConcat_spec in H as (d & -> & Hd & _). apply tight_concat. auto.
Qed.

Lemma mkCrop_warps P s sl ci n : warps_all P s -> mkCrop s sl ci = Ok n -> warps_all P n.
Proof. intros He H. apply mkCrop_shape in H as (w & h & ys & xs & nm & nc & Hd & -> & Hsl). exact He. Qed.

Lemma mkConcat_warps P ps n : Forall (warps_all P) ps -> mkConcat ps = Some n -> warps_all P n.
Proof. intros He H. apply mkConcat_spec in H as (d & -> & _). now apply warps_concat. Qed.

Lemma mkCrop_sized P s sl ci n : warps_sized P s -> mkCrop s sl ci = Ok n -> warps_sized P n.
Proof. intros He H. apply mkCrop_shape in H as (w & h & ys & xs & nm & nc & Hd & -> & Hsl). exact He. Qed.

Lemma mkConcat_sized P ps n : Forall (warps_sized P) ps -> mkConcat ps = Some n -> warps_sized P n.
Proof. intros He H. apply mkConcat_spec in H as (d & -> & _). now apply sized_concat. Qed.

Lemma mkConcat_exact ps n : Forall exact ps -> mkConcat ps = Some n -> exact n.
Proof. intros He H. apply mkConcat_spec in H as (d & -> & _). now apply exact_concat. Qed.

Lemma mkCrop_leafs P s sl ci n : leafs_all P s -> mkCrop s sl ci = Ok n -> leafs_all P n.
Proof. intros He H. apply mkCrop_shape in H as (w & h & ys & xs & nm & nc & Hd & -> & Hsl). exact He. Qed.

Lemma mkConcat_leafs P ps n : Forall (leafs_all P) ps -> mkConcat ps = Some n -> leafs_all P n.
Proof. intros He H. apply mkConcat_spec in H as (d & -> & _). now apply leafs_concat. Qed.

Lemma mkConcat_dsize ps n d : ps <> [] -> Forall (fun p => dsize p = d) ps -> mkConcat ps = Some n -> dsize n = d.
Proof.
  intros Hne Hd H. apply mkConcat_spec in H as (d' & -> & Hd' & _). destruct ps; [congruence|].
  inversion Hd; inversion Hd'; subst. cbn. congruence.
Qed.

(* anything closed under parts, concatenation and band selection is kept *)
Lemma take_idx_closed (P : node -> Prop) :
  (forall ps d, P (Concat ps d) -> Forall P ps) ->
  (forall ps n, ps <> [] -> Forall P ps -> mkConcat ps = Some n -> P n) ->
  (forall t idxs n, idxs <> [] -> P t -> mkCrop t None (Some idxs) = Ok n -> P n) ->
  forall t idxs t', idxs <> [] -> P t -> take_idx t idxs = Ok t' -> P t'.
Proof.
  intros H1 H2 H3 t.
  induction t as [l|ps d IH|s ys xs ci d nm nc IH|s M d al IH|s q d IH|s k d IH] using node_ind';
    intros idxs t' Hne HP H; try (eapply H3; eassumption).
  change (match concat_opt (map names ps), known_all (map num_channels ps) with
          | None, _ => Err AssertionError
          | _, None => Err TypeError
          | Some _, Some sizes =>
              wh <- mapR (fun i => unravel sizes i 0) idxs ;;
              comps <- mapR (sub_component (map (fun p => (p, take_idx p)) ps)) (segments wh) ;;
              match mkConcat comps with Some c => Ok c | None => Err ValueError end
          end = Ok t') in H.
  destruct (concat_opt (map names ps)) as [nl|]; [|discriminate].
  destruct (known_all (map num_channels ps)) as [sizes|]; [|discriminate].
  apply bind_ok in H as (wh & Hwh & H). apply bind_ok in H as (comps & Hcomps & H).
  destruct (mkConcat comps) as [c|] eqn:Ec; [|discriminate]. injection H as <-.
  apply H1 in HP. pose proof (mapR_length _ _ _ Hwh) as Hl. pose proof (mapR_length _ _ _ Hcomps) as Hl2.
  pose proof (segments_nonempty wh) as Hsn. pose proof (segments_flat wh) as Hfl.
  apply mapR_Forall2 in Hcomps. eapply H2; [| |exact Ec].
  - intros ->. destruct (segments wh) as [|]; [|discriminate]. cbn in Hfl. subst wh.
    destruct idxs; [congruence|discriminate].
  - rewrite Forall_forall in IH, HP. clear -Hcomps Hsn IH HP.
    induction Hcomps as [|[p is] comp segs comps Hsub F IHF]; constructor.
    + inversion Hsn; subst. cbn [fst snd] in *. unfold sub_component, nth_result in Hsub. cbn [fst snd] in Hsub.
      rewrite nth_error_map in Hsub. destruct (nth_error ps p) as [q|] eqn:Eq; [|discriminate].
      apply nth_error_In in Eq. cbn in Hsub. destruct (num_channels q) as [n|]; [|discriminate].
      destruct (list_Z_eqb is (zseq (Z.to_nat n))).
      * injection Hsub as <-. auto.
      * eapply IH; eauto.
    + apply IHF. now inversion Hsn.
Qed.

Lemma take_idx_tight t idxs t' : idxs <> [] -> tight t -> take_idx t idxs = Ok t' -> tight t'.
Proof.
  apply take_idx_closed.
  - intros ps d H. now apply tight_concat in H.
  - intros; eapply mkConcat_tight; eassumption.
  - intros t0 i n Hi Ht H. eapply mkCrop_tight; [exact Ht| |exact H]. congruence.
Qed.

Lemma take_idx_exact t idxs t' : idxs <> [] -> exact t -> take_idx t idxs = Ok t' -> exact t'.
Proof.
  apply take_idx_closed.
  - intros ps d H. now apply exact_concat in H.
  - intros; eapply mkConcat_exact; eassumption.
  - intros t0 i n Hi Ht H. eapply mkCrop_exact; eassumption.
Qed.

Lemma take_idx_warps P t idxs t' : idxs <> [] -> warps_all P t -> take_idx t idxs = Ok t' -> warps_all P t'.
Proof.
  apply take_idx_closed.
  - intros ps d H. now apply warps_concat in H.
  - intros; eapply mkConcat_warps; eassumption.
  - intros t0 i n Hi Ht H. eapply mkCrop_warps; eassumption.
Qed.

Lemma take_idx_sized P t idxs t' : idxs <> [] -> warps_sized P t -> take_idx t idxs = Ok t' -> warps_sized P t'.
Proof.
  apply take_idx_closed.
  - intros ps d H. now apply sized_concat in H.
  - intros; eapply mkConcat_sized; eassumption.
  - intros t0 i n Hi Ht H. eapply mkCrop_sized; eassumption.
Qed.

Lemma take_idx_leafs P t idxs t' : idxs <> [] -> leafs_all P t -> take_idx t idxs = Ok t' -> leafs_all P t'.
Proof.
  apply take_idx_closed.
  - intros ps d H. now apply leafs_concat in H.
  - intros; eapply mkConcat_leafs; eassumption.
  - intros t0 i n Hi Ht H. eapply mkCrop_leafs; eassumption.
Qed.

(** ** What is kept *)

(* conditions on warps that survive moving a crop below them and composition *)
Definition fusable (P : affine -> algo -> Prop) : Prop :=
  (forall M al s ys xs ci cd c T, P M al -> al_nearest al = false ->
     warp_after_crop s M ys xs ci cd = Ok (Some (c, T)) -> P T (drop_backend al)) /\
  (forall M al M1 al1, P M al -> P M1 al1 -> P (aff_mul M M1) (drop_backend al)).

Definition fusable_sized (P : option size -> affine -> size -> algo -> Prop) : Prop :=
  (forall M al d s ys xs ci cd c T, P (dsize s) M d al -> al_nearest al = false ->
     warp_after_crop s M ys xs ci cd = Ok (Some (c, T)) -> P (dsize c) T cd (drop_backend al)) /\
  (forall sz M d al M1 d1 al1, P (Some d1) M d al -> P sz M1 d1 al1 -> P sz (aff_mul M M1) d (drop_backend al)).

Definition keeps (t t' : node) : Prop :=
  (forall P, fusable_sized P -> warps_sized P t -> warps_sized P t') /\
  forall P, leafs_all P t -> leafs_all P t'.

Lemma keeps_all t t' : keeps t t' -> forall P, fusable P -> warps_all P t -> warps_all P t'.
Proof.
  intros [H _] P [F1 F2]. rewrite !all_sized. apply H. split; [intros; eapply F1; eassumption|intros; eapply F2; eassumption].
Qed.

Lemma keeps_refl t : keeps t t.
Proof. split; auto. Qed.

Definition kept (t t' : node) : Prop :=
  dsize t' = dsize t /\ tight t' /\ keeps t t'.

Lemma kept_refl t : tight t -> kept t t.
Proof. intros H. split; [reflexivity|]. split; [exact H|apply keeps_refl]. Qed.

Lemma keeps_trans a b c : keeps a b -> keeps b c -> keeps a c.
Proof. intros [H1 H2] [G1 G2]. split; auto. Qed.

Lemma kept_trans a b c : kept a b -> kept b c -> kept a c.
Proof. intros (H1 & H2 & H3) (G1 & G2 & G3). split; [congruence|]. split; [exact G2|eapply keeps_trans; eassumption]. Qed.

Lemma keeps_mkConcat ps qs d n : Forall2 keeps ps qs -> mkConcat qs = Some n -> keeps (Concat ps d) n.
Proof.
  intros F H. split.
  - intros P HP. rewrite sized_concat. intros He. eapply mkConcat_sized; [|exact H]. clear -F He HP.
    induction F as [|p q ps qs K F IH]; inversion He; subst; constructor; auto. now apply K.
  - intros P. rewrite leafs_concat. intros He. eapply mkConcat_leafs; [|exact H]. clear -F He.
    induction F as [|p q ps qs K F IH]; inversion He; subst; constructor; auto. now apply K.
Qed.

Lemma keeps_mkCrop s sl ci n : mkCrop s sl ci = Ok n -> keeps s n.
Proof.
  intros H. split; [intros P HP He; eapply mkCrop_sized; eassumption|intros P He; eapply mkCrop_leafs; eassumption].
Qed.

Lemma keeps_take t idxs t' : idxs <> [] -> take_idx t idxs = Ok t' -> keeps t t'.
Proof.
  intros Hi H. split; [intros P HP He; eapply take_idx_sized; eassumption|intros P He; eapply take_idx_leafs; eassumption].
Qed.

Lemma keeps_exact t t' : keeps t t' -> exact t -> exact t'.
Proof. intros H. rewrite !exact_warps. apply keeps_all; [exact H|]. split; contradiction. Qed.

Lemma Forall2_same_map {A B} (R : A -> B -> Prop) f l : (forall a, R a (f a)) -> Forall2 R l (map f l).
Proof. intros H. induction l; cbn; constructor; auto. Qed.

Definition opt_kept (opt : node -> result node) : Prop :=
  forall t t', wf t -> ov_free t -> tight t -> opt t = Ok t' -> kept t t'.

Lemma kept_crop s s' ys xs ci d nm nc : tight (Crop s ys xs ci d nm nc) -> kept s s' ->
  kept (Crop s ys xs ci d nm nc) (Crop s' ys xs ci d nm nc).
Proof.
  intros (_ & Hci & Hd & w & h & Hs & Hb) (H1 & H2 & H3). split; [reflexivity|]. split; [|exact H3].
  cbn [tight]. split; [exact H2|]. split; [exact Hci|]. split; [exact Hd|]. exists w, h. rewrite H1. auto.
Qed.

Lemma fuse_axis_in D r1 r : (0 <= fst r1)%Z -> (snd r1 <= D)%Z ->
  (0 <= fst r <= snd r)%Z -> (snd r <= iv_len r1)%Z ->
  wrap_clip D (fuse_axis r1 r) = Ok (fst r1 + fst r, fst r1 + snd r)%Z.
Proof.
  unfold iv_len, fuse_axis. intros H1 H2 H3 H4. rewrite !Z.min_l by lia. apply wrap_clip_id; lia.
Qed.

Lemma fuse_crops_kept s2 ys1 xs1 ci1 d1 nm1 nc1 ys xs ci d nm nc n :
  tight (Crop (Crop s2 ys1 xs1 ci1 d1 nm1 nc1) ys xs ci d nm nc) ->
  fuse_crops s2 ys1 xs1 ci1 ys xs ci = Ok n ->
  kept (Crop (Crop s2 ys1 xs1 ci1 d1 nm1 nc1) ys xs ci d nm nc) n.
Proof.
  intros ((Ht & Hci1 & -> & w & h & Hd & B1 & B2 & B3 & B4) & Hci & -> & w' & h' & Hd' & C1 & C2 & C3 & C4) H.
  cbn [dsize] in Hd'. injection Hd' as <- <-.
  unfold fuse_crops in H. apply bind_ok in H as (nci & Hf & H).
  assert (Hn : nci <> Some []).
  { unfold fuse_idxs in Hf. destruct ci as [o|], ci1 as [i|]; try (injection Hf as <-; congruence).
    destruct (mapR (py_get i) o) as [l|] eqn:E; [|discriminate]. injection Hf as <-.
    apply mapR_length in E. destruct o; [congruence|]. destruct l; [discriminate|]. congruence. }
  pose proof (mkCrop_tight _ _ _ _ Ht Hn H) as Htn.
  apply mkCrop_shape in H as (w0 & h0 & ys' & xs' & nm' & nc' & Hd0 & -> & Hy & Hx).
  rewrite Hd in Hd0. injection Hd0 as <- <-.
  rewrite fuse_axis_in in Hy by (unfold iv_len in *; lia). rewrite fuse_axis_in in Hx by (unfold iv_len in *; lia).
  injection Hy as <-. injection Hx as <-.
  split; [|split; [exact Htn|exact (keeps_refl s2)]]. cbn. unfold iv_len. cbn. do 2 f_equal; lia.
Qed.

Lemma warp_after_crop_kept s M wd al ys xs ci cd nm nc c T :
  tight (Crop (Warp s M wd al) ys xs ci cd nm nc) ->
  al_nearest al = false -> warp_after_crop s M ys xs ci cd = Ok (Some (c, T)) ->
  kept (Crop (Warp s M wd al) ys xs ci cd nm nc) (Warp c T cd (drop_backend al)).
Proof.
  intros ((Ht & _) & Hci & -> & w & h & Hd & B) Hal H.
  assert (Hc : exists sl, mkCrop s sl ci = Ok c).
  { unfold warp_after_crop in H. difH H E; [discriminate|]. destruct (axis_aligned M).
    - destruct (dsize s) as [[w' h']|]; [|discriminate].
      destruct (fast_axis _ _ _ xs). destruct (fast_axis _ _ _ ys).
      apply bind_ok in H as (c0 & Hc & H). injection H as -> _. eauto.
    - apply bind_ok in H as ([[a b] T'] & _ & H). apply bind_ok in H as (c0 & Hc & H). injection H as -> _. eauto. }
  destruct Hc as (sl & Hc). split; [reflexivity|]. split.
  - cbn [tight]. split; [eapply mkCrop_tight; eassumption|]. unfold iv_len. cbn. lia.
  - split; [intros P HP [H1 H2]; split; [eapply (proj1 HP); eassumption|eapply mkCrop_sized; eassumption]|]. apply keeps_mkCrop in Hc. apply Hc.
Qed.

(** ** The optimizers *)

Lemma opt_warp_kept o opt s1 M d al n : opt_good opt -> opt_kept opt ->
  wf (Warp s1 M d al) -> ov_less s1 -> tight (Warp s1 M d al) ->
  opt_warp o opt s1 M d al = Ok n -> kept (Warp s1 M d al) n.
Proof.
  intros Hopt Hk Hw Hr Ht H. unfold opt_warp in H.
  assert (Hf : exists s M' al', (match s1 with Warp s2 M1 _ _ => (s2, aff_mul M M1, drop_backend al) | _ => (s1, M, al) end)
      = (s, M', al') /\ wf (Warp s M' d al') /\ ov_less s /\ tight (Warp s M' d al') /\
      (forall P, leafs_all P s1 -> leafs_all P s) /\
      (forall P, fusable_sized P -> warps_sized P (Warp s1 M d al) -> warps_sized P (Warp s M' d al'))).
  { destruct s1 as [l|ps d0|s ys xs ci d0 nm nc|s M1 d0 al0|s q d0|s k d0];
      try (eexists _, _, _; split; [reflexivity|]; split; [exact Hw|]; split; [exact Hr|]; split; [exact Ht|auto]).
    eexists _, _, _. split; [reflexivity|]. cbn in *. split; [tauto|]. split; [tauto|]. split; [tauto|]. split; [tauto|].
    intros P [_ HP] (H1 & H2 & H3). eauto. }
  destruct Hf as (s & M' & al' & Ef & Hw' & Hr' & Ht' & Hl' & Hx'). rewrite Ef in H. clear Ef.
  assert (Hg : kept (Warp s M' d al') n -> kept (Warp s1 M d al) n).
  { intros (G1 & G2 & G3 & G4). split; [exact G1|]. split; [exact G2|]. split.
    - intros P HP Hp. apply G3; auto.
    - intros P Hp. apply G4. apply Hl'. exact Hp. }
  apply Hg. clear Hx' Hl' Hg Hw Hr Ht. cbv zeta in H.
  destruct (opt_size_eqb (Some d) (dsize s) && close_identity (al_eps al') M')%bool eqn:Eneg.
  - injection H as <-. apply andb_prop in Eneg as [Ed _]. apply opt_size_eqb_eq in Ed.
    split; [now rewrite <- Ed|]. split; [apply Ht'|]. split; [intros P HP Hp; apply Hp|auto].
  - assert (Hother : (sp <- split_warp o opt s M' d al';;
       match sp with Some n => n' <- opt_sub opt n;; opt n' | None => absorb o s M' d al' end) = Ok n ->
       kept (Warp s M' d al') n).
    { intros H'. apply bind_ok in H' as (sp & Hsp & H').
      destruct sp as [n0|]; [exfalso; eapply split_warp_ov_less; eassumption|].
      unfold absorb in H'. rewrite (lookahead_ov_less _ _ Hr') in H'.
      destruct (negb (absorbs o M')); injection H' as <-; apply kept_refl; exact Ht'. }
    destruct s as [l|ps d0|s ys xs ci d0 nm nc|s M1 d0 al0|s q d0|s k d0]; try (apply Hother; exact H).
    + destruct (is_nans l) eqn:En; [|apply Hother; exact H].
      injection H as <-. split; [reflexivity|]. split; [cbn; apply Ht'|]. split; [intros P _ _; exact I|]. intros P Hp. cbn in *.
      unfold is_nans in En. destruct (l_kind l); [discriminate|exact I].
    + unfold push_tail in H. cbn [subdata bind] in H. cbn [push_under] in H.
      assert (Hds : Forall (fun p => dsize p = Some d) (map (fun p => Warp p M' d al') ps)).
      { apply Forall_map. apply Forall_forall. reflexivity. }
      destruct (mkConcat_total _ _ Hds) as (c & Hc). rewrite Hc in H. cbn [bind] in H.
      destruct Ht' as (Htc & Hd0). apply tight_concat in Htc as (Hne & Htp & Hd1).
      assert (Hne' : map (fun p => Warp p M' d al') ps <> []) by (destruct ps; [congruence|discriminate]).
      assert (Hp : pregood ROvLess (Warp (Concat ps d0) M' d al') c).
      { apply push_warp_pregood; [exact Hw'| |exact Hc]. exact Hr'. }
      destruct Hp as (Hwc & Hrc & _).
      assert (Htc' : tight c).
      { eapply mkConcat_tight; [exact Hne'| |exact Hc]. apply Forall_map.
        eapply Forall_impl; [|exact Htp]. cbn. auto. }
      destruct (Hk c n Hwc (ov_less_free _ Hrc) Htc' H) as (K1 & K2 & K3 & K4).
      split; [|split; [exact K2|split]].
      2: { intros P HP [Hp1 Hp2]. apply K3; [exact HP|]. eapply mkConcat_sized; [|exact Hc]. apply Forall_map.
           apply (sized_concat P ps d0) in Hp2. rewrite Forall_forall in *. intros p Hp. split; [|now apply Hp2].
           now rewrite (Hd1 p Hp). }
      2: { intros P Hp. apply K4. eapply mkConcat_leafs; [|exact Hc]. apply Forall_map. now apply (leafs_concat P ps d0). }
      rewrite K1, (mkConcat_dsize _ _ _ Hne' Hds Hc). reflexivity.
Qed.

Lemma dsize_mkDequant s q : dsize (mkDequant s q) = dsize s.
Proof. unfold mkDequant. cbn. now destruct (dsize s). Qed.

Lemma opt_dequant_kept opt s1 q d n : opt_good opt -> opt_kept opt ->
  wf s1 -> ov_free s1 -> nf s1 -> tight (Dequant s1 q d) -> opt_dequant opt s1 q d = Ok n ->
  kept (Dequant s1 q d) n.
Proof.
  intros Hopt Hk Hw Hr Hnf Ht H. unfold opt_dequant in H.
  destruct s1 as [l|ps d0|s ys xs ci d0 nm nc|s M1 d0 al0|s q0 d0|s k d0].
  - injection H as <-. now apply kept_refl.
  - unfold push_tail in H. cbn [subdata bind push_under] in H.
    destruct Ht as (Htc & ->). pose proof Htc as Htc'. apply tight_concat in Htc' as (Hne & Htp & Hds).
    assert (Hds' : Forall (fun p => dsize p = d0) (map (fun p => mkDequant p q) ps)).
    { apply Forall_map. eapply Forall_impl; [|exact Hds]. intros p <-. unfold mkDequant. cbn. now destruct (dsize p). }
    assert (Hne' : map (fun p => mkDequant p q) ps <> []) by (destruct ps; [congruence|discriminate]).
    destruct (mkConcat_total _ _ Hds') as (c & Hc). rewrite Hc in H. cbn [bind] in H.
    assert (Hp : pregood ROvFree (Dequant (Concat ps d0) q (dsize (Concat ps d0))) c)
      by (apply push_dequant_pregood; assumption).
    destruct Hp as (Hwc & Hrc & _).
    assert (Htn : tight c).
    { eapply mkConcat_tight; [exact Hne'| |exact Hc]. apply Forall_map.
      eapply Forall_impl; [|exact Htp]. cbn. auto. }
    destruct (Hk c n Hwc Hrc Htn H) as (K1 & K2 & K3).
    split; [|split; [exact K2|]].
    + rewrite K1, (mkConcat_dsize _ _ _ Hne' Hds' Hc). cbn. now destruct d0.
    + eapply keeps_trans; [|exact K3]. eapply (keeps_mkConcat ps _ d0); [|exact Hc].
      apply Forall2_same_map. intros p. exact (keeps_refl p).
  - injection H as <-. now apply kept_refl.
  - apply bind_ok in H as (n' & Hn' & H). destruct Ht as ((Ht & Hd) & ->).
    assert (Hp : pregood ROvFree (Dequant (Warp s M1 d0 al0) q (dsize (Warp s M1 d0 al0))) (Warp (mkDequant s q) M1 d0 al0))
      by (apply dequant_before_warp_pregood; assumption).
    destruct Hp as (Hwc & Hrc & _).
    assert (Htn : tight (Warp (mkDequant s q) M1 d0 al0)) by (cbn; auto).
    destruct (Hopt ROvFree _ _ Hwc Hrc Hn') as (_ & Hnf' & _).
    apply push_tail_nf in H; [|exact Hnf']. subst n'.
    destruct (Hk _ _ Hwc Hrc Htn Hn') as (K1 & K2 & K3).
    split; [exact K1|]. split; [exact K2|]. split; [|exact (proj2 K3)].
    intros P HP (Hp1 & Hp2). apply (proj1 K3 P HP). split; [now rewrite dsize_mkDequant|exact Hp2].
  - discriminate.
  - contradiction.
Qed.

Lemma recrop_id h w ys xs : (0 <= fst xs <= snd xs)%Z -> (snd xs <= w)%Z ->
  (0 <= fst ys <= snd ys)%Z -> (snd ys <= h)%Z ->
  wrap_clip h (some_slice ys) = Ok ys /\ wrap_clip w (some_slice xs) = Ok xs.
Proof.
  intros. unfold some_slice. rewrite !wrap_clip_id by lia. destruct xs, ys. auto.
Qed.

Lemma recrop_kept s ys xs n w h : tight s -> dsize s = Some (w, h) ->
  (0 <= fst xs <= snd xs)%Z -> (snd xs <= w)%Z -> (0 <= fst ys <= snd ys)%Z -> (snd ys <= h)%Z ->
  mkCrop s (Some (some_slice ys, some_slice xs)) None = Ok n ->
  dsize n = Some (iv_len xs, iv_len ys) /\ tight n /\ exists nm nc, n = Crop s ys xs None (iv_len xs, iv_len ys) nm nc.
Proof.
  intros Ht Hd B1 B2 B3 B4 H. assert (Htn : tight n) by (eapply mkCrop_tight; [exact Ht| |exact H]; congruence).
  destruct (recrop_id h w ys xs B1 B2 B3 B4) as [Ey Ex].
  apply mkCrop_shape in H as (w0 & h0 & ys' & xs' & nm' & nc' & Hd0 & -> & Hy & Hx).
  rewrite Hd in Hd0. injection Hd0 as <- <-. assert (ys' = ys) by congruence. assert (xs' = xs) by congruence. subst.
  split; [reflexivity|]. split; [exact Htn|eauto].
Qed.

Lemma crop_concat_kept opt ps cd ys xs ci d nm nc n : opt_good opt -> opt_kept opt ->
  wf (Crop (Concat ps cd) ys xs ci d nm nc) -> ov_free (Concat ps cd) ->
  tight (Crop (Concat ps cd) ys xs ci d nm nc) ->
  crop_tail opt (Crop (Concat ps cd) ys xs ci d nm nc) = Ok n ->
  kept (Crop (Concat ps cd) ys xs ci d nm nc) n.
Proof.
  intros Hopt Hk Hw Hr Ht H. assert (Hwc : wf (Concat ps cd)) by apply Hw.
  destruct (wf_nc _ Hwc) as (m & Hm). pose proof (wf_crop_ci _ _ _ _ _ _ _ Hw) as Hci.
  destruct Ht as (Ht & Hne & -> & w & h & Hd & B1 & B2 & B3 & B4).
  cbn [crop_tail] in H. apply bind_ok in H as (taken & Htk & H).
  assert (G : wf taken /\ ov_free taken /\ dsize taken = dsize (Concat ps cd) /\ tight taken /\
              keeps (Concat ps cd) taken).
  { destruct ci as [l|].
    - apply bind_ok in Htk as (t' & Ht' & Ho). assert (Hl : l <> []) by congruence.
      destruct (take_idx_takes _ _ _ _ Hwc Hm (Hci _ Hm) Ht') as (T1 & T2 & _ & _ & T5 & _).
      pose proof (take_idx_tight _ _ _ Hl Ht Ht') as Htt.
      destruct (Hk t' taken T1 (T2 ROvFree Hr) Htt Ho) as (K1 & K2 & K3).
      destruct (Hopt ROvFree t' taken T1 (T2 ROvFree Hr) Ho) as ((G1 & G2 & _) & _).
      split; [exact G1|]. split; [exact G2|]. split; [rewrite K1; auto|]. split; [exact K2|].
      eapply keeps_trans; [|exact K3]. eapply keeps_take; eassumption.
    - injection Htk as <-. pose proof (keeps_refl (Concat ps cd)). auto. }
  clear Htk. destruct G as (G1 & G2 & G3 & G4 & G5).
  apply bind_ok in H as (c & Hc & H). apply bind_ok in H as (p & Hpu & H).
  destruct (wf_nc _ G1) as (m' & Hm').
  destruct (recrop_kept taken ys xs c w h) as (R1 & R2 & (nm' & nc' & Ec)); auto; [congruence|].
  destruct (mkCrop_spec taken _ None c m' G1 Hm' I Hc) as (_ & _ & _ & _ & _ & _ & _ & _ & Hwcr & _).
  assert (Hrc : ov_free c) by (subst c; exact G2).
  assert (Hec : keeps (Concat ps cd) c) by (subst c; exact G5).
  assert (Hself : opt c = Ok n -> kept (Crop (Concat ps cd) ys xs ci (iv_len xs, iv_len ys) nm nc) n).
  { intros Ho. destruct (Hk c n Hwcr Hrc R2 Ho) as (K1 & K2 & K3).
    split; [rewrite K1, R1; reflexivity|]. split; [exact K2|]. eapply keeps_trans; [exact Hec|exact K3]. }
  destruct p as [p|]; [|auto].
  assert (nm' = None /\ nc' = None) as [-> ->] by (subst c; apply Hwcr).
  subst c. cbn [push_under] in Hpu. destruct taken as [| ps' cd'| | | |]; try discriminate.
  match type of Hpu with rmap _ ?x = _ => destruct x as [qs|] eqn:Eqs end; [|discriminate].
  cbn in Hpu. injection Hpu as Hpu.
  assert (Hp : pregood ROvFree (Crop (Concat ps' cd') ys xs None (iv_len xs, iv_len ys) None None) p)
    by (eapply push_crop_pregood; eassumption).
  destruct Hp as (Hwp & Hrp & _).
  pose proof G4 as Gt. apply tight_concat in Gt as (Hne' & Htp & Hds).
  assert (Hcd : cd' = Some (w, h)) by (cbn [dsize] in G3, Hd; congruence).
  apply mapR_Forall2 in Eqs.
  assert (Hq : qs <> [] /\ Forall (fun q => dsize q = Some (iv_len xs, iv_len ys)) qs /\ Forall tight qs /\
               Forall2 keeps ps' qs).
  { split; [intros ->; inversion Eqs; subst; congruence|].
    clear -Eqs Htp Hds Hcd B1 B2 B3 B4. induction Eqs as [|p0 q ps0 qs Hpq F IH].
    - auto.
    - inversion Htp; inversion Hds; subst.
      destruct (recrop_kept p0 ys xs q w h) as (R1 & R2 & (a & b & E)); auto.
      destruct IH as (I1 & I2 & I3); auto. split; [|split]; constructor; auto.
      subst q. exact (keeps_refl p0). }
  destruct Hq as (Q1 & Q2 & Q3 & Q4).
  destruct (Hk p n Hwp Hrp (mkConcat_tight _ _ Q1 Q3 Hpu) H) as (K1 & K2 & K3).
  split; [rewrite K1, (mkConcat_dsize _ _ _ Q1 Q2 Hpu); reflexivity|]. split; [exact K2|].
  eapply keeps_trans; [exact G5|]. eapply keeps_trans; [|exact K3]. eapply keeps_mkConcat; eassumption.
Qed.

Lemma opt_crop_kept opt s1 ys xs ci d nm nc n : opt_good opt -> opt_kept opt ->
  wf (Crop s1 ys xs ci d nm nc) -> ov_free s1 -> nf s1 -> nanP s1 ->
  tight (Crop s1 ys xs ci d nm nc) ->
  opt_crop opt s1 ys xs ci d nm nc = Ok n -> kept (Crop s1 ys xs ci d nm nc) n.
Proof.
  intros Hopt Hk Hw Hr Hnf Hnan Ht H. unfold opt_crop in H. apply bind_ok in H as (c1 & Hc1 & H).
  assert (Hrt : ov_free (Crop s1 ys xs ci d nm nc)) by exact Hr.
  assert (Hf : exists s ys' xs' ci' d' nm' nc', c1 = Crop s ys' xs' ci' d' nm' nc' /\
     wf c1 /\ ov_free c1 /\ kept (Crop s1 ys xs ci d nm nc) c1 /\
     (c1 = Crop s1 ys xs ci d nm nc /\ s = s1 \/
      hd s <> HConcat /\ hd s <> HCrop /\ hd s <> HDeq /\ forall l, s = Leaf l -> is_nans l = false)).
  { destruct s1 as [l|ps d0|s ys1 xs1 ci1 d0 nm0 nc0|s M1 d0 al0|s q0 d0|s k d0];
      try (injection Hc1 as <-; eexists _, _, _, _, _, _, _; split; [reflexivity|];
           split; [exact Hw|]; split; [exact Hrt|]; split; [now apply kept_refl|]; left; auto).
    pose proof (fuse_crops_pregood ROvFree _ _ _ _ _ _ _ _ _ _ _ _ _ _ Hw Hrt Hc1) as (Hw1 & Hr1 & _).
    pose proof (fuse_crops_kept _ _ _ _ _ _ _ _ _ _ _ _ _ _ Ht Hc1) as Hkp.
    unfold fuse_crops in Hc1. apply bind_ok in Hc1 as (nci & _ & Hc1).
    apply mkCrop_shape in Hc1 as (w & h & ys' & xs' & nm' & nc' & _ & -> & _).
    cbn [nf] in Hnf. destruct Hnf as (N1 & N2 & N3 & N4).
    eexists _, _, _, _, _, _, _. split; [reflexivity|]. split; [exact Hw1|]. split; [exact Hr1|].
    split; [exact Hkp|]. right. split; [exact N2|]. split; [exact N3|]. split; [exact N4|].
    intros l ->. exact (proj1 Hnan). }
  destruct Hf as (s & ys' & xs' & ci' & d' & nm' & nc' & -> & Hw1 & Hr1 & Hkp & Hor).
  destruct s as [l|ps d0|s ys1 xs1 ci1 d0 nm0 nc0|s M1 d0 al0|s q0 d0|s k d0].
  - destruct (is_nans l) eqn:En.
    + destruct Hor as [[E E']|(_ & _ & _ & Hl)]; [|rewrite (Hl _ eq_refl) in En; discriminate].
      injection E as <- -> -> -> -> -> ->.
      destruct Ht as (Htl & Hci & -> & w & h & Hd & B1 & B2 & B3 & B4).
      unfold nans_crop in H. apply bind_ok in H as (nm' & _ & H).
      apply bind_ok in H as ([dy ey] & Hy & H). apply bind_ok in H as ([dx ex] & Hx & H). injection H as <-.
      unfold embed_axis in Hx, Hy. difH Hx Ex; [discriminate|]. difH Hy Ey; [discriminate|].
      injection Hx as <- <-. injection Hy as <- <-. cbn [dsize] in Hd.
      injection Hd as Hd. rewrite Hd. cbn [fst snd].
      split; [|split; [|split; [intros P _ _; exact I|]]]; cbn; unfold iv_len; cbn [fst snd].
      3: { unfold is_nans in En. intros P. destruct (l_kind l); [discriminate|auto]. }
      * do 2 f_equal; lia.
      * lia.
    + injection H as <-. exact Hkp.
  - destruct Hor as [[E E']|(Hx & _)]; [|cbn in Hx; congruence].
    subst s1. injection E as -> -> -> -> -> ->. eapply crop_concat_kept; eassumption.
  - exfalso. destruct Hor as [[_ <-]|(_ & Hx & _)]; [|cbn in Hx; congruence].
    unfold fuse_crops in Hc1. apply bind_ok in Hc1 as (nci & _ & Hc1).
    apply mkCrop_shape in Hc1 as (w & h & ? & ? & ? & ? & _ & E & _). injection E as E.
    destruct Hnf as (_ & _ & Hn & _). rewrite <- E in Hn. cbn in Hn. congruence.
  - destruct (al_nearest al0) eqn:Enear; [injection H as <-; exact Hkp|].
    apply bind_ok in H as (w & Hwac & H). destruct w as [[c T]|]; [|injection H as <-; exact Hkp].
    apply bind_ok in H as (n' & Hn' & H).
    assert (Hp2 : pregood ROvFree (Crop (Warp s M1 d0 al0) ys' xs' ci' d' nm' nc') (Warp c T d' (drop_backend al0)))
      by (eapply warp_after_crop_pregood; eassumption).
    destruct Hp2 as (Hw2 & Hr2 & _).
    pose proof (warp_after_crop_kept _ _ _ _ _ _ _ _ _ _ _ _ (proj1 (proj2 Hkp)) Enear Hwac) as Hk2.
    destruct (Hopt ROvFree _ _ Hw2 Hr2 Hn') as (_ & Hnf' & _).
    apply crop_tail_nf in H; [|exact Hnf']. subst n'.
    eapply kept_trans; [exact Hkp|]. eapply kept_trans; [exact Hk2|]. apply Hk; auto. exact (proj1 (proj2 Hk2)).
  - destruct Hor as [[E E']|(_ & _ & Hx & _)]; [|cbn in Hx; congruence].
    subst s1. injection E as -> -> -> -> -> ->.
    apply bind_ok in H as (n' & Hn' & H).
    assert (Hp2 : pregood ROvFree (Crop (Dequant s q0 d0) ys xs ci d nm nc) (Dequant (Crop s ys xs ci d nm nc) q0 (Some d)))
      by (apply dequant_after_crop_pregood; assumption).
    destruct Hp2 as (Hw2 & Hr2 & _).
    destruct (Hopt ROvFree _ _ Hw2 Hr2 Hn') as (_ & Hnf' & _).
    apply crop_tail_nf in H; [|exact Hnf']. subst n'.
    assert (Hk2 : kept (Crop (Dequant s q0 d0) ys xs ci d nm nc) (Dequant (Crop s ys xs ci d nm nc) q0 (Some d))).
    { destruct Ht as ((Ht & Hd0) & Hci & Hd & w & h & Hds & B). split; [reflexivity|]. split; [|exact (keeps_refl s)].
      cbn [tight dsize]. split; [|reflexivity]. split; [exact Ht|]. split; [exact Hci|]. split; [exact Hd|].
      exists w, h. split; [|exact B]. rewrite Hd0 in Hds. cbn in Hds. now destruct (dsize s). }
    eapply kept_trans; [exact Hk2|]. apply Hk; auto. exact (proj1 (proj2 Hk2)).
  - contradiction.
Qed.

Theorem optimize_kept o : forall fuel t t' b, wf t -> ov_free t -> tight t ->
  optimize o fuel t = Ok (t', b) -> kept t t'.
Proof.
  induction fuel as [|f IH]; intros t t' b Hw Hr Ht H; [discriminate|].
  assert (Hk : opt_kept (fun t => rmap fst (optimize o f t))).
  { intros t0 t0' Hw0 Hr0 Ht0 H0. destruct (optimize o f t0) as [[t1 b1]|] eqn:E; [|discriminate].
    injection H0 as <-. eapply IH; eassumption. }
  assert (Hopt : opt_good (fun t => rmap fst (optimize o f t))).
  { intros r0 t0 t0' Hw0 Hr0 H0. destruct (optimize o f t0) as [[t1 b1]|] eqn:E; [|discriminate].
    injection H0 as <-. eapply optimize_good; eassumption. }
  set (opt := fun t => rmap fst (optimize o f t)) in *.
  destruct t as [l|ps d|s ys xs ci d nm nc|s M d al|s q d|s k d]; cbn [optimize] in H; fold opt in H.
  - injection H as <- <-. now apply kept_refl.
  - apply bind_ok in H as (res & Hres & H).
    destruct (forallb snd res); [injection H as <- <-; now apply kept_refl|].
    destruct (mkConcat (map fst res)) as [n|] eqn:En; injection H as <- <-; [|now apply kept_refl].
    apply wf_concat in Hw as (Hw & _ & _). apply (reg_concat ROvFree) in Hr. apply tight_concat in Ht as (Hne & Ht & Hd).
    apply mapR_Forall2 in Hres.
    assert (Hall : Forall2 kept ps (map fst res)).
    { clear -IH Hres Hw Hr Ht. induction Hres as [|p [q bq] ps res Hpq F IHF]; cbn; constructor.
      - inversion Hw; inversion Hr; inversion Ht; subst. eapply IH; eassumption.
      - inversion Hw; inversion Hr; inversion Ht; subst. auto. }
    assert (Hq : map fst res <> [] /\ Forall (fun q => dsize q = d) (map fst res) /\ Forall tight (map fst res) /\
               Forall2 keeps ps (map fst res)).
    { split; [intros E; rewrite E in Hall; inversion Hall; subst; congruence|].
      clear -Hall Hd. revert Hd. induction Hall as [|p q ps qs (K1 & K2 & K3) F IHF]; intros Hd.
      - auto.
      - inversion Hd; subst. destruct IHF as (I1 & I2 & I3); [assumption|].
        split; [constructor; auto|]. split; constructor; auto. }
    destruct Hq as (Q1 & Q2 & Q3 & Q4).
    split; [exact (mkConcat_dsize _ _ _ Q1 Q2 En)|]. split; [eapply mkConcat_tight; eassumption|].
    eapply keeps_mkConcat; eassumption.
  - apply bind_ok in H as (s1 & Hs1 & H). apply bind_ok in H as (n & Hn & H). injection H as <- <-.
    pose proof (Hopt ROvFree s s1 ltac:(apply Hw) Hr Hs1) as (Hp & Hnf & Hnan).
    pose proof (pregood_crop ROvFree s s1 ys xs ci d nm nc Hw Hp) as (Hw1 & Hr1 & _).
    pose proof (Hk s s1 ltac:(apply Hw) Hr ltac:(apply Ht) Hs1) as Hks.
    pose proof (kept_crop s s1 ys xs ci d nm nc Ht Hks) as Hkc.
    eapply kept_trans; [exact Hkc|]. eapply opt_crop_kept; try eassumption. apply Hkc.
  - apply bind_ok in H as (s1 & Hs1 & H). apply bind_ok in H as (n & Hn & H). injection H as <- <-.
    cbn [ov_free] in Hr. destruct Hw as [Hws He]. destruct Ht as [Hts Hd].
    pose proof (Hopt ROvLess s s1 Hws Hr Hs1) as ((Hw1 & Hr1 & _) & Hnf & Hnan).
    destruct (Hk s s1 Hws (ov_less_free _ Hr) Hts Hs1) as (K1 & K2 & K3).
    assert (G : kept (Warp s1 M d al) n).
    { eapply opt_warp_kept; try eassumption; cbn; auto. }
    destruct G as (G1 & G2 & G3). split; [exact G1|]. split; [exact G2|]. split.
    + intros P HP [Hp1 Hp2]. apply (proj1 G3 P HP). split; [now rewrite K1|]. exact (proj1 K3 P HP Hp2).
    + intros P Hp. apply (proj2 G3). exact (proj2 K3 P Hp).
  - apply bind_ok in H as (s1 & Hs1 & H). apply bind_ok in H as (n & Hn & H). injection H as <- <-.
    destruct Ht as [Hts ->].
    pose proof (Hopt ROvFree s s1 Hw Hr Hs1) as ((Hw1 & Hr1 & _) & Hnf & Hnan).
    destruct (Hk s s1 Hw Hr Hts Hs1) as (K1 & K2 & K3).
    assert (G : kept (Dequant s1 q (dsize s)) n).
    { eapply opt_dequant_kept; try eassumption. cbn. auto. }
    destruct G as (G1 & G2 & G3). split; [|split; [exact G2|exact (keeps_trans s s1 n K3 G3)]].
    rewrite G1. cbn. rewrite <- K1. reflexivity.
  - contradiction.
Qed.

(** ** Trees built through the API *)

Lemma made_ok t : made t -> wf t /\ tight t.
Proof.
  revert t. fix IH 2. intros t Hb.
  destruct Hb as [l Hl Hd|ps t Hps Hne H|s sl t Hs H|s sl l t Hs Hl Hi H|s q Hs|s l t Hs Hl Hi H|s M d al Hs He Hd|s k t Hs H].
  - cbn. auto.
  - assert (Hall : Forall (fun p => wf p /\ tight p) ps).
    { clear H Hne. induction Hps; constructor; auto. }
    rewrite Forall_forall in Hall. split.
    + eapply mkConcat_wf; [|exact H]. apply Forall_forall. intros p Hp. now apply Hall.
    + eapply mkConcat_tight; [exact Hne| |exact H]. apply Forall_forall. intros p Hp. now apply Hall.
  - destruct (IH s Hs) as (Hw & Ht). destruct (wf_nc _ Hw) as (m & Hm).
    destruct (mkCrop_spec s sl None t m Hw Hm I H) as (_ & _ & _ & _ & _ & _ & _ & _ & Hwt & _).
    split; [exact Hwt|]. eapply mkCrop_tight; [exact Ht| |exact H]; congruence.
  - destruct (IH s Hs) as (Hw & Ht). destruct (wf_nc _ Hw) as (m & Hm).
    destruct (mkCrop_spec s sl (Some l) t m Hw Hm Hi H) as (_ & _ & _ & _ & _ & _ & _ & _ & Hwt & _).
    split; [exact Hwt|]. eapply mkCrop_tight; [exact Ht| |exact H]; congruence.
  - destruct (IH s Hs) as (Hw & Ht). cbn. auto.
  - destruct (IH s Hs) as (Hw & Ht). destruct (wf_nc _ Hw) as (m & Hm).
    destruct (take_idx_takes _ _ _ _ Hw Hm (Hi _ Hm) H) as (T1 & _).
    split; [exact T1|]. eapply take_idx_tight; eassumption.
  - destruct (IH s Hs) as (Hw & Ht). cbn. auto.
  - destruct (IH s Hs) as (Hw & Ht). unfold mkOverview in H. destruct (dsize s) as [sz|] eqn:Ed; [|discriminate].
    injection H as <-. cbn. split; [exact Hw|]. split; [exact Ht|]. eauto.
Qed.

Lemma built_ok t : built t -> wf t /\ tight t /\ exact t.
Proof. intros [Hm He]. destruct (made_ok t Hm). auto. Qed.
