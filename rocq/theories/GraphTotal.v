(* optimize() terminates without an error on trees of exact operations, its
   result is canonical, and canonical trees are left alone. *)
From Verif Require Import Py PyProofs GeomModel GeomProofs GraphModel GraphSpec GraphBase GraphTake GraphOpt GraphMain GraphSound GraphSize.
From Coq Require Import ZifyBool.
Local Open Scope Z_scope.

(** ** More fuel does not change the result *)

Definition le_opt (f g : node -> result node) : Prop := forall t n, f t = Ok n -> g t = Ok n.

Lemma push_tail_mono f g t n : le_opt f g -> push_tail f t = Ok n -> push_tail g t = Ok n.
Proof.
  intros Hle H. unfold push_tail in *. apply bind_ok in H as (sd & Hsd & H). rewrite Hsd. cbn [bind].
  destruct sd as [[]|]; try exact H. apply bind_ok in H as (p & Hp & H). rewrite Hp. cbn [bind].
  destruct p; auto.
Qed.

Lemma crop_tail_mono f g t n : le_opt f g -> crop_tail f t = Ok n -> crop_tail g t = Ok n.
Proof.
  intros Hle H. pose proof (push_tail_mono f g t n Hle) as Hp.
  destruct t as [l|ps d0|s ys xs ci d0 nm nc|s M1 d0 al0|s q0 d0|s k d0]; auto.
  destruct s as [l|ps d1|s ys1 xs1 ci1 d1 nm1 nc1|s M1 d1 al1|s q1 d1|s k d1]; auto.
  cbn [crop_tail] in *. apply bind_ok in H as (tk & Htk & H). apply bind_ok in H as (c & Hc & H).
  apply bind_ok in H as (p & Hpu & H).
  assert (Htk' : (match ci with
            | None => Ok (Concat ps d1)
            | Some l => t' <- take_idx (Concat ps d1) l;; g t'
            end) = Ok tk).
  { destruct ci; [|exact Htk]. apply bind_ok in Htk as (t' & Ht' & Htk). rewrite Ht'. cbn [bind]. auto. }
  rewrite Htk'. cbn [bind]. rewrite Hc. cbn [bind]. rewrite Hpu. cbn [bind]. auto.
Qed.

Lemma opt_sub_mono f g t n : le_opt f g -> opt_sub f t = Ok n -> opt_sub g t = Ok n.
Proof.
  intros Hle H. destruct t; cbn [opt_sub] in *; try discriminate;
    apply bind_ok in H as (s' & Hs & H); rewrite (Hle _ _ Hs); exact H.
Qed.

Lemma split_warp_mono o f g s M d al n : le_opt f g -> split_warp o f s M d al = Ok n ->
  split_warp o g s M d al = Ok n.
Proof.
  intros Hle H. unfold split_warp in *. apply bind_ok in H as (no & Hno & H). rewrite Hno. cbn [bind].
  destruct no as [no|]; [|exact H]. destruct (no =? 0); [exact H|].
  apply bind_ok in H as (lv & Hlv & H). rewrite Hlv. cbn [bind]. destruct lv as [lv|]; [|exact H].
  cbv zeta in *. destruct (Z.min no lv =? 0); [exact H|].
  apply bind_ok in H as (R & HR & H). rewrite HR. cbn [bind].
  apply bind_ok in H as (ov & Hov & H). rewrite Hov. cbn [bind]. destruct (is_identity R); [|exact H].
  destruct (opt_size_eqb (dsize ov) (Some d)); [exact H|].
  apply bind_ok in H as (c & Hc & H). rewrite Hc. cbn [bind]. destruct (f c) eqn:E; [|discriminate].
  now rewrite (Hle _ _ E).
Qed.

Lemma opt_warp_mono o f g s M d al n : le_opt f g -> opt_warp o f s M d al = Ok n ->
  opt_warp o g s M d al = Ok n.
Proof.
  intros Hle H. unfold opt_warp in *.
  destruct (match s with Warp s2 M1 _ _ => (s2, aff_mul M M1, drop_backend al) | _ => (s, M, al) end) as [[s' M'] al'].
  cbv zeta in *. destruct (opt_size_eqb (Some d) (dsize s') && close_identity (al_eps al') M')%bool; [exact H|].
  assert (Ho : (sp <- split_warp o f s' M' d al';;
     match sp with Some n => n' <- opt_sub f n;; f n' | None => absorb o s' M' d al' end) = Ok n ->
    (sp <- split_warp o g s' M' d al';;
     match sp with Some n => n' <- opt_sub g n;; g n' | None => absorb o s' M' d al' end) = Ok n).
  { intros G. apply bind_ok in G as (sp & Hsp & G). rewrite (split_warp_mono _ _ _ _ _ _ _ _ Hle Hsp). cbn [bind].
    destruct sp; [|exact G]. apply bind_ok in G as (n' & Hn' & G). rewrite (opt_sub_mono _ _ _ _ Hle Hn'). cbn [bind]. auto. }
  destruct s'; auto. - destruct (is_nans l); auto. - eapply push_tail_mono; eassumption.
Qed.

Lemma opt_dequant_mono f g s q d n : le_opt f g -> opt_dequant f s q d = Ok n -> opt_dequant g s q d = Ok n.
Proof.
  intros Hle H. unfold opt_dequant in *. destruct s; try discriminate; try (eapply push_tail_mono; eassumption).
  apply bind_ok in H as (n' & Hn' & H). rewrite (Hle _ _ Hn'). cbn [bind]. eapply push_tail_mono; eassumption.
Qed.

Lemma opt_crop_mono f g s ys xs ci d nm nc n : le_opt f g -> opt_crop f s ys xs ci d nm nc = Ok n ->
  opt_crop g s ys xs ci d nm nc = Ok n.
Proof.
  intros Hle H. unfold opt_crop in *. apply bind_ok in H as (c1 & Hc1 & H). rewrite Hc1. cbn [bind].
  assert (Hx : crop_tail f c1 = Ok n -> crop_tail g c1 = Ok n) by (apply crop_tail_mono; exact Hle).
  destruct c1 as [l|ps d0|s1 ys1 xs1 ci1 d1 nm1 nc1|s1 M1 d0 al0|s1 q0 d0|s1 k d0]; auto.
  destruct s1 as [l|ps d0|s2 ys2 xs2 ci2 d2 nm2 nc2|s2 M1 d0 al0|s2 q0 d0|s2 k d0]; auto.
  - destruct (al_nearest al0); [exact H|]. apply bind_ok in H as (r & Hr & H). rewrite Hr. cbn [bind].
    destruct r as [[c T]|]; [|exact H]. apply bind_ok in H as (n' & Hn' & H). rewrite (Hle _ _ Hn'). cbn [bind].
    eapply crop_tail_mono; eassumption.
  - apply bind_ok in H as (n' & Hn' & H). rewrite (Hle _ _ Hn'). cbn [bind]. eapply crop_tail_mono; eassumption.
Qed.

Lemma opt_overview_mono f g s k d n : le_opt f g -> opt_overview f s k d = Ok n -> opt_overview g s k d = Ok n.
Proof.
  intros Hle H. unfold opt_overview in *. apply bind_ok in H as (o1 & Ho1 & H). rewrite Ho1. cbn [bind].
  destruct o1 as [l|ps d0|s1 ys1 xs1 ci1 d1 nm1 nc1|s1 M1 d0 al0|s1 q0 d0|s1 k0 d0]; try discriminate.
  destruct (k0 =? 0); [eapply push_tail_mono; eassumption|].
  destruct s1 as [l|ps d1|s2 ys2 xs2 ci2 d2 nm2 nc2|s2 M1 d1 al0|s2 q0 d1|s2 k2 d1];
    try (eapply push_tail_mono; eassumption).
  - apply bind_ok in H as (n1 & Hn1 & H). rewrite Hn1. cbn [bind]. apply bind_ok in H as (n' & Hn' & H).
    rewrite (Hle _ _ Hn'). cbn [bind]. eapply push_tail_mono; eassumption.
  - apply bind_ok in H as (n1 & Hn1 & H). rewrite Hn1. cbn [bind]. apply bind_ok in H as (n' & Hn' & H).
    rewrite (Hle _ _ Hn'). cbn [bind]. eapply push_tail_mono; eassumption.
  - apply bind_ok in H as (n' & Hn' & H). rewrite (Hle _ _ Hn'). cbn [bind]. eapply push_tail_mono; eassumption.
Qed.

Lemma optimize_S o f t r : optimize o f t = Ok r -> optimize o (S f) t = Ok r.
Proof.
  revert t r. induction f as [|f IH]; intros t r H; [discriminate|].
  assert (Hle : le_opt (fun t => rmap fst (optimize o f t)) (fun t => rmap fst (optimize o (S f) t))).
  { intros t0 n0 H0. destruct (optimize o f t0) as [[a b]|] eqn:E; [|discriminate]. now rewrite (IH _ _ E). }
  remember (S f) as g eqn:Eg.
  destruct t as [l|ps d|s ys xs ci d nm nc|s M d al|s q d|s k d]; rewrite Eg in H; cbn [optimize] in H |- *; cbv zeta in *.
  - exact H.
  - apply bind_ok in H as (rs & Hrs & H).
    assert (Hrs' : mapR (optimize o g) ps = Ok rs).
    { clear -Hrs IH. revert rs Hrs. induction ps as [|p ps IHps]; intros rs Hrs; [exact Hrs|].
      cbn [mapR] in *. apply bind_ok in Hrs as (x & Hx & Hrs). apply bind_ok in Hrs as (y & Hy & Hrs).
      rewrite (IH _ _ Hx). cbn [bind]. rewrite (IHps _ Hy). exact Hrs. }
    rewrite Hrs'. exact H.
  - apply bind_ok in H as (s1 & Hs1 & H). apply bind_ok in H as (n & Hn & H). rewrite (Hle _ _ Hs1). cbn [bind].
    now rewrite (opt_crop_mono _ _ _ _ _ _ _ _ _ _ Hle Hn).
  - apply bind_ok in H as (s1 & Hs1 & H). apply bind_ok in H as (n & Hn & H). rewrite (Hle _ _ Hs1). cbn [bind].
    now rewrite (opt_warp_mono _ _ _ _ _ _ _ _ Hle Hn).
  - apply bind_ok in H as (s1 & Hs1 & H). apply bind_ok in H as (n & Hn & H). rewrite (Hle _ _ Hs1). cbn [bind].
    now rewrite (opt_dequant_mono _ _ _ _ _ _ Hle Hn).
  - apply bind_ok in H as (s1 & Hs1 & H). apply bind_ok in H as (n & Hn & H). rewrite (Hle _ _ Hs1). cbn [bind].
    now rewrite (opt_overview_mono _ _ _ _ _ _ Hle Hn).
Qed.

Lemma optimize_mono o f g t r : (f <= g)%nat -> optimize o f t = Ok r -> optimize o g t = Ok r.
Proof. intros Hle H. induction Hle; [exact H|]. now apply optimize_S. Qed.

Lemma optimize_det o f g t r r' : optimize o f t = Ok r -> optimize o g t = Ok r' -> r = r'.
Proof.
  intros H G. destruct (Nat.le_ge_cases f g) as [L|L].
  - apply (optimize_mono _ _ _ _ _ L) in H. congruence.
  - apply (optimize_mono _ _ _ _ _ L) in G. congruence.
Qed.

(** ** optimize() without fuel *)

Definition O (o : oracle) (f : nat) : node -> result node := fun t => rmap fst (optimize o f t).

Notation opts := optimizes.

Lemma le_O o f g : (f <= g)%nat -> le_opt (O o f) (O o g).
Proof.
  intros L t n H. unfold O in *. destruct (optimize o f t) as [[a b]|] eqn:E; [|discriminate].
  now rewrite (optimize_mono _ _ _ _ _ L E).
Qed.

Lemma opts_O o t n : opts o t n -> exists f, O o f t = Ok n.
Proof. intros (f & b & H). exists f. unfold O. now rewrite H. Qed.

Lemma O_opts o f t n : O o f t = Ok n -> opts o t n.
Proof. unfold O. destruct (optimize o f t) as [[a b]|] eqn:E; [|discriminate]. intros [= <-]. exists f, b. exact E. Qed.

Lemma opts_good o r t n : wf t -> reg r t -> opts o t n -> good r t n.
Proof. intros Hw Hr (f & b & H). eapply optimize_good; eassumption. Qed.

Lemma opts_kept o t n : wf t -> ov_free t -> tight t -> opts o t n -> kept t n.
Proof. intros Hw Hr Ht (f & b & H). eapply optimize_kept; eassumption. Qed.

Lemma opts_crop o s s1 ys xs ci d nm nc n f : opts o s s1 -> opt_crop (O o f) s1 ys xs ci d nm nc = Ok n ->
  opts o (Crop s ys xs ci d nm nc) n.
Proof.
  intros Hs H. apply opts_O in Hs as (g & Hs). exists (S (Nat.max f g)), false. cbn [optimize].
  change (fun t => rmap fst (optimize o (Nat.max f g) t)) with (O o (Nat.max f g)).
  change (rmap fst (optimize o (Nat.max f g) s)) with (O o (Nat.max f g) s).
  rewrite (le_O o g (Nat.max f g) ltac:(lia) _ _ Hs). cbn [bind].
  now rewrite (opt_crop_mono _ _ _ _ _ _ _ _ _ _ (le_O o f (Nat.max f g) ltac:(lia)) H).
Qed.

Lemma opts_dequant o s s1 q d n f : opts o s s1 -> opt_dequant (O o f) s1 q d = Ok n ->
  opts o (Dequant s q d) n.
Proof.
  intros Hs H. apply opts_O in Hs as (g & Hs). exists (S (Nat.max f g)), false. cbn [optimize].
  change (fun t => rmap fst (optimize o (Nat.max f g) t)) with (O o (Nat.max f g)).
  change (rmap fst (optimize o (Nat.max f g) s)) with (O o (Nat.max f g) s).
  rewrite (le_O o g (Nat.max f g) ltac:(lia) _ _ Hs). cbn [bind].
  now rewrite (opt_dequant_mono _ _ _ _ _ _ (le_O o f (Nat.max f g) ltac:(lia)) H).
Qed.

Lemma opts_leaf o l : opts o (Leaf l) (Leaf l).
Proof. exists 1%nat, true. reflexivity. Qed.

Lemma optimize_same o f t n : optimize o f t = Ok (n, true) -> n = t.
Proof.
  destruct f; [discriminate|]. destruct t; cbn [optimize]; intros H.
  - congruence.
  - apply bind_ok in H as (r & Hr & H). destruct (forallb snd r); [congruence|]. destruct (mkConcat (map fst r)); congruence.
  - apply bind_ok in H as (? & ? & H). apply bind_ok in H as (? & ? & H). congruence.
  - apply bind_ok in H as (? & ? & H). apply bind_ok in H as (? & ? & H). congruence.
  - apply bind_ok in H as (? & ? & H). apply bind_ok in H as (? & ? & H). congruence.
  - apply bind_ok in H as (? & ? & H). apply bind_ok in H as (? & ? & H). congruence.
Qed.

Lemma opts_concat o ps qs d n : wf (Concat ps d) -> ps <> [] -> Forall2 (opts o) ps qs -> mkConcat qs = Some n ->
  opts o (Concat ps d) n.
Proof.
  intros Hw Hne F Hn.
  assert (G : exists f rs, mapR (optimize o f) ps = Ok rs /\ map fst rs = qs).
  { clear Hn Hw Hne. induction F as [|p q ps qs (g & b & Hg) F (f & rs & Hf & IH)]; [exists 0%nat, []; auto|].
    exists (Nat.max f g), ((q, b) :: rs). cbn [mapR map fst]. split; [|congruence].
    rewrite (optimize_mono o g (Nat.max f g) p _ ltac:(lia) Hg). cbn [bind].
    assert (H : mapR (optimize o (Nat.max f g)) ps = Ok rs).
    { clear -Hf. assert (L : (f <= Nat.max f g)%nat) by lia. revert L. generalize (Nat.max f g) as h. intros h L.
      revert rs Hf. induction ps as [|p ps IH]; intros rs H; [exact H|]. cbn [mapR] in *.
      apply bind_ok in H as (x & Hx & H). apply bind_ok in H as (y & Hy & H).
      rewrite (optimize_mono _ _ _ _ _ L Hx). cbn [bind]. rewrite (IH _ Hy). exact H. }
    rewrite H. reflexivity. }
  destruct G as (f & rs & Hf & Hrs). exists (S f). cbn [optimize]. rewrite Hf. cbn [bind].
  destruct (forallb snd rs) eqn:E.
  - exists true. do 2 f_equal. apply mapR_Forall2 in Hf.
    assert (qs = ps).
    { rewrite <- Hrs. clear -Hf E. induction Hf as [|p [q b] ps rs Hp F IH]; [reflexivity|].
      cbn in E |- *. apply andb_prop in E as [-> E]. apply optimize_same in Hp. f_equal; auto. }
    subst qs. rewrite H in Hn. apply wf_concat in Hw as (_ & Hd & _). apply mkConcat_spec in Hn as (d' & -> & Hd' & _).
    destruct ps; [congruence|]. inversion Hd; inversion Hd'; subst. congruence.
  - exists false. now rewrite Hrs, Hn.
Qed.

(** ** Canonical trees of exact operations *)

(* a leaf, at most one crop of it, at most one dequantization *)
Definition cropped_leaf (t : node) : Prop :=
  match t with
  | Leaf _ => True
  | Crop (Leaf l) _ _ _ _ _ _ => is_nans l = false
  | _ => False
  end.

Definition atom (t : node) : Prop :=
  match t with Dequant s _ _ => cropped_leaf s | _ => cropped_leaf t end.

(* [k] bounds the nesting of concatenations *)
Fixpoint canon (k : nat) (t : node) : Prop :=
  atom t \/
  match k, t with
  | S k', Concat ps _ => forall_parts (canon k') ps
  | _, _ => False
  end.

Lemma canon_atom k t : atom t -> canon k t.
Proof. destruct k; cbn; auto. Qed.

Lemma canon_concat k ps d : canon (S k) (Concat ps d) <-> Forall (canon k) ps.
Proof.
  change (canon (S k) (Concat ps d)) with (False \/ forall_parts (canon k) ps). rewrite forall_parts_Forall. tauto.
Qed.

Lemma canon_cases k t : canon k t -> atom t \/ exists k' ps d, k = S k' /\ t = Concat ps d /\ Forall (canon k') ps.
Proof.
  destruct k; cbn [canon]; [tauto|]. intros [H|H]; [auto|]. destruct t; try contradiction.
  right. exists k, parts, dsize. rewrite forall_parts_Forall in H. auto.
Qed.

Lemma canon_S k t : canon k t -> canon (S k) t.
Proof.
  revert t. induction k as [|k IH]; intros t H; apply canon_cases in H as [H|(k' & ps & d & Ek & -> & H)];
    try (now apply canon_atom).
  injection Ek as <-. apply canon_concat. rewrite Forall_forall in *. auto.
Qed.

Lemma canon_le k m t : (k <= m)%nat -> canon k t -> canon m t.
Proof. intros L H. induction L; [exact H|]. now apply canon_S. Qed.

Lemma cropped_leaf_opts o t : cropped_leaf t -> opts o t t.
Proof.
  destruct t as [l|ps d0|s ys xs ci d0 nm nc|s M1 d0 al0|s q0 d0|s k0 d0]; try contradiction.
  - intros _. apply opts_leaf.
  - destruct s; try contradiction. cbn. intros H. eapply (opts_crop _ _ _ _ _ _ _ _ _ _ 0); [apply opts_leaf|].
    cbn. now rewrite H.
Qed.

Lemma cropped_leaf_dequant f t q d : cropped_leaf t -> opt_dequant f t q d = Ok (Dequant t q d).
Proof. destruct t; try contradiction; [reflexivity|]. destruct t; try contradiction. reflexivity. Qed.

Lemma atom_opts o t : atom t -> opts o t t.
Proof.
  destruct t; try apply cropped_leaf_opts. cbn. intros H.
  eapply (opts_dequant _ _ _ _ _ _ 0); [apply cropped_leaf_opts; exact H|]. now apply cropped_leaf_dequant.
Qed.

Lemma canon_opts o k t : wf t -> tight t -> canon k t -> opts o t t.
Proof.
  revert t. induction k as [|k IH]; intros t Hw Ht H; apply canon_cases in H as [H|(k' & ps & d & Ek & -> & H)];
    try (now apply atom_opts).
  injection Ek as <-. pose proof Hw as Hw'. apply wf_concat in Hw' as (Hwp & Hdp & _).
  apply tight_concat in Ht as (Hne & Htp & _). eapply (opts_concat o ps ps); auto.
  - clear -IH H Hwp Htp. induction H; [constructor|]. inversion Hwp; inversion Htp; subst. constructor; auto.
  - apply mkConcat_spec. exists d. apply wf_concat in Hw. tauto.
Qed.

(** ** Cropping canonical trees *)

(* the crop constructor succeeds *)
Lemma mkCrop_total s sl ci w h n m : wf s -> tight s -> dsize s = Some (w, h) -> num_channels s = Some m ->
  (forall l, ci = Some l -> Forall (fun i => 0 <= i < m) l) -> 
  (forall sy sx, sl = Some (sy, sx) -> exists y x, wrap_clip h sy = Ok y /\ wrap_clip w sx = Ok x) ->
  names s = Some n -> exists c, mkCrop s sl ci = Ok c.
Proof.
  intros Hw Ht Hd Hm Hci Hsl Hnm. unfold mkCrop. rewrite Hd.
  assert (E : exists ys xs, (match sl with
                   | Some (ys, xs) => y <- wrap_clip h ys ;; x <- wrap_clip w xs ;; Ok (y, x)
                   | None => Ok ((0, h), (0, w))
                   end) = Ok (ys, xs)).
  { destruct sl as [[sy sx]|]; [|eauto]. destruct (Hsl sy sx eq_refl) as (y & x & -> & ->). cbn. eauto. }
  destruct E as (ys & xs & ->). cbn [bind]. destruct ci as [l|]; [|cbn; eauto]. rewrite Hnm.
  pose proof (wf_meta _ Hw) as (m' & Hm' & _ & Hl). assert (m' = m) by congruence. subst m'.
  destruct (select_total n l) as (n' & Hn').
  { rewrite (Hl _ Hnm). apply Hci. reflexivity. }
  rewrite Hn'. cbn. eauto.
Qed.

Definition nice (t : node) : Prop := wf t /\ tight t /\ exact t /\ names t <> None.

Lemma nice_opts o t n : nice t -> opts o t n -> nice n /\ dsize n = dsize t /\ names n = names t /\ num_channels n = num_channels t.
Proof.
  intros (Hw & Ht & He & Hn) Ho. pose proof (exact_ov_free _ He) as Hr.
  destruct (opts_good o ROvFree t n Hw Hr Ho) as ((Hw' & _ & Hnm & Hnc & _) & _).
  destruct (opts_kept o t n Hw Hr Ht Ho) as (Hd & Ht' & Hkp). pose proof (keeps_exact _ _ Hkp) as He'.
  split; [|auto]. split; [exact Hw'|]. split; [exact Ht'|]. split; [auto|]. congruence.
Qed.

Lemma nice_crop_sub s ys xs ci d nm nc : nice (Crop s ys xs ci d nm nc) -> nice s.
Proof.
  intros (Hw & Ht & He & Hn). split; [apply Hw|]. split; [apply Ht|]. split; [exact He|].
  intros E. destruct Hw as (_ & _ & _ & _ & Hci). cbn in Hn. rewrite E in *. destruct ci; [|destruct Hci as [-> ->]; congruence].
  destruct Hci as (_ & _ & ->). congruence.
Qed.

Lemma crop_cropped_leaf s ys xs ci d nm nc : cropped_leaf s -> nice (Crop s ys xs ci d nm nc) ->
  exists n, (forall f, opt_crop f s ys xs ci d nm nc = Ok n) /\ cropped_leaf n.
Proof.
  intros Hs Hnice. pose proof (nice_crop_sub _ _ _ _ _ _ _ Hnice) as (Hws & Hts & _ & Hns).
  destruct Hnice as (Hw & Ht & He & Hn). pose proof (wf_crop_ci _ _ _ _ _ _ _ Hw) as Hci.
  destruct Ht as (_ & Hne & -> & w & h & Hd & B1 & B2 & B3 & B4).
  destruct s as [l|ps d0|s1 ys1 xs1 ci1 d1 nm1 nc1|s1 M1 d0 al0|s1 q0 d0|s1 k0 d0]; try contradiction.
  - unfold opt_crop. cbn [bind]. destruct (is_nans l) eqn:El; [|eexists; split; [reflexivity|exact El]].
    cbn [names] in Hns. destruct (l_names l) as [nl|] eqn:Enl; [|congruence].
    assert (E : exists nm', (match ci with None => Ok (l_names l) | Some i => match l_names l with None => Err AssertionError | Some n => rmap Some (select_names n i) end end) = Ok nm').
    { destruct ci as [i|]; [|eauto]. rewrite Enl. destruct (select_total nl i) as (n' & ->).
      - destruct (wf_meta _ Hws) as (m & Hm & _ & Hl). rewrite (Hl nl Enl). apply Hci. exact Hm.
      - cbn. eauto. }
    destruct E as (nm' & E).
    destruct (embed_axis_total (snd (l_dsize l)) (fst ys) (snd ys) 0 ltac:(lia)) as (dy & ey & Ey).
    destruct (embed_axis_total (fst (l_dsize l)) (fst xs) (snd xs) 0 ltac:(lia)) as (dx & ex & Ex).
    eexists. split; [intros f; unfold nans_crop; rewrite E; cbn [bind]; rewrite Ey; cbn [bind]; rewrite Ex; cbn [bind]; reflexivity|].
    exact I.
  - destruct s1 as [l| | | | |]; try contradiction. cbn in Hs.
    destruct Hts as (Htl & Hne1 & -> & w1 & h1 & Hd1 & C1 & C2 & C3 & C4).
    cbn [dsize] in Hd. injection Hd as <- <-. 
    destruct (wf_nc (Leaf l) ltac:(apply Hws)) as (m & Hm).
    assert (Hf : exists nci, fuse_idxs ci1 ci = Ok nci).
    { unfold fuse_idxs. destruct ci as [oi|], ci1 as [ii|]; eauto.
      assert (R : Forall (fun i => 0 <= i < Z.of_nat (List.length ii)) oi).
      { apply Hci. rewrite (crop_nc _ _ _ _ _ _ _ Hws). reflexivity. }
      assert (G : exists r, mapR (py_get ii) oi = Ok r).
      { clear -R. induction R as [|i oi Hi F (r & IH)]; cbn; [eauto|].
        destruct (nth_error_in_range ii i Hi) as (a & Ha).
        unfold py_get at 1. destruct (i <? 0) eqn:Ei; [lia|]. cbv zeta. rewrite Ei, Ha. cbn. rewrite IH. cbn. eauto. }
      destruct G as (r & ->). cbn. eauto. }
    destruct Hf as (nci & Hf).
    assert (Hci1 : ci_ok (num_channels (Leaf l)) ci1) by (apply (wf_crop_ci _ _ _ _ _ _ _ Hws)).
    assert (Hci2 : ci_ok (sel_nc (num_channels (Leaf l)) ci1) ci) by (rewrite <- (crop_nc _ _ _ _ _ _ _ Hws); exact Hci).
    destruct (fuse_idxs_ok (Leaf l) ci1 ci nci m Hm Hci1 Hci2 Hf) as (Hnci & _).
    assert (Hnl : names (Leaf l) <> None).
    { intros En. rewrite (crop_names _ _ _ _ _ _ _ Hws), En in Hns. destruct ci1; cbn in Hns; congruence. }
    destruct (names (Leaf l)) as [nl|] eqn:Enl; [|congruence].
    destruct (mkCrop_total (Leaf l) (Some (fuse_axis ys1 ys, fuse_axis xs1 xs)) nci w1 h1 nl m) as (c & Hc).
    + apply Hws.
    + exact Htl.
    + exact Hd1.
    + exact Hm.
    + intros li ->. apply Hnci. exact Hm.
    + intros sy sx [= <- <-]. rewrite !fuse_axis_in by (unfold iv_len in *; lia). eauto.
    + exact Enl.
    + pose proof Hc as Hc'. apply mkCrop_shape in Hc' as (w' & h' & ys' & xs' & nm' & nc' & _ & -> & _).
      exists (Crop (Leaf l) ys' xs' nci (iv_len xs', iv_len ys') nm' nc'). split; [|exact Hs].
      intros f. unfold opt_crop, fuse_crops. rewrite Hf. cbn [bind]. rewrite Hc. cbn [bind]. now rewrite Hs.
Qed.

Lemma dq_free_cropped s : cropped_leaf s -> dq_free s.
Proof. destruct s; try contradiction; [intros; exact I|]. destruct s; try contradiction. intros; exact I. Qed.

Lemma crop_atom o s ys xs ci d nm nc : atom s -> nice (Crop s ys xs ci d nm nc) ->
  exists n, opts o (Crop s ys xs ci d nm nc) n /\ atom n /\ (dq_free s -> dq_free n).
Proof.
  intros Hs Hnice.
  assert (Hcl : cropped_leaf s -> exists n, opts o (Crop s ys xs ci d nm nc) n /\ atom n /\ (dq_free s -> dq_free n)).
  { intros H. destruct (crop_cropped_leaf _ _ _ _ _ _ _ H Hnice) as (n & Hn & Hcn).
    exists n. split; [|split].
    - eapply (opts_crop _ _ _ _ _ _ _ _ _ _ 0); [apply cropped_leaf_opts; exact H|]. apply Hn.
    - destruct n; try exact Hcn. contradiction.
    - intros _. now apply dq_free_cropped. }
  destruct s as [l|ps d0|s1 ys1 xs1 ci1 d1 nm1 nc1|s1 M1 d0 al0|s1 q0 d0|s1 k0 d0]; auto.
  clear Hcl. cbn in Hs.
  assert (Hi : nice (Crop s1 ys xs ci d nm nc)).
  { destruct Hnice as (Hw & ((Ht & ->) & Hne & Hd & w & h & Hds & B) & He & Hn).
    split; [exact Hw|]. split; [|split; [exact He|exact Hn]].
    cbn [tight]. split; [exact Ht|]. split; [exact Hne|]. split; [exact Hd|]. exists w, h. split; [|exact B].
    cbn in Hds. now destruct (dsize s1). }
  destruct (crop_cropped_leaf _ _ _ _ _ _ _ Hs Hi) as (n & Hn & Hcn).
  assert (Ho : opts o (Dequant (Crop s1 ys xs ci d nm nc) q0 (Some d)) (Dequant n q0 (Some d))).
  { eapply (opts_dequant _ _ n _ _ _ 0).
    - eapply (opts_crop _ _ s1 _ _ _ _ _ _ _ 0); [apply cropped_leaf_opts; exact Hs|]. apply Hn.
    - apply cropped_leaf_dequant. exact Hcn. }
  exists (Dequant n q0 (Some d)). split; [|split; [exact Hcn|intros []]].
  apply opts_O in Ho as (f & Hf).
  eapply (opts_crop _ _ (Dequant s1 q0 d0) _ _ _ _ _ _ _ f); [apply atom_opts; exact Hs|].
  unfold opt_crop. cbn [bind]. rewrite Hf. cbn [bind crop_tail]. unfold push_tail. cbn [subdata bind].
  destruct n; try reflexivity. contradiction.
Qed.

(** ** Selecting bands of canonical trees *)

Lemma unravel_total ps sizes : known_all (map num_channels ps) = Some sizes -> Forall meta_ok ps ->
  forall i pos, 0 <= i < fold_right Z.add 0 sizes -> exists p j, unravel sizes i pos = Ok (p, j).
Proof.
  revert sizes. induction ps as [|q ps IH]; cbn; intros sizes Hk Hm i pos Hi.
  - injection Hk as <-. cbn in Hi. lia.
  - destruct (num_channels q) as [n|] eqn:En; [|discriminate].
    destruct (known_all (map num_channels ps)) as [sz|] eqn:Ek; [|discriminate].
    injection Hk as <-. cbn in Hi |- *. inversion Hm; subst. destruct (i <? n) eqn:E.
    + destruct (i <? 0) eqn:E0; [lia|]. eauto.
    + apply IH; auto. lia.
Qed.

Lemma mapR_total {A B} (f : A -> result B) l : (forall a, In a l -> exists b, f a = Ok b) -> exists r, mapR f l = Ok r.
Proof.
  induction l as [|a l IH]; intros H; [exists []; reflexivity|].
  destruct (H a (or_introl eq_refl)) as (b & Hb). destruct IH as (r & Hr); [intros; apply H; now right|].
  exists (b :: r). cbn. rewrite Hb. cbn. now rewrite Hr.
Qed.

Lemma nice_concat ps d : nice (Concat ps d) -> Forall nice ps.
Proof.
  intros (Hw & Ht & He & Hn). apply wf_concat in Hw as (Hw & _). apply tight_concat in Ht as (_ & Ht & _).
  apply (exact_concat ps d) in He. cbn [names] in Hn.
  destruct (concat_opt (map names ps)) as [l|] eqn:E; [|congruence].
  rewrite Forall_forall in *. intros p Hp. split; [auto|]. split; [auto|]. split; [auto|].
  eapply concat_opt_known; [exact E|]. now apply in_map.
Qed.

Lemma concat_opt_total l : (forall o, In o l -> o <> None) -> exists r, concat_opt l = Some r.
Proof.
  induction l as [|[a|] l IH]; cbn; intros H; [eauto| |exfalso; now apply (H None); auto].
  destruct IH as (r & ->); [intros; apply H; auto|]. eauto.
Qed.

Lemma mkConcat_nice ps n : ps <> [] -> Forall nice ps -> mkConcat ps = Some n -> nice n.
Proof.
  intros Hne F H. assert (F1 : forall p, In p ps -> nice p) by (apply Forall_forall; exact F).
  split; [|split; [|split]].
  - eapply mkConcat_wf; [|exact H]. apply Forall_forall. intros p Hp. now apply F1.
  - eapply mkConcat_tight; [exact Hne| |exact H]. apply Forall_forall. intros p Hp. now apply F1.
  - eapply mkConcat_exact; [|exact H]. apply Forall_forall. intros p Hp. now apply F1.
  - apply mkConcat_spec in H as (d & -> & _). cbn [names].
    destruct (concat_opt_total (map names ps)) as (r & ->); [|discriminate].
    intros o Ho. apply in_map_iff in Ho as (p & <- & Hp). now apply F1.
Qed.

Lemma nice_take t idxs t' m : nice t -> num_channels t = Some m -> in_range m idxs -> idxs <> [] ->
  take_idx t idxs = Ok t' -> nice t' /\ dsize t' = dsize t.
Proof.
  intros (Hw & Ht & He & Hn) Hm Hr Hi H.
  destruct (take_idx_takes _ _ _ _ Hw Hm Hr H) as (T1 & _ & T3 & _ & T5 & _).
  split; [|auto]. split; [exact T1|]. split; [eapply take_idx_tight; eassumption|].
  split; [eapply take_idx_exact; eassumption|]. rewrite T3.
  destruct (names t) as [l|] eqn:E; [|congruence]. cbn. destruct (wf_meta _ Hw) as (m' & Hm' & _ & Hl).
  destruct (select_total l idxs) as (n' & ->); [|discriminate].
  rewrite (Hl _ E). assert (m' = m) by congruence. now subst.
Qed.

Lemma dq_free_concat ps d : dq_free (Concat ps d) <-> Forall dq_free ps.
Proof. cbn [dq_free]. now rewrite forall_parts_Forall. Qed.

Lemma take_canon o k : forall s idxs m, canon k s -> nice s -> num_channels s = Some m ->
  in_range m idxs -> idxs <> [] ->
  exists t' n, take_idx s idxs = Ok t' /\ opts o t' n /\ canon k n /\ (dq_free s -> dq_free n).
Proof.
  induction k as [|k IH]; intros s idxs m Hk Hnice Hm Hr Hi;
    apply canon_cases in Hk as [Hk|(k' & ps & d & Ek & -> & Hk)]; try discriminate.
  1,2: assert (Hti : take_idx s idxs = mkCrop s None (Some idxs)) by (destruct s; try contradiction; reflexivity);
    pose proof Hnice as (Hw & Ht & He & Hn); destruct (tight_dsize _ Ht) as (w & h & Hd & _);
    destruct (names s) as [nl|] eqn:Enl; [|congruence];
    destruct (mkCrop_total s None (Some idxs) w h nl m Hw Ht Hd Hm) as (c & Hc);
      [intros l [= <-]; exact Hr|intros; discriminate|exact Enl|];
    pose proof Hc as Hc'; rewrite <- Hti in Hc';
    destruct (nice_take _ _ _ _ Hnice Hm Hr Hi Hc') as (Hnc & _);
    apply mkCrop_shape in Hc as (w' & h' & ys & xs & nm & nc & _ & -> & _);
    destruct (crop_atom o s ys xs (Some idxs) _ nm nc Hk Hnc) as (n & Hon & Han & Hdq);
    exists (Crop s ys xs (Some idxs) (iv_len xs, iv_len ys) nm nc), n;
    split; [exact Hc'|]; split; [exact Hon|]; split; [now apply canon_atom|exact Hdq].
  injection Ek as <-.
  pose proof Hnice as (Hw & Ht & He & Hn). pose proof (nice_concat _ _ Hnice) as Hps.
  assert (Hmeta : Forall meta_ok ps) by (eapply Forall_impl; [|exact Hps]; intros p Hp; apply wf_meta, Hp).
  cbn [names] in Hn. destruct (concat_opt (map names ps)) as [nl|] eqn:Enl; [|congruence].
  cbn [num_channels] in Hm. apply sum_opt_known in Hm as (sizes & Ek & ->).
  destruct (mapR_total (fun i => unravel sizes i 0) idxs) as (wh & Hwh).
  { intros i Hin. unfold in_range in Hr. rewrite Forall_forall in Hr.
    destruct (unravel_total ps sizes Ek Hmeta i 0%nat (Hr i Hin)) as (p & j & E). eauto. }
  assert (Hvalid : forall p j, In (p, j) wh -> exists q n, nth_error ps p = Some q /\
            num_channels q = Some n /\ 0 <= j < n).
  { intros p j Hin. apply mapR_Forall2 in Hwh. clear -Hwh Ek Hin. induction Hwh as [|i pj idxs wh Hi F IH]; [contradiction|].
    destruct Hin as [->|Hin]; [|auto].
    destruct (unravel_spec (fun _ _ => True) _ _ _ _ _ _ Ek Hi) as (q & n & _ & Hn & Hq & Hj & _).
    rewrite Nat.sub_0_r in Hn. eauto. }
  set (sub := sub_component (map (fun p => (p, take_idx p)) ps)).
  destruct (tight_dsize _ Ht) as (w & h & Hd & _). cbn [dsize] in Hd. subst d.
  assert (Hds : forall q, In q ps -> dsize q = Some (w, h)).
  { apply Forall_forall. apply wf_concat in Hw. tauto. }
  (* every segment is served *)
  assert (Hseg : forall seg, In seg (segments wh) -> exists comp n, sub seg = Ok comp /\ opts o comp n /\
            canon k n /\ (dq_free (Concat ps (Some (w, h))) -> dq_free n) /\ nice comp /\ dsize comp = Some (w, h)).
  { intros [p is] Hin. pose proof (segments_nonempty wh) as Hne. rewrite Forall_forall in Hne.
    pose proof (Hne _ Hin) as Hisne. cbn in Hisne.
    assert (Hall : forall j, In j is -> In (p, j) wh).
    { intros j Hj. rewrite <- (segments_flat wh). apply in_flat_map. exists (p, is). split; [exact Hin|]. cbn. now apply in_map. }
    assert (Hq : exists q n, nth_error ps p = Some q /\ num_channels q = Some n /\ in_range n is).
    { destruct is as [|j0 is]; [congruence|].
      destruct (Hvalid p j0 (Hall j0 (or_introl eq_refl))) as (q & n & Hq & Hqn & _).
      exists q, n. split; [exact Hq|]. split; [exact Hqn|]. apply Forall_forall. intros j Hj.
      destruct (Hvalid p j (Hall j Hj)) as (q' & n' & Hq' & Hn' & Hjj). assert (q' = q) by congruence. subst. congruence. }
    destruct Hq as (q & n & Hq & Hqn & Hrange). pose proof (nth_error_In _ _ Hq) as Hqin.
    rewrite Forall_forall in Hk, Hps.
    assert (Hfree : dq_free (Concat ps (Some (w, h))) -> dq_free q).
    { rewrite dq_free_concat, Forall_forall. auto. }
    unfold sub, sub_component, nth_result. cbn [fst snd]. rewrite nth_error_map, Hq. cbn [option_map bind].
    rewrite Hqn. destruct (list_Z_eqb is (zseq (Z.to_nat n))).
    - exists q, q. destruct (Hps q Hqin) as (Hwq & Htq & _ & _). pose proof (canon_opts o k q Hwq Htq (Hk q Hqin)).
      auto 10.
    - destruct (IH q is n (Hk q Hqin) (Hps q Hqin) Hqn Hrange Hisne) as (t' & n' & H1 & H2 & H3 & H4).
      destruct (nice_take _ _ _ _ (Hps q Hqin) Hqn Hrange Hisne H1) as (H5 & H6).
      exists t', n'. rewrite H6. auto 10. }
  assert (Hlists : exists comps ns, mapR sub (segments wh) = Ok comps /\ Forall2 (opts o) comps ns /\
            Forall (canon k) ns /\ (dq_free (Concat ps (Some (w, h))) -> Forall dq_free ns) /\
            Forall nice comps /\ Forall (fun c => dsize c = Some (w, h)) comps /\
            Forall (fun c => dsize c = Some (w, h)) ns).
  { clear -Hseg. induction (segments wh) as [|seg segs IHs].
    - exists [], []. cbn. auto 10.
    - destruct (Hseg seg (or_introl eq_refl)) as (comp & n & H1 & H2 & H3 & H4 & H5 & H6).
      destruct IHs as (comps & ns & G1 & G2 & G3 & G4 & G5 & G6 & G7); [intros; apply Hseg; now right|].
      exists (comp :: comps), (n :: ns). cbn. rewrite H1. cbn. rewrite G1. cbn.
      destruct (nice_opts o _ _ H5 H2) as (_ & Hdn & _).
      split; [reflexivity|]. split; [constructor; auto|]. split; [constructor; auto|].
      split; [intros; constructor; auto|]. split; [constructor; auto|]. split; constructor; auto. congruence. }
  destruct Hlists as (comps & ns & G1 & G2 & G3 & G4 & G5 & G6 & G7).
  assert (Hcne : comps <> []).
  { intros ->. apply mapR_length in G1. apply mapR_length in Hwh. pose proof (segments_flat wh) as Hf.
    destruct (segments wh); [|discriminate]. cbn in Hf. subst wh. destruct idxs; [congruence|discriminate]. }
  destruct (mkConcat_total _ _ G6) as (t' & Ht'). destruct (mkConcat_total _ _ G7) as (n & Hn').
  exists t', n. split; [|split; [|split]].
  - change (match concat_opt (map names ps), known_all (map num_channels ps) with
          | None, _ => Err AssertionError
          | _, None => Err TypeError
          | Some _, Some sizes =>
              wh <- mapR (fun i => unravel sizes i 0) idxs ;;
              comps <- mapR sub (segments wh) ;;
              match mkConcat comps with Some c => Ok c | None => Err ValueError end
          end = Ok t').
    rewrite Enl, Ek, Hwh. cbn [bind]. rewrite G1. cbn [bind]. now rewrite Ht'.
  - pose proof (mkConcat_nice _ _ Hcne G5 Ht') as (Hwt & _).
    apply mkConcat_spec in Ht' as (d' & -> & _). eapply opts_concat; eassumption.
  - apply mkConcat_spec in Hn' as (d' & -> & _). now apply canon_concat.
  - intros Hf. apply mkConcat_spec in Hn' as (d' & -> & _). apply dq_free_concat. auto.
Qed.

Lemma mkConcat_of_concat ps d : wf (Concat ps d) -> mkConcat ps = Some (Concat ps d).
Proof. intros Hw. apply mkConcat_spec. exists d. apply wf_concat in Hw. tauto. Qed.

Lemma crop_canon o k : forall s ys xs ci d nm nc, canon k s -> nice (Crop s ys xs ci d nm nc) ->
  exists n, opts o (Crop s ys xs ci d nm nc) n /\ canon k n /\ (dq_free s -> dq_free n).
Proof.
  induction k as [|k IH]; intros s ys xs ci d nm nc Hk Hnice;
    pose proof Hk as Hk0; apply canon_cases in Hk as [Hk|(k' & ps & d0 & Ek & -> & Hk)]; try discriminate.
  1,2: destruct (crop_atom o s ys xs ci d nm nc Hk Hnice) as (n & H1 & H2 & H3);
    exists n; split; [exact H1|]; split; [now apply canon_atom|exact H3].
  injection Ek as <-. pose proof (nice_crop_sub _ _ _ _ _ _ _ Hnice) as Hs.
  pose proof Hnice as (Hw & Ht & He & Hn). pose proof (wf_crop_ci _ _ _ _ _ _ _ Hw) as Hci.
  destruct (wf_nc _ (proj1 Hs)) as (m & Hm).
  destruct Ht as (_ & Hne & -> & w & h & Hd & B1 & B2 & B3 & B4).
  (* the selected bands *)
  assert (Htk : exists taken f, (match ci with
               | None => Ok (Concat ps d0)
               | Some l => t' <- take_idx (Concat ps d0) l ;; O o f t'
               end) = Ok taken /\ canon (S k) taken /\ (dq_free (Concat ps d0) -> dq_free taken) /\
               nice taken /\ dsize taken = Some (w, h)).
  { destruct ci as [l|].
    - destruct (take_canon o (S k) (Concat ps d0) l m Hk0 Hs Hm (Hci m Hm)) as (t' & n & T1 & T2 & T3 & T4); [congruence|].
      destruct (nice_take _ _ _ _ Hs Hm (Hci m Hm) ltac:(congruence) T1) as (N1 & N2).
      destruct (nice_opts o _ _ N1 T2) as (N3 & N4 & _).
      apply opts_O in T2 as (f & T2). exists n, f. rewrite T1. cbn [bind]. rewrite N4, N2. auto 10.
    - exists (Concat ps d0), 0%nat. auto 10. }
  destruct Htk as (taken & f & Htk & Hkt & Hdt & Hnt & Hdst).
  destruct (wf_nc _ (proj1 Hnt)) as (mt & Hmt).
  assert (Hsl : forall s, (Some (some_slice ys, some_slice xs)) = Some s -> True) by auto.
  (* cropping a named image of that size *)
  assert (Hcrop : forall q, nice q -> dsize q = Some (w, h) -> exists c,
     mkCrop q (Some (some_slice ys, some_slice xs)) None = Ok c /\ nice c /\
     c = Crop q ys xs None (iv_len xs, iv_len ys) None None).
  { intros q Hq Hdq. pose proof Hq as (Q1 & Q2 & Q3 & Q4). destruct (names q) as [nq|] eqn:Eq; [|congruence].
    destruct (wf_nc _ Q1) as (mq & Hmq).
    destruct (recrop_id h w ys xs B1 B2 B3 B4) as [Ey Ex].
    destruct (mkCrop_total q (Some (some_slice ys, some_slice xs)) None w h nq mq) as (c & Hc); auto.
    - intros; discriminate.
    - intros sy sx [= <- <-]. eauto.
    - exists c. split; [exact Hc|].
      destruct (mkCrop_spec q _ None c mq Q1 Hmq I Hc) as (_ & _ & _ & _ & _ & _ & _ & _ & Hwc & _).
      destruct (recrop_kept q ys xs c w h) as (R1 & R2 & (nm' & nc' & ->)); auto.
      destruct Hwc as (? & ? & ? & ? & -> & ->).
      split; [|reflexivity]. split; [|split; [exact R2|split; [exact Q3|cbn; congruence]]].
      cbn. auto 10. }
  destruct (Hcrop taken Hnt Hdst) as (c & Hc & Hnc & ->).
  assert (Hgo : (exists n, opts o (match taken with Concat ps' _ =>
             match mkConcat (map (fun q => Crop q ys xs None (iv_len xs, iv_len ys) None None) ps') with
             | Some p => p | None => Crop taken ys xs None (iv_len xs, iv_len ys) None None end
             | _ => Crop taken ys xs None (iv_len xs, iv_len ys) None None end) n /\ canon (S k) n /\ (dq_free taken -> dq_free n))).
  { pose proof Hkt as Hkt'. apply canon_cases in Hkt' as [Ha|(k' & ps' & d' & Ek & -> & Hps')].
    - destruct taken; try contradiction;
      (edestruct (crop_atom o) as (n & H1 & H2 & H3); [exact Ha|exact Hnc|];
       exists n; split; [exact H1|]; split; [now apply canon_atom|exact H3]).
    - injection Ek as <-. pose proof (nice_concat _ _ Hnt) as Hnp.
      pose proof Hnt as (Hwt & Htt & _ & _). apply tight_concat in Htt as (Hpne & _ & Hdp).
      cbn [dsize] in Hdst. subst d'.
      assert (Hlists : exists ns, Forall2 (opts o) (map (fun q => Crop q ys xs None (iv_len xs, iv_len ys) None None) ps') ns /\
                Forall (canon k) ns /\ (Forall dq_free ps' -> Forall dq_free ns) /\
                Forall nice (map (fun q => Crop q ys xs None (iv_len xs, iv_len ys) None None) ps') /\
                Forall (fun c => dsize c = Some (iv_len xs, iv_len ys)) ns).
      { clear Hpne Hkt Hnt Hnc Hwt Htk Hdt Hmt Hc. induction ps' as [|q ps' IHp]; [exists []; cbn; auto 10|].
        inversion Hps'; inversion Hnp; inversion Hdp; subst.
        destruct IHp as (ns & I1 & I2 & I3 & I4 & I5); [assumption..|].
        destruct (Hcrop q) as (c & _ & Hcn & ->); [assumption..|].
        destruct (IH q ys xs None (iv_len xs, iv_len ys) None None) as (n & J1 & J2 & J3); [assumption..|].
        destruct (nice_opts o _ _ Hcn J1) as (_ & Hdn & _).
        exists (n :: ns). cbn. split; [constructor; auto|]. split; [constructor; auto|].
        split; [intros G; inversion G; subst; constructor; auto|]. split; constructor; auto. }
      destruct Hlists as (ns & L1 & L2 & L3 & L4 & L5).
      assert (Hdm : Forall (fun c => dsize c = Some (iv_len xs, iv_len ys)) (map (fun q => Crop q ys xs None (iv_len xs, iv_len ys) None None) ps')).
      { apply Forall_map. apply Forall_forall. reflexivity. }
      destruct (mkConcat_total _ _ Hdm) as (p & Hp). rewrite Hp.
      destruct (mkConcat_total _ _ L5) as (n & Hn').
      assert (Hmne : map (fun q => Crop q ys xs None (iv_len xs, iv_len ys) None None) ps' <> []) by (destruct ps'; [congruence|discriminate]).
      exists n. split; [|split].
      + pose proof (mkConcat_nice _ _ Hmne L4 Hp) as (Hwp & _).
        apply mkConcat_spec in Hp as (d' & -> & _). eapply opts_concat; eassumption.
      + apply mkConcat_spec in Hn' as (d' & -> & _). now apply canon_concat.
      + rewrite dq_free_concat. intros G. apply mkConcat_spec in Hn' as (d' & -> & _). apply dq_free_concat. auto. }
  destruct Hgo as (n & Hon & Hkn & Hdn). exists n. split; [|split; [exact Hkn|auto]].
  apply opts_O in Hon as (g & Hg).
  pose proof (canon_opts o (S k) (Concat ps d0) (proj1 Hs) (proj1 (proj2 Hs)) Hk0) as Hself.
  eapply (opts_crop _ _ (Concat ps d0) _ _ _ _ _ _ _ (Nat.max f g)); [exact Hself|].
  unfold opt_crop. cbn [bind crop_tail].
  assert (Htk' : (match ci with
               | None => Ok (Concat ps d0)
               | Some l => t' <- take_idx (Concat ps d0) l ;; O o (Nat.max f g) t'
               end) = Ok taken).
  { destruct ci as [l|]; [|exact Htk]. apply bind_ok in Htk as (t' & E1 & E2). rewrite E1. cbn [bind].
    apply (le_O o f (Nat.max f g) ltac:(lia) _ _ E2). }
  rewrite Htk'. cbn [bind]. rewrite Hc. cbn [bind].
  assert (Hpu : push_under (Crop taken ys xs None (iv_len xs, iv_len ys) None None) =
     Ok (match taken with Concat ps' _ => mkConcat (map (fun q => Crop q ys xs None (iv_len xs, iv_len ys) None None) ps') | _ => None end)).
  { cbn [push_under]. destruct taken as [|ps' d'| | | |]; try reflexivity.
    assert (E : mapR (fun p => mkCrop p (Some (some_slice ys, some_slice xs)) None) ps' =
                Ok (map (fun q => Crop q ys xs None (iv_len xs, iv_len ys) None None) ps')).
    { pose proof (nice_concat _ _ Hnt) as Hnp. destruct Hnt as (_ & Htt & _). apply tight_concat in Htt as (_ & _ & Hdp).
      cbn [dsize] in Hdst. subst d'. clear -Hnp Hdp Hcrop. induction ps' as [|q ps' IHp]; [reflexivity|].
      inversion Hnp; inversion Hdp; subst. destruct (Hcrop q) as (c & Hc & _ & ->); [assumption..|].
      cbn [mapR map]. rewrite Hc. cbn [bind]. rewrite IHp by assumption. reflexivity. }
    now rewrite E. }
  rewrite Hpu. cbn [bind].
  replace (match (match taken with Concat ps' _ => mkConcat (map (fun q => Crop q ys xs None (iv_len xs, iv_len ys) None None) ps') | _ => None end) with
    | Some p => p | None => Crop taken ys xs None (iv_len xs, iv_len ys) None None end) with
    (match taken with Concat ps' _ =>
             match mkConcat (map (fun q => Crop q ys xs None (iv_len xs, iv_len ys) None None) ps') with
             | Some p => p | None => Crop taken ys xs None (iv_len xs, iv_len ys) None None end
             | _ => Crop taken ys xs None (iv_len xs, iv_len ys) None None end) by (destruct taken; reflexivity).
  apply (le_O o g (Nat.max f g) ltac:(lia) _ _ Hg).
Qed.

Lemma dequant_canon o k : forall s q, canon k s -> dq_free s -> nice s ->
  exists n, opts o (mkDequant s q) n /\ canon k n.
Proof.
  induction k as [|k IH]; intros s q Hk Hf Hnice;
    pose proof Hk as Hk0; apply canon_cases in Hk as [Hk|(k' & ps & d0 & Ek & -> & Hk)]; try discriminate.
  1,2: assert (Hc : cropped_leaf s) by (destruct s; auto; contradiction);
    exists (mkDequant s q); split; [|now apply canon_atom];
    eapply (opts_dequant _ _ _ _ _ _ 0); [apply atom_opts; exact Hk|now apply cropped_leaf_dequant].
  injection Ek as <-. pose proof (nice_concat _ _ Hnice) as Hps. apply dq_free_concat in Hf.
  pose proof Hnice as (Hw & Ht & _ & _). apply tight_concat in Ht as (Hne & _ & Hds).
  assert (Hl : exists ns, Forall2 (opts o) (map (fun p => mkDequant p q) ps) ns /\ Forall (canon k) ns /\
             Forall nice (map (fun p => mkDequant p q) ps) /\
             Forall (fun p => dsize p = d0) (map (fun p => mkDequant p q) ps) /\
             Forall (fun p => dsize p = d0) ns).
  { clear Hk0 Hnice Hw Hne. induction ps as [|p ps IHp]; [exists []; cbn; auto 10|].
    inversion Hk; inversion Hf; inversion Hps; inversion Hds; subst.
    destruct IHp as (ns & I1 & I2 & I3 & I4 & I5); [assumption..|].
    match goal with H : nice p |- _ => rename H into Hp end.
    destruct (IH p q) as (n & J1 & J2); [assumption..|].
    assert (Hnp : nice (mkDequant p q)).
    { destruct Hp as (Q1 & Q2 & Q3 & Q4). split; [exact Q1|]. split; [cbn; auto|]. split; [exact Q3|exact Q4]. }
    destruct (nice_opts o _ _ Hnp J1) as (_ & Hdn & _).
    assert (Hdd : dsize (mkDequant p q) = dsize p) by (cbn; now destruct (dsize p)).
    exists (n :: ns). cbn [map]. split; [constructor; auto|]. split; [constructor; auto|].
    split; [constructor; auto|]. split; constructor; auto. congruence. }
  destruct Hl as (ns & L1 & L2 & L3 & L4 & L5).
  destruct (mkConcat_total _ _ L4) as (p & Hp). destruct (mkConcat_total _ _ L5) as (n & Hn').
  assert (Hmne : map (fun p => mkDequant p q) ps <> []) by (destruct ps; [congruence|discriminate]).
  assert (Hop : opts o p n).
  { pose proof (mkConcat_nice _ _ Hmne L3 Hp) as (Hwp & _).
    apply mkConcat_spec in Hp as (d' & -> & _). eapply opts_concat; eassumption. }
  exists n. split; [|apply mkConcat_spec in Hn' as (d' & -> & _); now apply canon_concat].
  apply opts_O in Hop as (g & Hg).
  eapply (opts_dequant _ _ (Concat ps d0) _ _ _ g).
  - apply (canon_opts o (S k)); [exact Hw|apply Hnice|exact Hk0].
  - unfold opt_dequant, push_tail. cbn [subdata bind push_under]. rewrite Hp. cbn [bind]. exact Hg.
Qed.

Lemma dq_free_once t : dq_free t -> dq_once t.
Proof.
  induction t using node_ind'; cbn; auto; [|contradiction].
  rewrite !forall_parts_Forall. intros Hp. rewrite Forall_forall in *. auto.
Qed.

Theorem optimize_total o t : nice t -> dq_once t ->
  exists n k, opts o t n /\ canon k n /\ (dq_free t -> dq_free n).
Proof.
  induction t as [l|ps d IH|s ys xs ci d nm nc IH|s M d al IH|s q d IH|s k d IH] using node_ind'; intros Hnice Hdq;
    try (destruct Hnice as (_ & _ & [] & _); fail).
  - exists (Leaf l), 0%nat. split; [apply opts_leaf|]. cbn. auto.
  - pose proof (nice_concat _ _ Hnice) as Hps. cbn [dq_once] in Hdq. rewrite forall_parts_Forall in Hdq.
    pose proof Hnice as (Hw & Ht & _ & _). apply tight_concat in Ht as (Hne & _ & Hds).
    assert (Hl : exists ns k, Forall2 (opts o) ps ns /\ Forall (canon k) ns /\
               (Forall dq_free ps -> Forall dq_free ns) /\ Forall (fun p => dsize p = d) ns).
    { clear Hnice Hw Hne. induction ps as [|p ps IHp]; [exists [], 0%nat; auto|].
      inversion IH; inversion Hps; inversion Hdq; inversion Hds; subst.
      destruct IHp as (ns & k & I1 & I2 & I3 & I4); [assumption..|].
      match goal with H : nice p -> _ |- _ => destruct H as (n & k' & J1 & J2 & J3); [assumption..|] end.
      match goal with H : nice p |- _ => destruct (nice_opts o _ _ H J1) as (_ & Hdn & _) end.
      exists (n :: ns), (Nat.max k k'). split; [constructor; auto|]. split; [|split].
      - constructor; [apply (canon_le k'); [lia|exact J2]|].
        eapply Forall_impl; [|exact I2]. intros a. apply canon_le. lia.
      - intros G. inversion G; subst. constructor; auto.
      - constructor; auto. }
    destruct Hl as (ns & k & L1 & L2 & L3 & L4). destruct (mkConcat_total _ _ L4) as (n & Hn').
    exists n, (S k). split; [eapply opts_concat; eassumption|].
    apply mkConcat_spec in Hn' as (d' & -> & _). split; [now apply canon_concat|].
    rewrite !dq_free_concat. exact L3.
  - pose proof (nice_crop_sub _ _ _ _ _ _ _ Hnice) as Hs. destruct (IH Hs Hdq) as (s1 & k & H1 & H2 & H3).
    destruct (nice_opts o _ _ Hs H1) as (N1 & N2 & N3 & N4).
    assert (Hn1 : nice (Crop s1 ys xs ci d nm nc)).
    { destruct Hnice as (Hw & Ht & He & Hn). pose proof (exact_ov_free _ (proj1 (proj2 (proj2 Hs)))) as Hr.
      pose proof (opts_good o ROvFree _ _ (proj1 Hs) Hr H1) as (Hp & _).
      pose proof (pregood_crop ROvFree s s1 ys xs ci d nm nc Hw Hp) as (Hw1 & _ & Hnm & _).
      split; [exact Hw1|]. split; [|split; [apply N1|congruence]].
      destruct Ht as (_ & Hci & Hd & w & h & Hsz & B). cbn [tight]. split; [apply N1|]. split; [exact Hci|].
      split; [exact Hd|]. exists w, h. split; [congruence|exact B]. }
    destruct (crop_canon o k s1 ys xs ci d nm nc H2 Hn1) as (n & G1 & G2 & G3).
    exists n, k. split; [|split; [exact G2|auto]].
    (* optimizing the crop of s is cropping s1 *)
    destruct G1 as (f & b & G1). destruct f as [|f]; [discriminate|]. cbn [optimize] in G1.
    apply bind_ok in G1 as (s2 & E1 & G1). apply bind_ok in G1 as (n' & E2 & G1). injection G1 as <- <-.
    fold (O o f) in E2. change (fun t => rmap fst (optimize o f t)) with (O o f) in E2.
    assert (s2 = s1).
    { destruct (canon_opts o k s1 (proj1 N1) (proj1 (proj2 N1)) H2) as (g & b' & Hg).
      destruct (optimize o f s1) as [[a ba]|] eqn:Ea; [|discriminate]. injection E1 as <-.
      pose proof (optimize_det _ _ _ _ _ _ Ea Hg). congruence. }
    subst s2. eapply opts_crop; eassumption.
  - assert (Hs : nice s).
    { destruct Hnice as (Hw & [Ht _] & He & Hn). split; [exact Hw|]. split; [exact Ht|]. split; [exact He|exact Hn]. }
    destruct (IH Hs (dq_free_once _ Hdq)) as (s1 & k & H1 & H2 & H3).
    destruct (nice_opts o _ _ Hs H1) as (N1 & N2 & N3 & N4).
    destruct (dequant_canon o k s1 q H2 (H3 Hdq) N1) as (n & G1 & G2).
    exists n, k. split; [|split; [exact G2|intros []]].
    destruct G1 as (f & b & G1). destruct f as [|f]; [discriminate|]. unfold mkDequant in G1. cbn [optimize] in G1.
    apply bind_ok in G1 as (s2 & E1 & G1). apply bind_ok in G1 as (n' & E2 & G1). injection G1 as <- <-.
    change (fun t => rmap fst (optimize o f t)) with (O o f) in E2.
    assert (s2 = s1).
    { destruct (canon_opts o k s1 (proj1 N1) (proj1 (proj2 N1)) H2) as (g & b' & Hg).
      destruct (optimize o f s1) as [[a ba]|] eqn:Ea; [|discriminate]. injection E1 as <-.
      pose proof (optimize_det _ _ _ _ _ _ Ea Hg). congruence. }
    subst s2. eapply opts_dequant; [exact H1|].
    destruct Hnice as (_ & [_ ->] & _). rewrite <- N2. exact E2.
Qed.

Lemma optimizes_det o t a b : optimizes o t a -> optimizes o t b -> a = b.
Proof. intros (f & x & H) (g & y & G). assert (E := optimize_det _ _ _ _ _ _ H G). congruence. Qed.

Lemma built_nice t : built t -> names t <> None -> nice t.
Proof. intros Hb Hn. destruct (built_ok t Hb) as (Hw & Ht & He). split; auto. Qed.

Lemma optimize_returns o t : built t -> names t <> None -> dq_once t -> exists t', optimizes o t t'.
Proof. intros Hb Hn Hq. destruct (optimize_total o t (built_nice t Hb Hn) Hq) as (n & k & H & _). eauto. Qed.

Lemma optimize_idem o t t' : built t -> names t <> None -> dq_once t -> optimizes o t t' -> optimizes o t' t'.
Proof.
  intros Hb Hn Hq H. destruct (optimize_total o t (built_nice t Hb Hn) Hq) as (n & k & G & Hc & _).
  rewrite <- (optimizes_det _ _ _ _ G H).
  destruct (nice_opts o t n (built_nice t Hb Hn) G) as ((Hw & Ht & _) & _). eapply canon_opts; eassumption.
Qed.
