(* Without band selections the rounds of optimize() are deterministic: whatever
   the memo table holds, the result is the tree the table-free optimizer returns. *)
From Verif Require Import Py PyProofs GeomModel GraphModel GraphSpec GraphBase GraphTake GraphOpt GraphMain GraphSound GraphSize GraphTotal MemoStep.
From Coq Require Import Lia.

(* no crop selects bands, every concat has the size its parts give it *)
Fixpoint plain (t : node) : Prop :=
  match t with
  | Leaf _ => True
  | Concat ps d => mkConcat ps = Some (Concat ps d) /\ forall_parts plain ps
  | Crop s _ _ ci _ _ _ => ci = None /\ plain s
  | Warp s _ _ _ | Dequant s _ _ | Overview s _ _ => plain s
  end.

Lemma plain_concat ps d : plain (Concat ps d) <-> mkConcat ps = Some (Concat ps d) /\ Forall plain ps.
Proof. cbn [plain]. now rewrite forall_parts_Forall. Qed.

Lemma plain_mkCrop s sl n : plain s -> mkCrop s sl None = Ok n -> plain n.
Proof. intros H E. apply mkCrop_shape in E as (ys & xs & d & nm & nc & ->). cbn. auto. Qed.
Lemma plain_mkConcat ps n : Forall plain ps -> mkConcat ps = Some n -> plain n.
Proof.
  intros F H. pose proof H as H0. apply mkConcat_spec in H as (d & -> & _). apply plain_concat. auto.
Qed.
Lemma plain_push t p : plain t -> push_under t = Ok (Some p) -> plain p.
Proof.
  intros K H. destruct t as [l|ps d|s ys xs ci d nm nc|s M d al|s q d|s k d]; try discriminate;
    destruct s as [| ps d0 | | | | ]; try discriminate; cbn [push_under] in H.
  - cbn [plain] in K. destruct K as (-> & K). apply (plain_concat ps d0) in K as [_ K].
    destruct (mapR _ ps) as [qs|] eqn:E; [|discriminate]. injection H as H.
    eapply plain_mkConcat; [|exact H]. apply mapR_Forall2 in E. clear H.
    induction E as [|p0 q0 ps qs Hp E IH]; constructor; apply Forall_cons_iff in K as [K1 K2]; auto.
    eapply plain_mkCrop; eassumption.
  - apply (plain_concat ps d0) in K as [_ K]. injection H as H. eapply plain_mkConcat; [|exact H].
    apply Forall_map. eapply Forall_impl; [|exact K]. intros a Ka. exact Ka.
  - apply (plain_concat ps d0) in K as [_ K]. injection H as H. eapply plain_mkConcat; [|exact H].
    apply Forall_map. eapply Forall_impl; [|exact K]. intros a Ka. exact Ka.
  - apply (plain_concat ps d0) in K as [_ K].
    destruct (mapR _ ps) as [qs|] eqn:E; [|discriminate]. injection H as H.
    eapply plain_mkConcat; [|exact H]. apply mapR_Forall2 in E. clear H.
    induction E as [|p0 q0 ps qs Hp E IH]; constructor; apply Forall_cons_iff in K as [K1 K2]; auto.
    apply mkOverview_meta in Hp as (sz & _ & ->). exact K1.
Qed.
Lemma plain_mkOverview s k n : plain s -> mkOverview s k = Ok n -> plain n.
Proof. intros K H. apply mkOverview_meta in H as (d & _ & ->). exact K. Qed.
Lemma plain_mkWarp_auto s M al n : plain s -> mkWarp_auto s M al = Ok n -> plain n.
Proof. intros K H. apply mkWarp_auto_meta in H as (d & ->). exact K. Qed.
Lemma plain_padded s ys xs n : plain s -> padded_crop_node s ys xs = Ok n -> plain n.
Proof.
  intros K H. unfold padded_crop_node in H. destruct (dsize s) as [sz|]; [|discriminate].
  apply bind_ok in H as ([[dy dx] tf] & _ & H). apply bind_ok in H as (c & Hc & H).
  apply plain_mkCrop in Hc; [|exact K]. destruct tf as [[T d]|]; injection H as <-; exact Hc.
Qed.
Lemma plain_crop_after_overview s ys xs k n : plain s ->
  crop_after_overview s ys xs None k = Ok n -> plain n.
Proof.
  intros K H. unfold crop_after_overview in H. apply bind_ok in H as (o & Ho & H).
  apply plain_mkOverview in Ho; [|exact K].
  destruct (overview_crop_axis k xs) as [qx ox]. destruct (overview_crop_axis k ys) as [qy oy].
  apply bind_ok in H as (c & Hc & H). apply plain_mkCrop in Hc; [|exact Ho].
  destruct (is_identity _); [injection H as <-; exact Hc|]. eapply plain_mkWarp_auto; eassumption.
Qed.
Lemma plain_warp_after_overview s B k n : plain s -> warp_after_overview_node s B k = Ok n -> plain n.
Proof.
  intros K H. unfold warp_after_overview_node in H. apply bind_ok in H as (C & _ & H).
  apply bind_ok in H as (o & Ho & H). apply plain_mkOverview in Ho; [|exact K].
  eapply plain_mkWarp_auto; eassumption.
Qed.
Lemma plain_warp_after_crop s M ys xs d c T : plain s ->
  warp_after_crop s M ys xs None d = Ok (Some (c, T)) -> plain c.
Proof. intros K H. apply warp_after_crop_shape in H as (sl & H). eapply plain_mkCrop; eassumption. Qed.

Definition plain_layer (l : layer) : Prop := match l with LCrop _ _ ci _ _ _ => ci = None | LDeq _ => True end.
Lemma plain_lookahead n : forall t c os k od, plain t -> lookahead n t = Some (c, (os, k, od)) ->
  Forall plain_layer c /\ plain os.
Proof.
  induction n as [|n IH]; intros t c os k od H E; [discriminate|].
  destruct t as [l|ps d|s ys xs ci d nm nc|s M d al|s q d|s k0 d]; try discriminate; cbn [lookahead] in E.
  - destruct (lookahead n s) as [[c' [[os' k'] od']]|] eqn:El; [|discriminate]. injection E as <- <- <- <-.
    destruct H as [-> H]. destruct (IH _ _ _ _ _ H El). split; [constructor; [reflexivity|assumption]|assumption].
  - destruct (lookahead n s) as [[c' [[os' k'] od']]|] eqn:El; [|discriminate]. injection E as <- <- <- <-.
    cbn [plain] in H. destruct (IH _ _ _ _ _ H El). split; [constructor; [exact I|assumption]|assumption].
  - injection E as <- <- <- <-. auto.
Qed.
Lemma plain_relayers nd c t : Forall plain_layer c -> plain t -> plain (fold_right (relayer nd) t c).
Proof. induction 1 as [|l c Hl F IH]; intros H; [exact H|]. destruct l; cbn; auto. Qed.
Lemma plain_absorb o s M d al n : plain s -> absorb o s M d al = Ok n -> plain n.
Proof.
  intros H E. unfold absorb in E. destruct (negb (absorbs o M)); [injection E as <-; exact H|].
  destruct (lookahead 4 s) as [[c [[os k] od]]|] eqn:El; [|injection E as <-; exact H].
  destruct (plain_lookahead _ _ _ _ _ _ H El) as [Hc Ho].
  destruct (1 <? List.length (filter is_lcrop c))%nat; [injection E as <-; exact H|].
  apply bind_ok in E as ([h T] & Eh & E). injection E as <-. cbn [plain].
  assert (Hr : Forall plain_layer (rev c)) by now apply Forall_rev.
  destruct (rev c) as [|l above]; [injection Eh as <- <-; exact Ho|].
  apply Forall_cons_iff in Hr as [Hl Ha]. destruct l as [q|ys xs ci cd nm nc].
  - apply bind_ok in Eh as (nd & _ & Eh). injection Eh as <- <-. now apply plain_relayers.
  - cbn in Hl. subst ci. apply bind_ok in Eh as (r & Er & Eh). destruct r as [[c' T']|]; [|discriminate].
    injection Eh as <- <-. apply plain_relayers; [now apply Forall_rev|]. eapply plain_warp_after_crop; eassumption.
Qed.

(** ** Rounds *)

Section Exact.
Variable o : oracle.

Definition px (t n : node) : Prop := plain t -> optimizes o t n /\ plain n.

Definition eventually (g : nat -> result node) (n : node) : Prop := exists f, forall h, (f <= h)%nat -> g h = Ok n.

Lemma px_ev t n : plain t -> px t n -> eventually (fun f => O o f t) n /\ plain n.
Proof.
  intros H P. destruct (P H) as [Ho Hn]. split; [|exact Hn]. apply opts_O in Ho as (f & Hf). exists f.
  intros h L. exact (le_O o f h L _ _ Hf).
Qed.

Lemma ev_bind (g : nat -> result node) (k : nat -> node -> result node) x n :
  eventually g x -> eventually (fun f => k f x) n -> eventually (fun f => a <- g f ;; k f a) n.
Proof.
  intros (f1 & H1) (f2 & H2). exists (Nat.max f1 f2). intros h L. rewrite H1 by lia. cbn [bind]. apply H2. lia.
Qed.
Lemma ev_ok x n : x = Ok n -> eventually (fun _ => x) n.
Proof. intros H. exists 0%nat. auto. Qed.

Lemma x_push t n : plain t -> r_push px t n -> eventually (fun f => push_tail (O o f) t) n /\ plain n.
Proof.
  intros H (sd & Esd & E). unfold push_tail. rewrite Esd. cbn [bind].
  destruct sd as [[]|]; try (subst n; split; [now apply ev_ok|exact H]).
  destruct E as (p & Ep & E). rewrite Ep. cbn [bind]. destruct p as [p|]; [|subst n; split; [now apply ev_ok|exact H]].
  apply px_ev; [|exact E]. eapply plain_push; eassumption.
Qed.

Lemma x_sub t n : plain t -> r_sub px t n -> eventually (fun f => opt_sub (O o f) t) n /\ plain n.
Proof.
  intros H E. destruct t as [l|ps d|s ys xs ci d nm nc|s M d al|s q d|s k d]; cbn [r_sub] in E; try contradiction;
    destruct E as (s' & P & ->); cbn [opt_sub plain] in *.
  - destruct H as [-> H]. destruct (px_ev _ _ H P) as [E Hs]. split; [|auto]. eapply ev_bind; [exact E|]. now apply ev_ok.
  - destruct (px_ev _ _ H P) as [E Hs]. split; [|auto]. eapply ev_bind; [exact E|]. now apply ev_ok.
  - destruct (px_ev _ _ H P) as [E Hs]. split; [|auto]. eapply ev_bind; [exact E|]. now apply ev_ok.
  - destruct (px_ev _ _ H P) as [E Hs]. split; [|auto]. eapply ev_bind; [exact E|]. now apply ev_ok.
Qed.

Lemma x_split s M d al r : plain s -> r_split o px s M d al r ->
  (exists f, forall h, (f <= h)%nat -> split_warp o (O o h) s M d al = Ok r) /\
  match r with Some n => plain n | None => True end.
Proof.
  intros H (no & Hno & E). unfold split_warp. rewrite Hno. cbn [bind].
  destruct no as [n|]; [|subst r; split; [exists 0%nat; auto|exact I]].
  destruct (n =? 0)%Z; [subst r; split; [exists 0%nat; auto|exact I]|].
  destruct E as (lv & Elv & E). rewrite Elv. cbn [bind].
  destruct lv as [poss|]; [|subst r; split; [exists 0%nat; auto|exact I]].
  cbv zeta in *. destruct (Z.min n poss =? 0)%Z; [subst r; split; [exists 0%nat; auto|exact I]|].
  destruct E as (R & ov & ER & Eov & E). rewrite ER. cbn [bind]. rewrite Eov. cbn [bind].
  pose proof (plain_mkOverview _ _ _ H Eov) as Hov.
  destruct (is_identity R); [|subst r; split; [exists 0%nat; auto|exact Hov]].
  destruct (opt_size_eqb (dsize ov) (Some d)); [subst r; split; [exists 0%nat; auto|exact Hov]|].
  destruct E as (c & n' & Ec & Pn & ->). rewrite Ec. cbn [bind].
  destruct (px_ev c n') as [(f & Hf) Hn]; [eapply plain_padded; eassumption|exact Pn|].
  split; [|exact Hn]. exists f. intros h L. now rewrite (Hf h L).
Qed.

Lemma x_warp s1 M d al n : plain s1 -> r_warp o px s1 M d al n ->
  eventually (fun f => opt_warp o (O o f) s1 M d al) n /\ plain n.
Proof.
  intros H E. unfold r_warp in E. unfold opt_warp.
  assert (Hs : plain (fst (fst (match s1 with Warp s2 M1 _ _ => (s2, aff_mul M M1, drop_backend al) | _ => (s1, M, al) end)))).
  { destruct s1; exact H. }
  destruct (match s1 with Warp s2 M1 _ _ => (s2, aff_mul M M1, drop_backend al) | _ => (s1, M, al) end) as [[s M'] al'].
  cbn [fst] in Hs. cbv zeta in *.
  destruct (opt_size_eqb (Some d) (dsize s) && close_identity (al_eps al') M')%bool.
  { subst n. split; [now apply ev_ok|exact Hs]. }
  assert (Ho : (exists sp, r_split o px s M' d al' sp /\
      match sp with
      | Some n0 => exists n', r_sub px n0 n' /\ px n' n
      | None => absorb o s M' d al' = Ok n
      end) ->
     eventually (fun f => sp <- split_warp o (O o f) s M' d al' ;;
       match sp with Some n => n' <- opt_sub (O o f) n ;; O o f n' | None => absorb o s M' d al' end) n /\ plain n).
  { intros (sp & Hsp & E'). destruct (x_split _ _ _ _ _ Hs Hsp) as [(f & Hf) Hn]. destruct sp as [n0|].
    - destruct E' as (n' & Hsub & Hn'). destruct (x_sub _ _ Hn Hsub) as [(f1 & Hf1) Hpn'].
      destruct (px_ev _ _ Hpn' Hn') as [(f2 & Hf2) Hpn]. split; [|exact Hpn].
      exists (Nat.max f (Nat.max f1 f2)). intros h L. rewrite Hf by lia. cbn [bind]. rewrite Hf1 by lia. cbn [bind].
      apply Hf2. lia.
    - split; [|eapply plain_absorb; eassumption]. exists f. intros h L. rewrite Hf by lia. exact E'. }
  destruct s as [l|ps d0|s ys xs ci d0 nm nc|s M1 d0 al0|s q d0|s k d0]; try (apply Ho; exact E).
  - destruct (is_nans l); [|apply Ho; exact E]. subst n. split; [now apply ev_ok|exact I].
  - apply x_push; [exact Hs|exact E].
Qed.

Lemma x_dequant s1 q d n : plain s1 -> r_dequant px s1 q d n ->
  eventually (fun f => opt_dequant (O o f) s1 q d) n /\ plain n.
Proof.
  intros H E. destruct s1 as [l|ps d0|s ys xs ci d0 nm nc|s M d0 al|s q0 d0|s k d0]; cbn [r_dequant opt_dequant] in *;
    try contradiction; try (apply x_push; [exact H|exact E]).
  destruct E as (n' & P & E). destruct (px_ev _ _ (H : plain (Warp (mkDequant s q) M d0 al)) P) as [E1 H1].
  destruct (x_push _ _ H1 E) as [E2 H2]. split; [|exact H2].
  exact (ev_bind _ (fun f a => push_tail (O o f) a) _ _ E1 E2).
Qed.

Lemma x_crop_tail t n : plain t -> r_crop_tail px t n -> eventually (fun f => crop_tail (O o f) t) n /\ plain n.
Proof.
  intros H E. destruct t as [l|ps d|s ys xs ci d nm nc|s M d al|s q d|s k d];
    try (apply x_push; [exact H|exact E]).
  destruct s as [l|ps d0|s ys0 xs0 ci0 d0 nm0 nc0|s M0 d0 al0|s q0 d0|s k0 d0];
    try (apply x_push; [exact H|exact E]).
  cbn [r_crop_tail crop_tail] in *. destruct H as [-> H]. destruct E as (tk & c & p & -> & Ec & Ep & E).
  cbn [bind]. rewrite Ec. cbn [bind]. rewrite Ep. cbn [bind].
  assert (Hc : plain c) by (eapply plain_mkCrop; [exact H|exact Ec]).
  apply px_ev; [|exact E]. destruct p as [p|]; [|exact Hc]. eapply plain_push; eassumption.
Qed.

Lemma x_crop s1 ys xs d nm nc n : plain s1 -> r_crop px s1 ys xs None d nm nc n ->
  eventually (fun f => opt_crop (O o f) s1 ys xs None d nm nc) n /\ plain n.
Proof.
  intros H (c1 & Ec1 & E). unfold opt_crop.
  assert (Hc : (match s1 with
        | Crop s2 ys1 xs1 ci1 _ _ _ => fuse_crops s2 ys1 xs1 ci1 ys xs None
        | _ => Ok (Crop s1 ys xs None d nm nc)
        end) = Ok c1 /\ plain c1 /\ exists s ys' xs' d' nm' nc', c1 = Crop s ys' xs' None d' nm' nc').
  { destruct s1 as [l|ps d0|s ys1 xs1 ci1 d0 nm0 nc0|s M d0 al|s q0 d0|s k d0];
      try (subst c1; split; [reflexivity|]; split; [cbn; auto|repeat eexists]).
    split; [exact Ec1|]. destruct H as [-> H]. unfold fuse_crops in Ec1. cbn [fuse_idxs bind] in Ec1.
    split; [eapply plain_mkCrop; eassumption|].
    apply mkCrop_shape in Ec1 as (a & b & c & e & g & ->). repeat eexists. }
  destruct Hc as (Ec & Hpc & s & ys' & xs' & d' & nm' & nc' & Es). rewrite Ec. cbn [bind]. subst c1.
  destruct Hpc as [_ Hs].
  destruct s as [l|ps d0|s ys0 xs0 ci0 d0 nm0 nc0|s M0 d0 al0|s q0 d0|s k0 d0];
    try (apply x_crop_tail; [split; [reflexivity|exact Hs]|exact E]).
  - destruct (is_nans l).
    + split; [now apply ev_ok|]. unfold nans_crop in E. apply bind_ok in E as (x & _ & E).
      apply bind_ok in E as ([a b] & _ & E). apply bind_ok in E as ([a' b'] & _ & E). injection E as <-. exact I.
    + subst n. split; [now apply ev_ok|]. split; [reflexivity|exact I].
  - destruct (al_nearest al0); [subst n; split; [now apply ev_ok|split; [reflexivity|exact Hs]]|].
    destruct E as (r & Er & E). rewrite Er. cbn [bind]. destruct r as [[c T]|].
    + destruct E as (n' & P & E). pose proof (plain_warp_after_crop s _ _ _ _ _ _ Hs Er) as Hc.
      destruct (px_ev _ _ (Hc : plain (Warp c T d' (drop_backend al0))) P) as [E1 H1].
      destruct (x_crop_tail _ _ H1 E) as [E2 H2]. split; [|exact H2].
      exact (ev_bind _ (fun f a => crop_tail (O o f) a) _ _ E1 E2).
    + subst n. split; [now apply ev_ok|]. split; [reflexivity|exact Hs].
  - destruct E as (n' & P & E).
    destruct (px_ev _ _ (conj eq_refl Hs : plain (Dequant (Crop s ys' xs' None d' nm' nc') q0 (Some d'))) P) as [E1 H1].
    destruct (x_crop_tail _ _ H1 E) as [E2 H2]. split; [|exact H2].
    exact (ev_bind _ (fun f a => crop_tail (O o f) a) _ _ E1 E2).
Qed.

Lemma x_overview s1 k d n : plain s1 -> r_overview px s1 k d n ->
  eventually (fun f => opt_overview (O o f) s1 k d) n /\ plain n.
Proof.
  intros H (o1 & Eo1 & E). unfold opt_overview.
  assert (Hc : (match s1 with Overview s2 k2 _ => mkOverview s2 (k2 + k) | _ => Ok (Overview s1 k d) end) = Ok o1 /\
      plain o1).
  { destruct s1; try (subst o1; split; [reflexivity|exact H]). split; [exact Eo1|]. eapply plain_mkOverview; [|exact Eo1]. exact H. }
  destruct Hc as (Ec & Hpc). rewrite Ec. cbn [bind].
  destruct o1 as [l|ps d0|s ys xs ci d0 nm nc|s M d0 al|s q0 d0|s k1 d1]; try contradiction.
  destruct (k1 =? 0)%Z; [apply x_push; [exact Hpc|exact E]|].
  assert (Hstep : forall n0, plain n0 -> (exists n', px n0 n' /\ r_push px n' n) ->
    eventually (fun f => n' <- O o f n0 ;; push_tail (O o f) n') n /\ plain n).
  { intros n0 H0 (n' & P & E'). destruct (px_ev _ _ H0 P) as [E1 H1]. destruct (x_push _ _ H1 E') as [E2 H2].
    split; [|exact H2]. exact (ev_bind _ (fun f a => push_tail (O o f) a) _ _ E1 E2). }
  destruct s as [l|ps d0|s ys xs ci d0 nm nc|s M d0 al|s q0 d0|s k2 d0];
    try (apply x_push; [exact Hpc|exact E]).
  - destruct E as (n0 & n' & E0 & P & E). destruct Hpc as [-> Hpc]. rewrite E0. cbn [bind]. apply Hstep; [|eauto].
    eapply plain_crop_after_overview; eassumption.
  - destruct E as (n0 & n' & E0 & P & E). rewrite E0. cbn [bind]. apply Hstep; [|eauto].
    exact (plain_warp_after_overview s _ _ _ Hpc E0).
  - apply Hstep; [exact Hpc|exact E].
Qed.

Lemma ev_optimizes s s1 n (build : node) (F : (node -> result node) -> node -> result node) :
  (forall h, optimize o (S h) build = (s1 <- O o h s ;; n <- F (O o h) s1 ;; Ok (n, false))) ->
  optimizes o s s1 -> eventually (fun f => F (O o f) s1) n -> optimizes o build n.
Proof.
  intros HF Hs (f & Hf). apply opts_O in Hs as (g & Hg). exists (S (Nat.max f g)), false. rewrite HF.
  rewrite (le_O o g (Nat.max f g) ltac:(lia) _ _ Hg). cbn [bind]. rewrite Hf by lia. reflexivity.
Qed.

Lemma opts_parts ps qs d : plain (Concat ps d) -> Forall2 (optimizes o) ps qs ->
  optimizes o (Concat ps d) (match mkConcat qs with Some c => c | None => Concat ps d end).
Proof.
  intros Hp F.
  assert (G : exists f rs, mapR (optimize o f) ps = Ok rs /\ map fst rs = qs).
  { clear Hp. induction F as [|p q ps qs (g & b & Hg) F (f & rs & Hf & IH)]; [exists 0%nat, []; auto|].
    exists (Nat.max f g), ((q, b) :: rs). cbn [mapR map fst]. split; [|congruence].
    rewrite (optimize_mono o g (Nat.max f g) p _ ltac:(lia) Hg). cbn [bind].
    assert (H : mapR (optimize o (Nat.max f g)) ps = Ok rs).
    { clear -Hf. assert (L : (f <= Nat.max f g)%nat) by lia. revert L. generalize (Nat.max f g) as h. intros h L.
      revert rs Hf. induction ps as [|p ps IH]; intros rs H; [exact H|]. cbn [mapR] in *.
      apply bind_ok in H as (x & Hx & H). apply bind_ok in H as (y & Hy & H).
      rewrite (optimize_mono _ _ _ _ _ L Hx). cbn [bind]. rewrite (IH _ Hy). exact H. }
    rewrite H. reflexivity. }
  destruct G as (f & rs & Hf & Hrs). exists (S f). cbn [optimize]. rewrite Hf. cbn [bind].
  destruct (forallb snd rs) eqn:E.
  - exists true. do 2 f_equal. apply mapR_Forall2 in Hf.
    assert (qs = ps).
    { rewrite <- Hrs. clear -Hf E. induction Hf as [|p [q b] ps rs Hp F IH]; [reflexivity|].
      cbn in E |- *. apply andb_prop in E as [-> E]. apply optimize_same in Hp. f_equal; auto. }
    subst qs. apply plain_concat in Hp as [Hp _]. rewrite H. now rewrite Hp.
  - rewrite Hrs. destruct (mkConcat qs); eexists; reflexivity.
Qed.

Theorem round_px t n : round o px t n -> px t n.
Proof.
  intros E H. destruct t as [l|ps d|s ys xs ci d nm nc|s M d al|s q d|s k d]; cbn [round] in E.
  - subst n. split; [apply opts_leaf|exact I].
  - destruct E as (qs & HF & E). pose proof H as H0. apply plain_concat in H0 as [Hm Hps].
    assert (G : Forall2 (optimizes o) ps qs /\ Forall plain qs).
    { clear -HF Hps. induction HF as [|p q ps qs P HF IH]; [auto|]. apply Forall_cons_iff in Hps as [H1 H2].
      destruct (P H1), (IH H2). auto. }
    destruct G as [G Hqs]. pose proof (opts_parts _ _ _ H G) as Ho.
    destruct E as [[-> ->] | ->].
    + rewrite Hm in Ho. auto.
    + split; [exact Ho|]. destruct (mkConcat qs) eqn:Eq; [|exact H]. eapply plain_mkConcat; eassumption.
  - destruct E as (s1 & P & E). destruct H as [-> H]. destruct (P H) as [Ho Hs1].
    destruct (x_crop _ _ _ _ _ _ _ Hs1 E) as [Ev Hn]. split; [|exact Hn].
    eapply (ev_optimizes s s1 n _ (fun opt s1 => opt_crop opt s1 ys xs None d nm nc)); [|exact Ho|exact Ev].
    intros h. reflexivity.
  - destruct E as (s1 & P & E). destruct (P H) as [Ho Hs1].
    destruct (x_warp _ _ _ _ _ Hs1 E) as [Ev Hn]. split; [|exact Hn].
    eapply (ev_optimizes s s1 n _ (fun opt s1 => opt_warp o opt s1 M d al)); [|exact Ho|exact Ev].
    intros h. reflexivity.
  - destruct E as (s1 & P & E). destruct (P H) as [Ho Hs1].
    destruct (x_dequant _ _ _ _ Hs1 E) as [Ev Hn]. split; [|exact Hn].
    eapply (ev_optimizes s s1 n _ (fun opt s1 => opt_dequant opt s1 q d)); [|exact Ho|exact Ev].
    intros h. reflexivity.
  - destruct E as (s1 & P & E). destruct (P H) as [Ho Hs1].
    destruct (x_overview _ _ _ _ Hs1 E) as [Ev Hn]. split; [|exact Hn].
    eapply (ev_optimizes s s1 n _ (fun opt s1 => opt_overview opt s1 k d)); [|exact Ho|exact Ev].
    intros h. reflexivity.
Qed.

End Exact.
