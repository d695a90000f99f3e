(* Concatenations told their size. *)
From Verif Require Import Py PyProofs GeomModel GeomProofs GraphModel GraphSpec GraphBase GraphTake GraphOpt GraphMain GraphSound GraphSize GraphTotal WarpTotal GraphProps GivenModel.
Local Open Scope Z_scope.

(** C129: "a concatenation may be told its size; its crops can be optimized, and
    optimize() keeps the size". *)

(* an image with data *)
Definition plain (t : node) : Prop := match t with Leaf l => l_kind l = Data /\ 0 <= fst (l_dsize l) /\ 0 <= snd (l_dsize l) | _ => False end.

(* how much of a window lies within an axis of length n *)
Definition seen (n : Z) (i : ival) : Z := Z.min (snd i) n - Z.min (fst i) n.

(* the crop of a concatenation told its size [d] *)
Definition given_crop (ps : list node) (d : size) (ys xs : ival) : result node :=
  match mkConcat_given ps (Some d) with
  | Some c => mkCrop c (Some (some_slice ys, some_slice xs)) None
  | None => Err ValueError
  end.

Lemma leafs_same o f ps : Forall plain ps -> mapR (optimize o (S f)) ps = Ok (map (fun p => (p, true)) ps).
Proof.
  induction 1 as [|p ps Hp H IH]; [reflexivity|]. destruct p; try contradiction. cbn [mapR map].
  change (optimize o (S f) (Leaf l)) with (Ok (Leaf l, true)). cbn [bind]. now rewrite IH.
Qed.

Lemma crop_parts ps ys xs : Forall plain ps -> 0 <= fst ys <= snd ys -> 0 <= fst xs <= snd xs ->
  exists cs, mapR (fun p => mkCrop p (Some (some_slice ys, some_slice xs)) None) ps = Ok cs /\
    Forall2 (fun p c => forall w h, dsize p = Some (w, h) -> dsize c = Some (seen w xs, seen h ys)) ps cs.
Proof.
  intros H Hy Hx. induction H as [|p ps Hp H IH]; [exists []; split; [reflexivity|constructor]|].
  destruct IH as (cs & E & F). destruct p as [l| | | | |]; try contradiction. destruct Hp as (_ & W & Hh).
  destruct (l_dsize l) as [w h] eqn:El. cbn [fst snd] in *.
  assert (K : forall D i, 0 <= D -> 0 <= fst i <= snd i -> wrap_clip D (some_slice i) = Ok (Z.min (fst i) D, Z.min (snd i) D)).
  { intros D i HD Hi. unfold wrap_clip, some_slice. cbv beta zeta. cbn [fst snd].
    destruct (fst i <? 0) eqn:E1; [lia|]. destruct (snd i <? 0) eqn:E2; [lia|]. rewrite !Z.max_r by lia.
    destruct (Z.min (snd i) D <? Z.min (fst i) D) eqn:E3; [lia|reflexivity]. }
  cbn [mapR]. unfold mkCrop at 1. cbn [dsize]. rewrite El, !K by assumption. cbn [bind]. rewrite E. cbn [bind].
  eexists. split; [reflexivity|]. constructor; [|exact F]. cbn [dsize]. rewrite El. intros w0 h0 [= <- <-]. reflexivity.
Qed.

Lemma mkConcat_differ ps p q : In p ps -> In q ps -> dsize p <> dsize q -> (forall r, In r ps -> dsize r <> None) -> mkConcat ps = None.
Proof.
  intros Hp Hq Hd Hk. destruct (mkConcat ps) as [t|] eqn:E; [|reflexivity]. exfalso.
  apply mkConcat_spec in E as (d & -> & F & _). rewrite Forall_forall in F. apply Hd. now rewrite (F p Hp), (F q Hq).
Qed.

(** A crop that shows different amounts of two parts: optimize() never returns,
    nor does it raise an error of its own. *)
Theorem C129_never_returns : forall o ps d ys xs t p q wp hp wq hq,
  Forall plain ps -> 0 <= fst ys <= snd ys -> 0 <= fst xs <= snd xs -> snd xs <= fst d -> snd ys <= snd d ->
  given_crop ps d ys xs = Ok t ->
  In p ps -> In q ps -> dsize p = Some (wp, hp) -> dsize q = Some (wq, hq) ->
  seen wp xs <> seen wq xs \/ seen hp ys <> seen hq ys ->
  forall fuel, optimize o fuel t = Err OutOfFuel.
Proof.
  intros o ps d ys xs t p q wp hp wq hq Hps Hy Hx Dx Dy Ht Ip Iq Ep Eq Hne.
  destruct d as [w h]. cbn [fst snd] in Dx, Dy. destruct ys as [y0 y1], xs as [x0 x1]. cbn [fst snd] in *.
  assert (Hc : mkCrop (Concat ps (Some (w, h))) (Some (some_slice (y0, y1), some_slice (x0, x1))) None =
               Ok (Crop (Concat ps (Some (w, h))) (y0, y1) (x0, x1) None (iv_len (x0, x1), iv_len (y0, y1)) None None)).
  { unfold mkCrop, some_slice. cbn [dsize fst snd]. rewrite !wrap_clip_id by lia. reflexivity. }
  pose proof (eq_trans (eq_sym Hc) Ht) as Ht1. injection Ht1 as <-.
  set (c := Crop _ _ _ _ _ _ _) in *.
  assert (Hpush : push_under c = Ok None).
  { destruct (crop_parts ps (y0, y1) (x0, x1) Hps) as (cs & E & F); try assumption.
    unfold c. cbn [push_under]. rewrite E. cbn [rmap bind]. f_equal.
    destruct (In_nth_error _ _ Ip) as (i & Hi). destruct (In_nth_error _ _ Iq) as (j & Hj).
    destruct (Forall2_nth_l _ _ _ _ _ F Hi) as (cp & Hcp & Sp). destruct (Forall2_nth_l _ _ _ _ _ F Hj) as (cq & Hcq & Sq).
    apply (mkConcat_differ cs cp cq); [eapply nth_error_In; exact Hcp|eapply nth_error_In; exact Hcq| |].
    - rewrite (Sp _ _ Ep), (Sq _ _ Eq). intros [= H1 H2]. destruct Hne; congruence.
    - clear -F Hps. intros r Hr. induction F as [|a b l l' Hab F IH]; [contradiction|]. inversion Hps; subst.
      destruct Hr as [<-|Hr]; [|auto]. destruct a as [lf| | | | |]; try contradiction. cbn [dsize] in Hab.
      destruct (l_dsize lf) as [a1 a2] eqn:Ea. rewrite (Hab a1 a2 eq_refl). discriminate. }
  assert (Hch : forall f, rmap fst (optimize o f (Concat ps (Some (w, h)))) = Err OutOfFuel \/
                          rmap fst (optimize o f (Concat ps (Some (w, h)))) = Ok (Concat ps (Some (w, h)))).
  { intros [|[|f]]; [left; reflexivity| |].
    - left. destruct ps as [|a r]; [contradiction|]. reflexivity.
    - right. change (optimize o (S (S f)) (Concat ps (Some (w, h)))) with
        (r <- mapR (optimize o (S f)) ps ;; if forallb snd r then Ok (Concat ps (Some (w, h)), true)
         else match mkConcat (map fst r) with Some n => Ok (n, false) | None => Ok (Concat ps (Some (w, h)), true) end).
      rewrite (leafs_same o f ps Hps). cbn [bind].
      replace (forallb snd (map (fun p0 : node => (p0, true)) ps)) with true; [reflexivity|].
      clear. induction ps; cbn; auto. }
  induction fuel as [|f IH]; [reflexivity|].
  change (optimize o (S f) c) with
    (s1 <- rmap fst (optimize o f (Concat ps (Some (w, h)))) ;;
     n <- opt_crop (fun t => rmap fst (optimize o f t)) s1 (y0, y1) (x0, x1) None (iv_len (x0, x1), iv_len (y0, y1)) None None ;;
     Ok (n, false)).
  destruct (Hch f) as [-> | ->]; [reflexivity|]. cbn [bind opt_crop crop_tail]. rewrite Hc. cbn [bind].
  fold c. rewrite Hpush. cbn [bind]. rewrite IH. reflexivity.
Qed.
Print Assumptions C129_never_returns.

Theorem C129_given_refuted :
  (* a crop of two images of different sizes, told the larger one *)
  (exists ps d t, Forall made ps /\ given_crop ps d (0, 8) (0, 8) = Ok t /\
     forall o fuel, optimize o fuel t = Err OutOfFuel) /\
  (* a size other than that of the parts is lost *)
  (exists p d t t', made p /\ mkConcat_given [p] (Some d) = Some t /\ (forall o, optimizes o t t') /\ dsize t' <> dsize t).
Proof.
  split.
  - exists [img 1 10 10 ["a"%string] None; img 2 5 5 ["b"%string] None], (10, 10). eexists. split; [|split; [reflexivity|]].
    + apply Forall_cons; [apply made_img; lia|]. apply Forall_cons; [apply made_img; lia|apply Forall_nil].
    + intros o. eapply (C129_never_returns o [img 1 10 10 ["a"%string] None; img 2 5 5 ["b"%string] None] (10, 10) (0, 8) (0, 8) _
        (img 1 10 10 ["a"%string] None) (img 2 5 5 ["b"%string] None) 10 10 5 5); try reflexivity; cbn; try lia; auto.
      repeat constructor; cbn; lia.
  - set (i := img 1 10 10 ["a"%string] None). set (c := the (crop_to i 0 8 0 8)). set (p := the (crop_to c 0 4 0 4)).
    exists p, (8, 8). eexists _, _. split; [|split; [reflexivity|split]].
    + eapply (made_crop_to c 0 4 0 4); [|reflexivity]. eapply (made_crop_to i 0 8 0 8); [|reflexivity]. apply made_img; lia.
    + intros o. exists 6%nat, false. vm_compute. reflexivity.
    + vm_compute. discriminate.
Qed.
Print Assumptions C129_given_refuted.

(** When the parts have that size it is as if nothing had been said: a tree built
    over it is like any other. *)
Theorem C129_given_partial : forall o ps d t, Forall made ps -> ps <> [] -> (forall p, In p ps -> dsize p = Some d) ->
  mkConcat_given ps (Some d) = Some t ->
  made t /\ dsize t = Some d /\
  (ov_free t -> warps_all invertible t -> names t <> None -> dq_once t ->
   exists t', optimizes o t t' /\ dsize t' = Some d /\ names t' = names t).
Proof.
  intros o ps d t Hm Hne Hd H. injection H as <-.
  assert (Hc : made (Concat ps (Some d))).
  { apply (made_concat ps); auto. apply mkConcat_spec. exists (Some d). split; [reflexivity|]. split; [apply Forall_forall; exact Hd|].
    intros ->. congruence. }
  split; [exact Hc|]. split; [reflexivity|]. intros Ho Hw Hn Hq.
  destruct (C32_optimize_total_partial o _ Hc Ho Hw Hn Hq) as (t' & Ht').
  destruct (C28_metadata_partial o _ _ Hc Ho Ht') as (D & _ & N). eauto.
Qed.
Print Assumptions C129_given_partial.

(** Told nothing, it takes the size its parts agree on, and parts that disagree are
    rejected. *)
Theorem C129_not_given : forall ps, ps <> [] ->
  (forall t d, mkConcat_given ps None = Some t -> (dsize t = d <-> forall p, In p ps -> dsize p = d)) /\
  (mkConcat_given ps None = None <-> exists p q, In p ps /\ In q ps /\ dsize p <> dsize q).
Proof.
  intros ps Hne. cbn [mkConcat_given]. split.
  - intros t d H. apply mkConcat_spec in H as (d' & -> & F & _). rewrite Forall_forall in F. cbn [dsize]. split.
    + intros <-. exact F.
    + intros G. destruct ps as [|p ps]; [congruence|]. rewrite <- (F p), (G p); [reflexivity|now left|now left].
  - split.
    + intros H. destruct ps as [|p ps]; [congruence|]. unfold mkConcat in H. cbn [map] in H.
      destruct (forallb (opt_size_eqb (dsize p)) (map dsize ps)) eqn:E; [discriminate|].
      apply not_true_iff_false in E. assert (X : exists q, In q ps /\ opt_size_eqb (dsize p) (dsize q) = false).
      { clear H Hne. induction ps as [|q ps IH]; [exfalso; apply E; reflexivity|]. cbn [map forallb] in E.
        destruct (opt_size_eqb (dsize p) (dsize q)) eqn:Eq; [|exists q; split; [now left|exact Eq]].
        destruct IH as (x & Hx & Ex); [exact E|]. exists x. split; [now right|exact Ex]. }
      destruct X as (q & Hq & Eq). exists p, q. split; [now left|]. split; [now right|].
      intros Z0. rewrite Z0 in Eq. assert (opt_size_eqb (dsize q) (dsize q) = true) by now apply opt_size_eqb_eq. congruence.
    + intros (p & q & Hp & Hq & N). destruct (mkConcat ps) as [t|] eqn:E; [|reflexivity].
      apply mkConcat_spec in E as (d & _ & F & _). rewrite Forall_forall in F. exfalso. apply N. rewrite (F p Hp), (F q Hq). reflexivity.
Qed.
Print Assumptions C129_not_given.

Example C129_not_given_case :
  mkConcat_given [img 1 4 4 ["a"%string] None; img 2 4 5 ["b"%string] None] None = None /\
  exists t, mkConcat_given [img 1 4 4 ["a"%string] None; img 2 4 4 ["b"%string] None] None = Some t /\ dsize t = Some (4, 4).
Proof. split; [reflexivity|]. eexists. split; reflexivity. Qed.

Example C129_case : exists t t', let ps := [the (crop_to (the (crop_to (img 1 10 10 ["a"%string] None) 0 8 0 8)) 0 4 0 4); img 2 4 4 ["b"%string] (Some 2)] in
  Forall made ps /\ mkConcat_given ps (Some (4, 4)) = Some t /\ ov_free t /\ names t <> None /\ dq_once t /\
  optimizes axis_oracle t t' /\ t' <> t.
Proof.
  eexists _, _. cbv zeta. split; [|split; [reflexivity|split; [vm_compute; tauto|split; [discriminate|split; [vm_compute; tauto|split]]]]].
  - apply Forall_cons; [|apply Forall_cons; [apply made_img; lia|apply Forall_nil]].
    eapply (made_crop_to (the (crop_to (img 1 10 10 ["a"%string] None) 0 8 0 8)) 0 4 0 4); [|reflexivity].
    eapply (made_crop_to (img 1 10 10 ["a"%string] None) 0 8 0 8); [|reflexivity]. apply made_img; lia.
  - exists 6%nat, false. vm_compute. reflexivity.
  - vm_compute. discriminate.
Qed.
