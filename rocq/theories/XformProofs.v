(* Proofs about transforms between delayed images. *)
From Verif Require Import Py PyProofs GeomModel GeomProofs GraphModel GraphSpec GraphBase GraphTake GraphOpt GraphMain GraphSound GraphSize XformModel XformSpec.
Local Open Scope Q_scope.

(** ** Affine maps *)

Lemma same_refl A : same_map A A.
Proof. intros x y. split; reflexivity. Qed.
Lemma same_sym A B : same_map A B -> same_map B A.
Proof. intros H x y. destruct (H x y). split; symmetry; assumption. Qed.
Lemma same_trans A B C : same_map A B -> same_map B C -> same_map A C.
Proof. intros H G x y. destruct (H x y), (G x y). split; etransitivity; eassumption. Qed.
Lemma same_mul A A' B B' : same_map A A' -> same_map B B' -> same_map (aff_mul A B) (aff_mul A' B').
Proof.
  intros H G x y. rewrite !ax_mul, !ay_mul. destruct (G x y) as [G1 G2].
  destruct (H (ax B x y) (ay B x y)) as [H1 H2]. rewrite H1, H2, G1, G2. split; reflexivity.
Qed.
Lemma mul_assoc A B C : same_map (aff_mul (aff_mul A B) C) (aff_mul A (aff_mul B C)).
Proof. intros x y. split; unfold ax, ay, aff_mul; cbn; ring. Qed.
Lemma mul_id_l A : same_map (aff_mul aff_id A) A.
Proof. intros x y. rewrite ax_mul, ay_mul, ax_id, ay_id. split; reflexivity. Qed.
Lemma mul_id_r A : same_map (aff_mul A aff_id) A.
Proof. intros x y. rewrite ax_mul, ay_mul, ax_id, ay_id. split; reflexivity. Qed.
Lemma mul_inv_r A : ~ aff_det A == 0 -> same_map (aff_mul A (aff_inv_raw A)) aff_id.
Proof. intros H x y. rewrite ax_mul, ay_mul, ax_id, ay_id. now apply inv_right. Qed.
Lemma mul_inv_l A : ~ aff_det A == 0 -> same_map (aff_mul (aff_inv_raw A) A) aff_id.
Proof. intros H x y. rewrite ax_mul, ay_mul, ax_id, ay_id. now apply inv_left. Qed.

Lemma det_mul A B : aff_det (aff_mul A B) == aff_det A * aff_det B.
Proof. unfold aff_det, aff_mul. cbn. ring. Qed.
Lemma det_translate x y : aff_det (aff_translate x y) == 1.
Proof. unfold aff_det, aff_translate. cbn. ring. Qed.
Lemma det_id : aff_det aff_id == 1.
Proof. reflexivity. Qed.
Lemma det_overview k : ~ aff_det (aff_scale (1 / pow2 k) (1 / pow2 k)) == 0.
Proof. rewrite scale_det. pose proof (inv_pow2_pos k). intros E. apply Qmult_integral in E. lra. Qed.
Lemma det_mul_nz A B : ~ aff_det A == 0 -> ~ aff_det B == 0 -> ~ aff_det (aff_mul A B) == 0.
Proof. intros H G. rewrite det_mul. intros E. apply Qmult_integral in E. tauto. Qed.
Lemma det_inv A : ~ aff_det A == 0 -> ~ aff_det (aff_inv_raw A) == 0.
Proof.
  intros H. assert (E : aff_det (aff_inv_raw A) == / aff_det A).
  { unfold aff_det, aff_inv_raw in *. cbn. unfold aff_det. field. exact H. }
  rewrite E. intros E0. apply H. rewrite <- (Qinv_involutive (aff_det A)), E0. reflexivity.
Qed.

Lemma same_det A B : same_map A B -> aff_det A == aff_det B.
Proof.
  intros H. destruct (H 0 0) as [H1 H2]. destruct (H 1 0) as [H3 H4]. destruct (H 0 1) as [H5 H6].
  unfold ax, ay in *.
  assert (E1 : a11 A == a11 B) by lra. assert (E2 : a12 A == a12 B) by lra.
  assert (E3 : a21 A == a21 B) by lra. assert (E4 : a22 A == a22 B) by lra.
  unfold aff_det. now rewrite E1, E2, E3, E4.
Qed.

(* inverses of equal maps *)
Lemma inv_same A B : ~ aff_det A == 0 -> same_map A B -> same_map (aff_inv_raw A) (aff_inv_raw B).
Proof.
  intros HA H. assert (HB : ~ aff_det B == 0) by (now rewrite <- (same_det _ _ H)).
  eapply same_trans; [apply same_sym, mul_id_r|].
  eapply same_trans; [apply same_mul; [apply same_refl|apply same_sym, (mul_inv_r B HB)]|].
  eapply same_trans; [apply same_sym, mul_assoc|].
  eapply same_trans; [|apply mul_id_l]. apply same_mul; [|apply same_refl].
  eapply same_trans; [apply same_mul; [apply same_refl|apply same_sym, H]|]. now apply mul_inv_l.
Qed.

Lemma aff_inv_total A : ~ aff_det A == 0 -> aff_inv A = Ok (aff_inv_raw A).
Proof.
  intros H. unfold aff_inv. destruct (Qeq_bool (aff_det A) 0) eqn:E; [|reflexivity].
  apply Qeq_bool_eq in E. contradiction.
Qed.

(** ** from_leaf *)

Lemma from_leaf_chain t : chain t -> exists A, from_leaf t = Ok A.
Proof.
  induction t as [l|ps d|s IH ys xs ci d nm nc|s IH M d al|s IH q d|s IH k d]; cbn [chain from_leaf]; intros H;
    try (destruct (IH H) as (A & ->); cbn; eauto); [eauto|destruct H].
Qed.
Lemma from_leaf_ok_chain t A : from_leaf t = Ok A -> chain t.
Proof.
  revert A; induction t as [l|ps d|s IH ys xs ci d nm nc|s IH M d al|s IH q d|s IH k d]; cbn [chain from_leaf]; intros A H;
    try (apply bind_ok in H as (B & E & _); eauto); [exact I|discriminate].
Qed.

Lemma from_leaf_moves t : forall A u v x y, from_leaf t = Ok A ->
  (moves t u v x y <-> x == ax A u v /\ y == ay A u v).
Proof.
  induction t as [l|ps d|s IH ys xs ci d nm nc|s IH M d al|s IH q d|s IH k d]; cbn [from_leaf moves]; intros A u v x y H.
  - injection H as <-. rewrite ax_id, ay_id. reflexivity.
  - discriminate.
  - apply bind_ok in H as (B & E & H). injection H as <-. rewrite (IH B _ _ _ _ E).
    rewrite ax_mul, ay_mul, ax_translate, ay_translate. split; intros [H1 H2]; split; lra.
  - apply bind_ok in H as (B & E & H). injection H as <-. rewrite ax_mul, ay_mul. split.
    + intros (x' & y' & Hx & Hy & H). rewrite (IH B _ _ _ _ E) in H. destruct H as [H1 H2].
      now rewrite Hx, Hy, H1, H2.
    + intros [H1 H2]. exists (ax B u v), (ay B u v). split; [exact H1|]. split; [exact H2|].
      rewrite (IH B _ _ _ _ E). split; reflexivity.
  - apply bind_ok in H as (B & E & H). injection H as <-. rewrite (IH B _ _ _ _ E).
    rewrite ax_mul, ay_mul, ax_id, ay_id. reflexivity.
  - apply bind_ok in H as (B & E & H). injection H as <-. rewrite (IH B _ _ _ _ E).
    rewrite ax_mul, ay_mul, ax_scale, ay_scale. pose proof (pow2_pos k) as Hk.
    assert (K : forall a b, a * pow2 k == b <-> a == 1 / pow2 k * b).
    { intros a b. split; intros X; [rewrite <- X|rewrite X]; field; lra. }
    rewrite !K. reflexivity.
Qed.

Lemma regular_det t : forall A, regular t -> from_leaf t = Ok A -> ~ aff_det A == 0.
Proof.
  induction t as [l|ps d|s IH ys xs ci d nm nc|s IH M d al|s IH q d|s IH k d]; cbn [from_leaf regular]; intros A Hr H.
  - injection H as <-. rewrite det_id. discriminate.
  - discriminate.
  - apply bind_ok in H as (B & E & H). injection H as <-. apply det_mul_nz; [rewrite det_translate; discriminate|eauto].
  - apply bind_ok in H as (B & E & H). injection H as <-. destruct Hr as [H1 H2]. apply det_mul_nz; eauto.
  - apply bind_ok in H as (B & E & H). injection H as <-. apply det_mul_nz; [rewrite det_id; discriminate|eauto].
  - apply bind_ok in H as (B & E & H). injection H as <-. apply det_mul_nz; [apply det_overview|eauto].
Qed.

(** ** get_transform_from of chains *)

Lemma gtf_chain b a A B : from_leaf a = Ok A -> from_leaf b = Ok B ->
  get_transform_from b a = (I <- aff_inv A ;; Ok (aff_mul B I)).
Proof. intros HA HB. unfold get_transform_from. now rewrite HA, HB. Qed.

Lemma gtf_chain_ok b a T : chain a -> chain b -> get_transform_from b a = Ok T ->
  exists A B, from_leaf a = Ok A /\ from_leaf b = Ok B /\ ~ aff_det A == 0 /\ T = aff_mul B (aff_inv_raw A).
Proof.
  intros Ha Hb H. destruct (from_leaf_chain _ Ha) as (A & EA). destruct (from_leaf_chain _ Hb) as (B & EB).
  rewrite (gtf_chain _ _ _ _ EA EB) in H. apply bind_ok in H as (J & EI & H). injection H as <-.
  apply aff_inv_ok in EI as [-> HA]. eauto 6.
Qed.

Lemma gtf_moves b a T u v x y : chain a -> chain b -> get_transform_from b a = Ok T ->
  moves a u v x y -> moves b u v (ax T x y) (ay T x y).
Proof.
  intros Ha Hb H Hm. destruct (gtf_chain_ok _ _ _ Ha Hb H) as (A & B & EA & EB & HA & ->).
  rewrite (from_leaf_moves _ _ _ _ _ _ EA) in Hm. rewrite (from_leaf_moves _ _ _ _ _ _ EB).
  destruct Hm as [H1 H2]. rewrite ax_mul, ay_mul, H1, H2. destruct (inv_left A u v HA) as [I1 I2].
  rewrite I1, I2. split; reflexivity.
Qed.

Lemma gtf_total b a : chain a -> chain b -> regular a -> exists T, get_transform_from b a = Ok T.
Proof.
  intros Ha Hb Hr. destruct (from_leaf_chain _ Ha) as (A & EA). destruct (from_leaf_chain _ Hb) as (B & EB).
  rewrite (gtf_chain _ _ _ _ EA EB), (aff_inv_total A); [|eapply regular_det; eassumption]. cbn. eauto.
Qed.

Lemma gtf_self a T : chain a -> get_transform_from a a = Ok T -> same_map T aff_id.
Proof.
  intros Ha H. destruct (gtf_chain_ok _ _ _ Ha Ha H) as (A & B & EA & EB & HA & ->).
  rewrite EA in EB. injection EB as <-. now apply mul_inv_r.
Qed.

Lemma gtf_compose c b a T1 T2 : chain a -> chain b -> chain c ->
  get_transform_from b a = Ok T1 -> get_transform_from c b = Ok T2 ->
  exists T, get_transform_from c a = Ok T /\ same_map T (aff_mul T2 T1).
Proof.
  intros Ha Hb Hc H1 H2. destruct (gtf_chain_ok _ _ _ Ha Hb H1) as (A & B & EA & EB & HA & ->).
  destruct (gtf_chain_ok _ _ _ Hb Hc H2) as (B' & C & EB' & EC & HB & ->). rewrite EB in EB'. injection EB' as <-.
  rewrite (gtf_chain _ _ _ _ EA EC), (aff_inv_total A HA). cbn. eexists. split; [reflexivity|].
  apply same_sym. eapply same_trans; [apply mul_assoc|]. apply same_mul; [apply same_refl|].
  eapply same_trans; [apply same_sym, mul_assoc|]. eapply same_trans; [|apply mul_id_l].
  apply same_mul; [now apply mul_inv_l|apply same_refl].
Qed.

Lemma gtf_inverse b a T1 T2 : chain a -> chain b ->
  get_transform_from b a = Ok T1 -> get_transform_from a b = Ok T2 -> same_map (aff_mul T2 T1) aff_id.
Proof.
  intros Ha Hb H1 H2. destruct (gtf_compose _ _ _ _ _ Ha Hb Ha H1 H2) as (T & HT & E).
  eapply same_trans; [apply same_sym; exact E|]. exact (gtf_self _ _ Ha HT).
Qed.

(** ** Visible samples are moved samples *)

Lemma vis_moves t : forall x y c s, chain t -> nans_free t -> vis t x y c s ->
  exists l b u v dq, base t = Some l /\ s = Samp (l_id l) b u v dq /\ moves t u v x y /\ inside (l_dsize l) u v.
Proof.
  induction t as [l|ps d|t' IH ys xs ci d nm nc|t' IH M d al|t' IH q d|t' IH k d]; cbn [chain nans_free vis moves base];
    intros x y c s Hc Hn H.
  - destruct H as (Hi & _ & H). rewrite Hn in H. destruct H as (x' & y' & Hx & Hy & ->).
    exists l, c, x', y', []. split; [reflexivity|]. split; [reflexivity|].
    split; [split; symmetry; assumption|]. eapply inside_proper; [symmetry; exact Hx|symmetry; exact Hy|exact Hi].
  - destruct Hc.
  - destruct H as (_ & b & _ & H). destruct (IH _ _ _ _ Hc Hn H) as (l & b' & u & v & dq & Hb & Hs & Hm & Hi).
    exists l, b', u, v, dq. auto.
  - destruct H as (_ & x' & y' & Hx & Hy & H). destruct (IH _ _ _ _ Hc Hn H) as (l & b' & u & v & dq & Hb & Hs & Hm & Hi).
    exists l, b', u, v, dq. split; [exact Hb|]. split; [exact Hs|]. split; [exists x', y'; auto|exact Hi].
  - destruct H as (_ & s' & H & ->). destruct (IH _ _ _ _ Hc Hn H) as (l & b' & u & v & dq & Hb & -> & Hm & Hi).
    destruct q as [q|]; [exists l, b', u, v, (q :: dq)|exists l, b', u, v, dq]; cbn; auto.
  - destruct H as (_ & H). destruct (IH _ _ _ _ Hc Hn H) as (l & b' & u & v & dq & Hb & Hs & Hm & Hi).
    exists l, b', u, v, dq. auto.
Qed.

(** ** optimize() of a chain is a chain *)

Definition keeps_chain (opt : node -> result node) := forall t t', chain t -> opt t = Ok t' -> chain t'.

Lemma mkCrop_chain s sl ci n : chain s -> mkCrop s sl ci = Ok n -> chain n.
Proof.
  unfold mkCrop. destruct (dsize s) as [[w h]|]; [|discriminate]. intros Hc H.
  apply bind_ok in H as ([ys xs] & _ & H). apply bind_ok in H as ([nm nc] & _ & H). injection H as <-. exact Hc.
Qed.
Lemma mkOverview_chain s k n : chain s -> mkOverview s k = Ok n -> chain n.
Proof. unfold mkOverview. destruct (dsize s); [|discriminate]. intros Hc [= <-]. exact Hc. Qed.
Lemma mkWarp_chain s M al n : chain s -> mkWarp_auto s M al = Ok n -> chain n.
Proof. unfold mkWarp_auto. destruct (dsize s); [|discriminate]. intros Hc [= <-]. exact Hc. Qed.
Lemma padded_chain s ys xs n : chain s -> padded_crop_node s ys xs = Ok n -> chain n.
Proof.
  unfold padded_crop_node. destruct (dsize s); [|discriminate]. intros Hc H.
  apply bind_ok in H as ([[dy dx] tf] & _ & H). apply bind_ok in H as (c & E & H).
  apply mkCrop_chain in E; [|exact Hc]. destruct tf as [[T d]|]; injection H as <-; exact E.
Qed.
Lemma wac_chain s M ys xs ci cd c T : chain s -> warp_after_crop s M ys xs ci cd = Ok (Some (c, T)) -> chain c.
Proof.
  unfold warp_after_crop. intros Hc H. destruct ((fst cd =? 0) || (snd cd =? 0))%Z; [discriminate|].
  destruct (axis_aligned M).
  - destruct (dsize s) as [[w h]|]; [|discriminate].
    destruct (fast_axis (a11 M) (b1 M) w xs) as [xsl ox]. destruct (fast_axis (a22 M) (b2 M) h ys) as [ysl oy].
    apply bind_ok in H as (c' & E & H). injection H as <- <-. eapply mkCrop_chain; eassumption.
  - apply bind_ok in H as ([[ysl xsl] T'] & _ & H).
    apply bind_ok in H as (c' & E & H). injection H as <- <-. eapply mkCrop_chain; eassumption.
Qed.
Lemma fuse_chain s a b c d e f n : chain s -> fuse_crops s a b c d e f = Ok n -> chain n.
Proof. unfold fuse_crops. intros Hc H. apply bind_ok in H as (i & _ & H). eapply mkCrop_chain; eassumption. Qed.
Lemma cao_chain s ys xs ci k n : chain s -> crop_after_overview s ys xs ci k = Ok n -> chain n.
Proof.
  unfold crop_after_overview. intros Hc H. apply bind_ok in H as (o & E & H). apply mkOverview_chain in E; [|exact Hc].
  destruct (overview_crop_axis k xs) as [qx ox]. destruct (overview_crop_axis k ys) as [qy oy].
  apply bind_ok in H as (c & E2 & H). apply mkCrop_chain in E2; [|exact E].
  destruct (is_identity (aff_translate ox oy)); [injection H as <-; exact E2|]. eapply mkWarp_chain; eassumption.
Qed.
Lemma wao_chain s B k n : chain s -> warp_after_overview_node s B k = Ok n -> chain n.
Proof.
  unfold warp_after_overview_node. intros Hc H. apply bind_ok in H as (C & _ & H).
  apply bind_ok in H as (o & E & H). apply mkOverview_chain in E; [|exact Hc]. eapply mkWarp_chain; eassumption.
Qed.
Lemma split_chain o opt s M d al n : keeps_chain opt -> chain s -> split_warp o opt s M d al = Ok (Some n) -> chain n.
Proof.
  unfold split_warp. intros Hopt Hc H. apply bind_ok in H as (no & _ & H). destruct no as [m|]; [|discriminate].
  destruct (m =? 0)%Z; [discriminate|]. apply bind_ok in H as (lv & _ & H). destruct lv as [p|]; [|discriminate].
  cbv zeta in H. destruct (Z.min m p =? 0)%Z; [discriminate|]. apply bind_ok in H as (R & _ & H).
  apply bind_ok in H as (ov & E & H). apply mkOverview_chain in E; [|exact Hc].
  destruct (is_identity R); [|injection H as <-; exact E].
  destruct (opt_size_eqb (dsize ov) (Some d)); [injection H as <-; exact E|].
  apply bind_ok in H as (c & E2 & H). apply padded_chain in E2; [|exact E].
  destruct (opt c) as [c'|] eqn:E3; [|discriminate]. injection H as <-. eapply Hopt; eassumption.
Qed.
Lemma lookahead_chain n : forall t c os k od, chain t -> lookahead n t = Some (c, (os, k, od)) -> chain os.
Proof.
  induction n as [|n IH]; intros t c os k od Hc H; [discriminate|].
  destruct t as [l|ps d|s ys xs ci d nm nc|s M d al|s q d|s k0 d]; cbn in H, Hc; try discriminate.
  - destruct (lookahead n s) as [[c' [[os' k'] od']]|] eqn:E; [|discriminate]. injection H as <- <- <- <-. eauto.
  - destruct (lookahead n s) as [[c' [[os' k'] od']]|] eqn:E; [|discriminate]. injection H as <- <- <- <-. eauto.
  - injection H as <- <- <- <-. exact Hc.
Qed.
Lemma relayer_chain nd ls t : chain t -> chain (fold_right (relayer nd) t ls).
Proof. intros H. induction ls as [|[q|ys xs ci d nm nc] ls IH]; cbn; auto. Qed.
Lemma absorb_chain o s M d al n : chain s -> absorb o s M d al = Ok n -> chain n.
Proof.
  unfold absorb. intros Hc H. destruct (negb (absorbs o M)); [injection H as <-; exact Hc|].
  destruct (lookahead 4 s) as [[c [[os k] od]]|] eqn:E; [|injection H as <-; exact Hc].
  apply lookahead_chain in E; [|exact Hc].
  destruct (1 <? List.length (filter is_lcrop c))%nat; [injection H as <-; exact Hc|].
  apply bind_ok in H as ([head tf1] & E2 & H). injection H as <-. cbn [chain].
  destruct (rev c) as [|[q|ys xs ci cd nm nc] above].
  - injection E2 as <- <-. exact E.
  - apply bind_ok in E2 as (nd & _ & E2). injection E2 as <- <-. now apply relayer_chain.
  - apply bind_ok in E2 as (r & E3 & E2). destruct r as [[cr T]|]; [|discriminate]. injection E2 as <- <-.
    apply relayer_chain. eapply wac_chain; eassumption.
Qed.
Lemma opt_sub_chain opt n n' : keeps_chain opt -> chain n -> opt_sub opt n = Ok n' -> chain n'.
Proof.
  intros Hopt Hc H. destruct n as [l|ps d|s ys xs ci d nm nc|s M d al|s q d|s k d]; cbn in H; try discriminate;
    apply bind_ok in H as (s' & E & H); injection H as <-; cbn in *; eapply Hopt; eassumption.
Qed.
Lemma push_tail_chain opt n n' : chain n -> push_tail opt n = Ok n' -> n' = n.
Proof.
  unfold push_tail. intros Hc H. destruct n as [l|ps d|s ys xs ci d nm nc|s M d al|s q d|s k d]; cbn in H, Hc; try tauto;
    try (injection H as <-; reflexivity); destruct s; cbn in Hc; try tauto; injection H as <-; reflexivity.
Qed.
Lemma crop_tail_chain opt n n' : chain n -> crop_tail opt n = Ok n' -> n' = n.
Proof.
  intros Hc H. destruct n as [l|ps d|s ys xs ci d nm nc|s M d al|s q d|s k d];
    try exact (push_tail_chain opt _ _ Hc H). destruct s; try exact (push_tail_chain opt _ _ Hc H). destruct Hc.
Qed.

Lemma opt_warp_chain o opt s M d al n : keeps_chain opt -> chain s -> opt_warp o opt s M d al = Ok n -> chain n.
Proof.
  intros Hopt Hc H. unfold opt_warp in H.
  assert (X : exists s2 M2 al2, match s with Warp s2 M1 _ _ => (s2, aff_mul M M1, drop_backend al) | _ => (s, M, al) end = (s2, M2, al2) /\ chain s2).
  { destruct s; eauto 8. }
  destruct X as (s2 & M2 & al2 & E & Hc2). rewrite E in H. clear E. cbv zeta in H.
  destruct (opt_size_eqb (Some d) (dsize s2) && close_identity (al_eps al2) M2); [injection H as <-; exact Hc2|].
  assert (Hother : (sp <- split_warp o opt s2 M2 d al2 ;; match sp with Some n => n' <- opt_sub opt n ;; opt n' | None => absorb o s2 M2 d al2 end) = Ok n -> chain n).
  { intros G. apply bind_ok in G as (sp & E & G). destruct sp as [m|]; [|eapply absorb_chain; eassumption].
    pose proof (split_chain _ _ _ _ _ _ _ Hopt Hc2 E) as Hm. clear E. apply bind_ok in G as (m' & E2 & G).
    apply opt_sub_chain in E2; [|exact Hopt|exact Hm]. exact (Hopt _ _ E2 G). }
  destruct s2; try (apply Hother; exact H).
  - destruct (is_nans l); [injection H as <-; exact I|apply Hother; exact H].
  - destruct Hc2.
Qed.
Lemma opt_dequant_chain opt s q d n : keeps_chain opt -> chain s -> opt_dequant opt s q d = Ok n -> chain n.
Proof.
  intros Hopt Hc H. unfold opt_dequant in H.
  destruct s; try (apply push_tail_chain in H; [subst n; exact Hc|exact Hc]).
  - apply bind_ok in H as (m & E & H). apply Hopt in E; [|exact Hc]. apply push_tail_chain in H; [subst n; exact E|exact E].
  - discriminate.
Qed.
Lemma opt_crop_chain opt s ys xs ci d nm nc n : keeps_chain opt -> chain s -> opt_crop opt s ys xs ci d nm nc = Ok n -> chain n.
Proof.
  intros Hopt Hc H. unfold opt_crop in H. apply bind_ok in H as (c1 & E & H).
  assert (C1 : chain c1). { destruct s; try (injection E as <-; exact Hc). eapply fuse_chain; [|exact E]. exact Hc. }
  clear E Hc. destruct c1 as [l|ps d1|s1 ys1 xs1 ci1 d1 nm1 nc1|s1 M1 d1 al1|s1 q1 d1|s1 k1 d1];
    try (apply crop_tail_chain in H; [subst n; exact C1|exact C1]).
  destruct s1 as [l|ps d2|s2 ys2 xs2 ci2 d2 nm2 nc2|s2 M2 d2 al2|s2 q2 d2|s2 k2 d2];
    try (apply crop_tail_chain in H; [subst n; exact C1|exact C1]).
  - destruct (is_nans l); [|injection H as <-; exact C1]. unfold nans_crop in H.
    apply bind_ok in H as (? & _ & H). apply bind_ok in H as ([? ?] & _ & H). apply bind_ok in H as ([? ?] & _ & H).
    injection H as <-. exact I.
  - destruct (al_nearest al2); [injection H as <-; exact C1|]. apply bind_ok in H as (r & E & H).
    destruct r as [[c T]|]; [|injection H as <-; exact C1]. apply wac_chain in E; [|exact C1].
    apply bind_ok in H as (m & E2 & H). apply Hopt in E2; [|exact E]. apply crop_tail_chain in H; [subst n; exact E2|exact E2].
  - apply bind_ok in H as (m & E2 & H). apply Hopt in E2; [|exact C1]. apply crop_tail_chain in H; [subst n; exact E2|exact E2].
Qed.
Lemma opt_overview_chain opt s k d n : keeps_chain opt -> chain s -> opt_overview opt s k d = Ok n -> chain n.
Proof.
  intros Hopt Hc H. unfold opt_overview in H. apply bind_ok in H as (o1 & E & H).
  assert (C1 : chain o1). { destruct s; try (injection E as <-; exact Hc). eapply mkOverview_chain; [|exact E]. exact Hc. }
  clear E Hc. destruct o1 as [| | | | |s1 k1 d1]; try discriminate. cbn [chain] in C1.
  destruct (k1 =? 0)%Z; [apply push_tail_chain in H; [subst n; exact C1|exact C1]|].
  assert (Hstep : forall m, chain m -> (n' <- opt m ;; push_tail opt n') = Ok n -> chain n).
  { intros m Hm G. apply bind_ok in G as (m' & E & G). apply Hopt in E; [|exact Hm]. apply push_tail_chain in G; [subst n; exact E|exact E]. }
  destruct s1; try (apply push_tail_chain in H; [subst n; exact C1|exact C1]).
  - apply bind_ok in H as (m & E & H). apply cao_chain in E; [|exact C1]. exact (Hstep _ E H).
  - apply bind_ok in H as (m & E & H). apply wao_chain in E; [|exact C1]. exact (Hstep _ E H).
  - eapply Hstep; [|exact H]. exact C1.
Qed.

Lemma optimize_chain o : forall fuel t t' b, chain t -> optimize o fuel t = Ok (t', b) -> chain t'.
Proof.
  induction fuel as [|f IH]; intros t t' b Hc H; [discriminate|].
  assert (Hopt : keeps_chain (fun t => rmap fst (optimize o f t))).
  { intros t0 t0' H0 H1. destruct (optimize o f t0) as [[t1 b1]|] eqn:E; [|discriminate]. injection H1 as <-. eauto. }
  set (opt := fun t => rmap fst (optimize o f t)) in *.
  destruct t as [l|ps d|s ys xs ci d nm nc|s M d al|s q d|s k d]; cbn [optimize] in H; fold opt in H.
  - injection H as <- <-. exact I.
  - destruct Hc.
  - apply bind_ok in H as (s1 & E & H). apply bind_ok in H as (n & E2 & H). injection H as <- <-.
    eapply opt_crop_chain; [exact Hopt| |exact E2]. eapply Hopt; [|exact E]. exact Hc.
  - apply bind_ok in H as (s1 & E & H). apply bind_ok in H as (n & E2 & H). injection H as <- <-.
    eapply opt_warp_chain; [exact Hopt| |exact E2]. eapply Hopt; [|exact E]. exact Hc.
  - apply bind_ok in H as (s1 & E & H). apply bind_ok in H as (n & E2 & H). injection H as <- <-.
    eapply opt_dequant_chain; [exact Hopt| |exact E2]. eapply Hopt; [|exact E]. exact Hc.
  - apply bind_ok in H as (s1 & E & H). apply bind_ok in H as (n & E2 & H). injection H as <- <-.
    eapply opt_overview_chain; [exact Hopt| |exact E2]. eapply Hopt; [|exact E]. exact Hc.
Qed.

(** ** optimize() does not change the transform *)

(* two affine maps that agree on three points whose images form a triangle *)
Lemma agree_on_triangle A B u0 v0 u1 v1 u2 v2 :
  triangle (ax A u0 v0, ay A u0 v0) (ax A u1 v1, ay A u1 v1) (ax A u2 v2, ay A u2 v2) ->
  (ax A u0 v0 == ax B u0 v0 /\ ay A u0 v0 == ay B u0 v0) ->
  (ax A u1 v1 == ax B u1 v1 /\ ay A u1 v1 == ay B u1 v1) ->
  (ax A u2 v2 == ax B u2 v2 /\ ay A u2 v2 == ay B u2 v2) -> same_map A B.
Proof.
  intros Ht [X0 Y0] [X1 Y1] [X2 Y2].
  set (D := (u1 - u0) * (v2 - v0) - (u2 - u0) * (v1 - v0)).
  assert (HD : ~ D == 0).
  { intros E. apply Ht. unfold triangle. cbn [fst snd].
    setoid_replace ((ax A u1 v1 - ax A u0 v0) * (ay A u2 v2 - ay A u0 v0) - (ax A u2 v2 - ax A u0 v0) * (ay A u1 v1 - ay A u0 v0))
      with (aff_det A * D) by (unfold ax, ay, aff_det, D; ring). rewrite E. ring. }
  assert (K : forall p q c p' q' c', p * u0 + q * v0 + c == p' * u0 + q' * v0 + c' ->
      p * u1 + q * v1 + c == p' * u1 + q' * v1 + c' -> p * u2 + q * v2 + c == p' * u2 + q' * v2 + c' ->
      p == p' /\ q == q' /\ c == c').
  { intros p q c p' q' c' E0 E1 E2.
    assert (F1 : (p - p') * (u1 - u0) + (q - q') * (v1 - v0) == 0) by lra.
    assert (F2 : (p - p') * (u2 - u0) + (q - q') * (v2 - v0) == 0) by lra.
    assert (G1 : (p - p') * D == 0).
    { setoid_replace ((p - p') * D) with ((v2 - v0) * ((p - p') * (u1 - u0) + (q - q') * (v1 - v0))
        - (v1 - v0) * ((p - p') * (u2 - u0) + (q - q') * (v2 - v0))) by (unfold D; ring). rewrite F1, F2. ring. }
    assert (G2 : (q - q') * D == 0).
    { setoid_replace ((q - q') * D) with ((u1 - u0) * ((p - p') * (u2 - u0) + (q - q') * (v2 - v0))
        - (u2 - u0) * ((p - p') * (u1 - u0) + (q - q') * (v1 - v0))) by (unfold D; ring). rewrite F1, F2. ring. }
    apply Qmult_integral in G1 as [G1|G1]; [|contradiction]. apply Qmult_integral in G2 as [G2|G2]; [|contradiction].
    assert (P : p == p') by lra. assert (Q : q == q') by lra. rewrite P, Q in E0. split; [exact P|]. split; [exact Q|]. lra. }
  unfold ax, ay in X0, X1, X2, Y0, Y1, Y2.
  destruct (K _ _ _ _ _ _ X0 X1 X2) as (E1 & E2 & E3). destruct (K _ _ _ _ _ _ Y0 Y1 Y2) as (E4 & E5 & E6).
  intros x y. unfold ax, ay. rewrite E1, E2, E3, E4, E5, E6. split; reflexivity.
Qed.

Lemma triangle_proper p q r p' q' r' : fst p == fst p' -> snd p == snd p' -> fst q == fst q' -> snd q == snd q' ->
  fst r == fst r' -> snd r == snd r' -> triangle p q r -> triangle p' q' r'.
Proof. unfold triangle. intros E1 E2 E3 E4 E5 E6. now rewrite E1, E2, E3, E4, E5, E6. Qed.

(* a chain whose visible samples are kept keeps its transform *)
Lemma kept_transform t t' A A' : chain t -> chain t' -> nans_free t -> nans_free t' ->
  (forall x y c s, vis t x y c s -> vis t' x y c s) -> shows_area t ->
  from_leaf t = Ok A -> from_leaf t' = Ok A' -> same_map A A'.
Proof.
  intros Hc Hc' Hn Hn' Hv (p & q & r & Ht & Hz) HA HA'.
  assert (K : forall z, z = p \/ z = q \/ z = r -> exists u v, fst z == ax A u v /\ snd z == ay A u v /\ fst z == ax A' u v /\ snd z == ay A' u v).
  { intros z Z. destruct (Hz z Z) as (c & s & V). destruct (vis_moves _ _ _ _ _ Hc Hn V) as (l & b & u & v & dq & _ & -> & M & _).
    destruct (vis_moves _ _ _ _ _ Hc' Hn' (Hv _ _ _ _ V)) as (l' & b' & u' & v' & dq' & _ & E & M' & _).
    injection E as _ _ <- <- _. exists u, v.
    rewrite (from_leaf_moves _ _ _ _ _ _ HA) in M. rewrite (from_leaf_moves _ _ _ _ _ _ HA') in M'. tauto. }
  destruct (K p) as (u0 & v0 & P1 & P2 & P3 & P4); [auto|]. destruct (K q) as (u1 & v1 & Q1 & Q2 & Q3 & Q4); [auto|].
  destruct (K r) as (u2 & v2 & R1 & R2 & R3 & R4); [auto|].
  apply (agree_on_triangle A A' u0 v0 u1 v1 u2 v2).
  - eapply triangle_proper; [..|exact Ht]; assumption.
  - split; lra.
  - split; lra.
  - split; lra.
Qed.

Lemma optimizes_transform o t t' : wf t -> chain t -> nans_free t -> shows_area t -> optimizes o t t' ->
  chain t' /\ exists A A', from_leaf t = Ok A /\ from_leaf t' = Ok A' /\ same_map A A'.
Proof.
  intros Hw Hc Hn Ha (f & b & H). pose proof (optimize_chain o f t t' b Hc H) as Hc'. split; [exact Hc'|].
  destruct (optimize_good o f RNansFree t t' b Hw Hn H) as ((_ & Hn' & _ & _ & Hv) & _).
  destruct (from_leaf_chain _ Hc) as (A & EA). destruct (from_leaf_chain _ Hc') as (A' & EA').
  exists A, A'. split; [exact EA|]. split; [exact EA'|].
  exact (kept_transform t t' A A' Hc Hc' Hn Hn' Hv Ha EA EA').
Qed.

(** ** Concatenations *)

Lemma picks_chain t : chain t -> picks t t.
Proof. induction t; cbn; intros H; try (now constructor; auto). destruct H. Qed.

Lemma over_In op r ps lp : over op r = Ok ps -> In lp ps -> exists rs p, r = Ok rs /\ In (fst lp, p) rs /\ snd lp = op p.
Proof.
  unfold over. destruct r as [rs|]; [|discriminate]. cbn. intros [= <-] H. apply in_map_iff in H as ([l p] & <- & H).
  cbn. eauto.
Qed.

Lemma paths_picks t : forall ps lp, paths t = Ok ps -> In lp ps -> picks t (snd lp) /\ base (snd lp) = Some (fst lp).
Proof.
  induction t as [l|qs d F|s ys xs ci d nm nc IH|s M d al IH|s q d IH|s k d IH] using node_ind'; intros ps lp H Hin.
  - injection H as <-. destruct Hin as [<-|[]]. split; [constructor|reflexivity].
  - cbn [paths] in H. destruct qs as [|q0 qs0]; [discriminate|]. remember (q0 :: qs0) as qs eqn:Eq. clear Eq q0 qs0.
    destruct (mapR (fun x => x) (map paths qs)) as [rs|] eqn:E; [|discriminate]. injection H as <-.
    apply in_concat in Hin as (r & Hr & Hin). apply in_rev in Hr. apply mapR_Forall2 in E.
    assert (X : exists p, In p qs /\ paths p = Ok r).
    { clear -E Hr. remember (map paths qs) as ys eqn:Ey. revert qs Ey.
      induction E as [|y r0 ys rs Hy F IH]; intros [|p qs] Ey; cbn in *; try discriminate; [destruct Hr|].
      injection Ey as -> ->. destruct Hr as [->|Hr]; [exists p; auto|].
      destruct (IH Hr qs eq_refl) as (p' & H1 & H2). eauto. }
    destruct X as (p & Hp & Ep). rewrite Forall_forall in F. destruct (F p Hp _ _ Ep Hin) as [H1 H2].
    split; [econstructor; eassumption|exact H2].
  - destruct (over_In _ _ _ _ H Hin) as (rs & p & E & Hi & ->). destruct (IH _ _ E Hi) as [H1 H2].
    split; [constructor; exact H1|exact H2].
  - destruct (over_In _ _ _ _ H Hin) as (rs & p & E & Hi & ->). destruct (IH _ _ E Hi) as [H1 H2].
    split; [constructor; exact H1|exact H2].
  - destruct (over_In _ _ _ _ H Hin) as (rs & p & E & Hi & ->). destruct (IH _ _ E Hi) as [H1 H2].
    split; [constructor; exact H1|exact H2].
  - destruct (over_In _ _ _ _ H Hin) as (rs & p & E & Hi & ->). destruct (IH _ _ E Hi) as [H1 H2].
    split; [constructor; exact H1|exact H2].
Qed.

Lemma path_of_In i ps p : path_of i ps = Ok p -> exists l, In (l, p) ps /\ l_id l = i.
Proof.
  unfold path_of. destruct (find (has_id i) (rev ps)) as [[l q]|] eqn:E; [|discriminate]. intros [= <-].
  apply find_some in E as [H1 H2]. apply in_rev in H1. exists l. split; [exact H1|]. now apply Z.eqb_eq.
Qed.

Lemma picks_from_leaf t c : picks t c -> exists A, from_leaf c = Ok A.
Proof.
  intros H. apply from_leaf_chain. induction H; cbn; auto.
Qed.

(* what is computed when one of the images has a concatenation in it *)
Lemma gtf_concat dst src T : ~ (chain src /\ chain dst) -> get_transform_from dst src = Ok T ->
  exists i s d ls ld A B, picks src s /\ picks dst d /\ base s = Some ls /\ base d = Some ld /\ l_id ls = i /\ l_id ld = i /\
    from_leaf s = Ok A /\ from_leaf d = Ok B /\ ~ aff_det A == 0 /\ T = aff_mul B (aff_inv_raw A).
Proof.
  intros Hc H. unfold get_transform_from in H.
  assert (E : (match from_leaf src, from_leaf dst with Ok A, Ok B => true | _, _ => false end) = false).
  { destruct (from_leaf src) as [A|] eqn:E1; [|reflexivity]. destruct (from_leaf dst) as [B|] eqn:E2; [|reflexivity].
    exfalso. apply Hc. split; eapply from_leaf_ok_chain; eassumption. }
  apply bind_ok in H as ([B A] & H1 & H). apply bind_ok in H as (J & HI & H). injection H as <-. apply aff_inv_ok in HI as [-> HA].
  assert (G : exists sp dp i s d, paths src = Ok sp /\ paths dst = Ok dp /\ common_id dp sp = Ok i /\ path_of i sp = Ok s /\
     path_of i dp = Ok d /\ from_leaf s = Ok A /\ from_leaf d = Ok B).
  { destruct (from_leaf src); [destruct (from_leaf dst); [discriminate E|]|];
      (apply bind_ok in H1 as (sp & G1 & H1); apply bind_ok in H1 as (dp & G2 & H1); apply bind_ok in H1 as (i & G3 & H1);
       apply bind_ok in H1 as (s & G4 & H1); apply bind_ok in H1 as (d & G5 & H1); apply bind_ok in H1 as (A' & G6 & H1);
       apply bind_ok in H1 as (B' & G7 & H1); injection H1 as -> ->; exists sp, dp, i, s, d; auto 8). }
  destruct G as (sp & dp & i & s & d & G1 & G2 & G3 & G4 & G5 & G6 & G7).
  destruct (path_of_In _ _ _ G4) as (ls & L1 & L2). destruct (path_of_In _ _ _ G5) as (ld & K1 & K2).
  destruct (paths_picks _ _ _ G1 L1) as [P1 P2]. destruct (paths_picks _ _ _ G2 K1) as [Q1 Q2].
  exists i, s, d, ls, ld, A, B. cbn [fst snd] in *. auto 12.
Qed.

Lemma gtf_self_any t T : get_transform_from t t = Ok T -> same_map T aff_id.
Proof.
  unfold get_transform_from. intros H. apply bind_ok in H as ([B A] & H1 & H).
  apply bind_ok in H as (J & HI & H). injection H as <-. apply aff_inv_ok in HI as [-> HA].
  assert (E : B = A).
  { destruct (from_leaf t); [injection H1; congruence|].
    apply bind_ok in H1 as (sp & G1 & H1). rewrite G1 in H1. cbn [bind] in H1.
    apply bind_ok in H1 as (i & G3 & H1). apply bind_ok in H1 as (s & G4 & H1). rewrite G4 in H1. cbn [bind] in H1.
    apply bind_ok in H1 as (A' & G6 & H1). rewrite G6 in H1. cbn [bind] in H1. congruence. }
  subst B. now apply mul_inv_r.
Qed.

(** ** undo_warp *)

Lemma undo_warp_ok {V} (c : codec V) o fuel t rm rt sq rw t' W :
  chain t -> nans_free t -> wf t -> undo_warp c o fuel t rm rt sq rw = Ok (t', W) ->
  exists keep A U sz, rectify_retain rm rt = Ok keep /\ from_leaf t = Ok A /\ ~ aff_det A == 0 /\
    U = coerce c (filter (fun kv => negb (str_mem (fst kv) keep)) (concise c (aff_inv_raw A))) /\
    dsize t = Some sz /\ optimizes o (Warp t U (auto_dsize U sz) default_algo) t' /\ 
    (sq = false -> W = if rw then Some U else None).
Proof.
  intros Hc Hn Hw H. unfold undo_warp in H. apply bind_ok in H as (keep & Hk & H).
  apply bind_ok in H as (U & HU & H). unfold undo_transform in HU. apply bind_ok in HU as (A & HA & HU).
  apply bind_ok in HU as (J & HJ & HU). injection HU as HU. apply aff_inv_ok in HJ as [-> Hd].
  apply bind_ok in H as (w & Hww & H). unfold mkWarp_auto in Hww. destruct (dsize t) as [sz|] eqn:Es; [|discriminate].
  injection Hww as <-. apply bind_ok in H as (u & Hu & H). apply bind_ok in H as (W' & HW & H).
  apply bind_ok in H as (u' & Hu' & H). injection H as <- <-.
  destruct (optimize o fuel (Warp t U (auto_dsize U sz) default_algo)) as [[u0 b0]|] eqn:Eo; [|discriminate].
  injection Hu as ->.
  assert (Hww : wf (Warp t U (auto_dsize U sz) default_algo)) by (split; [exact Hw|reflexivity]).
  destruct (optimize_good o fuel RNansFree _ _ _ Hww Hn Eo) as ((_ & Hn' & _) & _).
  assert (u' = u).
  { destruct u as [l|ps d|s ys xs ci d nm nc|s M d al|s q d|s k d]; try (injection Hu' as <-; reflexivity).
    cbn in Hn'. unfold is_nans in Hu'. rewrite Hn' in Hu'. rewrite andb_false_r in Hu'. injection Hu' as <-. reflexivity. }
  subst u'. exists keep, A, U, sz. split; [exact Hk|]. split; [exact HA|]. split; [exact Hd|]. split; [symmetry; exact HU|].
  split; [reflexivity|]. split; [exists fuel, b0; exact Eo|]. intros ->. cbn [andb] in HW. injection HW as <-. reflexivity.
Qed.

Lemma filter_none {A} (l : list A) (f : A -> bool) : Forall (fun a => f a = true) l -> filter f l = l.
Proof. induction 1 as [|a l H F IH]; cbn; [reflexivity|]. now rewrite H, IH. Qed.

Lemma keep_nothing {V} (l : list (string * V)) : filter (fun kv => negb (str_mem (fst kv) [])) l = l.
Proof. apply filter_none. apply Forall_forall. reflexivity. Qed.

(* a sample of [t] in the warped image *)
Lemma warp_auto_vis t U sz x y k s : dsize t = Some sz -> vis t x y k s ->
  0 <= ax U x y -> 0 <= ay U x y -> vis (Warp t U (auto_dsize U sz) default_algo) (ax U x y) (ay U x y) k s.
Proof.
  intros Es Hv Hx Hy. cbn [vis]. split; [|exists x, y; repeat split; try reflexivity; exact Hv].
  destruct (vis_inside _ _ _ _ _ Hv) as (d & Ed & Hi). rewrite Es in Ed. injection Ed as <-. destruct sz as [w h].
  destruct Hi as [Hi1 Hi2]. cbn [fst snd] in *.
  destruct (auto_dsize_covers U w h x y Hi1 Hi2) as [C1 C2]. split; split; assumption.
Qed.

Lemma same_shows_area t U sz A : chain t -> nans_free t -> dsize t = Some sz -> from_leaf t = Ok A ->
  ~ aff_det A == 0 -> same_map U (aff_inv_raw A) -> shows_area t -> shows_area (Warp t U (auto_dsize U sz) default_algo).
Proof.
  intros Hc Hn Es HA Hd HU (p & q & r & Ht & Hz).
  exists (ax U (fst p) (snd p), ay U (fst p) (snd p)), (ax U (fst q) (snd q), ay U (fst q) (snd q)), (ax U (fst r) (snd r), ay U (fst r) (snd r)).
  split.
  - unfold triangle in *. cbn [fst snd]. intros E. apply Ht.
    set (D := (fst q - fst p) * (snd r - snd p) - (fst r - fst p) * (snd q - snd p)) in *.
    assert (X : aff_det U * D == 0).
    { rewrite <- E. unfold ax, ay, aff_det, D. ring. }
    apply Qmult_integral in X as [X|X]; [|exact X]. exfalso. rewrite (same_det _ _ HU) in X. now apply det_inv in X.
  - assert (K : forall z, (exists c s, vis t (fst z) (snd z) c s) -> exists c s, vis (Warp t U (auto_dsize U sz) default_algo) (ax U (fst z) (snd z)) (ay U (fst z) (snd z)) c s).
    { intros z (c & s & V). exists c, s. destruct (vis_moves _ _ _ _ _ Hc Hn V) as (l & b & u & v & dq & _ & _ & M & Hi).
      rewrite (from_leaf_moves _ _ _ _ _ _ HA) in M. destruct M as [M1 M2]. destruct (HU (fst z) (snd z)) as [U1 U2].
      rewrite M1, M2 in U1 at 2. rewrite M1, M2 in U2 at 2. destruct (inv_left A u v Hd) as [I1 I2]. rewrite I1 in U1. rewrite I2 in U2.
      destruct Hi as [[Hi1 _] [Hi2 _]]. apply warp_auto_vis; [exact Es|exact V|rewrite U1; exact Hi1|rewrite U2; exact Hi2]. }
    intros z [-> | [-> | ->]]; cbn [fst snd]; apply K, Hz; auto.
Qed.

(* the applied transform when nothing is retained *)
Lemma undo_full {V} (c : codec V) o fuel t sq rw t' W : codec_ok c -> chain t -> nans_free t -> wf t ->
  undo_warp c o fuel t None None sq rw = Ok (t', W) ->
  exists A U sz, from_leaf t = Ok A /\ ~ aff_det A == 0 /\ same_map U (aff_inv_raw A) /\ dsize t = Some sz /\
    optimizes o (Warp t U (auto_dsize U sz) default_algo) t' /\ (sq = false -> W = if rw then Some U else None).
Proof.
  intros Hok Hc Hn Hw H. destruct (undo_warp_ok c o fuel t None None sq rw t' W Hc Hn Hw H) as (keep & A & U & sz & Hk & HA & Hd & HU & Es & Ho & HW).
  injection Hk as <-. rewrite keep_nothing in HU. exists A, U, sz. split; [exact HA|]. split; [exact Hd|]. split; [|auto].
  subst U. apply Hok. now apply det_inv.
Qed.

Lemma undo_aligned {V} (c : codec V) o fuel t sq rw t' W : codec_ok c -> chain t -> nans_free t -> wf t ->
  undo_warp c o fuel t None None sq rw = Ok (t', W) ->
  forall x y k i b u v dq, vis t x y k (Samp i b u v dq) -> vis t' u v k (Samp i b u v dq).
Proof.
  intros Hok Hc Hn Hw H x y k i b u v dq V0.
  destruct (undo_full c o fuel t sq rw t' W Hok Hc Hn Hw H) as (A & U & sz & HA & Hd & HU & Es & (f & b0 & Ho) & _).
  assert (Hww : wf (Warp t U (auto_dsize U sz) default_algo)) by (split; [exact Hw|reflexivity]).
  destruct (optimize_good o f RNansFree _ _ _ Hww Hn Ho) as ((_ & _ & _ & _ & Hv) & _).
  destruct (vis_moves _ _ _ _ _ Hc Hn V0) as (l & b' & u' & v' & dq' & _ & E & M & Hi). injection E as _ _ <- <- _.
  rewrite (from_leaf_moves _ _ _ _ _ _ HA) in M. destruct M as [M1 M2]. destruct (HU x y) as [U1 U2].
  assert (I1 : ax U x y == u). { rewrite U1, M1, M2. apply inv_left. exact Hd. }
  assert (I2 : ay U x y == v). { rewrite U2, M1, M2. apply inv_left. exact Hd. }
  destruct Hi as [[Hi1 _] [Hi2 _]].
  eapply vis_proper; [exact I1|exact I2|]. apply Hv. apply warp_auto_vis; [exact Es|exact V0| |]; lra.
Qed.

Lemma undo_transform_id {V} (c : codec V) o fuel t sq rw t' W : codec_ok c -> chain t -> nans_free t -> wf t -> shows_area t ->
  undo_warp c o fuel t None None sq rw = Ok (t', W) ->
  chain t' /\ exists A A', from_leaf t = Ok A /\ from_leaf t' = Ok A' /\ ~ aff_det A == 0 /\ same_map A' aff_id /\
    (sq = false -> rw = true -> exists U, W = Some U /\ same_map U (aff_inv_raw A)).
Proof.
  intros Hok Hc Hn Hw Ha H.
  destruct (undo_full c o fuel t sq rw t' W Hok Hc Hn Hw H) as (A & U & sz & HA & Hd & HU & Es & Ho & HW).
  assert (Hww : wf (Warp t U (auto_dsize U sz) default_algo)) by (split; [exact Hw|reflexivity]).
  pose proof (same_shows_area t U sz A Hc Hn Es HA Hd HU Ha) as Ha'.
  destruct (optimizes_transform o _ _ Hww Hc Hn Ha' Ho) as (Hc' & A1 & A' & E1 & E' & S).
  split; [exact Hc'|]. exists A, A'. split; [exact HA|]. split; [exact E'|]. split; [exact Hd|]. split.
  - cbn [from_leaf] in E1. rewrite HA in E1. injection E1 as <-. eapply same_trans; [apply same_sym, S|].
    eapply same_trans; [apply same_mul; [exact HU|apply same_refl]|]. now apply mul_inv_l.
  - intros Hsq ->. exists U. split; [now apply HW|exact HU].
Qed.

(* retaining the offset *)
Lemma filter_ext_in' {A} (f g : A -> bool) l : (forall a, In a l -> f a = g a) -> filter f l = filter g l.
Proof.
  induction l as [|a l IH]; cbn; intros H; [reflexivity|]. rewrite (H a (or_introl eq_refl)), IH; [reflexivity|].
  intros b Hb. apply H. now right.
Qed.

Lemma undo_keep_offset {V} (c : codec V) o fuel t sq rw t' W : codec_ok c -> chain t -> nans_free t -> wf t ->
  undo_warp c o fuel t None (Some ["offset"%string]) sq rw = Ok (t', W) ->
  forall u0 v0, moves t u0 v0 0 0 ->
  forall x y k i b u v dq, vis t x y k (Samp i b u v dq) -> u0 <= u -> v0 <= v -> vis t' (u - u0) (v - v0) k (Samp i b u v dq).
Proof.
  intros Hok Hc Hn Hw H u0 v0 M0 x y k i b u v dq V0 Hu Hv0.
  destruct (undo_warp_ok c o fuel t _ _ sq rw t' W Hc Hn Hw H) as (keep & A & U & sz & Hk & HA & Hd & HU & Es & (f & b0 & Ho) & HW).
  injection Hk as <-.
  assert (Hww : wf (Warp t U (auto_dsize U sz) default_algo)) by (split; [exact Hw|reflexivity]).
  destruct (optimize_good o f RNansFree _ _ _ Hww Hn Ho) as ((_ & _ & _ & _ & Hv) & _).
  destruct (vis_moves _ _ _ _ _ Hc Hn V0) as (l & b' & u' & v' & dq' & _ & E & M & Hi). injection E as _ _ <- <- _.
  rewrite (from_leaf_moves _ _ _ _ _ _ HA) in M. rewrite (from_leaf_moves _ _ _ _ _ _ HA) in M0. destruct M as [M1 M2]. destruct M0 as [N1 N2].
  destruct Hok as (K1 & _ & K3 & K4 & _). specialize (K1 _ (det_inv _ Hd)).
  assert (EU : U = coerce c (filter (fun kv => negb (String.eqb (fst kv) "offset")) (concise c (aff_inv_raw A)))).
  { rewrite HU. f_equal. apply filter_ext_in'. intros a _. unfold str_mem. cbn. now rewrite orb_false_r. }
  assert (I1 : ax U x y == u - u0).
  { rewrite EU, K3. rewrite (proj1 (K1 x y)), (proj1 (K1 0 0)), M1, M2.
    rewrite (proj1 (inv_left A u v Hd)). rewrite N1, N2 at 1. rewrite (proj1 (inv_left A u0 v0 Hd)). reflexivity. }
  assert (I2 : ay U x y == v - v0).
  { rewrite EU, K4. rewrite (proj2 (K1 x y)), (proj2 (K1 0 0)), M1, M2.
    rewrite (proj2 (inv_left A u v Hd)). rewrite N1, N2 at 1. rewrite (proj2 (inv_left A u0 v0 Hd)). reflexivity. }
  eapply vis_proper; [exact I1|exact I2|]. apply Hv. apply warp_auto_vis; [exact Es|exact V0| |]; lra.
Qed.

(* removing nothing *)
Lemma undo_nothing {V} (c : codec V) o fuel t t' W : codec_ok c -> chain t -> nans_free t -> wf t ->
  undo_warp c o fuel t (Some []) None false true = Ok (t', W) -> exists U, W = Some U /\ same_map U aff_id.
Proof.
  intros Hok Hc Hn Hw H.
  destruct (undo_warp_ok c o fuel t _ _ false true t' W Hc Hn Hw H) as (keep & A & U & sz & Hk & HA & Hd & HU & Es & _ & HW).
  exists U. split; [now apply HW|]. injection Hk as <-. destruct Hok as (_ & K2 & _ & _ & K5). specialize (K2 _ (det_inv _ Hd)).
  assert (E : filter (fun kv => negb (str_mem (fst kv) valid_keys)) (concise c (aff_inv_raw A)) = []).
  { clear -K2. induction K2 as [|a d Ha F IH]; cbn [filter]; [reflexivity|]. rewrite (proj2 (str_mem_In _ _) Ha). exact IH. }
  fold valid_keys in HU. rewrite E in HU. now subst U.
Qed.

(* retain and remove *)
Lemma undo_complement {V} (c : codec V) o fuel t rm rt sq rw : codec_ok c ->
  (forall k, In k valid_keys -> (In k rt <-> ~ In k rm)) ->
  undo_warp c o fuel t (Some rm) None sq rw = undo_warp c o fuel t None (Some rt) sq rw.
Proof.
  intros Hok Hk. unfold undo_warp. cbn [rectify_retain bind].
  assert (E : undo_transform c t (filter (fun k => negb (str_mem k rm)) valid_keys) = undo_transform c t rt).
  { unfold undo_transform. destruct (from_leaf t) as [A|]; [|reflexivity]. cbn [bind].
    destruct (aff_inv A) as [J|] eqn:EJ; [|reflexivity]. cbn [bind]. apply aff_inv_ok in EJ as [-> Hd].
    f_equal. f_equal. apply filter_ext_in'. intros a Ha. f_equal.
    assert (Hv : In (fst a) valid_keys).
    { destruct Hok as (_ & K2 & _). specialize (K2 _ (det_inv _ Hd)). rewrite Forall_forall in K2. auto. }
    specialize (Hk _ Hv). apply eq_true_iff_eq. rewrite !str_mem_In, filter_In. rewrite negb_true_iff.
    rewrite Hk. destruct (str_mem (fst a) rm) eqn:Em.
    - apply str_mem_In in Em. split; [intros [_ X]; discriminate|intros X; contradiction].
    - assert (~ In (fst a) rm) by (intros X; apply str_mem_In in X; congruence). split; auto. }
  now rewrite E.
Qed.

Lemma undo_warps_parts {V} (c : codec V) o fuel ps rt sq rw out :
  undo_warps c o fuel ps None rt sq rw = Ok out ->
  Forall2 (fun p r => undo_warp c o fuel p None rt sq rw = Ok r) ps out.
Proof.
  unfold undo_warps. intros H. apply bind_ok in H as (keep & Hk & H). apply mapR_Forall2 in H.
  eapply Forall2_imp; [|exact H]. cbn. intros p r E. destruct rt; injection Hk as <-; exact E.
Qed.

(** ** Missing data *)

Lemma nans_crop_ok l ys xs ci t : l_kind l = Nans -> nans_crop l ys xs ci = Ok t ->
  exists l', t = Leaf l' /\ l_kind l' = Nans.
Proof.
  intros Hk H. unfold nans_crop in H. apply bind_ok in H as (nm & _ & H). apply bind_ok in H as ([? ?] & _ & H).
  apply bind_ok in H as ([? ?] & _ & H). injection H as <-. eexists. split; [reflexivity|exact Hk].
Qed.

Lemma missing_optimized o : forall t, missing t -> forall fuel t' b, optimize o fuel t = Ok (t', b) ->
  exists l, t' = Leaf l /\ l_kind l = Nans.
Proof.
  induction t as [l|ps d IH|s ys xs ci d nm nc IH|s M d al IH|s q d IH|s k d IH] using node_ind'; cbn [missing]; intros Hm [|f] t' b H; try contradiction; try discriminate H; cbn [optimize] in H.
  - injection H as <- <-. eauto.
  - apply bind_ok in H as (s1 & Hs & H). apply bind_ok in H as (n & Hn & H). injection H as <- <-.
    destruct (optimize o f s) as [[s1' b']|] eqn:Es; [|discriminate]. cbn in Hs. injection Hs as <-.
    destruct (IH Hm _ _ _ Es) as (l & -> & Hk). unfold opt_crop in Hn. cbn [bind] in Hn.
    unfold is_nans in Hn. rewrite Hk in Hn. exact (nans_crop_ok _ _ _ _ _ Hk Hn).
  - apply bind_ok in H as (s1 & Hs & H). apply bind_ok in H as (n & Hn & H). injection H as <- <-.
    destruct (optimize o f s) as [[s1' b']|] eqn:Es; [|discriminate]. cbn in Hs. injection Hs as <-.
    destruct (IH Hm _ _ _ Es) as (l & -> & Hk). unfold opt_warp in Hn. unfold is_nans in Hn. rewrite Hk in Hn.
    destruct (_ && _)%bool; injection Hn as <-; [eauto|]. eexists. split; [reflexivity|exact Hk].
Qed.

Lemma squashed {V} (c : codec V) o fuel t rm rt rw t0 W0 w h : missing t ->
  undo_warp c o fuel t rm rt false rw = Ok (t0, W0) -> dsize t0 = Some (w, h) -> (0 < w)%Z -> (0 < h)%Z ->
  exists l' W, undo_warp c o fuel t rm rt true rw = Ok (Leaf l', W) /\ l_kind l' = Nans /\
    l_dsize l' = (1, 1)%Z /\ l_names l' = names t0.
Proof.
  intros Hm H Hd Hw Hh. unfold undo_warp in *.
  apply bind_ok in H as (keep & Hkeep & H). apply bind_ok in H as (U & HU & H). apply bind_ok in H as (wn & Hwn & H).
  apply bind_ok in H as (u & Hu & H). cbn [andb bind] in H. rewrite Hkeep. cbn [bind]. rewrite HU. cbn [bind]. rewrite Hwn. cbn [bind]. rewrite Hu. cbn [bind].
  assert (Hmw : missing wn). { unfold mkWarp_auto in Hwn. destruct (dsize t); [|discriminate]. injection Hwn as <-. exact Hm. }
  destruct (optimize o fuel wn) as [[u' b]|] eqn:Eo; [|discriminate]. cbn in Hu. injection Hu as <-.
  destruct (missing_optimized o wn Hmw _ _ _ Eo) as (l & -> & Hk). cbn [andb bind] in H. injection H as <- <-.
  cbn in Hd. injection Hd as Hd.
  assert (Hf : exists f, fuel = S (S f)).
  { unfold mkWarp_auto in Hwn. destruct (dsize t); [|discriminate]. injection Hwn as <-.
    destruct fuel as [|[|f]]; [discriminate|discriminate|eauto]. }
  destruct Hf as (f & ->).
  assert (Hc : exists l' b', mkCrop (Leaf l) (Some ((Some 0, Some 1), (Some 0, Some 1)))%Z None =
      Ok (Crop (Leaf l) (0, 1)%Z (0, 1)%Z None (1, 1)%Z None None) /\
    optimize o (S (S f)) (Crop (Leaf l) (0, 1)%Z (0, 1)%Z None (1, 1)%Z None None) = Ok (Leaf l', b') /\
    l_kind l' = Nans /\ l_dsize l' = (1, 1)%Z /\ l_names l' = l_names l).
  { eexists _, _. split.
    - unfold mkCrop. cbn [dsize]. rewrite Hd. unfold wrap_clip. cbn [fst snd].
      change (0 <? 0)%Z with false. change (1 <? 0)%Z with false. cbn iota.
      replace (Z.max 0 (Z.min 0 h)) with 0%Z by lia. replace (Z.max 0 (Z.min 1 h)) with 1%Z by lia.
      replace (Z.max 0 (Z.min 0 w)) with 0%Z by lia. replace (Z.max 0 (Z.min 1 w)) with 1%Z by lia.
      reflexivity.
    - split.
      + cbn [optimize rmap bind fst]. unfold opt_crop. cbn [bind]. unfold is_nans. rewrite Hk. unfold nans_crop.
        cbn [bind fst snd]. rewrite Hd. unfold embed_axis. cbn [fst snd]. change (1 <? 0)%Z with false. cbv zeta. cbn [bind].
        reflexivity.
      + split; [exact Hk|]. split; [|reflexivity]. cbn [nans_leaf l_dsize]. unfold iv_len. cbn [fst snd]. f_equal; lia. }
  destruct Hc as (l' & b' & Ec & Eo' & Hk' & Hs' & Hn'). unfold is_nans. rewrite Hk. cbn [andb]. rewrite Ec. cbn [bind].
  rewrite Eo'. cbn [rmap bind fst]. cbn [dsize names]. rewrite Hd.
  destruct rw; cbn [bind].
  - assert ((w =? 0)%Z = false) as -> by lia. assert ((h =? 0)%Z = false) as -> by lia. cbn [orb bind]. eauto 10.
  - eauto 10.
Qed.

Lemma moves_proper t : forall u v x y x' y', x == x' -> y == y' -> moves t u v x y -> moves t u v x' y'.
Proof.
  induction t as [l|ps d|s IH ys xs ci d nm nc|s IH M d al|s IH q d|s IH k d]; cbn [moves]; intros u v x y x' y' Ex Ey H.
  - rewrite <- Ex, <- Ey. exact H.
  - exact H.
  - eapply IH; [| |exact H]; [now rewrite Ex|now rewrite Ey].
  - destruct H as (p & q & H1 & H2 & H3). exists p, q. rewrite <- Ex, <- Ey. auto.
  - eapply IH; [exact Ex|exact Ey|exact H].
  - eapply IH; [| |exact H]; [now rewrite Ex|now rewrite Ey].
Qed.

Lemma overview_twice_moves s a b t u v : mkOverview s a = Ok t -> mkOverview t b = Ok u -> mkOverview s (a + b) = Ok v ->
  forall p q x y, moves u p q x y <-> moves v p q x y.
Proof.
  intros H1 H2 H3 p q x y. unfold mkOverview in H1, H3. destruct (dsize s) as [sz|] eqn:Hd; [|discriminate].
  injection H1 as <-. injection H3 as <-. unfold mkOverview in H2. cbn [dsize] in H2. injection H2 as <-. cbn [moves].
  assert (X : forall z, z * pow2 b * pow2 a == z * pow2 (a + b)) by (intros z; rewrite pow2_plus; ring).
  split; apply moves_proper; try apply X; symmetry; apply X.
Qed.

(* the transform from another image, when both exist *)
Lemma overview_twice_transform s a b t u v src : mkOverview s a = Ok t -> mkOverview t b = Ok u -> mkOverview s (a + b) = Ok v ->
  chain s -> chain src -> regular src ->
  exists T T', get_transform_from u src = Ok T /\ get_transform_from v src = Ok T' /\ same_map T T'.
Proof.
  intros H1 H2 H3 Hs Hc Hr.
  assert (Hu : chain u /\ chain v).
  { unfold mkOverview in H1, H3. destruct (dsize s) as [sz|] eqn:Hd; [|discriminate].
    injection H1 as <-. injection H3 as <-. unfold mkOverview in H2. cbn [dsize] in H2. injection H2 as <-. cbn [chain]. auto. }
  destruct Hu as [Cu Cv]. destruct (gtf_total _ _ Hc Cu Hr) as (T & HT). destruct (gtf_total _ _ Hc Cv Hr) as (T' & HT').
  exists T, T'. split; [exact HT|]. split; [exact HT'|].
  destruct (gtf_chain_ok _ _ _ Hc Cu HT) as (A & B & EA & EB & _ & ->).
  destruct (gtf_chain_ok _ _ _ Hc Cv HT') as (A' & B' & EA' & EB' & _ & ->).
  rewrite EA in EA'. injection EA' as <-. intros x y. rewrite !ax_mul, !ay_mul.
  set (p := ax (aff_inv_raw A) x y). set (q := ay (aff_inv_raw A) x y).
  assert (M : moves u p q (ax B p q) (ay B p q)) by (apply (from_leaf_moves _ _ _ _ _ _ EB); split; reflexivity).
  apply (overview_twice_moves _ _ _ _ _ _ H1 H2 H3) in M. now apply (from_leaf_moves _ _ _ _ _ _ EB') in M.
Qed.
