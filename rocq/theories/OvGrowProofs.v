(* How much the size of a pipeline of crops and overviews of one image can grow. *)
From Verif Require Import Py PyProofs GeomModel GeomProofs GraphModel GraphSpec GraphBase GraphTake GraphOpt GraphMain GraphSound GraphSize GraphTotal OvTotal OvSizeProps.
From Coq Require Import Qround ZifyBool.
Local Open Scope Z_scope.

(** ** One axis *)

(* the size m after rewriting, for the size n before *)
Definition near (n m : Z) : Prop := n <= m <= n + 2.

(* L pixels moved by t reach the end of n pixels, and not much further *)
Definition covers (n L : Z) (t : Q) : Prop :=
  (t <= 0)%Q /\ (inject_Z n - 1 < inject_Z L + t)%Q /\ (inject_Z L + t <= inject_Z n + 2)%Q.

Lemma ceil_bounds K n : 0 < K -> n <= K * - (- n / K) <= n + K - 1.
Proof.
  intros H. pose proof (Z.div_mod (- n) K ltac:(lia)). pose proof (Z.mod_pos_bound (- n) K H). lia.
Qed.

Lemma floor_bounds K n : 0 < K -> n - K + 1 <= K * (n / K) <= n.
Proof. intros H. pose proof (Z.div_mod n K ltac:(lia)). pose proof (Z.mod_pos_bound n K H). lia. Qed.

Ltac inj H := rewrite ?Zle_Qle, ?Zlt_Qlt in H; repeat rewrite ?inject_Z_plus, ?inject_Z_mult, ?inject_Z_opp in H.

Lemma axis_crop K N a b : 2 <= K -> near N (b - a) ->
  near (- (- N / K)) (- (- b / K) - a / K) /\
  covers (- (- N / K)) (- (- b / K) - a / K) (inject_Z (a / K) - inject_Z a / inject_Z K).
Proof.
  intros HK [H1 H2]. pose proof (ceil_bounds K N ltac:(lia)) as [C1 C2]. pose proof (ceil_bounds K b ltac:(lia)) as [D1 D2].
  pose proof (floor_bounds K a ltac:(lia)) as [F1 F2].
  set (cn := - (- N / K)) in *. set (cb := - (- b / K)) in *. set (fa := a / K) in *. clearbody cn cb fa.
  split; [split; nia|].
  assert (K0 : (0 < inject_Z K)%Q) by (change 0%Q with (inject_Z 0); rewrite <- Zlt_Qlt; lia).
  set (A := (inject_Z a / inject_Z K)%Q). assert (EA : (A * inject_Z K == inject_Z a)%Q) by (unfold A; field; lra). clearbody A.
  assert (E : (inject_Z (cb - fa) == inject_Z cb - inject_Z fa)%Q) by (unfold Z.sub; rewrite inject_Z_plus, inject_Z_opp; reflexivity).
  unfold covers. rewrite E.
  assert (G1 : K * cn - K < K * cb - a) by lia. assert (G2 : K * cb - a <= K * cn + 2 * K) by lia. assert (G3 : K * fa <= a) by lia.
  unfold Z.sub in G1, G2. inj G1. inj G2. inj G3. change (inject_Z 2) with 2%Q in G2.
  split; [|split].
  - apply (Qmult_le_r _ _ (inject_Z K) K0). nra.
  - apply (Qmult_lt_r _ _ (inject_Z K) K0). nra.
  - apply (Qmult_le_r _ _ (inject_Z K) K0). nra.
Qed.

Lemma axis_warp K n a b t : 2 <= K -> covers n (b - a) t ->
  near (- (- n / K)) (Qceiling (inject_Z (- (- (b - a) / K)) + t / inject_Z K)) /\
  covers (- (- n / K)) (- (- b / K) - a / K) (t / inject_Z K + (inject_Z (a / K) - inject_Z a / inject_Z K)).
Proof.
  intros HK (H0 & H1 & H2). pose proof (ceil_bounds K n ltac:(lia)) as [C1 C2]. pose proof (ceil_bounds K b ltac:(lia)) as [D1 D2].
  pose proof (floor_bounds K a ltac:(lia)) as [F1 F2]. pose proof (ceil_bounds K (b - a) ltac:(lia)) as [L1 L2].
  set (cn := - (- n / K)) in *. set (cb := - (- b / K)) in *. set (fa := a / K) in *. set (cl := - (- (b - a) / K)) in *. clearbody cn cb fa cl.
  assert (K0 : (0 < inject_Z K)%Q) by (change 0%Q with (inject_Z 0); rewrite <- Zlt_Qlt; lia).
  assert (K2 : (2 <= inject_Z K)%Q) by (change 2%Q with (inject_Z 2); rewrite <- Zle_Qle; lia).
  set (A := (inject_Z a / inject_Z K)%Q). assert (EA : (A * inject_Z K == inject_Z a)%Q) by (unfold A; field; lra). clearbody A.
  set (y := (t / inject_Z K)%Q). assert (Ey : (y * inject_Z K == t)%Q) by (unfold y; field; lra). clearbody y.
  assert (E : (inject_Z (cb - fa) == inject_Z cb - inject_Z fa)%Q) by (unfold Z.sub; rewrite inject_Z_plus, inject_Z_opp; reflexivity).
  assert (Eba : (inject_Z (b - a) == inject_Z b - inject_Z a)%Q) by (unfold Z.sub; rewrite inject_Z_plus, inject_Z_opp; reflexivity).
  rewrite Eba in H1, H2.
  assert (Q1 : K * cn <= n + K - 1) by lia. assert (Q2 : n <= K * cn) by lia.
  assert (Q3 : b <= K * cb) by lia. assert (Q4 : K * cb <= b + K - 1) by lia. assert (Q5 : K * fa <= a) by lia.
  assert (Q6 : b - a <= K * cl) by lia. assert (Q7 : K * cl <= b - a + K - 1) by lia.
  unfold Z.sub in Q1, Q4, Q6, Q7. inj Q1. inj Q2. inj Q3. inj Q4. inj Q5. inj Q6. inj Q7.
  change (inject_Z 1) with 1%Q in Q1, Q4, Q7.
  assert (Y0 : (y <= 0)%Q) by (apply (Qmult_le_r _ _ (inject_Z K) K0); nra).
  split; [split|unfold covers; rewrite E; split; [|split]].
  - assert (X : (inject_Z (cn - 1) < inject_Z cl + y)%Q).
    { unfold Z.sub. rewrite inject_Z_plus. change (inject_Z (- (1))) with (-1)%Q. apply (Qmult_lt_r _ _ (inject_Z K) K0). nra. }
    pose proof (ceil_ge (inject_Z cl + y)) as X2. assert (X3 : (inject_Z (cn - 1) < inject_Z (Qceiling (inject_Z cl + y)))%Q) by lra.
    rewrite <- Zlt_Qlt in X3. lia.
  - apply ceil_le_iff. rewrite inject_Z_plus. change (inject_Z 2) with 2%Q. apply (Qmult_le_r _ _ (inject_Z K) K0). nra.
  - assert (inject_Z fa - A <= 0)%Q; [|lra]. apply (Qmult_le_r _ _ (inject_Z K) K0). nra.
  - apply (Qmult_lt_r _ _ (inject_Z K) K0). nra.
  - apply (Qmult_le_r _ _ (inject_Z K) K0). nra.
Qed.

Lemma axis_fast s n L t r0 r1 : (s == 1)%Q -> covers n L t -> 0 <= r0 < r1 -> r1 <= n ->
  exists x0 x1 off, fast_axis s t L (r0, r1) = ((x0, x1), off) /\ 0 <= x0 < x1 /\ x1 <= L /\ covers (r1 - r0) (x1 - x0) off.
Proof.
  intros Es (H0 & H1 & H2) Hr Hn. unfold fast_axis. cbn [fst snd]. cbv zeta.
  assert (D1 : forall x, (x / s == x)%Q) by (intros x; rewrite Es; field).
  assert (Eroot : Z.max (r1 - r0) 0 = r1 - r0) by lia. rewrite Eroot.
  replace (r1 - r0 =? 0) with false by lia.
  assert (Ep : Qceiling (Qmax ((inject_Z r1 - t) / s - (inject_Z r0 - t) / s) 0 / inject_Z (r1 - r0)) = 1).
  { assert (P : (0 < inject_Z (r1 - r0))%Q) by (change 0%Q with (inject_Z 0); rewrite <- Zlt_Qlt; lia).
    assert (Ei : (inject_Z (r1 - r0) == inject_Z r1 - inject_Z r0)%Q) by (unfold Z.sub; rewrite inject_Z_plus, inject_Z_opp; reflexivity).
    assert (X : (Qmax ((inject_Z r1 - t) / s - (inject_Z r0 - t) / s) 0 == inject_Z (r1 - r0))%Q).
    { pose proof (D1 (inject_Z r1 - t)%Q) as V1. pose proof (D1 (inject_Z r0 - t)%Q) as V2. rewrite Q.max_l; lra. }
    rewrite X. setoid_replace (inject_Z (r1 - r0) / inject_Z (r1 - r0))%Q with (inject_Z 1) by (field; lra). apply ceil_Z. }
  rewrite Ep. rewrite (Qfloor_comp _ _ (D1 (inject_Z r0 - t)%Q)), (Qceiling_comp _ _ (D1 (inject_Z r1 - t)%Q)).
  pose proof (floor_le (inject_Z r0 - t)) as A1. pose proof (floor_gt (inject_Z r0 - t)) as A2.
  pose proof (ceil_ge (inject_Z r1 - t)) as B1. pose proof (ceil_lt (inject_Z r1 - t)) as B2.
  set (f := Qfloor (inject_Z r0 - t)) in *. set (c := Qceiling (inject_Z r1 - t)) in *. clearbody f c.
  assert (R0 : (inject_Z 0 <= inject_Z r0)%Q) by (rewrite <- Zle_Qle; lia).
  assert (R1 : (inject_Z (r1 - 1) <= inject_Z (n - 1))%Q) by (rewrite <- Zle_Qle; lia).
  assert (R2 : (inject_Z r0 <= inject_Z (r1 - 1))%Q) by (rewrite <- Zle_Qle; lia).
  assert (I1 : forall z, (inject_Z (z - 1) == inject_Z z - 1)%Q) by (intros z; unfold Z.sub; rewrite inject_Z_plus; change (inject_Z (- (1))) with (-1)%Q; ring).
  rewrite I1 in R1, R2. rewrite I1 in R1. change (inject_Z 0) with 0%Q in R0.
  assert (F0 : 0 <= f). { assert (X : (inject_Z (-1) < inject_Z f)%Q) by (change (inject_Z (-1)) with (-1)%Q; lra). rewrite <- Zlt_Qlt in X. lia. }
  assert (FL : f < L). { rewrite Zlt_Qlt. lra. }
  assert (FC : f < c). { rewrite Zlt_Qlt. lra. }
  eexists _, _, _. split; [reflexivity|]. rewrite (Z.max_l f 0) by lia.
  set (x0 := f - Z.min f 1). set (x1 := Z.min (Z.min c L + 1) L).
  assert (X0 : 0 <= x0 <= f) by lia. assert (X1 : x1 = L \/ x1 = c + 1 /\ x1 <= L) by lia.
  split; [lia|]. split; [lia|].
  assert (I2 : forall u v, (inject_Z (u - v) == inject_Z u - inject_Z v)%Q) by (intros u v; unfold Z.sub; rewrite inject_Z_plus, inject_Z_opp; reflexivity).
  unfold covers. rewrite !I2.
  assert (Sx : (s * inject_Z x0 == inject_Z x0)%Q) by (rewrite Es; ring). rewrite Sx.
  assert (X0f : (inject_Z x0 <= inject_Z f)%Q) by (rewrite <- Zle_Qle; lia).
  split; [lra|]. assert (XC : (inject_Z x1 <= inject_Z c + 1)%Q).
  { assert (Y : (inject_Z x1 <= inject_Z (c + 1))%Q) by (rewrite <- Zle_Qle; lia). rewrite inject_Z_plus in Y. exact Y. }
  split; [|lra]. destruct X1 as [->|[-> _]]; [lra|]. rewrite inject_Z_plus. change (inject_Z 1) with 1%Q. lra.
Qed.

(** ** Both axes *)

Definition nears (n m : size) : Prop := near (fst n) (fst m) /\ near (snd n) (snd m).
Definition window (z : size) (ys xs : ival) : Prop :=
  0 <= fst ys < snd ys /\ snd ys <= snd z /\ 0 <= fst xs < snd xs /\ snd xs <= fst z.
Definition lens (ys xs : ival) : size := (iv_len xs, iv_len ys).

(* the image or an overview of it *)
Inductive base : node -> size -> Prop :=
| base_leaf l : l_kind l = Data -> pos_size (l_dsize l) -> base (Leaf l) (l_dsize l)
| base_ov l k : l_kind l = Data -> pos_size (l_dsize l) -> 1 <= k ->
    base (Overview (Leaf l) k (overview_dsize k (l_dsize l))) (overview_dsize k (l_dsize l)).

(* a window of that *)
Inductive cut : node -> size -> Prop :=
| cut_crop b z ys xs ci nm nc : base b z -> window z ys xs -> cut (Crop b ys xs ci (lens ys xs) nm nc) (lens ys xs).

(* an optimized image that had the size n *)
Inductive nf (n : size) : node -> Prop :=
| nf_base b : base b n -> nf n b
| nf_cut c z : cut c z -> nears n z -> nf n c
| nf_warp c z M d al : cut c z -> unit_lin M -> al_nearest al = false -> nears n d ->
    covers (fst n) (fst z) (b1 M) -> covers (snd n) (snd z) (b2 M) -> nf n (Warp c M d al).

Lemma base_size b z : base b z -> dsize b = Some z.
Proof. now intros []. Qed.
Lemma cut_size c z : cut c z -> dsize c = Some z.
Proof. now intros []. Qed.
Lemma base_pos b z : base b z -> pos_size z.
Proof. intros [l _ H|l k _ H _]; [exact H|now apply overview_size_pos]. Qed.

Lemma nf_size n v : nf n v -> exists m, dsize v = Some m /\ nears n m.
Proof.
  intros [b H|c z H Hn|c z M d al H _ _ Hn _ _].
  - exists n. split; [now apply base_size|]. unfold nears, near. lia.
  - exists z. split; [now apply cut_size|exact Hn].
  - exists d. auto.
Qed.

Lemma tail_nf f n v : nf n v -> push_tail f v = Ok v /\ crop_tail f v = Ok v.
Proof.
  intros [b H|c z H Hn|c z M d al H _ _ Hn _ _].
  - destruct H; split; reflexivity.
  - destruct H as [b z ys xs ci nm nc H W]. destruct H; split; reflexivity.
  - destruct H as [b z ys xs ci nm nc H W]. split; reflexivity.
Qed.

Lemma mkCrop_in s ys xs ci n w h : dsize s = Some (w, h) -> 0 <= fst ys <= snd ys -> snd ys <= h -> 0 <= fst xs <= snd xs -> snd xs <= w ->
  mkCrop s (Some (some_slice ys, some_slice xs)) ci = Ok n -> exists nm nc, n = Crop s ys xs ci (lens ys xs) nm nc.
Proof.
  intros Hd Y1 Y2 X1 X2. unfold mkCrop. rewrite Hd.
  assert (W : forall D a b, 0 <= a <= b -> b <= D -> wrap_clip D (Some a, Some b) = Ok (a, b)).
  { intros D a b Ha Hb. unfold wrap_clip. cbn. replace (a <? 0) with false by lia. replace (b <? 0) with false by lia.
    rewrite !Z.min_l, !Z.max_r by lia. replace (b <? a) with false by lia. reflexivity. }
  unfold some_slice. rewrite !W by assumption. cbn [bind].
  match goal with |- bind ?r _ = _ -> _ => destruct r as [[nm nc]|]; cbn [bind]; [|discriminate] end.
  intros [= <-]. exists nm, nc. now destruct ys, xs.
Qed.

(** ** The rewrite rules *)

Section Rules.
Variable o : oracle.
Hypothesis So : sane o.

Lemma unit_keeps f s z M d al r : cut s z -> unit_lin M -> warp_body o f s M d al = Ok r ->
  r = s /\ noop s M d al = true \/ r = Warp s M d al.
Proof.
  intros Hs HM. unfold warp_body. dif En; [intros [= <-]; auto|]. unfold split_warp. intros H.
  apply bind_ok in H as (sp & H1 & H2). apply bind_ok in H1 as (no & _ & H1).
  assert (U : split_levels o M = Ok None /\ absorbs o M = false) by (apply So; now apply unit_translates).
  destruct U as [U1 U2]. assert (E : sp = None).
  { destruct no as [m|]; [|congruence]. revert H1. dif Em; [congruence|]. rewrite U1. cbn. congruence. }
  subst sp. unfold absorb in H2. rewrite U2 in H2. cbn in H2. right. congruence.
Qed.

Lemma opt_warp_cut f c z M d al : cut c z -> opt_warp o f c M d al = warp_body o f c M d al.
Proof. intros [b z0 ys xs ci nm nc H W]. reflexivity. Qed.

Lemma opt_warp_warp f c z M1 d1 al1 M d al : cut c z ->
  opt_warp o f (Warp c M1 d1 al1) M d al = warp_body o f c (aff_mul M M1) d (drop_backend al).
Proof. intros [b z0 ys xs ci nm nc H W]. reflexivity. Qed.

Lemma noop_size s z M d al : dsize s = Some z -> noop s M d al = true -> d = z.
Proof.
  unfold noop. intros ->. rewrite andb_true_iff. intros [H _]. cbn in H. unfold size_eqb in H. destruct d, z. cbn in *. f_equal; lia.
Qed.

Lemma noop_close s M d al : (al_eps al == 0)%Q -> noop s M d al = true -> (b1 M == 0)%Q /\ (b2 M == 0)%Q.
Proof.
  unfold noop, close_identity, entry_close. intros E. rewrite !andb_true_iff, !Qle_bool_iff. intros (_ & (_ & H1) & H2).
  rewrite E in H1, H2. split.
  - apply Qabs.Qabs_Qle_condition in H1. lra.
  - apply Qabs.Qabs_Qle_condition in H2. lra.
Qed.

(* a translation over a window *)
Lemma warp_nf f n c z M d al r : cut c z -> unit_lin M -> al_nearest al = false -> nears n d ->
  covers (fst n) (fst z) (b1 M) -> covers (snd n) (snd z) (b2 M) -> warp_body o f c M d al = Ok r -> nf n r.
Proof.
  intros Hc HM Ha Hn H1 H2 H. destruct (unit_keeps _ _ _ _ _ _ _ Hc HM H) as [[-> E]| ->].
  - rewrite (noop_size _ _ _ _ _ (cut_size _ _ Hc) E) in Hn. eapply nf_cut; eassumption.
  - eapply nf_warp; eassumption.
Qed.

(** *** Crops *)

Lemma O_leaf g l r : O o g (Leaf l) = Ok r -> r = Leaf l.
Proof. destruct g; [discriminate|]. intros [= <-]. reflexivity. Qed.

Lemma O_base g b z r : base b z -> O o g b = Ok r -> r = b.
Proof.
  intros [l H P|l k H P Hk]; [apply O_leaf|]. destruct g; [discriminate|]. rewrite O_overview. intros E. apply bind_ok in E as (s1 & E1 & E).
  apply O_leaf in E1. subst s1. cbn [opt_overview bind] in E. replace (k =? 0) with false in E by lia. cbn in E. congruence.
Qed.

Lemma crop_base f b z ys xs ci d nm nc r : base b z -> opt_crop f b ys xs ci d nm nc = Ok r -> r = Crop b ys xs ci d nm nc.
Proof. intros [l H P|l k H P Hk]; cbn; [unfold is_nans; rewrite H|]; congruence. Qed.

Lemma O_cut g c z r : cut c z -> O o g c = Ok r -> r = c.
Proof.
  intros [b z0 ys xs ci nm nc Hb W]. destruct g; [discriminate|]. rewrite O_crop. intros E. apply bind_ok in E as (s1 & E1 & E).
  apply (O_base _ _ _ _ Hb) in E1. subst s1. eapply crop_base; eassumption.
Qed.

(* a window of a window *)
Lemma crop_cut f c z ys xs ci nm nc r : cut c z -> window z ys xs -> opt_crop f c ys xs ci (lens ys xs) nm nc = Ok r ->
  cut r (lens ys xs).
Proof.
  intros [b z0 ys1 xs1 ci1 nm1 nc1 Hb W1] W. cbn [opt_crop]. unfold fuse_crops. intros E. apply bind_ok in E as (c1 & E1 & E).
  apply bind_ok in E1 as (nci & _ & E1). destruct z0 as [w h]. unfold lens, iv_len in W. destruct W1 as (A1 & A2 & A3 & A4), W as (B1 & B2 & B3 & B4).
  cbn [fst snd] in *.
  assert (F : forall i j, 0 <= fst j < snd j -> snd j <= snd i - fst i -> 
    fuse_axis i j = some_slice (fst i + fst j, fst i + snd j)).
  { intros i j H1 H2. unfold fuse_axis, some_slice. cbn [fst snd]. rewrite !Z.min_l by lia. reflexivity. }
  rewrite !F in E1 by lia. eapply mkCrop_in in E1 as (nm2 & nc2 & ->); [|apply (base_size _ _ Hb)|cbn; lia..].
  set (ys2 := (fst ys1 + fst ys, fst ys1 + snd ys)) in *. set (xs2 := (fst xs1 + fst xs, fst xs1 + snd xs)) in *.
  assert (EL : lens ys2 xs2 = lens ys xs) by (unfold lens, iv_len, ys2, xs2; cbn [fst snd]; f_equal; lia).
  rewrite <- EL in *. assert (G : cut (Crop b ys2 xs2 nci (lens ys2 xs2) nm2 nc2) (lens ys2 xs2)).
  { apply (cut_crop b (w, h)); [exact Hb|]. unfold window, ys2, xs2. cbn [fst snd]. lia. }
  revert E. destruct Hb as [l Hl P|l k Hl P Hk]; cbn; [unfold is_nans; rewrite Hl|]; intros [= <-]; exact G.
Qed.

Lemma crop_nf g n v ys xs ci nm nc r : nf n v -> window n ys xs -> opt_crop (O o g) v ys xs ci (lens ys xs) nm nc = Ok r ->
  nf (lens ys xs) r.
Proof.
  assert (R : nears (lens ys xs) (lens ys xs)) by (unfold nears, near; lia).
  intros [b Hb|c z Hc Hn|c z M d al Hc HM Ha Hn H1 H2] W E.
  - apply (crop_base _ _ _ _ _ _ _ _ _ _ Hb) in E. subst r. eapply nf_cut; [now apply (cut_crop b n)|exact R].
  - eapply nf_cut; [|exact R]. eapply crop_cut; [exact Hc| |exact E].
    destruct Hn as [N1 N2]. unfold near, window in *. lia.
  - cbn [opt_crop bind] in E. rewrite Ha in E. unfold warp_after_crop in E.
    pose proof W as (Y1 & Y2 & X1 & X2).
    assert (E0 : ((fst (lens ys xs) =? 0) || (snd (lens ys xs) =? 0))%bool = false) by (unfold lens, iv_len; cbn [fst snd]; lia).
    rewrite E0, (unit_axis M HM) in E. clear E0. rewrite (cut_size _ _ Hc) in E. destruct z as [w h]. destruct ys as [y0 y1], xs as [x0 x1].
    cbn [fst snd] in Y1, Y2, X1, X2, H1, H2. pose proof HM as (U1 & _ & _ & U4). cbn in U1, U4.
    destruct (axis_fast _ _ _ _ x0 x1 U1 H1 X1 X2) as (p0 & p1 & px & Ex & Px & Pw & Cx).
    destruct (axis_fast _ _ _ _ y0 y1 U4 H2 Y1 Y2) as (q0 & q1 & py & Ey & Py & Ph & Cy).
    rewrite Ex, Ey in E. apply bind_ok in E as (r0 & E1 & E). apply bind_ok in E1 as (cc & E1 & E2).
    eapply mkCrop_in in E1 as (nm2 & nc2 & ->); [|apply (cut_size _ _ Hc)|cbn; lia..]. injection E2 as <-.
    apply bind_ok in E as (n1 & E1 & E).
    assert (G : nf (lens (y0, y1) (x0, x1)) n1).
    { destruct g; [discriminate|]. rewrite O_warp in E1. apply bind_ok in E1 as (s1 & E1 & E2).
      destruct g; [discriminate|]. rewrite O_crop in E1. apply bind_ok in E1 as (s2 & E1 & E3).
      apply (O_cut _ _ _ _ Hc) in E1. subst s2. apply (crop_cut _ _ _ _ _ _ _ _ _ Hc) in E3; [|unfold window; cbn; lia].
      rewrite (opt_warp_cut _ _ _ _ _ _ E3) in E2. eapply warp_nf; [exact E3| | | | | |exact E2]; auto.
      unfold unit_lin, same_lin. cbn. rewrite U1, U4. repeat split; reflexivity. }
    destruct (tail_nf (O o g) _ _ G) as [_ T]. rewrite T in E. injection E as <-. exact G.
Qed.

(** *** Overviews *)

Lemma ov_zero z : overview_dsize 0 z = z.
Proof.
  destruct z as [w h]. unfold overview_dsize, overview_len. cbn [fst snd].
  assert (E : forall n, Qceiling (inject_Z n / pow2 0) = n).
  { intros n. rewrite (Qceiling_comp _ (inject_Z n)); [apply ceil_Z|]. unfold pow2. cbn. field. }
  now rewrite !E.
Qed.

Lemma ov_plus a b z : 0 <= a -> 0 <= b -> overview_dsize (a + b) z = overview_dsize b (overview_dsize a z).
Proof. intros Ha Hb. unfold overview_dsize. cbn [fst snd]. now rewrite !(overview_len_plus a b) by assumption. Qed.

Lemma ov_base g b z k r : base b z -> 0 <= k -> opt_overview (O o g) b k (overview_dsize k z) = Ok r -> base r (overview_dsize k z).
Proof.
  intros [l Hl P|l j Hl P Hj] Hk.
  - cbn [opt_overview bind]. dif E0.
    + replace k with 0 by lia. rewrite ov_zero. intros [= <-]. now constructor.
    + intros [= <-]. constructor; auto; lia.
  - cbn [opt_overview]. unfold mkOverview. cbn [dsize bind]. intros E.
    cbn in E. replace (j + k =? 0) with false in E by lia.
    injection E as <-.
    rewrite <- (ov_plus j k) by lia. constructor; auto; lia.
Qed.

Lemma O_ov_base g b z k r : base b z -> 0 <= k -> O o g (Overview b k (overview_dsize k z)) = Ok r -> base r (overview_dsize k z).
Proof.
  intros Hb Hk. destruct g; [discriminate|]. rewrite O_overview. intros E. apply bind_ok in E as (s1 & E1 & E).
  apply (O_base _ _ _ _ Hb) in E1. subst s1. eapply ov_base; eassumption.
Qed.

Definition zoomed (k : Z) (i : ival) : ival := (fst i / 2 ^ k, - (- snd i / 2 ^ k)).
Definition offset (k a : Z) : Q := (inject_Z (a / 2 ^ k) - inject_Z a / inject_Z (2 ^ k))%Q.

Lemma crop_axis_off k i : 0 <= k -> 0 <= fst i <= snd i ->
  exists off, overview_crop_axis k i = (zoomed k i, off) /\ (off == offset k (fst i))%Q.
Proof.
  destruct i as [a b]. cbn [fst snd]. intros Hk H. destruct (crop_axis_value k a b Hk H) as (off & E & _).
  unfold zoomed. cbn [fst snd]. exists off. split; [exact E|]. unfold overview_crop_axis in E. cbv zeta in E. cbn [fst snd] in E.
  injection E as E1 _ E3. rewrite <- E3, E1. unfold offset. rewrite (pow2_Z k Hk). reflexivity.
Qed.

Lemma zoom_bounds k i n : 1 <= k -> 0 <= fst i < snd i -> snd i <= n ->
  0 <= fst (zoomed k i) < snd (zoomed k i) /\ snd (zoomed k i) <= overview_len k n.
Proof.
  intros Hk H Hn. destruct i as [a b]. unfold zoomed. cbn [fst snd] in *.
  assert (K0 : 0 < 2 ^ k) by (apply Z.pow_pos_nonneg; lia).
  pose proof (floor_bounds (2 ^ k) a K0). pose proof (ceil_bounds (2 ^ k) b K0).
  rewrite overview_len_ceil by lia.
  assert (- n / 2 ^ k <= - b / 2 ^ k) by (apply Z.div_le_mono; lia).
  assert (0 <= a / 2 ^ k) by (apply Z.div_pos; lia). nia.
Qed.

Lemma offset_neg k a : 0 <= k -> (-1 < offset k a)%Q /\ (offset k a <= 0)%Q.
Proof.
  intros Hk. unfold offset. assert (K0 : 0 < 2 ^ k) by (apply Z.pow_pos_nonneg; lia).
  pose proof (floor_bounds (2 ^ k) a K0) as [F1 F2]. set (K := 2 ^ k) in *. set (q := a / K) in *. clearbody K q.
  assert (KQ : (0 < inject_Z K)%Q) by (change 0%Q with (inject_Z 0); rewrite <- Zlt_Qlt; lia).
  assert (G1 : a < K * q + K) by lia. inj G1. inj F2.
  set (A := (inject_Z a / inject_Z K)%Q). assert (EA : (A * inject_Z K == inject_Z a)%Q) by (unfold A; field; lra). clearbody A.
  split; [apply (Qmult_lt_r _ _ (inject_Z K) KQ)|apply (Qmult_le_r _ _ (inject_Z K) KQ)]; nra.
Qed.

(* what becomes of a window under an overview *)
Lemma zoom_cut g b z ys xs ci k n r : base b z -> window z ys xs -> 1 <= k ->
  crop_after_overview b ys xs ci k = Ok n -> O o g n = Ok r ->
  exists c T, cut c (lens (zoomed k ys) (zoomed k xs)) /\ unit_lin T /\
    (b1 T == offset k (fst xs))%Q /\ (b2 T == offset k (fst ys))%Q /\
    ((r = c /\ (b1 T == 0)%Q /\ (b2 T == 0)%Q) \/ r = Warp c T (lens (zoomed k ys) (zoomed k xs)) default_algo).
Proof.
  intros Hb (Y1 & Y2 & X1 & X2) Hk H HO. unfold crop_after_overview, mkOverview in H. rewrite (base_size _ _ Hb) in H. cbn [bind] in H.
  destruct (crop_axis_off k xs) as (ox & Ex & Ox); [lia..|]. destruct (crop_axis_off k ys) as (oy & Ey & Oy); [lia..|].
  rewrite Ex, Ey in H. apply bind_ok in H as (c0 & H1 & H). 
  destruct (zoom_bounds k xs (fst z) Hk X1 X2) as [ZX1 ZX2]. destruct (zoom_bounds k ys (snd z) Hk Y1 Y2) as [ZY1 ZY2].
  eapply mkCrop_in in H1 as (nm & nc & ->); [|reflexivity|lia..].
  assert (C : forall g r, O o g (Crop (Overview b k (overview_dsize k z)) (zoomed k ys) (zoomed k xs) ci (lens (zoomed k ys) (zoomed k xs)) nm nc) = Ok r ->
    cut r (lens (zoomed k ys) (zoomed k xs))).
  { clear -Hb Hk ZX1 ZX2 ZY1 ZY2. intros g r E. destruct g; [discriminate|]. rewrite O_crop in E. apply bind_ok in E as (s1 & E1 & E).
    apply (O_ov_base _ _ _ _ _ Hb) in E1; [|lia]. apply (crop_base _ _ _ _ _ _ _ _ _ _ E1) in E. subst r.
    apply (cut_crop _ (overview_dsize k z)); [exact E1|]. unfold window. cbn [fst snd overview_dsize]. auto. }
  destruct (is_identity (aff_translate ox oy)) eqn:Ei.
  - injection H as <-. apply C in HO. exists r, (aff_translate ox oy). split; [exact HO|]. split; [apply unit_translate|].
    split; [exact Ox|]. split; [exact Oy|]. left. split; [reflexivity|].
    unfold is_identity in Ei. rewrite !andb_true_iff in Ei. split; apply Qeq_bool_iff; apply Ei.
  - unfold mkWarp_auto in H. cbn [dsize] in H. injection H as <-. destruct g; [discriminate|]. rewrite O_warp in HO.
    apply bind_ok in HO as (c & E1 & E). apply C in E1. exists c, (aff_translate ox oy). split; [exact E1|]. split; [apply unit_translate|].
    split; [exact Ox|]. split; [exact Oy|]. rewrite (opt_warp_cut _ _ _ _ _ _ E1) in E.
    assert (A : auto_dsize (aff_translate ox oy) (lens (zoomed k ys) (zoomed k xs)) = lens (zoomed k ys) (zoomed k xs)).
    { pose proof (offset_neg k (fst xs) ltac:(lia)). pose proof (offset_neg k (fst ys) ltac:(lia)).
      unfold lens. apply shifted_size; rewrite ?Ox, ?Oy; unfold iv_len; try tauto; lia. }
    rewrite A in E. destruct (unit_keeps _ _ _ _ _ _ _ E1 (unit_translate _ _) E) as [[-> En]| ->]; [left|right; reflexivity].
    split; [reflexivity|]. now apply noop_close in En.
Qed.

Lemma covers_eq n L t t' : (t == t')%Q -> covers n L t -> covers n L t'.
Proof. unfold covers. intros ->. auto. Qed.

Lemma auto_unit M w h : unit_lin M -> 0 <= w -> 0 <= h ->
  auto_dsize M (w, h) = (Qceiling (inject_Z w + b1 M), Qceiling (inject_Z h + b2 M)).
Proof.
  intros (U1 & U2 & U3 & U4) Hw Hh. cbn in U1, U2, U3, U4. unfold auto_dsize. cbn [fst snd].
  assert (W : (inject_Z 0 <= inject_Z w)%Q) by (rewrite <- Zle_Qle; lia).
  assert (H : (inject_Z 0 <= inject_Z h)%Q) by (rewrite <- Zle_Qle; lia). change (inject_Z 0) with 0%Q in W, H.
  f_equal; apply Qceiling_comp.
  - apply Qle_antisym; [apply Qmax4_le; unfold ax; rewrite U1, U2; lra|].
    destruct (Qmax4_spec (ax M 0 0) (ax M (inject_Z w) 0) (ax M 0 (inject_Z h)) (ax M (inject_Z w) (inject_Z h))) as (_ & X & _).
    eapply Qle_trans; [|exact X]. unfold ax. rewrite U1, U2. lra.
  - apply Qle_antisym; [apply Qmax4_le; unfold ay; rewrite U3, U4; lra|].
    destruct (Qmax4_spec (ay M 0 0) (ay M (inject_Z w) 0) (ay M 0 (inject_Z h)) (ay M (inject_Z w) (inject_Z h))) as (_ & _ & X & _).
    eapply Qle_trans; [|exact X]. unfold ay. rewrite U3, U4. lra.
Qed.

Lemma ov_ceil k z : 0 <= k -> overview_dsize k z = (- (- fst z / 2 ^ k), - (- snd z / 2 ^ k)).
Proof. intros Hk. unfold overview_dsize. now rewrite !overview_len_ceil by exact Hk. Qed.

(* the offset of a translation that passes below an overview *)
Lemma passed_offset s B k w h n : 1 <= k -> dsize s = Some (w, h) -> warp_after_overview_node s B k = Ok n -> unit_lin B ->
  exists C, n = Warp (Overview s k (overview_dsize k (w, h))) C (auto_dsize C (overview_dsize k (w, h))) default_algo /\ unit_lin C /\
    (b1 C == b1 B / inject_Z (2 ^ k))%Q /\ (b2 C == b2 B / inject_Z (2 ^ k))%Q.
Proof.
  intros Hk Hd H HB. unfold warp_after_overview_node, warp_after_overview, mkOverview, mkWarp_auto in H. rewrite Hd in H.
  destruct (scale_inv k) as (I & EI & H1 & H2 & H3 & H4 & H5 & H6). cbv zeta in H. rewrite EI in H. cbn [bind dsize] in H. injection H as <-.
  eexists. split; [reflexivity|]. pose proof (pow2_pos k) as Hp.
  assert (Hn : ~ (pow2 k == 0)%Q) by (intros E; rewrite E in Hp; discriminate).
  assert (Hn' : ~ (inject_Z (2 ^ k) == 0)%Q) by (rewrite <- (pow2_Z k) by lia; exact Hn).
  split; [|split].
  - eapply unit_same; [exact HB|]. unfold same_lin, aff_mul, aff_scale. cbn. rewrite H1, H2, H3, H4. repeat split; field; exact Hn.
  - unfold aff_mul, aff_scale. cbn. rewrite H5, H6, (pow2_Z k) by lia. field. exact Hn'.
  - unfold aff_mul, aff_scale. cbn. rewrite H5, H6, (pow2_Z k) by lia. field. exact Hn'.
Qed.

Lemma ov_nf g n v k r : nf n v -> 0 <= k -> opt_overview (O o g) v k (overview_dsize k n) = Ok r -> nf (overview_dsize k n) r.
Proof.
  intros Hv Hk E. destruct (Z.eq_dec k 0) as [->|Hk0].
  - rewrite ov_zero in *. destruct Hv as [b Hb|c z Hc Hn|c z M d al Hc HM Ha Hn H1 H2].
    + apply nf_base. rewrite <- (ov_zero n) in E. apply (ov_base _ _ _ _ _ Hb (Z.le_refl 0)) in E. now rewrite ov_zero in E.
    + destruct (tail_nf (O o g) _ _ (nf_cut n c z Hc Hn)) as [T _]. destruct Hc. cbn in E, T. rewrite T in E. injection E as <-.
      eapply nf_cut; [|exact Hn]. now apply (cut_crop b z).
    + pose proof (nf_warp n c z M d al Hc HM Ha Hn H1 H2) as G. destruct (tail_nf (O o g) _ _ G) as [T _].
      cbn [opt_overview bind] in E. change (0 =? 0) with true in E. cbv iota in E. rewrite T in E. injection E as <-. exact G.
  - assert (K1 : 1 <= k) by lia. assert (K2 : 2 <= 2 ^ k) by (change 2 with (2 ^ 1) at 1; apply Z.pow_le_mono_r; lia).
    assert (K0 : k =? 0 = false) by lia. rewrite (ov_ceil k n Hk) in *.
    destruct Hv as [b Hb|c z Hc Hn|c z M d al Hc HM Ha Hn H1 H2].
    + rewrite <- (ov_ceil k n Hk) in *. apply nf_base. eapply ov_base; eassumption.
    + destruct Hc as [b z0 ys xs ci nm nc Hb W]. cbn [opt_overview bind] in E. rewrite K0 in E. apply bind_ok in E as (n0 & E0 & E).
      apply bind_ok in E as (n1 & E1 & E). destruct (zoom_cut _ _ _ _ _ _ _ _ _ Hb W K1 E0 E1) as (c & T & Hc & HT & B1 & B2 & Hr).
      destruct (axis_crop (2 ^ k) (fst n) (fst xs) (snd xs) K2 (proj1 Hn)) as [Nx Cx].
      destruct (axis_crop (2 ^ k) (snd n) (fst ys) (snd ys) K2 (proj2 Hn)) as [Ny Cy].
      assert (Hns : nears (- (- fst n / 2 ^ k), - (- snd n / 2 ^ k)) (lens (zoomed k ys) (zoomed k xs))) by (split; assumption).
      assert (G : nf (- (- fst n / 2 ^ k), - (- snd n / 2 ^ k)) n1).
      { destruct Hr as [(-> & _)| ->]; [eapply nf_cut; eassumption|]. eapply nf_warp; [exact Hc|exact HT|reflexivity|exact Hns|..].
        - eapply covers_eq; [symmetry; exact B1|exact Cx].
        - eapply covers_eq; [symmetry; exact B2|exact Cy]. }
      destruct (tail_nf (O o g) _ _ G) as [Tl _]. rewrite Tl in E. injection E as <-. exact G.
    + cbn [opt_overview bind] in E. rewrite K0 in E. apply bind_ok in E as (n0 & E0 & E). apply bind_ok in E as (n1 & E1 & E).
      destruct z as [w h]. destruct (passed_offset c M k w h n0 K1 (cut_size _ _ Hc) E0 HM) as (C & -> & HC & C1 & C2).
      assert (G : nf (- (- fst n / 2 ^ k), - (- snd n / 2 ^ k)) n1).
      { destruct g; [discriminate|]. rewrite O_warp in E1. apply bind_ok in E1 as (s1 & E1 & E2).
        destruct g; [discriminate|]. rewrite O_overview in E1. apply bind_ok in E1 as (s2 & E1 & E3).
        apply (O_cut _ _ _ _ Hc) in E1. subst s2.
        inversion Hc as [b z0 ys xs ci nm nc Hb W Eq1 Eq2]. subst c w h.
        cbn [opt_overview bind] in E3. rewrite K0 in E3. apply bind_ok in E3 as (m0 & F0 & E3). apply bind_ok in E3 as (m1 & F1 & E3).
        destruct (zoom_cut _ _ _ _ _ _ _ _ _ Hb W K1 F0 F1) as (c & T & Hc' & HT & B1 & B2 & Hr).
        assert (Es : m1 = s1).
        { assert (Ht : push_tail (O o g) m1 = Ok m1); [|congruence].
          destruct Hr as [(-> & _)| ->]; [|now destruct Hc'].
          destruct Hc' as [b' z' ys' xs' ci' nm' nc' Hb' W']. now destruct Hb'. }
        subst m1. cbn [fst snd] in H1, H2.
        destruct (axis_warp (2 ^ k) (fst n) (fst xs) (snd xs) (b1 M) K2) as [Nx Cx]; [exact H1|].
        destruct (axis_warp (2 ^ k) (snd n) (fst ys) (snd ys) (b2 M) K2) as [Ny Cy]; [exact H2|].
        assert (Hns : nears (- (- fst n / 2 ^ k), - (- snd n / 2 ^ k)) (auto_dsize C (overview_dsize k (lens ys xs)))).
        { rewrite (ov_ceil k _ Hk). destruct W as (W1 & _ & W2 & _). unfold lens, iv_len. cbn [fst snd].
          pose proof (ceil_bounds (2 ^ k) (snd xs - fst xs) ltac:(lia)). pose proof (ceil_bounds (2 ^ k) (snd ys - fst ys) ltac:(lia)).
          rewrite (auto_unit C _ _ HC) by (clear -K2 W1 W2 H H0; nia). split; cbn [fst snd].
          - rewrite (Qceiling_comp _ _ (Qplus_comp _ _ (Qeq_refl _) _ _ C1)). exact Nx.
          - rewrite (Qceiling_comp _ _ (Qplus_comp _ _ (Qeq_refl _) _ _ C2)). exact Ny. }
        pose proof HC as (U1 & U2 & U3 & U4). cbn in U1, U2, U3, U4.
        destruct Hr as [(-> & Z1 & Z2)| ->].
        - rewrite (opt_warp_cut _ _ _ _ _ _ Hc') in E2. eapply warp_nf; [exact Hc'|exact HC| |exact Hns| | |exact E2]; [reflexivity| |].
          + eapply covers_eq; [|exact Cx]. rewrite C1. fold (offset k (fst xs)). rewrite <- B1, Z1. ring.
          + eapply covers_eq; [|exact Cy]. rewrite C2. fold (offset k (fst ys)). rewrite <- B2, Z2. ring.
        - rewrite (opt_warp_warp _ _ _ _ _ _ _ _ _ Hc') in E2. eapply warp_nf; [exact Hc'| | |exact Hns| | |exact E2]; [apply unit_mul; assumption|reflexivity| |].
          + eapply covers_eq; [|exact Cx]. cbn. rewrite U1, U2, C1, B1. unfold offset. ring.
          + eapply covers_eq; [|exact Cy]. cbn. rewrite U3, U4, C2, B2. unfold offset. ring. }
      destruct (tail_nf (O o g) _ _ G) as [Tl _]. rewrite Tl in E. injection E as <-. exact G.
Qed.

End Rules.
