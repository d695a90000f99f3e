(* The size of an overview of a crop after optimize(). *)
From Verif Require Import Py PyProofs GeomModel GeomProofs GraphModel GraphSpec GraphBase GraphTake GraphOpt GraphMain GraphSound GraphSize GraphTotal GraphProps OvTotal OvExactProps.
From Coq Require Import Qround.
Local Open Scope Z_scope.

Lemma ceil_is q n : (inject_Z (n - 1) < q)%Q -> (q <= inject_Z n)%Q -> Qceiling q = n.
Proof.
  intros H1 H2. assert (A : Qceiling q <= n) by (apply ceil_le_iff; exact H2).
  assert (B : ~ Qceiling q <= n - 1). { intros X. apply ceil_le_iff in X. lra. } lia.
Qed.

Lemma crop_axis_value k a b : 0 <= k -> 0 <= a <= b ->
  exists off, overview_crop_axis k (a, b) = ((a / 2 ^ k, - (- b / 2 ^ k)), off) /\ (-1 < off)%Q /\ (off <= 0)%Q /\
    a / 2 ^ k <= - (- b / 2 ^ k).
Proof.
  intros Hk H. destruct (overview_crop_axis k (a, b)) as [[q0 q1] off] eqn:E.
  pose proof (overview_crop_axis_spec k (a, b) b Hk) as S. rewrite E in S. cbn [fst snd] in S.
  destruct S as (S1 & _ & S3 & S4 & _); try lia.
  unfold overview_crop_axis in E. cbn [fst snd] in E. cbv zeta in E.
  fold (overview_len k b) in E. rewrite (overview_len_ceil k b) in E by exact Hk.
  assert (F : Qfloor (inject_Z a / pow2 k) = a / 2 ^ k).
  { assert (H2 : 0 < 2 ^ k) by (apply Z.pow_pos_nonneg; lia).
    assert (E' : (inject_Z a / pow2 k == a # Z.to_pos (2 ^ k))%Q).
    { rewrite (pow2_Z k Hk). rewrite Qmake_Qdiv. rewrite Z2Pos.id by lia. reflexivity. }
    rewrite E'. cbn [Qfloor]. now rewrite Z2Pos.id by lia. }
  rewrite F in E.
  assert (P : 0 <= a / 2 ^ k) by (apply Z.div_pos; [lia|apply Z.pow_pos_nonneg; lia]).
  assert (Q : 0 <= - (- b / 2 ^ k)). { assert (- b / 2 ^ k <= 0); [|lia]. apply Z.div_le_upper_bound; [apply Z.pow_pos_nonneg; lia|lia]. }
  rewrite (Z.max_r 0 (a / 2 ^ k)), (Z.max_r 0 (- (- b / 2 ^ k))) in E by assumption.
  injection E as E0 E1 _. exists off. rewrite E0, E1. repeat split; auto; lia.
Qed.

Lemma shifted_size ox oy w h : (-1 < ox)%Q -> (ox <= 0)%Q -> (-1 < oy)%Q -> (oy <= 0)%Q -> 0 <= w -> 0 <= h ->
  auto_dsize (aff_translate ox oy) (w, h) = (w, h).
Proof.
  intros H1 H2 H3 H4 Hw Hh. unfold auto_dsize. cbn [fst snd].
  assert (W : (0 <= inject_Z w)%Q) by (rewrite (Zle_Qle 0 w) in Hw; exact Hw).
  assert (H : (0 <= inject_Z h)%Q) by (rewrite (Zle_Qle 0 h) in Hh; exact Hh).
  assert (S : forall n, (inject_Z (n - 1) == inject_Z n - 1)%Q).
  { intros n. unfold Z.sub. rewrite inject_Z_plus. change (inject_Z (- (1))) with (-1)%Q. lra. }
  f_equal; apply ceil_is; rewrite ?S; unfold ax, ay, aff_translate; cbn [a11 a12 a21 a22 b1 b2];
  try (apply Qmax4_le; lra);
  match goal with |- (_ < Qmax4 ?a ?b ?c ?d)%Q => destruct (Qmax4_spec a b c d) as (M1 & M2 & M3 & M4) end; lra.
Qed.

(* the canvas of the rewritten crop *)
Lemma rewritten_size l w h y0 y1 x0 x1 ci k n : l_dsize l = (w, h) -> 0 <= k ->
  0 <= y0 <= y1 -> y1 <= h -> 0 <= x0 <= x1 -> x1 <= w ->
  crop_after_overview (Leaf l) (y0, y1) (x0, x1) ci k = Ok n ->
  dsize n = Some (- (- x1 / 2 ^ k) - x0 / 2 ^ k, - (- y1 / 2 ^ k) - y0 / 2 ^ k).
Proof.
  intros El Hk Hy Hy1 Hx Hx1. unfold crop_after_overview, mkOverview. cbn [dsize]. rewrite El. cbn [bind].
  destruct (crop_axis_value k x0 x1 Hk Hx) as (ox & Ex & X1 & X2 & X3). destruct (crop_axis_value k y0 y1 Hk Hy) as (oy & Ey & Y1 & Y2 & Y3).
  rewrite Ex, Ey. unfold mkCrop. cbn [dsize bind].
  assert (P2 : 0 < 2 ^ k) by (apply Z.pow_pos_nonneg; lia).
  assert (W : forall D a b, 0 <= a <= b -> b <= D -> wrap_clip D (Some a, Some b) = Ok (a, b)).
  { intros D a b Ha Hb. unfold wrap_clip. cbn. replace (a <? 0) with false by lia. replace (b <? 0) with false by lia.
    rewrite !Z.min_l, !Z.max_r by lia. replace (b <? a) with false by lia. reflexivity. }
  assert (L : forall b D, b <= D -> - (- b / 2 ^ k) <= overview_len k D).
  { intros b D Hb. rewrite overview_len_ceil by exact Hk. assert (- D / 2 ^ k <= - b / 2 ^ k) by (apply Z.div_le_mono; lia). lia. }
  assert (G : forall a, 0 <= a -> 0 <= a / 2 ^ k) by (intros a Ha; apply Z.div_pos; lia).
  unfold some_slice, overview_dsize. cbn [fst snd].
  rewrite !W by (split || apply L || idtac; auto; try apply G; lia).
  cbn [bind]. match goal with |- bind (bind ?r _) _ = _ -> _ => destruct r as [[nm nc]|]; cbn [bind]; [|discriminate] end.
  destruct (is_identity _); [intros [= <-]; reflexivity|]. unfold mkWarp_auto. cbn [dsize]. intros [= <-]. cbn [dsize].
  rewrite shifted_size; try assumption; unfold iv_len; cbn [fst snd]; try lia. reflexivity.
Qed.

Lemma rounded_out K a b : 0 < K -> 
  let size := - (- b / K) - a / K in let ov := - (- (b - a) / K) in
  (size = ov \/ size = ov + 1) /\ (size = ov <-> a mod K + (b - a - 1) mod K < K).
Proof.
  intros HK. cbv zeta.
  pose proof (Z.div_mod a K ltac:(lia)) as Ea. pose proof (Z.mod_pos_bound a K HK) as Ba.
  pose proof (Z.div_mod (- b) K ltac:(lia)) as Eb. pose proof (Z.mod_pos_bound (- b) K HK) as Bb.
  pose proof (Z.div_mod (- (b - a)) K ltac:(lia)) as Ec. pose proof (Z.mod_pos_bound (- (b - a)) K HK) as Bc.
  assert (E1 : (b - a - 1) mod K = K - 1 - (- (b - a)) mod K).
  { symmetry. apply Z.mod_unique with (- (- (b - a) / K) - 1); [left; lia|]. nia. }
  rewrite E1. set (A := a mod K) in *. set (B := - b mod K) in *. set (C := (- (b - a)) mod K) in *.
  set (qa := a / K) in *. set (qb := - b / K) in *. set (qc := - (b - a) / K) in *.
  (* -b + a = K*(qa+qb) + A + B = K*qc + C *)
  assert (E : K * (qa + qb) + A + B = K * qc + C) by lia.
  assert (D : qc = qa + qb \/ qc = qa + qb + 1) by nia.
  split; [lia|]. split; intros H.
  - assert (qc = qa + qb) by lia. nia.
  - destruct D as [D|D]; [lia|]. nia.
Qed.

(** C45, size: optimize() of overview k of a window of an image with known overviews
    reports the pixels of the overview that the window touches.  In each direction these
    are as many as before, or one more: one more exactly when the position of the window
    and its length do not fit into whole pixels of the overview. *)
Theorem C45_size_exact o l m w h y0 y1 x0 x1 ci c k t : sane o ->
  l_kind l = Data -> l_ov l = Some m -> l_dsize l = (w, h) -> made c -> 1 <= k ->
  0 <= y0 <= y1 -> y1 <= h -> 0 <= x0 <= x1 -> x1 <= w ->
  mkCrop (Leaf l) (Some ((Some y0, Some y1), (Some x0, Some x1))) ci = Ok c ->
  mkOverview c k = Ok t ->
  exists t' tw th sw sh, optimizes o t t' /\ dsize t = Some (tw, th) /\ dsize t' = Some (sw, sh) /\
    sw = - (- x1 / 2 ^ k) - x0 / 2 ^ k /\ sh = - (- y1 / 2 ^ k) - y0 / 2 ^ k /\
    (sw = tw \/ sw = tw + 1) /\ (sw = tw <-> x0 mod 2 ^ k + (x1 - x0 - 1) mod 2 ^ k < 2 ^ k) /\
    (sh = th \/ sh = th + 1) /\ (sh = th <-> y0 mod 2 ^ k + (y1 - y0 - 1) mod 2 ^ k < 2 ^ k).
Proof.
  intros So Hdat Hov Hsz Hm Hk Hy Hy1 Hx Hx1 Hc Ht. destruct (made_ok _ Hm) as [Hw _].
  assert (Ec : exists nm nc, c = Crop (Leaf l) (y0, y1) (x0, x1) ci (x1 - x0, y1 - y0) nm nc).
  { revert Hc. unfold mkCrop. cbn [dsize]. rewrite Hsz.
    assert (W : forall D a b, 0 <= a <= b -> b <= D -> wrap_clip D (Some a, Some b) = Ok (a, b)).
    { intros D a b Ha Hb. unfold wrap_clip. cbn. replace (a <? 0) with false by lia. replace (b <? 0) with false by lia.
      rewrite !Z.min_l, !Z.max_r by lia. replace (b <? a) with false by lia. reflexivity. }
    rewrite !W by lia. cbn [bind]. match goal with |- bind ?r _ = _ -> _ => destruct r as [[nm nc]|]; cbn [bind]; [|discriminate] end.
    intros [= <-]. unfold iv_len. eauto. }
  destruct Ec as (nm & nc & ->). set (d := (x1 - x0, y1 - y0)) in *.
  unfold mkOverview in Ht. cbn [dsize] in Ht. injection Ht as <-.
  destruct (crop_after_overview_cases l (y0, y1) (x0, x1) ci d nm nc k Hw ltac:(cbn; lia) ltac:(cbn; lia) ltac:(lia)) as (a & b & nm' & nc' & od & H1 & H2).
  pose proof (fun n => rewritten_size l w h y0 y1 x0 x1 ci k n Hsz ltac:(lia) Hy Hy1 Hx Hx1) as Sz.
  cbn [fst] in H1, H2. set (c := Crop (Overview (Leaf l) k od) a b ci (iv_len b, iv_len a) nm' nc') in *.
  assert (Hn : is_nans l = false) by (unfold is_nans; now rewrite Hdat).
  assert (Oc : forall f, GraphTotal.O o (S (S (S f))) c = Ok c) by (intros f; unfold GraphTotal.O, c; cbn; replace (k =? 0) with false by lia; reflexivity).
  assert (Oi : forall f, GraphTotal.O o (S (S f)) (Crop (Leaf l) (y0, y1) (x0, x1) ci d nm nc) = Ok (Crop (Leaf l) (y0, y1) (x0, x1) ci d nm nc)).
  { intros f. unfold GraphTotal.O. cbn. now rewrite Hn. }
  assert (St : forall f, optimize o (S (S (S f))) (Overview (Crop (Leaf l) (y0, y1) (x0, x1) ci d nm nc) k (overview_dsize k d)) =
    bind (bind (crop_after_overview (Leaf l) (y0, y1) (x0, x1) ci k) (fun n => bind (GraphTotal.O o (S (S f)) n) (push_tail (GraphTotal.O o (S (S f)))))) (fun n => Ok (n, false))).
  { intros f. change (optimize o (S (S (S f))) (Overview (Crop (Leaf l) (y0, y1) (x0, x1) ci d nm nc) k (overview_dsize k d))) with
      (bind (GraphTotal.O o (S (S f)) (Crop (Leaf l) (y0, y1) (x0, x1) ci d nm nc)) (fun s1 => bind (opt_overview (GraphTotal.O o (S (S f))) s1 k (overview_dsize k d)) (fun n => Ok (n, false)))).
    rewrite Oi. cbn [bind]. unfold opt_overview. cbn [bind]. replace (k =? 0) with false by lia. reflexivity. }
  assert (Fin : exists n, crop_after_overview (Leaf l) (y0, y1) (x0, x1) ci k = Ok n /\
     optimizes o (Overview (Crop (Leaf l) (y0, y1) (x0, x1) ci d nm nc) k (overview_dsize k d)) n).
  { assert (Dec : fst (y0, x0) mod 2 ^ k = 0 /\ snd (y0, x0) mod 2 ^ k = 0 \/ ~ (y0 mod 2 ^ k = 0 /\ x0 mod 2 ^ k = 0)) by (cbn; lia).
    destruct Dec as [Ha|Ha].
    - exists c. split; [exact (H1 Ha)|]. exists 4%nat, false. rewrite St, (H1 Ha). cbn [bind]. rewrite Oc. reflexivity.
    - destruct (H2 Ha) as (x & y & td & Hi & E). eexists. split; [exact E|].
      exists 6%nat, false. rewrite St, E. cbn [bind].
      change (GraphTotal.O o 5 (Warp c (aff_translate x y) td default_algo)) with
        (rmap fst (bind (GraphTotal.O o 4 c) (fun s1 => bind (opt_warp o (GraphTotal.O o 4) s1 (aff_translate x y) td default_algo) (fun n => Ok (n, false))))).
      rewrite Oc. cbn [bind]. unfold opt_warp. cbn [c]. cbv iota beta zeta. fold c.
      change (al_eps default_algo) with 0%Q. rewrite close_translate, Hi, andb_false_r.
      unfold split_warp. cbn [num_overviews c bind]. rewrite Hov. cbn [bind].
      destruct (proj2 So (aff_translate x y)) as [S1 S2]. { unfold translates, aff_translate. cbn. repeat split; reflexivity. }
      destruct (m - k =? 0); rewrite ?S1; cbn [bind]; unfold absorb; rewrite S2; reflexivity. }
  destruct Fin as (n & En & On). specialize (Sz n En).
  exists n, (overview_len k (x1 - x0)), (overview_len k (y1 - y0)). eexists _, _.
  split; [exact On|]. split; [reflexivity|]. split; [exact Sz|].
  rewrite !overview_len_ceil by lia.
  assert (P2 : 0 < 2 ^ k) by (apply Z.pow_pos_nonneg; lia).
  destruct (rounded_out (2 ^ k) x0 x1 P2) as [Rx1 Rx2]. destruct (rounded_out (2 ^ k) y0 y1 P2) as [Ry1 Ry2].
  split; [reflexivity|]. split; [reflexivity|]. auto.
Qed.
Print Assumptions C45_size_exact.

(* rows 4..9 and columns 6..15 at level 2: two rows stay two rows, three columns too;
   columns 7..15 would be two columns and become three *)
Example C45_size_case : let i := img 1 16 16 ["a"; "b"]%string (Some 2) in
  exists c c' t t', made c /\ made c' /\ sane axis_oracle /\
    mkCrop i (Some ((Some 4, Some 9), (Some 6, Some 15))) None = Ok c /\ mkOverview c 2 = Ok t /\
    mkCrop i (Some ((Some 4, Some 9), (Some 7, Some 15))) None = Ok c' /\ mkOverview c' 2 = Ok t' /\
    dsize t = Some (3, 2) /\ dsize t' = Some (2, 2) /\
    (exists n, optimizes axis_oracle t n /\ dsize n = Some (3, 2)) /\
    (exists n, optimizes axis_oracle t' n /\ dsize n = Some (3, 2)).
Proof.
  intros i. set (sl := Some ((Some 4, Some 9), (Some 6, Some 15))). set (sl' := Some ((Some 4, Some 9), (Some 7, Some 15))).
  assert (Hi : made i) by (apply made_img; lia).
  exists (the (mkCrop i sl None)), (the (mkCrop i sl' None)),
    (the (mkOverview (the (mkCrop i sl None)) 2)), (the (mkOverview (the (mkCrop i sl' None)) 2)).
  split; [eapply made_crop_to; [exact Hi|reflexivity]|]. split; [eapply made_crop_to; [exact Hi|reflexivity]|].
  split; [exact axis_sane|].
  repeat (match goal with |- _ /\ _ => split end); try reflexivity.
  - eexists. split; [exists 10%nat, false; vm_compute; reflexivity|reflexivity].
  - eexists. split; [exists 10%nat, false; vm_compute; reflexivity|reflexivity].
Qed.
