(* Overviews of crops of images whose number of overviews is unknown. *)
From Verif Require Import Py PyProofs GeomModel GeomProofs GraphModel GraphSpec GraphBase GraphTake GraphOpt GraphMain GraphSound GraphSize GraphTotal GraphProps OvTotal.
From Coq Require Import Qround.
Local Open Scope Z_scope.

Lemma crop_axis_whole k r : 0 <= k -> 0 <= fst r -> (snd (overview_crop_axis k r) == 0)%Q <-> fst r mod 2 ^ k = 0.
Proof.
  intros Hk Hr. unfold overview_crop_axis. cbv zeta. cbn [fst snd]. pose proof (pow2_pos k) as Hp.
  assert (H2 : 0 < 2 ^ k) by (apply Z.pow_pos_nonneg; lia).
  assert (E : (inject_Z (fst r) / pow2 k == fst r # Z.to_pos (2 ^ k))%Q).
  { rewrite (pow2_Z k Hk). rewrite Qmake_Qdiv. rewrite Z2Pos.id by lia. reflexivity. }
  assert (F : Qfloor (inject_Z (fst r) / pow2 k) = fst r / 2 ^ k).
  { rewrite E. cbn [Qfloor]. now rewrite Z2Pos.id by lia. }
  rewrite F. pose proof (Z.div_pos (fst r) (2 ^ k) Hr H2) as Hd. rewrite Z.max_r by exact Hd.
  rewrite E. unfold Qeq, Qminus, Qplus, Qopp, inject_Z. cbn. rewrite Z2Pos.id by lia.
  pose proof (Z.div_mod (fst r) (2 ^ k) ltac:(lia)). split; nia.
Qed.

Lemma identity_translate x y : is_identity (aff_translate x y) = true <-> (x == 0)%Q /\ (y == 0)%Q.
Proof.
  unfold is_identity, aff_translate. cbn [a11 a12 a21 a22 b1 b2]. rewrite !andb_true_iff, !Qeq_bool_iff. intuition reflexivity.
Qed.

Lemma close_translate x y : close_identity 0 (aff_translate x y) = is_identity (aff_translate x y).
Proof.
  assert (H : forall a b, entry_close 0 a b = Qeq_bool a b).
  { intros a b. unfold entry_close. apply eq_true_iff_eq. rewrite Qle_bool_iff, Qeq_bool_iff.
    setoid_replace (0 + 0 * Qabs.Qabs b)%Q with 0%Q by ring. split; intros X.
    - pose proof (Qabs.Qabs_nonneg (a - b)) as Y. assert (Z0 : (Qabs.Qabs (a - b) == 0)%Q) by (apply Qle_antisym; assumption).
      assert (a - b == 0)%Q; [|lra]. revert Z0. unfold Qeq, Qabs.Qabs. destruct (a - b)%Q as [n d]. cbn. lia.
    - setoid_replace (a - b)%Q with 0%Q by lra. discriminate. }
  unfold close_identity, is_identity. now rewrite !H.
Qed.

(* the rewritten crop, with the leftover translation if there is one *)
Lemma crop_after_overview_cases l ys xs ci d nm nc k : wf (Crop (Leaf l) ys xs ci d nm nc) ->
  0 <= fst ys <= snd ys -> 0 <= fst xs <= snd xs -> 0 <= k ->
  exists a b nm' nc' od, let c := Crop (Overview (Leaf l) k od) a b ci (iv_len b, iv_len a) nm' nc' in
    (fst ys mod 2 ^ k = 0 /\ fst xs mod 2 ^ k = 0 -> crop_after_overview (Leaf l) ys xs ci k = Ok c) /\
    (~ (fst ys mod 2 ^ k = 0 /\ fst xs mod 2 ^ k = 0) -> exists x y td, is_identity (aff_translate x y) = false /\
       crop_after_overview (Leaf l) ys xs ci k = Ok (Warp c (aff_translate x y) td default_algo)).
Proof.
  intros Hw Hy Hx Hk. destruct (l_dsize l) as [w h] eqn:El.
  destruct (crop_after_overview_ok (Leaf l) ys xs ci d nm nc k w h Hw (conj Hy Hx)) as (a & b & nm' & nc' & _ & _ & _ & _ & H).
  { cbn. now rewrite El. }
  exists a, b, nm', nc', (overview_dsize k (w, h)). cbv zeta.
  assert (I : is_identity (aff_translate (snd (overview_crop_axis k xs)) (snd (overview_crop_axis k ys))) = true <->
              fst ys mod 2 ^ k = 0 /\ fst xs mod 2 ^ k = 0).
  { rewrite identity_translate, (crop_axis_whole k xs), (crop_axis_whole k ys) by lia. tauto. }
  revert H. unfold crop_after_overview, mkOverview. cbn [dsize]. rewrite El. cbn [bind].
  destruct (overview_crop_axis k xs) as [qx ox]. destruct (overview_crop_axis k ys) as [qy oy]. cbn [snd] in I.
  destruct (mkCrop _ _ ci) as [c|e] eqn:Ec; cbn [bind]; [|intros [H|(Tr & td & H & _)]; discriminate].
  assert (Nc : forall s M dd al, c <> Warp s M dd al).
  { intros s M dd al ->. apply mkCrop_shape in Ec. repeat match goal with H : exists _, _ |- _ => destruct H end. intuition discriminate. }
  destruct (is_identity (aff_translate ox oy)) eqn:Ei.
  - intros [[= ->]|(Tr & td & [= ->] & _)]; [|now destruct (Nc _ _ _ _ eq_refl)]. split; [reflexivity|]. intros X. tauto.
  - intros H. split; [intros X; apply I in X; congruence|]. intros _. unfold mkWarp_auto in *.
    destruct (dsize c) as [sz|]; [|destruct H as [H|(Tr & td & H & _)]; discriminate].
    destruct H as [H|(Tr & td & H & _)]; [discriminate|]. injection H as -> <- <-. exists ox, oy. eexists. split; [exact Ei|reflexivity].
Qed.

(** C73, exactly: overview k of a window of an image with data whose number of overviews
    is unknown can be optimized if and only if the window starts at multiples of 2^k. *)
Theorem C73_exact o l w h y0 y1 x0 x1 ci c k t :
  l_kind l = Data -> l_ov l = None -> l_dsize l = (w, h) -> made c -> 1 <= k ->
  0 <= y0 <= y1 -> y1 <= h -> 0 <= x0 <= x1 -> x1 <= w ->
  mkCrop (Leaf l) (Some ((Some y0, Some y1), (Some x0, Some x1))) ci = Ok c ->
  mkOverview c k = Ok t ->
  (y0 mod 2 ^ k = 0 /\ x0 mod 2 ^ k = 0 -> exists t', optimizes o t t' /\ names t' = names t) /\
  (~ (y0 mod 2 ^ k = 0 /\ x0 mod 2 ^ k = 0) -> optimize_raises o t TypeError).
Proof.
  intros Hdat Hov Hsz Hm Hk Hy Hy1 Hx Hx1 Hc Ht. destruct (made_ok _ Hm) as [Hw _].
  assert (Ec : exists d nm nc, c = Crop (Leaf l) (y0, y1) (x0, x1) ci d nm nc).
  { revert Hc. unfold mkCrop. cbn [dsize]. rewrite Hsz.
    assert (W : forall D a b, 0 <= a <= b -> b <= D -> wrap_clip D (Some a, Some b) = Ok (a, b)).
    { intros D a b Ha Hb. unfold wrap_clip. cbn. replace (a <? 0) with false by lia. replace (b <? 0) with false by lia.
      rewrite !Z.min_l, !Z.max_r by lia. replace (b <? a) with false by lia. reflexivity. }
    rewrite !W by lia. cbn [bind]. match goal with |- bind ?r _ = _ -> _ => destruct r as [[nm nc]|]; cbn [bind]; [|discriminate] end.
    intros [= <-]. eauto. }
  destruct Ec as (d & nm & nc & ->).
  unfold mkOverview in Ht. cbn [dsize] in Ht. injection Ht as <-.
  destruct (crop_after_overview_cases l (y0, y1) (x0, x1) ci d nm nc k Hw ltac:(cbn; lia) ltac:(cbn; lia) ltac:(lia)) as (a & b & nm' & nc' & od & H1 & H2).
  cbn [fst] in H1, H2. set (c := Crop (Overview (Leaf l) k od) a b ci (iv_len b, iv_len a) nm' nc') in *.
  assert (Hn : is_nans l = false) by (unfold is_nans; now rewrite Hdat).
  assert (Oc : forall f, GraphTotal.O o (S (S (S f))) c = Ok c) by (intros f; unfold GraphTotal.O, c; cbn; replace (k =? 0) with false by lia; reflexivity).
  assert (Oi : forall f, GraphTotal.O o (S (S f)) (Crop (Leaf l) (y0, y1) (x0, x1) ci d nm nc) = Ok (Crop (Leaf l) (y0, y1) (x0, x1) ci d nm nc)).
  { intros f. unfold GraphTotal.O. cbn. now rewrite Hn. }
  assert (St : forall f, optimize o (S (S (S f))) (Overview (Crop (Leaf l) (y0, y1) (x0, x1) ci d nm nc) k (overview_dsize k d)) =
    bind (bind (crop_after_overview (Leaf l) (y0, y1) (x0, x1) ci k) (fun n => bind (GraphTotal.O o (S (S f)) n) (push_tail (GraphTotal.O o (S (S f)))))) (fun n => Ok (n, false))).
  { intros f. change (optimize o (S (S (S f))) (Overview (Crop (Leaf l) (y0, y1) (x0, x1) ci d nm nc) k (overview_dsize k d))) with
      (bind (GraphTotal.O o (S (S f)) (Crop (Leaf l) (y0, y1) (x0, x1) ci d nm nc)) (fun s1 => bind (opt_overview (GraphTotal.O o (S (S f))) s1 k (overview_dsize k d)) (fun n => Ok (n, false)))).
    rewrite Oi. cbn [bind]. unfold opt_overview. cbn [bind]. replace (k =? 0) with false by lia. reflexivity. }
  split.
  - intros Ha. exists c. split.
    + exists 4%nat, false. rewrite St, (H1 Ha). cbn [bind]. rewrite Oc. reflexivity.
    + assert (Hcn : names c = names (Crop (Leaf l) (y0, y1) (x0, x1) ci d nm nc)).
      { destruct (l_dsize l) as [w' h'] eqn:El. destruct (crop_after_overview_ok (Leaf l) (y0, y1) (x0, x1) ci d nm nc k w' h' Hw) as (a' & b' & nm'' & nc'' & _ & _ & N & _ & H).
        - split; cbn; lia.
        - cbn. now rewrite El.
        - rewrite (H1 Ha) in H. destruct H as [H|(Tr & td & H & _)]; [|discriminate H]. rewrite <- N. exact (f_equal (fun r => match r with Ok n => names n | Err _ => None end) H). }
      exact Hcn.
  - intros Ha. destruct (H2 Ha) as (x & y & td & Hi & E). exists 6%nat. intros fuel Hf.
    do 6 (destruct fuel as [|fuel]; [lia|]). rewrite St, E. cbn [bind].
    change (GraphTotal.O o (S (S (S (S (S fuel))))) (Warp c (aff_translate x y) td default_algo)) with
      (rmap fst (bind (GraphTotal.O o (S (S (S (S fuel)))) c) (fun s1 => bind (opt_warp o (GraphTotal.O o (S (S (S (S fuel))))) s1 (aff_translate x y) td default_algo) (fun n => Ok (n, false))))).
    rewrite Oc. cbn [bind]. unfold opt_warp. cbn [c]. cbv iota beta zeta. fold c.
    change (al_eps default_algo) with 0%Q. rewrite close_translate, Hi, andb_false_r.
    unfold split_warp. cbn [num_overviews c bind]. rewrite Hov. reflexivity.
Qed.
Print Assumptions C73_exact.

(* both cases, for a window of some bands *)
Example C73_exact_case : let i := img 1 16 16 ["a"; "b"]%string None in
  exists c c' t t', made c /\ made c' /\
    mkCrop i (Some ((Some 4, Some 9), (Some 8, Some 15))) (Some [1]) = Ok c /\ mkOverview c 2 = Ok t /\
    mkCrop i (Some ((Some 4, Some 9), (Some 6, Some 15))) (Some [1]) = Ok c' /\ mkOverview c' 2 = Ok t' /\
    dsize t = Some (2, 2) /\ dsize t' = Some (3, 2) /\
    (exists n, optimizes axis_oracle t n) /\ optimize_raises axis_oracle t' TypeError.
Proof.
  intros i. set (sl := Some ((Some 4, Some 9), (Some 8, Some 15))). set (sl' := Some ((Some 4, Some 9), (Some 6, Some 15))).
  assert (Hi : made i) by (apply made_img; lia).
  assert (Hb : forall n, num_channels i = Some n -> Forall (fun j => 0 <= j < n) [1]) by (intros n [= <-]; repeat constructor; cbn; lia).
  exists (the (mkCrop i sl (Some [1]))), (the (mkCrop i sl' (Some [1]))),
    (the (mkOverview (the (mkCrop i sl (Some [1]))) 2)), (the (mkOverview (the (mkCrop i sl' (Some [1]))) 2)).
  assert (M1 : made (the (mkCrop i sl (Some [1])))) by (eapply (made_bands i sl [1]); [exact Hi|discriminate|exact Hb|reflexivity]).
  assert (M2 : made (the (mkCrop i sl' (Some [1])))) by (eapply (made_bands i sl' [1]); [exact Hi|discriminate|exact Hb|reflexivity]).
  repeat split; try exact M1; try exact M2; try reflexivity.
  - eexists. exists 10%nat, false. vm_compute. reflexivity.
  - refine (proj2 (C73_exact axis_oracle (MkLeaf 1 Data (16, 16) (Some ["a"; "b"]%string) (Some 2) None) 16 16 4 9 6 15 (Some [1])
      (the (mkCrop i sl' (Some [1]))) 2 _ eq_refl eq_refl eq_refl M2 _ _ _ _ _ eq_refl eq_refl) _); lia || (intros [_ X]; discriminate X).
Qed.
