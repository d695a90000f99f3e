(* The same with one dequantization. *)
From Verif Require Import Py PyProofs GeomModel GeomProofs GraphModel GraphSpec GraphBase GraphTake GraphOpt GraphMain GraphSound GraphSize GraphTotal OvTotal OvSizeProps OvGrowProofs.
From Coq Require Import Qround ZifyBool.
Local Open Scope Z_scope.

Inductive nfd (n : size) : node -> Prop :=
| nfd_base b q : base b n -> nfd n (Dequant b q (Some n))
| nfd_cut c z q m : cut c z -> nears n z -> nears n m -> nfd n (Dequant c q (Some m))
| nfd_warp c z q M d al : cut c z -> unit_lin M -> al_nearest al = false -> nears n d ->
    covers (fst n) (fst z) (b1 M) -> covers (snd n) (snd z) (b2 M) -> nfd n (Warp (Dequant c q (Some z)) M d al).

Lemma nears_refl n : nears n n.
Proof. unfold nears, near. lia. Qed.

Lemma nfd_size n v : nfd n v -> exists m, dsize v = Some m /\ nears n m.
Proof. intros [b q H|c z q m H H1 H2|c z q M d al H _ _ H1 _ _]; eexists; (split; [reflexivity|auto using nears_refl]). Qed.

Lemma tail_nfd f n v : nfd n v -> push_tail f v = Ok v /\ crop_tail f v = Ok v.
Proof.
  intros [b q H|c z q m H H1 H2|c z q M d al H _ _ H1 _ _].
  - destruct H; split; reflexivity.
  - destruct H as [b z ys xs ci nm nc H W]. split; reflexivity.
  - split; reflexivity.
Qed.

Section Rules.
Variable o : oracle.
Hypothesis So : sane o.

Lemma O_dq_base g b z q d r : base b z -> O o g (Dequant b q d) = Ok r -> r = Dequant b q d.
Proof.
  intros Hb. destruct g; [discriminate|]. rewrite O_dequant. intros E. apply bind_ok in E as (s1 & E1 & E).
  apply (O_base o _ _ _ _ Hb) in E1. subst s1. destruct Hb; cbn in E; congruence.
Qed.

Lemma O_dq_cut g c z q d r : cut c z -> O o g (Dequant c q d) = Ok r -> r = Dequant c q d.
Proof.
  intros Hc. destruct g; [discriminate|]. rewrite O_dequant. intros E. apply bind_ok in E as (s1 & E1 & E).
  apply (O_cut o _ _ _ _ Hc) in E1. subst s1. destruct Hc; cbn in E; congruence.
Qed.

Lemma dq_keeps f s M d al r : unit_lin M -> warp_body o f s M d al = Ok r ->
  r = s /\ noop s M d al = true \/ r = Warp s M d al.
Proof.
  intros HM. unfold warp_body. dif En; [intros [= <-]; auto|]. unfold split_warp. intros H.
  apply bind_ok in H as (sp & H1 & H2). apply bind_ok in H1 as (no & _ & H1).
  assert (U : split_levels o M = Ok None /\ absorbs o M = false) by (apply So; now apply unit_translates).
  destruct U as [U1 U2]. assert (E : sp = None).
  { destruct no as [m|]; [|congruence]. revert H1. dif Em; [congruence|]. rewrite U1. cbn. congruence. }
  subst sp. unfold absorb in H2. rewrite U2 in H2. cbn in H2. right. congruence.
Qed.

Lemma warp_nfd f n c z q M d al r : cut c z -> unit_lin M -> al_nearest al = false -> nears n d ->
  covers (fst n) (fst z) (b1 M) -> covers (snd n) (snd z) (b2 M) -> warp_body o f (Dequant c q (Some z)) M d al = Ok r -> nfd n r.
Proof.
  intros Hc HM Ha Hn H1 H2 H. destruct (dq_keeps _ _ _ _ _ _ HM H) as [[-> E]| ->].
  - rewrite (noop_size (Dequant c q (Some z)) z _ _ _ eq_refl E) in Hn. eapply nfd_cut; eassumption.
  - eapply nfd_warp; eassumption.
Qed.

Lemma opt_warp_dq f c q z M d al : opt_warp o f (Dequant c q z) M d al = warp_body o f (Dequant c q z) M d al.
Proof. reflexivity. Qed.
Lemma opt_warp_warp_dq f c q z M1 d1 al1 M d al :
  opt_warp o f (Warp (Dequant c q z) M1 d1 al1) M d al = warp_body o f (Dequant c q z) (aff_mul M M1) d (drop_backend al).
Proof. reflexivity. Qed.

(** *** Dequantizations *)

Lemma dq_nf g n v q r : nf n v -> opt_dequant (O o g) v q (Some n) = Ok r -> nfd n r.
Proof.
  intros [b Hb|c z Hc Hn|c z M d al Hc HM Ha Hn H1 H2] E.
  - destruct (tail_nfd (O o g) _ _ (nfd_base n b q Hb)) as [T _]. assert (R : r = Dequant b q (Some n)).
    { destruct Hb; cbn [opt_dequant] in E; rewrite T in E; congruence. }
    subst r. now apply nfd_base.
  - destruct (tail_nfd (O o g) _ _ (nfd_cut n c z q n Hc Hn (nears_refl n))) as [T _]. assert (R : r = Dequant c q (Some n)).
    { destruct Hc; cbn [opt_dequant] in E; rewrite T in E; congruence. }
    subst r. eapply nfd_cut; [exact Hc|exact Hn|apply nears_refl].
  - cbn [opt_dequant] in E. apply bind_ok in E as (n1 & E1 & E). unfold mkDequant in E1. rewrite (cut_size _ _ Hc) in E1.
    assert (G : nfd n n1).
    { destruct g; [discriminate|]. rewrite O_warp in E1. apply bind_ok in E1 as (s1 & E1 & E2).
      apply (O_dq_cut _ _ _ _ _ _ Hc) in E1. subst s1. rewrite opt_warp_dq in E2. eapply warp_nfd; [exact Hc| | | | | |exact E2]; assumption. }
    destruct (tail_nfd (O o g) _ _ G) as [T _]. rewrite T in E. injection E as <-. exact G.
Qed.

(* twice raises *)
Lemma dq_nfd g n v q d r : nfd n v -> opt_dequant (O o g) v q d = Ok r -> False.
Proof.
  intros [b q0 Hb|c z q0 m Hc Hn Hm|c z q0 M d0 al Hc HM Ha Hn H1 H2] E; [discriminate|discriminate|].
  cbn [opt_dequant] in E. apply bind_ok in E as (n1 & E1 & _). unfold mkDequant in E1.
  destruct g; [discriminate|]. rewrite O_warp in E1. apply bind_ok in E1 as (s1 & E1 & _).
  destruct g; [discriminate|]. rewrite O_dequant in E1. apply bind_ok in E1 as (s2 & E1 & E2).
  apply (O_dq_cut _ _ _ _ _ _ Hc) in E1. subst s2. discriminate.
Qed.

(** *** Crops *)

Lemma crop_dcut g c z q m ys xs ci nm nc r : cut c z -> window z ys xs ->
  opt_crop (O o g) (Dequant c q m) ys xs ci (lens ys xs) nm nc = Ok r -> exists c', cut c' (lens ys xs) /\ r = Dequant c' q (Some (lens ys xs)).
Proof.
  intros Hc W E. cbn [opt_crop bind] in E. apply bind_ok in E as (n1 & E1 & E).
  destruct g; [discriminate|]. rewrite O_dequant in E1. apply bind_ok in E1 as (s1 & E1 & E2).
  destruct g; [discriminate|]. rewrite O_crop in E1. apply bind_ok in E1 as (s2 & E1 & E3).
  apply (O_cut o _ _ _ _ Hc) in E1. subst s2. apply (crop_cut _ _ _ _ _ _ _ _ _ Hc W) in E3.
  exists s1. split; [exact E3|]. destruct E3. cbn in E2. injection E2 as <-. cbn in E. congruence.
Qed.

Lemma crop_dbase g b z q m ys xs ci nm nc r : base b z -> window z ys xs ->
  opt_crop (O o g) (Dequant b q m) ys xs ci (lens ys xs) nm nc = Ok r -> exists c', cut c' (lens ys xs) /\ r = Dequant c' q (Some (lens ys xs)).
Proof.
  intros Hb W E. cbn [opt_crop bind] in E. apply bind_ok in E as (n1 & E1 & E).
  destruct g; [discriminate|]. rewrite O_dequant in E1. apply bind_ok in E1 as (s1 & E1 & E2).
  destruct g; [discriminate|]. rewrite O_crop in E1. apply bind_ok in E1 as (s2 & E1 & E3).
  apply (O_base o _ _ _ _ Hb) in E1. subst s2. apply (crop_base _ _ _ _ _ _ _ _ _ _ Hb) in E3. subst s1.
  eexists. split; [apply (cut_crop b z); eassumption|]. cbn in E2. injection E2 as <-. cbn in E. symmetry. injection E as <-. reflexivity.
Qed.

Lemma crop_nfd g n v ys xs ci nm nc r : nfd n v -> window n ys xs -> opt_crop (O o g) v ys xs ci (lens ys xs) nm nc = Ok r ->
  nfd (lens ys xs) r.
Proof.
  pose proof (nears_refl (lens ys xs)) as R.
  intros [b q Hb|c z q m Hc Hn Hm|c z q M d al Hc HM Ha Hn H1 H2] W E.
  - apply (crop_dbase _ _ _ _ _ _ _ _ _ _ _ Hb W) in E as (c & Hc & ->). eapply nfd_cut; eassumption.
  - apply (crop_dcut _ _ _ _ _ _ _ _ _ _ _ Hc) in E as (c' & Hc' & ->); [eapply nfd_cut; eassumption|].
    destruct Hn as [N1 N2]. unfold near, window in *. lia.
  - cbn [opt_crop bind] in E. rewrite Ha in E. unfold warp_after_crop in E.
    pose proof W as (Y1 & Y2 & X1 & X2).
    assert (E0 : ((fst (lens ys xs) =? 0) || (snd (lens ys xs) =? 0))%bool = false) by (unfold lens, iv_len; cbn [fst snd]; lia).
    rewrite E0, (unit_axis M HM) in E. clear E0. cbn [dsize] in E. destruct z as [w h]. destruct ys as [y0 y1], xs as [x0 x1].
    cbn [fst snd] in Y1, Y2, X1, X2, H1, H2. pose proof HM as (U1 & _ & _ & U4). cbn in U1, U4.
    destruct (axis_fast _ _ _ _ x0 x1 U1 H1 X1 X2) as (p0 & p1 & px & Ex & Px & Pw & Cx).
    destruct (axis_fast _ _ _ _ y0 y1 U4 H2 Y1 Y2) as (q0 & q1 & py & Ey & Py & Ph & Cy).
    rewrite Ex, Ey in E. apply bind_ok in E as (r0 & E1 & E). apply bind_ok in E1 as (cc & E1 & E2).
    eapply mkCrop_in in E1 as (nm2 & nc2 & ->); [|reflexivity|cbn; lia..]. injection E2 as <-.
    apply bind_ok in E as (n1 & E1 & E).
    assert (G : nfd (lens (y0, y1) (x0, x1)) n1).
    { destruct g; [discriminate|]. rewrite O_warp in E1. apply bind_ok in E1 as (s1 & E1 & E2).
      destruct g; [discriminate|]. rewrite O_crop in E1. apply bind_ok in E1 as (s2 & E1 & E3).
      apply (O_dq_cut _ _ _ _ _ _ Hc) in E1. subst s2. apply (crop_dcut _ _ _ _ _ _ _ _ _ _ _ Hc) in E3; [|unfold window; cbn; lia].
      destruct E3 as (c' & Hc' & ->).
      rewrite opt_warp_dq in E2. eapply warp_nfd; [exact Hc'| | | | | |exact E2]; auto.
      unfold unit_lin, same_lin. cbn. rewrite U1, U4. repeat split; reflexivity. }
    destruct (tail_nfd (O o g) _ _ G) as [_ T]. rewrite T in E. injection E as <-. exact G.
Qed.

(** *** Overviews *)

(* aligned windows halve exactly *)
Lemma aligned_len k i : 0 <= k -> (offset k (fst i) == 0)%Q -> iv_len (zoomed k i) = - (- iv_len i / 2 ^ k).
Proof.
  intros Hk. destruct i as [a b]. unfold offset, zoomed, iv_len. cbn [fst snd]. intros H.
  assert (K0 : 0 < 2 ^ k) by (apply Z.pow_pos_nonneg; lia). set (K := 2 ^ k) in *. clearbody K.
  assert (KQ : (0 < inject_Z K)%Q) by (change 0%Q with (inject_Z 0); rewrite <- Zlt_Qlt; lia).
  assert (E : (inject_Z (a / K * K) == inject_Z a)%Q).
  { rewrite inject_Z_mult. assert (X : (inject_Z (a / K) == inject_Z a / inject_Z K)%Q) by lra. rewrite X. field. lra. }
  assert (E' : a / K * K = a) by (unfold Qeq in E; cbn in E; lia).
  replace (- (b - a)) with (- b + a / K * K) by lia. rewrite Z.div_add by lia. lia.
Qed.

Lemma zoom_dcut g c z q k r : cut c z -> 1 <= k -> opt_overview (O o g) (Dequant c q (Some z)) k (overview_dsize k z) = Ok r ->
  exists b z0 ys xs ci nm nc, c = Crop b ys xs ci (lens ys xs) nm nc /\ z = lens ys xs /\ base b z0 /\ window z0 ys xs /\
  exists c' T, cut c' (lens (zoomed k ys) (zoomed k xs)) /\ unit_lin T /\
    (b1 T == offset k (fst xs))%Q /\ (b2 T == offset k (fst ys))%Q /\
    ((r = Dequant c' q (Some (lens (zoomed k ys) (zoomed k xs))) /\ (b1 T == 0)%Q /\ (b2 T == 0)%Q) \/
     r = Warp (Dequant c' q (Some (lens (zoomed k ys) (zoomed k xs)))) T (lens (zoomed k ys) (zoomed k xs)) default_algo).
Proof.
  intros Hc Hk E. assert (K0 : k =? 0 = false) by lia. cbn [opt_overview bind] in E. rewrite K0 in E.
  apply bind_ok in E as (n1 & E1 & E). destruct g; [discriminate|]. rewrite O_dequant in E1. apply bind_ok in E1 as (s1 & E1 & E2).
  destruct g; [discriminate|]. rewrite O_overview in E1. apply bind_ok in E1 as (s2 & E1 & E3).
  apply (O_cut o _ _ _ _ Hc) in E1. subst s2. destruct Hc as [b z0 ys xs ci nm nc Hb W].
  exists b, z0, ys, xs, ci, nm, nc. split; [reflexivity|]. split; [reflexivity|]. split; [exact Hb|]. split; [exact W|].
  cbn [opt_overview bind] in E3. rewrite K0 in E3. apply bind_ok in E3 as (m0 & F0 & E3). apply bind_ok in E3 as (m1 & F1 & E3).
  destruct (zoom_cut o So _ _ _ _ _ _ _ _ _ Hb W Hk F0 F1) as (c & T & Hc' & HT & B1 & B2 & Hr).
  exists c, T. split; [exact Hc'|]. split; [exact HT|]. split; [exact B1|]. split; [exact B2|].
  assert (Es : m1 = s1).
  { assert (Ht : push_tail (O o g) m1 = Ok m1); [|congruence].
    destruct Hr as [(-> & _)| ->]; [|now destruct Hc'].
    destruct Hc' as [b' z' ys' xs' ci' nm' nc' Hb' W']. now destruct Hb'. }
  subst m1. destruct Hr as [(-> & Z1 & Z2)| ->].
  - left. split; [|split; assumption]. assert (EL : overview_dsize k (lens ys xs) = lens (zoomed k ys) (zoomed k xs)).
    { rewrite ov_ceil by lia. unfold lens at 1 2 3. cbn [fst snd]. f_equal; symmetry; apply aligned_len; [lia| |lia|].
      - now rewrite <- B1. - now rewrite <- B2. }
    rewrite EL in E2. assert (R : n1 = Dequant c q (Some (lens (zoomed k ys) (zoomed k xs)))) by (destruct Hc'; cbn in E2; congruence).
    subst n1. cbn in E. destruct Hc'. cbn in E. congruence.
  - cbn [opt_dequant] in E2. apply bind_ok in E2 as (n2 & E2 & E4). unfold mkDequant in E2. rewrite (cut_size _ _ Hc') in E2.
    assert (G : n2 = Dequant c q (Some (lens (zoomed k ys) (zoomed k xs))) /\ (b1 T == 0)%Q /\ (b2 T == 0)%Q \/
      n2 = Warp (Dequant c q (Some (lens (zoomed k ys) (zoomed k xs)))) T (lens (zoomed k ys) (zoomed k xs)) default_algo).
    { clear E4 E E3 F1. destruct g; [discriminate|]. rewrite O_warp in E2. apply bind_ok in E2 as (s1 & E1 & E2).
      apply (O_dq_cut _ _ _ _ _ _ Hc') in E1. subst s1. rewrite opt_warp_dq in E2.
      destruct (dq_keeps _ _ _ _ _ _ HT E2) as [[-> En]| ->]; [left|right; reflexivity].
      split; [reflexivity|]. now apply noop_close in En. }
    assert (P : forall f, push_tail f n2 = Ok n2) by (intros f; destruct G as [(-> & _)| ->]; [now destruct Hc'|reflexivity]).
    rewrite P in E4. injection E4 as <-. rewrite P in E. injection E as <-. exact G.
Qed.

Lemma ov_nfd g n v k r : nfd n v -> 0 <= k -> opt_overview (O o g) v k (overview_dsize k n) = Ok r -> nfd (overview_dsize k n) r.
Proof.
  intros Hv Hk E. destruct (Z.eq_dec k 0) as [->|Hk0].
  - rewrite ov_zero in *. destruct (tail_nfd (O o g) _ _ Hv) as [T _].
    assert (X : opt_overview (O o g) v 0 n = push_tail (O o g) v) by (destruct Hv; reflexivity).
    rewrite X, T in E. injection E as <-. exact Hv.
  - assert (K1 : 1 <= k) by lia. assert (K2 : 2 <= 2 ^ k) by (change 2 with (2 ^ 1) at 1; apply Z.pow_le_mono_r; lia).
    assert (K0 : k =? 0 = false) by lia.
    assert (D : forall s q m, (forall g r, O o g s = Ok r -> r = s) -> nf n s -> 
      opt_overview (O o g) (Dequant s q m) k (overview_dsize k n) = Ok r -> nfd (overview_dsize k n) r).
    { clear E. intros s q m Hs Hn E. cbn [opt_overview bind] in E. rewrite K0 in E. apply bind_ok in E as (n1 & E1 & E).
      assert (G : nfd (overview_dsize k n) n1).
      { destruct g; [discriminate|]. rewrite O_dequant in E1. apply bind_ok in E1 as (s1 & E1 & E2).
        destruct g; [discriminate|]. rewrite O_overview in E1. apply bind_ok in E1 as (s2 & E1 & E3).
        apply Hs in E1. subst s2. eapply dq_nf; [|exact E2]. eapply ov_nf; eassumption. }
      destruct (tail_nfd (O o g) _ _ G) as [T _]. rewrite T in E. injection E as <-. exact G. }
    destruct Hv as [b q Hb|c z q m Hc Hn Hm|c z q M d al Hc HM Ha Hn H1 H2].
    + apply (D b q (Some n)); [|now apply nf_base|exact E]. intros g0 r0 X. exact (O_base o _ _ _ _ Hb X).
    + apply (D c q (Some m)); [|eapply nf_cut; eassumption|exact E]. intros g0 r0 X. exact (O_cut o _ _ _ _ Hc X).
    + clear D. rewrite (ov_ceil k n Hk). cbn [opt_overview bind] in E. rewrite K0 in E. apply bind_ok in E as (n0 & E0 & E). apply bind_ok in E as (n1 & E1 & E).
      destruct z as [w h]. destruct (passed_offset (Dequant c q (Some (w, h))) M k w h n0 K1 eq_refl E0 HM) as (C & -> & HC & C1 & C2).
      assert (G : nfd (- (- fst n / 2 ^ k), - (- snd n / 2 ^ k)) n1).
      { destruct g; [discriminate|]. rewrite O_warp in E1. apply bind_ok in E1 as (s1 & E1 & E2).
        destruct g; [discriminate|]. rewrite O_overview in E1. apply bind_ok in E1 as (s2 & E1 & E3).
        apply (O_dq_cut _ _ _ _ _ _ Hc) in E1. subst s2.
        destruct (zoom_dcut _ _ _ _ _ _ Hc K1 E3) as (b & z0 & ys & xs & ci & nm & nc & _ & Ez & Hb & W & c' & T & Hc' & HT & B1 & B2 & Hr).
        rewrite Ez in *. assert (Ew : w = fst (lens ys xs)) by now rewrite <- Ez. assert (Eh : h = snd (lens ys xs)) by now rewrite <- Ez.
        subst w h. clear Ez. cbn [fst snd lens] in H1, H2.
        destruct (axis_warp (2 ^ k) (fst n) (fst xs) (snd xs) (b1 M) K2) as [Nx Cx]; [exact H1|].
        destruct (axis_warp (2 ^ k) (snd n) (fst ys) (snd ys) (b2 M) K2) as [Ny Cy]; [exact H2|].
        assert (Hns : nears (- (- fst n / 2 ^ k), - (- snd n / 2 ^ k)) (auto_dsize C (overview_dsize k (lens ys xs)))).
        { rewrite (ov_ceil k _ Hk). destruct W as (W1 & _ & W2 & _). unfold lens, iv_len. cbn [fst snd].
          pose proof (ceil_bounds (2 ^ k) (snd xs - fst xs) ltac:(lia)). pose proof (ceil_bounds (2 ^ k) (snd ys - fst ys) ltac:(lia)).
          rewrite (auto_unit C _ _ HC) by (clear -K2 W1 W2 H H0; nia). split; cbn [fst snd].
          - rewrite (Qceiling_comp _ _ (Qplus_comp _ _ (Qeq_refl _) _ _ C1)). exact Nx.
          - rewrite (Qceiling_comp _ _ (Qplus_comp _ _ (Qeq_refl _) _ _ C2)). exact Ny. }
        pose proof HC as (U1 & U2 & U3 & U4). cbn in U1, U2, U3, U4.
        destruct Hr as [(-> & Z1 & Z2)| ->].
        - rewrite opt_warp_dq in E2. eapply warp_nfd; [exact Hc'|exact HC| |exact Hns| | |exact E2]; [reflexivity| |].
          + eapply covers_eq; [|exact Cx]. rewrite C1. fold (offset k (fst xs)). rewrite <- B1, Z1. ring.
          + eapply covers_eq; [|exact Cy]. rewrite C2. fold (offset k (fst ys)). rewrite <- B2, Z2. ring.
        - rewrite opt_warp_warp_dq in E2. eapply warp_nfd; [exact Hc'| | |exact Hns| | |exact E2]; [apply unit_mul; assumption|reflexivity| |].
          + eapply covers_eq; [|exact Cx]. cbn. rewrite U1, U2, C1, B1. unfold offset. ring.
          + eapply covers_eq; [|exact Cy]. cbn. rewrite U3, U4, C2, B2. unfold offset. ring. }
      destruct (tail_nfd (O o g) _ _ G) as [Tl _]. rewrite Tl in E. injection E as <-. exact G.
Qed.

End Rules.
